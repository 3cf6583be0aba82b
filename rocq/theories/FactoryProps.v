(** C51: temporary data dimensions are always undone; adding data dimensions is all-or-nothing.  Also the factory part of C45. *)
From Verif Require Import Base Dict FactoryModel FactoryProofs.
Local Open Scope nat_scope.
Local Open Scope string_scope.

(** Whatever was done before, and whatever the code inside the override does (allocations, nested overrides, changes of the
    tables, exceptions): once the override is left, normally or not, the factory refers to the same table as before and that
    table has the same contents. *)
Theorem C51_override_undone : forall spatial before h out0 r0 f d body out h' out' raised,
  exec spatial before start [] = (h, out0, r0) ->
  exec spatial (With f d body) h out = (h', out', raised) ->
  table_ref h' f = table_ref h f /\ table h' f = table h f.
Proof. intros. eapply with_table; eauto. eapply reachable_wf; eauto. Qed.
Print Assumptions C51_override_undone.

(** a failing allocation after a nested override and a change of the table *)
Example C51_case :
  let sp := [("I", 4%Z)] in
  let before := Seq (NewFactory [("band", 16%Z)]) (Update 0 [("bin", 3%Z)]) in
  let body := Seq (Alloc 0 ["I"; "tracers"]) (Seq (With 0 [("q", 1%Z)] (Alloc 0 ["q"])) (Seq (Update 0 [("bin", 99%Z)]) (Alloc 0 ["band"]))) in
  let '(h, _, _) := exec sp before start [] in
  let '(h', out, raised) := exec sp (With 0 [("tracers", 7%Z)] body) h [] in
  raised = true /\ out = [[4%Z; 7%Z]; [1%Z]] /\ table h' 0 = [("band", 16%Z); ("bin", 3%Z)].
Proof. vm_compute. auto. Qed.

(** Inside the override the temporary dimensions are in force, and only they: an allocation has the extents of the
    override (spatial dimensions apart), and fails if a dimension is not in it. *)
Theorem C51_override_in_force : forall spatial before h out0 r0 f d dims out,
  exec spatial before start [] = (h, out0, r0) -> f < length (facs h) ->
  let '(_, out', raised) := exec spatial (With f d (Alloc f dims)) h out in
  if raised
  then out' = out /\ exists x, In x dims /\ get spatial x = None /\ get d x = None
  else exists e, (out' = out ++ [e])%list /\
         Forall2 (fun x v => get spatial x = Some v \/ (get spatial x = None /\ get d x = Some v)) dims e.
Proof.
  intros sp before h out0 r0 f d dims out E L. pose proof (reachable_wf _ _ _ _ _ E) as W.
  assert (D : dead h f = false) by (unfold dead; now apply Nat.leb_gt). cbn [exec]. rewrite D.
  fold (entered h f d). change (dead (entered h f d) f) with (dead h f). rewrite D.
  assert (T : table (entered h f d) f = d).
  { unfold table, table_ref. change (sizer_of (entered h f d) f) with (sizer_of h f). unfold entered; cbn [sizers dicts].
    rewrite nth_set_nth, Nat.eqb_refl. cbn [andb]. pose proof (live_sizer h f W D) as Ls.
    apply Nat.ltb_lt in Ls. rewrite Ls. now rewrite nth_middle. }
  rewrite T. assert (K : match lookups sp d dims with
    | Some e => Forall2 (fun x v => get sp x = Some v \/ (get sp x = None /\ get d x = Some v)) dims e
    | None => exists x, In x dims /\ get sp x = None /\ get d x = None end).
  { clear. induction dims as [|x dims IH]; cbn; [constructor|]. unfold lookup. destruct (get sp x) eqn:G.
    - destruct (lookups sp d dims); [constructor; auto|]. destruct IH as (y & I & H). exists y. cbn. auto.
    - destruct (get d x) eqn:G'.
      + destruct (lookups sp d dims); [constructor; auto|]. destruct IH as (y & I & H). exists y. cbn. auto.
      + exists x. cbn. auto. }
  destruct (lookups sp d dims) as [e|]; [exists e|]; auto.
Qed.
Print Assumptions C51_override_in_force.
Example C51_in_force_case :
  let '(h, _, _) := exec [] (NewFactory [("band", 16%Z)]) start [] in
  exec [] (With 0 [("t", 7%Z)] (Alloc 0 ["t"])) h [] = (mkHeap [[("band", 16%Z)]; [("t", 7%Z)]] [0] [0], [[7%Z]], false) /\
  snd (exec [] (With 0 [("t", 7%Z)] (Alloc 0 ["band"])) h []) = true.
Proof. vm_compute. auto. Qed.

(** add_data_dimensions raises iff one of the names is already there; then nothing changes.  Otherwise all of them are
    added, and nothing else changes. *)
Theorem C51_add_all_or_nothing : forall spatial before h out0 r0 f d out,
  exec spatial before start [] = (h, out0, r0) -> f < length (facs h) -> NoDup (keys d) ->
  let '(h', out', raised) := exec spatial (Add f d) h out in
  (raised = true <-> exists n, In n (keys d) /\ In n (keys (table h f))) /\
  (raised = true -> h' = h) /\
  (raised = false -> forall n, get (table h' f) n = match get d n with Some v => Some v | None => get (table h f) n end).
Proof.
  intros sp before h out0 r0 f d out E L N. pose proof (reachable_wf _ _ _ _ _ E) as W.
  assert (D : dead h f = false) by (unfold dead; now apply Nat.leb_gt). cbn [exec]. rewrite D. cbn [orb].
  destruct (clash h f d) eqn:C.
  - split; [|split; [reflexivity|discriminate]]. rewrite <- clash_spec. tauto.
  - split; [|split; [discriminate|]].
    + rewrite <- clash_spec, C. split; discriminate.
    + intros _ n. rewrite do_update_table by auto. now apply get_update.
Qed.
Print Assumptions C51_add_all_or_nothing.
Example C51_add_case :
  let '(h, _, _) := exec [] (NewFactory [("band", 16%Z)]) start [] in
  (let '(h', _, r) := exec [] (Add 0 [("bin", 3%Z); ("band", 4%Z)]) h [] in r = true /\ table h' 0 = [("band", 16%Z)]) /\
  (let '(h', _, r) := exec [] (Add 0 [("bin", 3%Z); ("mode", 4%Z)]) h [] in
   r = false /\ table h' 0 = [("band", 16%Z); ("bin", 3%Z); ("mode", 4%Z)]).
Proof. vm_compute. auto. Qed.

(** Finding (factory part of C45): extend_3D_quantity_factory is meant to create a new factory from a 3D one.  It changes the
    table of the factory it is given: copy.copy shares the sizer.  In every reachable state a successful extension adds the
    dimensions to the original factory too. *)
Theorem C45_extend_original_refuted :
  (exists h f d, table (fst (fst (exec [] (Extend f d) h []))) f <> table h f) /\
  forall spatial before h out0 r0 f d out h' out', exec spatial before start [] = (h, out0, r0) ->
    exec spatial (Extend f d) h out = (h', out', false) -> table h' f = update (table h f) d.
Proof.
  split.
  - exists (mkHeap [[]] [0] [0]), 0, [("tracers", 7%Z)]. vm_compute. discriminate.
  - intros sp before h out0 r0 f d out h' out' E X. pose proof (reachable_wf _ _ _ _ _ E) as W. cbn [exec] in X.
    destruct (dead h f) eqn:D; [discriminate|]. destruct (clash _ _ _); [discriminate|]. injection X as <- <-.
    set (h1 := mkHeap (dicts h) (sizers h) (facs h ++ [sizer_of h f])).
    assert (Lf : f < length (facs h)) by (unfold dead in D; now apply Nat.leb_gt in D).
    assert (S1 : sizer_of h1 (length (facs h)) = sizer_of h f).
    { unfold sizer_of, h1; cbn [facs]. now rewrite nth_middle. }
    assert (S2 : sizer_of h1 f = sizer_of h f).
    { unfold sizer_of, h1; cbn [facs]. now rewrite app_nth1. }
    assert (R1 : table_ref h1 (length (facs h)) = table_ref h f) by (unfold table_ref; now rewrite S1).
    assert (R2 : table_ref h1 f = table_ref h f) by (unfold table_ref; now rewrite S2).
    unfold table at 1. change (table_ref (do_update h1 (length (facs h)) d) f) with (table_ref h1 f). rewrite R2.
    unfold do_update; cbn [dicts]. rewrite R1. rewrite nth_set_nth, Nat.eqb_refl. cbn [andb].
    unfold table at 1. rewrite R1. change (dicts h1) with (dicts h).
    replace (Nat.ltb _ _) with true; [reflexivity|]. symmetry. apply Nat.ltb_lt. apply W. now apply live_table.
Qed.
Print Assumptions C45_extend_original_refuted.
(** so extending the same 3D factory twice with the same dimensions fails *)
Example C45_extend_twice :
  let '(_, _, r) := exec [] (Seq (NewFactory []) (Seq (Extend 0 [("tracers", 7%Z)]) (Extend 0 [("tracers", 7%Z)]))) start [] in r = true.
Proof. reflexivity. Qed.
