(** C99: a state saved to a file and loaded again. *)
From Coq Require Import DecimalString DecimalNat.
From Verif Require Import Base Dict StateModel StateProofs StateProps SaveModel SaveProofs.
Local Open Scope string_scope.

Section C99.
  Context {Q A : Type} (field : Q -> A) (agree : list (string * A) -> bool) (agree_below : list (string * A) -> list (string * A) -> bool).
  Context (copy : Q -> A -> option Q).
  Notation to_xarray := (to_xarray field agree agree_below).

  (** *** loading: every quantity that was there when the state was saved has its values copied from the file; the others, None
      when it was saved, are as they were before loading *)
  Theorem C99_values_partial : forall fs (v v0 v' : val Q) t, named fs ->
    to_xarray fs v = Some t -> update_from_netcdf copy fs v0 t = (v', false) ->
    forall p, In p (leaves fs) ->
      (exists q q0 q', at_path v p = Some (VQ q) /\ at_path v0 p = Some (VQ q0) /\ copy q0 (field q) = Some q' /\ at_path v' p = Some (VQ q')) \/
      (at_path v p = Some VNone /\ (leaf (at_path v0 p) -> at_path v' p = at_path v0 p)).
  Proof.
    intros fs v v0 v' t N E U p I. destruct (tree_get field agree agree_below fs v t N E) as (D & _).
    destruct (C52_copy_partial Q A fs copy v0 v' (load t) false D U) as (U1 & _ & U3).
    destruct (tree_leaf field agree agree_below fs v t p N E I) as [[P C]|(q & P & G)].
    - right. split; [exact P|]. intros L. apply U1; auto. destruct (leaves_inv fs p N I) as [(n & o & -> & _)|(n & gs & p' & -> & _)]; discriminate.
    - left. destruct (U3 p (field q) G) as [(q0 & q' & H1 & H2 & H3)|[H _]]; [|discriminate]. exists q, q0, q'. auto.
  Qed.

  (** *** saving succeeds for states of quantities and of states of quantities *)
  Lemma top_arrays (l : list (string * saved A)) : exists r, arrays (top_level l) = Some r.
  Proof.
    induction l as [|[n [a|s]] l (r & IH)]; [exists []; reflexivity| |exists r; exact IH]. exists ((n, a) :: r). unfold top_level. cbn [filter snd arrays].
    fold (top_level l). rewrite IH. reflexivity.
  Qed.
  Lemma save_flat gs (w : val Q) : flat gs -> typed gs w -> exists l s, save field agree gs w = Some l /\ arrays l = Some s.
  Proof.
    induction gs as [|n t gs IH]; [exists [], []; auto|]. destruct t as [o|hs]; [|intros []]. intros F [(x & G & X) T].
    destruct (IH F T) as (l & s & S1 & S2). cbn [save]. rewrite G. destruct X as [->|(q & ->)]; [eauto|]. rewrite S1. cbn [bind].
    exists ((n, SArr (field q)) :: l), ((n, field q) :: s). split; [reflexivity|]. cbn. rewrite S2. reflexivity.
  Qed.
  Theorem C99_saves_partial : forall fs (v : val Q), (forall l, agree l = true) -> (forall l m, agree_below l m = true) ->
    two_levels fs -> typed fs v -> exists t, to_xarray fs v = Some t.
  Proof.
    intros fs v Ag Ab W T. assert (X : exists l, save field agree fs v = Some l).
    { induction fs as [|n t fs IH]; [exists []; reflexivity|]. destruct T as [(x & G & X) T]. destruct t as [o|gs].
      - destruct (IH W T) as (l & El). cbn [save]. rewrite G. destruct X as [->|(q & ->)]; [eauto|]. rewrite El. eexists. reflexivity.
      - destruct W as [W1 W2]. destruct (IH W2 T) as (l & El). destruct X as [_ X]. destruct (save_flat gs x W1 X) as (l' & s & S1 & S2).
        cbn [save]. rewrite G. cbn [bind]. rewrite S1. cbn [bind]. unfold dataset. rewrite S2. cbn [bind]. rewrite Ag. cbn [bind]. rewrite El. eexists. reflexivity. }
    destruct X as (l & El). unfold SaveModel.to_xarray. rewrite El. cbn [bind]. destruct (top_arrays l) as (r & Er). unfold dataset. rewrite Er. cbn [bind].
    rewrite Ag. cbn [bind]. replace (forallb _ _) with true; [eexists; reflexivity|]. symmetry. apply forallb_forall. intros g _. apply Ab.
  Qed.

  (** *** loading succeeds into a state of the class that has a quantity with room for every array *)
  Lemma tree_parts fs (v : val Q) t : named fs -> to_xarray fs v = Some t ->
    NoDup (keys (root t)) /\ NoDup (keys (groups t)) /\
    (forall n a, get (root t) n = Some a -> exists o q, field_of fs n = Some (TQuantity o) /\ getattr v n = Some (VQ q) /\ a = field q) /\
    (forall n s, get (groups t) n = Some s -> get (root t) n = None /\ NoDup (keys s) /\ exists gs w l, field_of fs n = Some (TState gs) /\ getattr v n = Some w /\
       save field agree gs w = Some l /\ arrays l = Some s).
  Proof.
    intros N E. unfold SaveModel.to_xarray in E. destruct (save field agree fs v) as [l|] eqn:El; [|discriminate]. cbn [bind] in E.
    destruct (dataset agree (top_level l)) as [r|] eqn:Er; [|discriminate]. cbn [bind] in E. destruct (forallb _ _); [|discriminate]. injection E as <-.
    apply dataset_arrays in Er. pose proof (save_nodup _ _ fs v l N El) as D. cbn [root groups].
    assert (R : forall n, get r n = match get l n with Some (SArr a) => Some a | _ => None end).
    { intros n. pose proof (arrays_get _ _ n Er) as G. rewrite top_get in G by exact D. destruct (get l n) as [[a|s]|]; auto. }
    split; [rewrite (arrays_keys _ _ Er); apply top_nodup, D|]. split; [apply sub_nodup, D|]. split.
    - intros n a G. rewrite R in G. pose proof (save_get _ _ fs v l n N El) as S. destruct (get l n) as [[x|s]|]; try discriminate. injection G as ->.
      destruct (field_of fs n) as [[o|gs]|] eqn:F; cbn in S.
      + destruct S as [[_ S]|(q & S1 & [= ->])]; [discriminate|]. exists o, q. auto.
      + destruct S as (? & ? & ? & _ & _ & _ & S). discriminate.
      + discriminate.
    - intros n s G. rewrite sub_get in G by exact D. rewrite R. pose proof (save_get _ _ fs v l n N El) as S. destruct (get l n) as [[x|s']|]; try discriminate.
      injection G as ->. split; [reflexivity|]. destruct (field_of fs n) as [[o|gs]|] eqn:F; cbn in S.
      + destruct S as [[_ S]|(q & _ & S)]; discriminate.
      + destruct S as (w & l' & s1 & S0 & S1 & S2 & [= ->]). apply dataset_arrays in S2. split.
        * rewrite (arrays_keys _ _ S2). eapply save_nodup; [|exact S1]. eapply named_field; eauto.
        * exists gs, w, l'. auto.
      + discriminate.
  Qed.

  Lemma typed_state fs (v : val Q) n gs : typed fs v -> field_of fs n = Some (TState gs) -> exists f, getattr v n = Some (VNode f) /\ typed gs (VNode f).
  Proof.
    induction fs as [|m t fs IH]; [discriminate|]. intros [(w & G & X) T]. cbn. destruct (String.eqb_spec n m) as [->|]; [|auto].
    intros [= ->]. destruct X as [(f & ->) X]. eauto.
  Qed.
  Lemma leaf_top fs n o : field_of fs n = Some (TQuantity o) -> In [n] (leaves fs).
  Proof.
    induction fs as [|m t fs IH]; [discriminate|]. cbn. destruct (String.eqb_spec n m) as [->|].
    - intros [= ->]. now left.
    - intros F. destruct t as [o'|gs]; [right; auto|]. apply in_or_app. right. auto.
  Qed.
  Lemma leaf_below fs n gs p : field_of fs n = Some (TState gs) -> In p (leaves gs) -> In (n :: p) (leaves fs).
  Proof.
    induction fs as [|m t fs IH]; [discriminate|]. cbn. destruct (String.eqb_spec n m) as [->|].
    - intros [= ->] I. apply in_or_app. left. now apply in_map.
    - intros F I. destruct t as [o'|hs]; [right; auto|]. apply in_or_app. right. auto.
  Qed.
  Theorem C99_loads_partial : forall fs (v v0 : val Q) t, named fs -> to_xarray fs v = Some t ->
    (exists f, v0 = VNode f) -> typed fs v0 ->
    (forall p q, In p (leaves fs) -> at_path v p = Some (VQ q) -> exists q0 q', at_path v0 p = Some (VQ q0) /\ copy q0 (field q) = Some q') ->
    snd (update_from_netcdf copy fs v0 t) = false.
  Proof.
    intros fs v v0 t N E [f0 ->] T P. destruct (tree_parts fs v t N E) as (N1 & N2 & R & G).
    unfold update_from_netcdf, update_copy_memory, load.
    destruct (arrays_run (fun n => match get (optional_quantities fs) n with Some o => o | None => false end) copy (root t) (load_groups (groups t)) (VNode f0) N1)
      as (f1 & -> & K); [eauto| |].
    - intros n a Ga. destruct (R n a Ga) as (o & q & F & Gq & ->). destruct (P [n] q) as (q0 & q' & H1 & H2); [eapply leaf_top; eauto|cbn; now rewrite Gq|].
      exists q0, q'. split; [|exact H2]. cbn in H1 |- *. destruct (f0 n); [exact H1|discriminate].
    - apply groups_run; [exact N2|eauto|]. intros n s Gs. destruct (G n s Gs) as (G0 & G1 & gs & w & l & F & Gw & S1 & S2). split; [exact G1|].
      destruct (typed_state fs _ n gs T F) as (w0 & Hw & _). exists w0. split; [cbn [getattr]; rewrite (K n G0); exact Hw|].
      intros m a Ga. pose proof (arrays_get _ _ m S2) as Am. pose proof (save_get _ _ gs w l m (named_field _ _ _ N F) S1) as Sm.
      destruct (field_of gs m) as [[o|hs]|] eqn:Fm; cbn in Sm.
      + destruct Sm as [[_ Sm]|(q & Sm1 & Sm2)]; [rewrite Sm in Am; congruence|]. rewrite Sm2 in Am. rewrite Ga in Am. injection Am as ->.
        destruct (P [n; m] q) as (q0 & q' & H1 & H2).
        { eapply leaf_below; [exact F|]. eapply leaf_top; eauto. }
        { cbn. rewrite Gw. cbn. now rewrite Sm1. }
        exists q0, q'. split; [|exact H2]. cbn in H1, Hw |- *. rewrite Hw in H1. cbn in H1. destruct (w0 m); [exact H1|discriminate].
      + destruct Sm as (? & ? & ? & _ & _ & _ & Sm). now rewrite Sm in Am.
      + rewrite Sm in Am. congruence.
  Qed.
End C99.

(** *** every rank has a file of its own *)
Lemma append_inj_l (a b c : string) : a ++ b = a ++ c -> b = c.
Proof. induction a as [|x a IH]; [auto|]. cbn. intros [= H]. auto. Qed.
Lemma append_length (a b : string) : String.length (a ++ b) = (String.length a + String.length b)%nat.
Proof. induction a as [|x a IH]; [reflexivity|]. cbn. now rewrite IH. Qed.
Lemma append_inj_r (a b c : string) : a ++ c = b ++ c -> a = b.
Proof.
  revert b. induction a as [|x a IH]; intros [|y b] H; [reflexivity| | |].
  - apply (f_equal String.length) in H. cbn in H. rewrite append_length in H. lia.
  - apply (f_equal String.length) in H. cbn in H. rewrite append_length in H. lia.
  - cbn in H. injection H as -> H. f_equal. auto.
Qed.
Lemma append_assoc (a b c : string) : (a ++ b) ++ c = a ++ b ++ c.
Proof. induction a as [|x a IH]; [reflexivity|]. cbn. now rewrite IH. Qed.
Lemma decimal_inj m n : decimal m = decimal n -> m = n.
Proof.
  intros E. unfold decimal in E. apply Unsigned.to_uint_inj.
  assert (X : forall u, NilEmpty.uint_of_string (NilEmpty.string_of_uint u) = Some u) by apply NilEmpty.usu.
  pose proof (X (Nat.to_uint m)) as Hm. rewrite E, X in Hm. congruence.
Qed.
Theorem C99_ranks_partial : forall cls size postfix r r', (1 < size)%nat -> r <> r' -> netcdf_name cls size r postfix <> netcdf_name cls size r' postfix.
Proof.
  intros cls size postfix r r' L N E. unfold netcdf_name in E. destruct (Nat.ltb_spec 1 size); [|lia].
  apply append_inj_l in E. rewrite !append_assoc in E. apply append_inj_l in E. apply append_inj_r in E. apply decimal_inj in E. contradiction.
Qed.

(** *** findings *)
Definition C99_fields : fields :=
  FCons "u" (TQuantity false) (FCons "micro" (TState (FCons "ice" (TQuantity true) (FCons "rain" (TQuantity false) FNil))) FNil).
Definition C99_state (u ice rain : val Z) : val Z :=
  VNode (fun n => if n =? "u" then Some u else
                  if n =? "micro" then Some (VNode (fun k => if k =? "ice" then Some ice else if k =? "rain" then Some rain else None)) else None).
Definition C99_copy (q a : Z) : option Z := Some a.
Example C99_case : let v := C99_state (VQ 1%Z) (VQ 2%Z) (VQ 3%Z) in let v0 := C99_state (VQ 10%Z) (VQ 20%Z) (VQ 30%Z) in
  named C99_fields /\ two_levels C99_fields /\ typed C99_fields v /\ typed C99_fields v0 /\
  leaves C99_fields = [["u"]; ["micro"; "ice"]; ["micro"; "rain"]] /\
  exists t v', to_xarray (fun q => q) (fun _ => true) (fun _ _ => true) C99_fields v = Some t /\
    update_from_netcdf C99_copy C99_fields v0 t = (v', false) /\
    map (at_path v') (leaves C99_fields) = map (at_path v) (leaves C99_fields).
Proof.
  cbv zeta. split; [cbn; intuition discriminate|]. split; [cbn; tauto|]. split; [|split].
  1,2: cbn; repeat split; eexists; repeat split; eauto; eexists; repeat split; eauto.
  split; [reflexivity|]. do 2 eexists. split; [cbn; reflexivity|]. split; [cbn; reflexivity|]. vm_compute. reflexivity.
Qed.
(** an optional quantity that was None when the state was saved is not None after loading *)
Theorem C99_none_refuted : exists (v v0 v' : val Z) t, typed C99_fields v /\ typed C99_fields v0 /\
  to_xarray (fun q => q) (fun _ => true) (fun _ _ => true) C99_fields v = Some t /\
  update_from_netcdf C99_copy C99_fields v0 t = (v', false) /\
  at_path v ["micro"; "ice"] = Some VNone /\ at_path v' ["micro"; "ice"] = Some (VQ 20%Z).
Proof.
  exists (C99_state (VQ 1%Z) VNone (VQ 3%Z)), (C99_state (VQ 10%Z) (VQ 20%Z) (VQ 30%Z)). do 2 eexists. split; [|split].
  1,2: cbn; repeat split; eexists; repeat split; eauto; eexists; repeat split; eauto.
  split; [cbn; reflexivity|]. split; [cbn; reflexivity|]. vm_compute. auto.
Qed.
(** and one that is None in the state loaded into makes loading fail, half way *)
Theorem C99_none_target_refuted : exists (v v0 v' : val Z) t, typed C99_fields v /\ typed C99_fields v0 /\
  to_xarray (fun q => q) (fun _ => true) (fun _ _ => true) C99_fields v = Some t /\
  update_from_netcdf C99_copy C99_fields v0 t = (v', true) /\
  at_path v' ["u"] = Some (VQ 1%Z) /\ at_path v' ["micro"; "rain"] = Some (VQ 30%Z).
Proof.
  exists (C99_state (VQ 1%Z) (VQ 2%Z) (VQ 3%Z)), (C99_state (VQ 10%Z) VNone (VQ 30%Z)). do 2 eexists. split; [|split].
  1,2: cbn; repeat split; eexists; repeat split; eauto; eexists; repeat split; eauto.
  split; [cbn; reflexivity|]. split; [cbn; reflexivity|]. vm_compute. auto.
Qed.
(** a state with a state within a state cannot be saved, whatever its quantities *)
Theorem C99_nested_refuted : exists fs (v : val Z), named fs /\ typed fs v /\
  forall (A : Type) (field : Z -> A) agree agree_below, to_xarray field agree agree_below fs v = None.
Proof.
  exists (FCons "dyn" (TState (FCons "wind" (TState (FCons "u" (TQuantity false) FNil)) FNil)) FNil).
  exists (VNode (fun n => if n =? "dyn" then Some (VNode (fun k => if k =? "wind" then
    Some (VNode (fun j => if j =? "u" then Some (VQ 1%Z) else None)) else None)) else None)).
  split; [cbn; tauto|]. split.
  - cbn. repeat split. eexists. repeat split; eauto. eexists. repeat split; eauto. eexists. repeat split; eauto.
  - intros A field agree agree_below. unfold to_xarray. cbn. destruct (agree _); reflexivity.
Qed.
(** with another postfix, the file of another rank is overwritten *)
Theorem C99_postfix_refuted : exists cls size r r' postfix postfix', (r < size)%nat /\ (r' < size)%nat /\ r <> r' /\
  netcdf_name cls size r postfix = netcdf_name cls size r' postfix'.
Proof. exists "Dyn", 12%nat, 1%nat, 11%nat, "1", "". repeat split; lia. Qed.

Print Assumptions C99_values_partial.
Print Assumptions C99_saves_partial.
Print Assumptions C99_loads_partial.
Print Assumptions C99_ranks_partial.
Print Assumptions C99_none_refuted.
Print Assumptions C99_none_target_refuted.
Print Assumptions C99_nested_refuted.
Print Assumptions C99_postfix_refuted.
