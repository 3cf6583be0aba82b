(** C111: the verdict of a translate test.

    English: A translate test passes exactly when it compared every variable the test declares as output with the reference of that rank and call, and
    each agreed under the thresholds that the overrides file gives for this test, backend and platform (the thresholds of the test where it gives none).
    The thresholds are the same at every call, and the processes get a communicator of as many ranks. *)
From Verif Require Import Base Dict VerdModel VerdProofs.
Local Open Scope nat_scope.

Section Props.
Context {T A : Type} (gt : T -> T -> bool) (g_err g_zero : T) (known : string -> bool).
Context (legacy : T -> option (near T) -> T -> A -> A -> option bool) (modal : T -> T -> T -> option A -> A -> A -> option bool).

(** specification: the comparison of one variable under given thresholds *)
Definition agree (multimodal : bool) (o : obj T) (x : string) (input : option A) (ref val : A) : Prop :=
  if multimodal then modal (mmr_abs o) (mmr_rel o) (mmr_ulp o) input ref val = Some true else legacy (max_error o) (get (ignore o) x) (near_zero o) ref val = Some true.
(** every variable is compared with its reference, there is at least one, and all agree *)
Definition all_agree (multimodal : bool) (o : obj T) (input output refs : dict A) (subset : string -> A -> A) (vars : list string) : Prop :=
  vars <> [] /\ forall x, In x vars -> exists ref val, get refs x = Some ref /\ get output x = Some val /\ agree multimodal o x (get input x) (subset x ref) val.
(** [i] holds the declared inputs, each as in [d] *)
Definition inputs_of (d : dict A) (names : list string) (i : dict A) : Prop := keys i = names /\ forall x a, In (x, a) i -> get d x = Some a.

(** missing: a test that the overrides skip (skip_test) is reported as passed, see C111_skipped_refuted *)
Theorem C111_sequential_partial multimodal o rank fs inputs outputs subset compute : skip_test o = false ->
  test_sequential legacy modal multimodal (Some o) rank fs inputs outputs subset compute = Passed
  <-> rank < n_ranks fs /\ exists d i out refs, data_in fs = Some d /\ inputs_of d inputs i /\ compute i = Some out /\ data_out fs = Some refs
      /\ all_agree multimodal o i out refs subset outputs.
Proof.
  intros Sk. unfold test_sequential. rewrite Sk. destruct (Nat.ltb_spec rank (n_ranks fs)) as [L|L]; cbn [negb]; [|split; [discriminate|lia]].
  split.
  - destruct (data_in fs) as [d|]; cbn [bind]; [|discriminate]. destruct (select d inputs) as [i|] eqn:I; cbn [bind]; [|discriminate].
    destruct (compute i) as [out|] eqn:C; cbn [bind]; [|discriminate]. destruct (data_out fs) as [refs|]; cbn [bind]; [|discriminate].
    intros H. split; [exact L|]. exists d, i, out, refs. apply select_spec in I. destruct I as [K F]. rewrite Forall_forall in F.
    split; [reflexivity|]. split; [split; [exact K|intros x a In'; exact (F (x, a) In')]|]. split; [exact C|]. split; [reflexivity|].
    apply variables_passed in H. destruct H as [[H|H] G]; [congruence|]. split; [exact H|exact G].
  - intros [_ (d & i & out & refs & Hd & [K F] & C & R & N & G)]. rewrite Hd. cbn [bind].
    assert (I : select d inputs = Some i). { apply select_spec. split; [exact K|]. apply Forall_forall. intros [x a] In'. now apply F. }
    rewrite I. cbn [bind]. rewrite C. cbn [bind]. rewrite R. cbn [bind]. apply variables_passed. split; [right; exact N|exact G].
Qed.
Theorem C111_parallel_partial multimodal compute_grid option_ o rank fs outputs subset compute : skip_test o = false ->
  test_parallel legacy modal multimodal compute_grid option_ (Some o) rank fs outputs subset compute = Passed
  <-> (compute_grid = true -> option_ = true) /\ rank < n_ranks fs /\ exists d out refs, data_in fs = Some d /\ compute d = Some out /\ data_out fs = Some refs
      /\ all_agree multimodal o d out refs subset outputs.
Proof.
  intros Sk. unfold test_parallel. rewrite Sk.
  destruct (compute_grid && negb option_) eqn:X.
  - apply andb_true_iff in X. destruct X as [-> X]. destruct option_; [discriminate|]. split; [discriminate|]. intros [H _]. now specialize (H eq_refl).
  - assert (Y : compute_grid = true -> option_ = true) by (destruct compute_grid, option_; auto). clear X.
    destruct (Nat.ltb_spec rank (n_ranks fs)) as [L|L]; cbn [negb]; [|split; [discriminate|lia]]. split.
    + destruct (data_in fs) as [d|]; cbn [bind]; [|discriminate]. destruct (compute d) as [out|] eqn:C; cbn [bind]; [|discriminate].
      destruct (data_out fs) as [refs|]; cbn [bind]; [|discriminate]. intros H. split; [exact Y|]. split; [exact L|]. exists d, out, refs.
      repeat (split; [assumption || reflexivity|]). apply variables_passed in H. destruct H as [[H|H] G]; [congruence|]. split; [exact H|exact G].
    + intros [_ [_ (d & out & refs & Hd & C & R & N & G)]]. rewrite Hd. cbn [bind]. rewrite C. cbn [bind]. rewrite R. cbn [bind].
      apply variables_passed. split; [right; exact N|exact G].
Qed.
(** data of a rank that is not in the files are never compared: the test is skipped, not passed *)
Theorem C111_absent_rank o multimodal rank fs inputs outputs subset compute : skip_test o = false -> n_ranks fs <= rank ->
  test_sequential legacy modal multimodal (Some o) rank fs inputs outputs subset compute = Skipped.
Proof. intros Sk L. unfold test_sequential. rewrite Sk. destruct (Nat.ltb_spec rank (n_ranks fs)); [lia|reflexivity]. Qed.

(** specification of the thresholds *)
Definition applying (backend platform : string) (s : spec T) : Prop :=
  (forall n, s_backend s = Some n -> n = backend) /\ (forall p, s_platform s = Some p -> p = platform).
Definition names_known (l : list (spec T)) : Prop := forall s n, In s l -> s_backend s = Some n -> known n = true.
(** on a GPU the own threshold of the test is at least [g] *)
Definition own (gpu : bool) (g m r : T) : Prop := (r = m /\ (gpu = true -> gt g m = false)) \/ (r = g /\ gpu = true /\ gt g m = true).
Definition chosen {X} (given : option X) (own : X -> Prop) (r : X) : Prop := (forall v, given = Some v -> r = v) /\ (given = None -> own r).
(** near zero: what the entry says of variable [x]; [old] = what the test itself says *)
Definition tolerance (s : spec T) (outs : list string) (old : option (near T)) (x : string) (r : option (near T)) : Prop :=
  match s_ignore s with
  | None => r = old
  | Some (Fields l) => (In x l -> r = Some Ignore) /\ (~ In x l -> r = old)
  | Some (Values v) =>
      (forall n, In (x, n) v -> r = Some (Near n))
      /\ (~ In x (keys v) -> (forall n, s_all_other s = Some n -> In x outs -> old = None -> r = Some (Near n))
                             /\ (s_all_other s = None \/ ~ In x outs \/ old <> None -> r = old))
  | Some Other => False
  end.
Definition well_formed (s : spec T) : Prop := s_ignore s <> Some Other /\ forall v, s_ignore s = Some (Values v) -> NoDup (keys v).

Lemma own_raised gpu g m : own gpu g m (if gpu then pymax gt m g else m).
Proof. unfold own, pymax. destruct gpu; [|left; split; [reflexivity|discriminate]]. destruct (gt g m) eqn:E; [right|left]; auto. Qed.

(** exactly one entry applies: its thresholds, and the own thresholds of the test for what it leaves out.
    missing: objects without out_vars (C111_parallel_global_refuted), names that differ from serialized names (C111_global_refuted) *)
Theorem C111_thresholds_partial gpu overrides outs name backend platform o l1 s l2 :
  get overrides name = Some (l1 ++ s :: l2) -> names_known (l1 ++ s :: l2) -> applying backend platform s ->
  (forall t, In t (l1 ++ l2) -> ~ applying backend platform t) -> well_formed s ->
  exists o', prepare gt g_err g_zero known gpu (Some overrides) (Some outs) name backend platform o = Some o'
    /\ chosen (s_max_error s) (own gpu g_err (max_error o)) (max_error o') /\ chosen (s_near_zero s) (own gpu g_zero (near_zero o)) (near_zero o')
    /\ chosen (s_abs s) (fun r => r = mmr_abs o) (mmr_abs o') /\ chosen (s_rel s) (fun r => r = mmr_rel o) (mmr_rel o') /\ chosen (s_ulp s) (fun r => r = mmr_ulp o) (mmr_ulp o')
    /\ chosen (s_skip s) (fun r => r = skip_test o) (skip_test o')
    /\ forall x, tolerance s outs (get (ignore o) x) x (get (ignore o') x).
Proof.
  intros G V H N [W ND]. unfold prepare. fold (raised gt g_err g_zero gpu o). unfold process_override. rewrite G.
  rewrite matches_one; [|apply Forall_forall; intros t I; unfold valid; intros n E; exact (V t n I E)|exact H|apply Forall_forall; exact N]. cbn [bind].
  unfold apply_spec. assert (RI : ignore (raised gt g_err g_zero gpu o) = ignore o) by (destruct gpu; reflexivity). rewrite RI.
  assert (X : exists i, set_ignore (Some outs) s (ignore o) = Some i /\ forall x, tolerance s outs (get (ignore o) x) x (get i x)).
  { unfold set_ignore, tolerance. destruct (s_ignore s) as [[l|v|]|].
    - eexists. split; [reflexivity|]. intros x. split; intros I; [now apply get_update_const|]. apply get_update_not. unfold keys. rewrite map_map. cbn [fst]. now rewrite map_id.
    - specialize (ND v eq_refl). fold (put_all v (ignore o)). destruct (s_all_other s) as [n|]; cbn [bind].
      + eexists. split; [reflexivity|]. intros x. fold (fill outs n (put_all v (ignore o))). rewrite get_fill. split.
        * intros m I. now rewrite (get_values v _ x m).
        * intros I. rewrite get_values_not by assumption. split.
          -- intros m [= <-] J O. rewrite O. destruct in_dec; [reflexivity|tauto].
          -- intros [E|[E|E]]; [discriminate| |]; destruct (get (ignore o) x); try reflexivity; [|congruence]. destruct in_dec; [tauto|reflexivity].
      + eexists. split; [reflexivity|]. intros x. split; [intros m I; now apply get_values|]. intros I. split; [discriminate|]. intros _. now apply get_values_not.
    - congruence.
    - eexists. split; [reflexivity|reflexivity]. }
  destruct X as [i [-> X]]. cbn [bind]. eexists. split; [reflexivity|]. cbn [max_error near_zero ignore mmr_abs mmr_rel mmr_ulp skip_test].
  assert (P1 := own_raised gpu g_err (max_error o)). assert (P2 := own_raised gpu g_zero (near_zero o)).
  unfold chosen, given. repeat split; try exact X;
    try (intros v E; rewrite E; reflexivity); intros E; rewrite E; destruct gpu; cbn; try reflexivity; assumption.
Qed.
(** no entry applies: the own thresholds of the test *)
Theorem C111_no_entry gpu overrides outs name backend platform o :
  (forall d l, overrides = Some d -> get d name = Some l -> names_known l /\ forall s, In s l -> ~ applying backend platform s) ->
  exists o', prepare gt g_err g_zero known gpu overrides outs name backend platform o = Some o'
    /\ own gpu g_err (max_error o) (max_error o') /\ own gpu g_zero (near_zero o) (near_zero o') /\ ignore o' = ignore o
    /\ mmr_abs o' = mmr_abs o /\ mmr_rel o' = mmr_rel o /\ mmr_ulp o' = mmr_ulp o /\ skip_test o' = skip_test o.
Proof.
  intros H. exists (raised gt g_err g_zero gpu o). split.
  - unfold prepare. fold (raised gt g_err g_zero gpu o). destruct overrides as [d|]; [|reflexivity]. unfold process_override. destruct (get d name) as [l|] eqn:E; [|reflexivity].
    destruct (H d l eq_refl E) as [V N]. rewrite matches_none; [reflexivity| |].
    + apply Forall_forall. intros t I n En. exact (V t n I En).
    + apply Forall_forall. exact N.
  - assert (P1 := own_raised gpu g_err (max_error o)). assert (P2 := own_raised gpu g_zero (near_zero o)). destruct gpu; repeat split; assumption.
Qed.
(** several entries apply: no verdict is given *)
Theorem C111_several_entries gpu overrides outs name backend platform o l1 s l2 t l3 : get overrides name = Some (l1 ++ s :: l2 ++ t :: l3) ->
  names_known (l1 ++ s :: l2 ++ t :: l3) -> applying backend platform s -> applying backend platform t ->
  prepare gt g_err g_zero known gpu (Some overrides) outs name backend platform o = None.
Proof.
  intros G V H K. unfold prepare. unfold process_override. rewrite G.
  destruct (matches_two known backend platform l1 s l2 t l3) as (a & b & r & E); [apply Forall_forall; intros u I n En; exact (V u n I En)|exact H|exact K|].
  rewrite E. reflexivity.
Qed.

(** the object is shared by the calls of a savepoint (conftest.py 316-341): [calls n] = the thresholds used at call n, from 0 *)
Fixpoint calls gpu overrides outs name backend platform (o : obj T) (n : nat) : option (obj T) :=
  match n with
  | 0 => prepare gt g_err g_zero known gpu overrides outs name backend platform o
  | S n' => do o' <- calls gpu overrides outs name backend platform o n'; prepare gt g_err g_zero known gpu overrides outs name backend platform o'
  end.
Theorem C111_same_each_call gpu overrides outs name backend platform o n first :
  calls gpu overrides outs name backend platform o 0 = Some first ->
  exists o', calls gpu overrides outs name backend platform o n = Some o' /\ max_error o' = max_error first /\ near_zero o' = near_zero first
    /\ (forall x, get (ignore o') x = get (ignore first) x) /\ mmr_abs o' = mmr_abs first /\ mmr_rel o' = mmr_rel first /\ mmr_ulp o' = mmr_ulp first
    /\ skip_test o' = skip_test first.
Proof.
  intros H. cut (exists o', calls gpu overrides outs name backend platform o n = Some o' /\ same o' first).
  { intros (o' & E & S'). exists o'. split; [exact E|exact S']. }
  induction n as [|n (o' & E & S')]; [exists first; split; [exact H|apply same_refl]|]. cbn [calls]. rewrite E. cbn [bind].
  cbn [calls] in H. destruct (prepare_again known gt g_err g_zero _ _ _ _ _ _ _ _ H) as (b & P & Sb).
  assert (S2 : same first o'). { destruct S' as (?&?&X&?&?&?&?). repeat split; congruence || (intros x; now rewrite X). }
  destruct (prepare_same known gt g_err g_zero _ _ _ _ _ _ _ _ _ S2 P) as (c & Pc & Sc). exists c. split; [exact Pc|].
  assert (S3 := same_trans _ _ _ Sb Sc). destruct S3 as (?&?&X&?&?&?&?). repeat split; congruence || (intros x; now rewrite X).
Qed.
End Props.
Print Assumptions C111_sequential_partial.
Print Assumptions C111_parallel_partial.
Print Assumptions C111_absent_rank.
Print Assumptions C111_thresholds_partial.
Print Assumptions C111_no_entry.
Print Assumptions C111_several_entries.
Print Assumptions C111_same_each_call.

(** processes: 6 n² of them make a cubed sphere of n x n per tile, n² of them (no multiple of six) a tile of n x n *)
Theorem C111_communicator_partial n : communicator (6 * (n * n)) = Some (Cube (n, n)) /\ ((n * n) mod 6 <> 0 -> communicator (n * n) = Some (Tile (n, n))).
Proof.
  unfold communicator. split.
  - rewrite (Nat.mul_comm 6), Nat.mod_mul by lia. cbn [Nat.eqb negb]. rewrite Nat.div_mul by lia. rewrite Nat.sqrt_square, (Nat.mul_comm 6), Nat.eqb_refl. reflexivity.
  - intros H. destruct (Nat.eqb_spec ((n * n) mod 6) 0); [congruence|]. cbn [negb]. now rewrite Nat.sqrt_square.
Qed.
Print Assumptions C111_communicator_partial.
(** and a cubed sphere is made of no other number of processes *)
Theorem C111_cube_only size layout : communicator size = Some (Cube layout) -> size = 6 * (fst layout * snd layout) /\ fst layout = snd layout.
Proof.
  unfold communicator. destruct (negb _); [discriminate|]. destruct (Nat.eqb_spec (6 * (Nat.sqrt (size / 6) * Nat.sqrt (size / 6))) size) as [E|]; [|discriminate].
  intros [= <-]. cbn [fst snd]. auto.
Qed.
Print Assumptions C111_cube_only.

(** findings *)
Definition n_gt (a b : nat) := b <? a.
Definition n_legacy (eps : nat) (i : option (near nat)) (zero ref val : nat) : option bool :=
  let err := (ref - val) + (val - ref) in
  Some ((err <=? eps) || match i with Some Ignore => val <=? zero | Some (Near n) => err <=? n | None => false end).
Definition n_modal (_ _ _ : nat) (_ : option nat) (ref val : nat) : option bool := Some (ref =? val).
Definition plain : obj nat := Obj 1 0 [] 0 0 0 false.
Definition entry (p b : option string) (e : option nat) (i : option (ignored nat)) (a : option nat) (k : option bool) : spec nat := Spec p b e None i a None None None k.
Local Open Scope string_scope.

(** an entry with skip_test makes the test pass although the output differs from the reference *)
Theorem C111_skipped_refuted : exists s, match prepare n_gt 3 1 (fun _ => true) false (Some [("X", [s])]) (Some ["u"]) "X" "b" "metal" plain with
  | Some o => test_sequential n_legacy n_modal false (Some o) 0 (Files 1 (Some [("u", 1)]) (Some [("u", 50)])) ["u"] ["u"] (fun _ a => a) (fun d => Some d) = Passed
     /\ test_sequential n_legacy n_modal false (Some plain) 0 (Files 1 (Some [("u", 1)]) (Some [("u", 50)])) ["u"] ["u"] (fun _ a => a) (fun d => Some d) = Failed
  | None => False end.
Proof. exists (entry None None None None None (Some true)). vm_compute. split; reflexivity. Qed.
Print Assumptions C111_skipped_refuted.
(** README 107 "fields other than var1 and var2 will use global_value": the variable v, serialized as "vs", does not.  The test looks for "vs" (line 251), the entry went to "v" (line 67) *)
Theorem C111_global_refuted : exists s (outs serial : list string), outs = ["u"; "v"] /\ serial = ["u"; "vs"] /\ s_all_other s = Some 60 /\
  match prepare n_gt 3 1 (fun _ => true) false (Some [("X", [s])]) (Some outs) "X" "b" "metal" plain with
  | Some o => get (ignore o) "vs" = None
     /\ test_sequential n_legacy n_modal false (Some o) 0 (Files 1 (Some [("u", 1); ("vs", 1)]) (Some [("u", 50); ("vs", 50)])) serial serial (fun _ a => a) (fun d => Some d) = Failed
     /\ test_sequential n_legacy n_modal false (Some o) 0 (Files 1 (Some [("u", 1); ("v", 1)]) (Some [("u", 50); ("v", 50)])) outs outs (fun _ a => a) (fun d => Some d) = Passed
  | None => False end.
Proof. exists (entry None None None (Some (Values [("u", 60)])) (Some 60) None), ["u"; "v"], ["u"; "vs"]. vm_compute. repeat split; reflexivity. Qed.
Print Assumptions C111_global_refuted.
(** the same entry for a parallel test, whose object has no out_vars, is an error *)
Theorem C111_parallel_global_refuted : exists s, s_all_other s <> None /\ well_formed s /\ applying "b" "metal" s
  /\ prepare n_gt 3 1 (fun _ => true) false (Some [("X", [s])]) None "X" "b" "metal" plain = None.
Proof.
  exists (entry None None None (Some (Values [("u", 60)])) (Some 60) None). split; [discriminate|]. split; [|split; [split; discriminate|reflexivity]].
  split; [discriminate|]. intros v [= <-]. cbn. constructor; [tauto|constructor].
Qed.
Print Assumptions C111_parallel_global_refuted.
(** all_other_near_zero is left out of account beside a list of fields, or alone *)
Theorem C111_global_ignored_refuted : exists s1 s2, s_all_other s1 = Some 60 /\ s_all_other s2 = Some 60 /\
  forall s, In s [s1; s2] -> match prepare n_gt 3 1 (fun _ => true) false (Some [("X", [s])]) (Some ["u"; "v"]) "X" "b" "metal" plain with
  | Some o => get (ignore o) "v" = None | None => False end.
Proof.
  exists (entry None None None (Some (Fields ["u"])) (Some 60) None), (entry None None None None (Some 60) None). repeat split.
  intros s [<-|[<-|[]]]; reflexivity.
Qed.
Print Assumptions C111_global_ignored_refuted.
(** an entry for another platform, with a backend name that is not one, stops the test *)
Theorem C111_other_entry_refuted : exists s t, applying "b" "metal" s /\ ~ applying "b" "metal" t
  /\ prepare n_gt 3 1 (fun n => (n =? "b")%string) false (Some [("X", [s])]) (Some ["u"]) "X" "b" "metal" plain <> None
  /\ prepare n_gt 3 1 (fun n => (n =? "b")%string) false (Some [("X", [s; t])]) (Some ["u"]) "X" "b" "metal" plain = None.
Proof.
  exists (entry (Some "metal") (Some "b") (Some 7) None None None), (entry (Some "docker") (Some "gtc:old") (Some 9) None None None).
  split; [split; intros n [= <-]; reflexivity|]. split; [intros [H _]; specialize (H _ eq_refl); discriminate|]. split; [discriminate|reflexivity].
Qed.
Print Assumptions C111_other_entry_refuted.
(** the processes of a tile of 2 x 3 make a cubed sphere, those of 6 x 6 none, those of 1 x 2 a tile of one rank *)
Theorem C111_communicator_refuted : communicator (2 * 3) = Some (Cube (1, 1)) /\ communicator (6 * 6) = None /\ communicator (1 * 2) = Some (Tile (1, 1)).
Proof. repeat split; reflexivity. Qed.
Print Assumptions C111_communicator_refuted.

(** a case: two variables, one near zero, at the third call on a GPU *)
Definition entries : dict (list (spec nat)) :=
  [("X", [entry (Some "docker") (Some "b") (Some 9) None None None; entry None (Some "b") (Some 2) (Some (Values [("u", 4)])) (Some 8) None; entry None (Some "c") None None None (Some true)])].
Example C111_case : match calls n_gt 3 1 (fun _ => true) true (Some entries) (Some ["u"; "v"; "w"]) "X" "b" "metal" (Obj 1 0 [("w", Ignore)] 0 0 0 false) 2 with
  | Some o => (max_error o, near_zero o) = (2, 1) /\ map (get (ignore o)) ["u"; "v"; "w"] = [Some (Near 4); Some (Near 8); Some Ignore]
     /\ test_sequential n_legacy n_modal false (Some o) 1 (Files 2 (Some [("u", 1); ("z", 0)]) (Some [("u", 5); ("v", 9)])) ["u"] ["u"; "v"] (fun _ a => a)
          (fun d => do a <- get d "u"; Some [("v", a); ("u", a)]) = Passed
     /\ test_sequential n_legacy n_modal false (Some o) 1 (Files 2 (Some [("u", 1); ("z", 0)]) (Some [("u", 6); ("v", 9)])) ["u"] ["u"; "v"] (fun _ a => a)
          (fun d => do a <- get d "u"; Some [("v", a); ("u", a)]) = Failed
  | None => False end.
Proof. vm_compute. repeat split; reflexivity. Qed.
Example C111_case_one : exists l1 s l2, get entries "X" = Some (l1 ++ s :: l2)%list /\ applying "b" "metal" s /\ (forall t, In t (l1 ++ l2)%list -> ~ applying "b" "metal" t) /\ well_formed s.
Proof.
  eexists [_], _, [_]. split; [reflexivity|]. split; [split; [intros n [= <-]; reflexivity|discriminate]|]. split.
  - intros t [<-|[<-|[]]] [H K]; [specialize (K _ eq_refl); discriminate|specialize (H _ eq_refl); discriminate].
  - split; [discriminate|]. intros v [= <-]. cbn. constructor; [tauto|constructor].
Qed.
