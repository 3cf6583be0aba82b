(** C115: checks inserted into orchestrated programs.

    English: A debug pass inserts, after each map of the program, one check of every array that the map writes and that the pass is for (by name, not written under a condition where the pass
    skips those); it comes after the array is written and before anything that comes after that; it covers the written range or the range asked for.  Nothing else of the program
    changes: two nodes are executed one after the other with the checks exactly when they are without. *)
From Coq Require Import Relations Operators_Properties String Ascii.
From Verif Require Import Base TrapModel TrapProofs.
Local Open Scope list_scope.
Local Open Scope nat_scope.

(** ** specification; [before es x y]: x is executed before y, there is a path of edges *)
Definition part_of (sub s : string) : Prop := exists a b, s = (a ++ sub ++ b)%string.
(** the edge by which a map of the program writes an array *)
Definition writes (st : state) (e : edge) (name : string) : Prop :=
  In e (edges st) /\ nth_error (nodes st) (src e) = Some TopExit /\ nth_error (nodes st) (dst e) = Some (Access name) /\ a_view (arrays st name) = false.
(** what a pass is for: names with one of the given parts (any name if none is given) and without the other ones *)
Definition is_for (parts without : list string) (name : string) : Prop :=
  (parts <> [] -> exists v, In v parts /\ part_of v name) /\ forall v, In v without -> ~ part_of v name.
Definition on_gpu (st : state) (name : string) : Prop := a_storage (arrays st name) = GPU_Global \/ a_storage (arrays st name) = GPU_Shared.
(** the check of an array *)
Definition checks (st : state) (e : edge) (name code : string) (ranges : option (list range)) (c : check) : Prop :=
  k_array c = name /\ k_code c = code /\ k_ranges c = firstn (a_rank (arrays st name)) (match ranges with None => subset e | Some r => r end).
(** the program with checks of the given writes *)
Definition checked (st st' : state) (code : string) (ranges : option (list range)) (these : edge -> string -> Prop) : Prop :=
  (exists extra, nodes st' = nodes st ++ extra)
  /\ (forall x y, x < List.length (nodes st) -> y < List.length (nodes st) -> (before (edges st') x y <-> before (edges st) x y))
  /\ (forall e name, writes st e name -> these e name -> exists i c, nth_error (nodes st') i = Some (Check c) /\ checks st e name code ranges c
        /\ before (edges st') (dst e) i /\ forall y, before (edges st) (dst e) y -> before (edges st') i y)
  /\ (forall i c, nth_error (nodes st') i = Some (Check c) -> nth_error (nodes st) i = Some (Check c) \/ exists e name, writes st e name /\ these e name /\ checks st e name code ranges c).

Lemma filter_spec parts without skip st n e : parts <> [] -> In (n, e) (filter_all_maps parts without skip st) <->
  n = dst e /\ exists name, writes st e name /\ is_for parts without name /\ (skip = true -> dynamic e = false).
Proof.
  intros NE. unfold filter_all_maps. rewrite in_flat_map. split.
  - intros (i & I & H). destruct (nth_error (nodes st) i) as [[name0| | |c]|] eqn:E; try destruct H. apply in_map_iff in H. destruct H as (f & [= <- <-] & H). split; [reflexivity|].
    apply filter_In in H. destruct H as [IE H]. apply andb_true_iff in H. destruct H as [S K]. apply Nat.eqb_eq in S. subst i. unfold keep in K.
    destruct (nth_error (nodes st) (dst f)) as [[name| | |c]|] eqn:D; try discriminate. repeat rewrite andb_true_iff in K. destruct K as (((K1 & K2) & K3) & K4). exists name.
    split; [|split; [split|]].
    + split; [exact IE|]. split; [exact E|]. split; [exact D|]. now apply negb_true_iff in K1.
    + intros _. apply negb_true_iff in K2. destruct (existsb (fun v => contains v name) parts) eqn:X.
      * apply existsb_exists in X. destruct X as (v & V & C). exists v. split; [exact V|]. now apply contains_spec.
      * exfalso. clear - K2 X. induction parts as [|v l IH]; [discriminate|]. cbn [existsb forallb] in *. apply orb_false_iff in X. destruct X as [E0 X]. rewrite E0 in K2. cbn [negb andb] in K2. auto.
    + intros v V P. apply negb_true_iff in K3. apply contains_spec in P. assert (existsb (fun v => contains v name) without = true) by (apply existsb_exists; eauto). congruence.
    + intros ->. now apply negb_true_iff in K4.
  - intros (-> & name & (IE & E & D & VW) & (P & Q) & S). exists (src e). split.
    + apply in_seq. assert (src e < List.length (nodes st)) by (apply nth_error_Some; congruence). lia.
    + rewrite E. apply in_map_iff. exists e. split; [reflexivity|]. apply filter_In. split; [exact IE|]. rewrite Nat.eqb_refl. unfold keep. rewrite D, VW. cbn [negb andb].
      destruct (P NE) as (v & V & PV). repeat rewrite andb_true_iff. repeat split; apply negb_true_iff.
      * apply contains_spec in PV. clear - V PV. induction parts as [|w l IH]; [destruct V|]. cbn [forallb]. destruct V as [->|V]; [now rewrite PV|]. rewrite IH by exact V. apply andb_false_r.
      * apply not_true_iff_false. intros X. apply existsb_exists in X. destruct X as (w & W & C). apply (Q w W). now apply contains_spec.
      * destruct skip; [cbn; auto|reflexivity].
Qed.

(** missing: arrays not in the memory of a GPU (C115_cpu_refuted), passes for all names (C115_nan_refuted) *)
Theorem C115_checks_partial parts without skip code comment a ranges st : bounded st -> parts <> [] -> ranges <> Some [] ->
  (forall e name, writes st e name -> is_for parts without name -> on_gpu st name) ->
  checked st (add_checks parts without skip code comment a ranges st) code ranges (fun e name => is_for parts without name /\ (skip = true -> dynamic e = false)).
Proof.
  intros B NE NR G. unfold add_checks.
  assert (H : forall n e, In (n, e) (filter_all_maps parts without skip st) -> exists name, nth_error (nodes st) n = Some (Access name) /\ a_storage (arrays st name) <> Elsewhere).
  { intros n e I. apply filter_spec in I; [|exact NE]. destruct I as (-> & name & W & F & _). exists name. split; [apply W|]. destruct (G e name W F); congruence. }
  destruct (fold_checks code comment a ranges _ st B H) as (_ & _ & X & ORD & ALL & ONLY). split; [exact X|]. split; [exact ORD|].
  assert (C : forall e name, checks st e name code ranges (the_check code comment a ranges st name e)).
  { intros e name. unfold checks, the_check. cbn. repeat split. destruct ranges as [[|r l]|]; congruence. }
  split.
  - intros e name W [F S]. destruct (ALL (dst e) e name) as (c & C1 & C2 & C3); [apply filter_spec; [exact NE|eauto]|apply W|]. exists c. eexists. split; [exact C1|]. split; [apply C|]. split; [exact C2|exact C3].
  - intros i c I. destruct (ONLY i c I) as [O|(n & e & name & J & K & ->)]; [auto|]. right. apply filter_spec in J; [|exact NE]. destruct J as (-> & name' & W & F & S).
    assert (name' = name) by (destruct W as (_ & _ & W & _); congruence). subst. exists e, name. split; [exact W|]. split; [split; [exact F|exact S]|apply C].
Qed.
Print Assumptions C115_checks_partial.

Theorem C115_delp_partial p k st st' : bounded st -> (forall e name, writes st e name -> part_of "delp" name -> on_gpu st name) ->
  nth_error p k = Some st -> nth_error (negative_delp_checker p) k = Some st' -> checked st st' "_inp < 0" None (fun _ name => part_of "delp" name).
Proof.
  intros B G K K'. unfold negative_delp_checker in K'. rewrite nth_error_map, K in K'. injection K' as <-.
  assert (E : forall name, is_for ["delp"%string] [] name <-> part_of "delp" name).
  { intros name. split; [intros [F _]; destruct F as (v & [<-|[]] & P); [discriminate|exact P]|]. intros P. split; [intros _; exists "delp"%string; auto using in_eq|intros v []]. }
  destruct (C115_checks_partial ["delp"%string] [] false "_inp < 0" "delp* is negative" true None st B) as (R1 & R2 & R3 & R4); [discriminate|discriminate|intros e name W F; exact (G e name W (proj1 (E name) F))|].
  split; [exact R1|]. split; [exact R2|]. split.
  - intros e name W P. apply R3; [exact W|]. split; [now apply E|discriminate].
  - intros i c I. destruct (R4 i c I) as [O|(e & name & W & (F & _) & C)]; [auto|]. right. exists e, name. split; [exact W|]. split; [now apply E|exact C].
Qed.
Print Assumptions C115_delp_partial.
Theorem C115_tracers_partial p k st st' : bounded st ->
  (forall e name, writes st e name -> (exists v, In v ["qvapor"; "qliquid"; "qrain"; "qice"; "qsnow"; "qgraupel"; "qo3mr"; "qsgs_tke"; "qcld"]%string /\ part_of v name) -> on_gpu st name) ->
  nth_error p k = Some st -> nth_error (negative_qtracers_checker p) k = Some st' ->
  checked st st' "_inp < -1e-8" None (fun _ name => exists v, In v ["qvapor"; "qliquid"; "qrain"; "qice"; "qsnow"; "qgraupel"; "qo3mr"; "qsgs_tke"; "qcld"]%string /\ part_of v name).
Proof.
  intros B G K K'. unfold negative_qtracers_checker in K'. rewrite nth_error_map, K in K'. injection K' as <-. fold tracers in *.
  assert (E : forall name, is_for tracers [] name <-> exists v, In v tracers /\ part_of v name).
  { intros name. split; [intros [F _]; apply F; discriminate|]. intros P. split; [intros _; exact P|intros v []]. }
  destruct (C115_checks_partial tracers [] false "_inp < -1e-8" "tracer is negative" true None st B) as (R1 & R2 & R3 & R4); [discriminate|discriminate|intros e name W F; exact (G e name W (proj1 (E name) F))|].
  split; [exact R1|]. split; [exact R2|]. split.
  - intros e name W P. apply R3; [exact W|]. split; [exact (proj2 (E name) P)|discriminate].
  - intros i c I. destruct (R4 i c I) as [O|(e & name & W & (F & _) & C)]; [auto|]. right. exists e, name. split; [exact W|]. split; [exact (proj1 (E name) F)|exact C].
Qed.
Print Assumptions C115_tracers_partial.
(** ranges for the NaN check: all three or none *)
Theorem C115_ranges i j k p : sdfg_nan_checker i j k p = None <-> ~ (i = None /\ j = None /\ k = None) /\ ~ (i <> None /\ j <> None /\ k <> None).
Proof.
  unfold sdfg_nan_checker. destruct i, j, k; split; try discriminate; try (intros _; split; intros (A & B & C); congruence);
    intros [H1 H2]; exfalso; first [apply H1; repeat split; reflexivity | apply H2; repeat split; discriminate].
Qed.
Print Assumptions C115_ranges.

(** the passes without a list of names check nothing, in any program *)
Theorem C115_never_checks p : sdfg_execution_progress p = p /\ (forall i j k, trace_all_outputs_at_index i j k p = p)
  /\ forall i j k p', sdfg_nan_checker i j k p = Some p' -> p' = p.
Proof.
  assert (E : forall bl skip code comment a r, map (add_checks [] bl skip code comment a r) p = p).
  { intros. rewrite <- (map_id p) at 2. apply map_ext. intros st. unfold add_checks. replace (filter_all_maps [] bl skip st) with (@nil (nat * edge)); [reflexivity|]. symmetry.
    unfold filter_all_maps. induction (seq 0 (List.length (nodes st))) as [|i l IH]; [reflexivity|]. cbn [flat_map]. rewrite IH, app_nil_r.
    destruct (nth_error (nodes st) i) as [[name| | |c]|]; try reflexivity. replace (filter _ (edges st)) with (@nil edge); [reflexivity|]. symmetry.
    assert (KF : forall e, keep [] bl skip st e = false).
    { intros e. unfold keep. destruct (nth_error (nodes st) (dst e)) as [[name| | |c]|]; try reflexivity. cbn [forallb]. destruct (a_view (arrays st name)); reflexivity. }
    generalize (edges st). induction l0 as [|e es IE]; [reflexivity|]. cbn [filter]. rewrite KF, andb_false_r. exact IE. }
  split; [apply E|]. split; [intros; apply E|]. intros i j k p'. unfold sdfg_nan_checker. destruct i, j, k; intros H; try discriminate; injection H as <-; apply E.
Qed.
Print Assumptions C115_never_checks.

(** findings.  A map writes an array, another reads it *)
Definition two_maps (name : string) (where_ : storage) : state :=
  State [Other; TopExit; Access name; Other] [Edge 0 1 false []; Edge 1 2 false [(0, 9, 1)]%Z; Edge 2 3 false [(0, 9, 1)]%Z] (fun _ => Array false where_ 1).
(** the NaN check of a map's output is not inserted *)
Theorem C115_nan_refuted : exists st e, writes st e "u" /\ is_for [] ["diss_estd"%string] "u" /\ dynamic e = false /\ on_gpu st "u" /\ bounded st
  /\ sdfg_nan_checker None None None [st] = Some [st] /\ ~ exists i c, nth_error (nodes st) i = Some (Check c).
Proof.
  exists (two_maps "u" GPU_Global), (Edge 1 2 false [(0, 9, 1)]%Z). split; [repeat split; cbn; auto|]. split.
  { split; [congruence|]. intros v [<-|[]] (a & b & E). assert (L := f_equal String.length E). cbn in L.
    assert (A : forall x y, String.length (x ++ y)%string = String.length x + String.length y) by (induction x; cbn; intros; [reflexivity|now rewrite IHx]).
    rewrite A in L. cbn in L. lia. }
  split; [reflexivity|]. split; [now left|]. split; [intros e I; cbn in *; intuition subst; cbn; lia|]. split; [reflexivity|].
  intros (i & c & H). destruct i as [|[|[|[|i]]]]; cbn in H; try discriminate. destruct i; discriminate.
Qed.
Print Assumptions C115_nan_refuted.
(** not on a GPU: no check is inserted, and what reads the array no longer comes after what writes it *)
Theorem C115_cpu_refuted : exists st st', bounded st /\ negative_delp_checker [st] = [st'] /\ writes st (Edge 1 2 false [(0, 9, 1)]%Z) "delp"
  /\ before (edges st) 1 3 /\ ~ before (edges st') 1 3 /\ ~ exists i c, nth_error (nodes st') i = Some (Check c).
Proof.
  exists (two_maps "delp" Elsewhere). eexists. split; [intros e I; cbn in *; intuition subst; cbn; lia|]. split; [vm_compute; reflexivity|]. split; [repeat split; cbn; auto|]. split; [|split].
  - apply t_trans with 2; apply t_step; [exists (Edge 1 2 false [(0, 9, 1)]%Z)|exists (Edge 2 3 false [(0, 9, 1)]%Z)]; cbn; auto.
  - intros H. apply clos_trans_t1n in H. assert (X : forall x y, clos_trans_1n nat (arrow (edges (State [Other; TopExit; Access "delp"; Other; Access "delp"]
        [Edge 0 1 false []; Edge 1 2 false [(0, 9, 1)]%Z; Edge 4 3 false [(0, 9, 1)]%Z] (fun _ => Array false Elsewhere 1)))) x y -> x <= 2 -> y <= 2).
    { induction 1 as [x y A|x y z A _ IH]; intros L; destruct A as (e & I & <- & <-); cbn in I; [intuition subst; cbn in *; lia|]. apply IH. intuition subst; cbn in *; lia. }
    specialize (X 1 3 H). lia.
  - intros (i & c & H). destruct i as [|[|[|[|[|i]]]]]; cbn in H; try discriminate. destruct i; discriminate.
Qed.
Print Assumptions C115_cpu_refuted.

(** a case: a map writes two arrays on a GPU, delp is checked between the maps *)
Definition case_state : state :=
  State [Other; TopExit; Access "__g_self__delp"; Access "pt"; Other]
        [Edge 0 1 false []; Edge 1 2 true [(3, 8, 1); (3, 8, 1)]%Z; Edge 1 3 false []; Edge 2 4 false []; Edge 3 4 false []] (fun _ => Array false GPU_Global 2).
Example C115_case_meets : bounded case_state /\ (forall e name, writes case_state e name -> part_of "delp" name -> on_gpu case_state name)
  /\ writes case_state (Edge 1 2 true [(3, 8, 1); (3, 8, 1)]%Z) "__g_self__delp" /\ part_of "delp" "__g_self__delp".
Proof.
  split; [intros e I; cbn in *; intuition subst; cbn; lia|]. split; [intros; now left|]. split; [repeat split; cbn; auto|]. exists "__g_self__"%string, EmptyString. reflexivity.
Qed.
Example C115_case : map edges (negative_delp_checker [case_state]) = [[Edge 0 1 false []; Edge 1 2 true [(3, 8, 1); (3, 8, 1)]%Z; Edge 1 3 false []; Edge 5 4 false []; Edge 3 4 false [];
  Edge 2 6 false []; Edge 6 5 false []]] /\ (exists c, nth_error (nodes (hd case_state (negative_delp_checker [case_state]))) 6 = Some (Check c) /\ k_ranges c = [(3, 8, 1); (3, 8, 1)]%Z).
Proof. split; [reflexivity|]. eexists. split; reflexivity. Qed.
