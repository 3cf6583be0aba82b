(** C42, C43: merging loops. *)
From Verif Require Import Base MergeModel MergeProofs MergeMem.
From Coq Require Import ZArith Lia.

(** ** C42 *)

(** The merged loop runs through the merged range and, at each point, runs the iteration of the first loop which belongs there (if any),
    then that of the second.
    Partial: the second body must use its loop symbol only to index memory when the symbols differ (see the refutations). *)
Theorem C42_interleaved_partial : forall a s1 r1 cs1 s2 r2 cs2 m e,
  merge (Map s1 r1 cs1) (Map s2 r2 cs2) a = Some m -> mergeable_bodies s1 s2 cs1 cs2 -> r_step r1 >= 1 -> r_step r2 >= 1 ->
  trace e m = flat_map (fun k => (if in_dec Z.eq_dec k (iterations r1) then traces (bind_sym e s1 k) cs1 else []) ++
                                 (if in_dec Z.eq_dec k (iterations r2) then traces (bind_sym e s2 k) cs2 else []))
                       (zrange (Z.min (r_lo r1) (r_lo r2)) (Z.max (r_hi r1) (r_hi r2) + 1)).
Proof.
  intros a s1 r1 cs1 s2 r2 cs2 m e Hm Hb S1 S2. rewrite (merge_trace _ _ _ _ _ _ _ _ e Hm Hb).
  change (merged_range r1 r2) with (mkRange (Z.min (r_lo r1) (r_lo r2)) (Z.max (r_hi r1) (r_hi r2)) 1). rewrite iterations_step1.
  apply flat_map_ext_in. intros k _. unfold interleaved.
  f_equal; destruct (in_dec _ _ _) as [H|H].
  - apply in_iterations in H; auto. rewrite (guard_cond_test s1 ""), H. reflexivity.
  - destruct (c_test (guard_cond s1 r1) k) eqn:E; auto. exfalso. apply H. now apply in_iterations.
  - apply in_iterations in H; auto. rewrite (guard_cond_test s2 ""), H. reflexivity.
  - destruct (c_test (guard_cond s2 r2) k) eqn:E; auto. exfalso. apply H. now apply in_iterations.
Qed.
Print Assumptions C42_interleaved_partial.

(** Picking out the executions of one body from the merged run gives the run of the original loop, in order and without repetition. *)
Theorem C42_each_body_partial : forall a s1 r1 cs1 s2 r2 cs2 m e (of_first : option event -> bool),
  merge (Map s1 r1 cs1) (Map s2 r2 cs2) a = Some m -> mergeable_bodies s1 s2 cs1 cs2 -> r_step r1 >= 1 -> r_step r2 >= 1 ->
  (forall x, In x (trace e (Map s1 r1 cs1)) -> of_first x = true) -> (forall x, In x (trace e (Map s2 r2 cs2)) -> of_first x = false) ->
  filter of_first (trace e m) = trace e (Map s1 r1 cs1) /\
  filter (fun x => negb (of_first x)) (trace e m) = trace e (Map s2 r2 cs2).
Proof. intros. eapply merge_select; eauto. Qed.
Print Assumptions C42_each_body_partial.

(** ** merging a row of loops into the first, one after the other *)
Fixpoint merge_all (acc : node) (l : list node) (a : axis) : option node :=
  match l with [] => Some acc | n :: l' => match merge acc n a with Some m => merge_all m l' a | None => None end end.
Definition loop := (string * range * list node)%type.
Definition l_sym (l : loop) := fst (fst l).
Definition l_range (l : loop) := snd (fst l).
Definition l_body (l : loop) := snd l.
Definition as_map (l : loop) : node := Map (l_sym l) (l_range l) (l_body l).
Definition iteration (e : env) (k : Z) (l : loop) : list (option event) :=
  if c_test (guard_cond (l_sym l) (l_range l)) k then traces (bind_sym e (l_sym l) k) (l_body l) else [].
Definition mentions (s : string) (n : node) : bool := indexes_with s n || tests_or_computes_with s n.
(** no body loops over one of the symbols, each mentions only its own *)
Definition separate (syms : list string) (l : loop) : Prop :=
  forall n s, In n (l_body l) -> In s syms -> loops_over s n = false /\ (s <> l_sym l -> mentions s n = false).
(** the symbol is only used to index memory *)
Definition indexes_only (l : loop) : Prop := forall n, In n (l_body l) -> tests_or_computes_with (l_sym l) n = false.

Lemma rename_facts : forall old new n, old <> new -> loops_over old n = false ->
  indexes_with old (rename old new n) = false /\
  (forall x, x <> new -> indexes_with x n = false -> indexes_with x (rename old new n) = false) /\
  (forall x, tests_or_computes_with x (rename old new n) = tests_or_computes_with x n) /\
  (forall x, loops_over x (rename old new n) = loops_over x n).
Proof.
  intros old new n Hon.
  assert (II : forall x i, x <> new -> idx_uses x (rename_idx old new i) = true -> x <> old /\ idx_uses x i = true).
  { intros x [[s|] c] Hx; unfold idx_uses, rename_idx; cbn; try discriminate. destruct (String.eqb_spec s old); intros H; apply String.eqb_eq in H; [congruence|].
    subst x. rewrite String.eqb_refl. auto. }
  assert (MM : forall x m, x <> new -> memlet_uses x (rename_memlet old new m) = true -> x <> old /\ memlet_uses x m = true).
  { intros x m Hx H. unfold memlet_uses, rename_memlet in H; cbn in H. apply existsb_exists in H as (p & Hp & H). apply in_map_iff in Hp as (q & <- & Hq). cbn in H.
    apply orb_prop in H as [H|H]; destruct (II _ _ Hx H) as [A B]; split; auto; apply existsb_exists; exists q; split; auto; rewrite B; auto using orb_true_r. }
  assert (X : forall x n, x <> new -> indexes_with x (rename old new n) = true -> x <> old /\ indexes_with x n = true).
  { intros x m Hx. induction m as [t|p r cs IH|c cs IH] using node_ind2; cbn [rename indexes_with]; intros H.
    - unfold rename_task in H; cbn [t_in t_out] in H. rewrite <- map_app in H. apply existsb_exists in H as (y & Hy & H). apply in_map_iff in Hy as (z & <- & Hz).
      destruct (MM _ _ Hx H). split; auto. apply existsb_exists; eauto.
    - apply existsb_exists in H as (y & Hy & H). apply in_map_iff in Hy as (z & <- & Hz). rewrite Forall_forall in IH.
      destruct (IH z Hz H). split; auto. apply existsb_exists; eauto.
    - apply existsb_exists in H as (y & Hy & H). apply in_map_iff in Hy as (z & <- & Hz). rewrite Forall_forall in IH.
      destruct (IH z Hz H). split; auto. apply existsb_exists; eauto. }
  assert (L : forall f (cs : list node), (forall x, In x cs -> f (rename old new x) = f x) -> existsb f (map (rename old new) cs) = existsb f cs).
  { intros f cs. induction cs as [|c cs IH]; intros H; cbn; auto. rewrite H, IH; cbn; auto. intros; apply H; cbn; auto. }
  intros Hl. repeat split.
  - destruct (indexes_with old (rename old new n)) eqn:E; auto. destruct (X old n Hon E). congruence.
  - intros x Hx Hi. destruct (indexes_with x (rename old new n)) eqn:E; auto. destruct (X x n Hx E). congruence.
  - intros x. clear Hl. induction n as [t|p r cs IH|c cs IH] using node_ind2; cbn [rename tests_or_computes_with]; auto; rewrite Forall_forall in IH.
    + apply L; auto.
    + f_equal. apply L; auto.
  - intros x. induction n as [t|p r cs IH|c cs IH] using node_ind2; cbn [rename loops_over] in *; auto; rewrite Forall_forall in IH.
    + apply orb_false_elim in Hl as [Hp Hl]. apply String.eqb_neq in Hp. destruct (String.eqb_spec p old); [congruence|]. f_equal. apply L.
      intros y Hy. apply IH; auto. eapply existsb_false; eauto.
    + apply L. intros y Hy. apply IH; auto. eapply existsb_false; eauto.
Qed.

Lemma separate_mergeable : forall syms x y, In (l_sym x) syms -> In (l_sym y) syms -> separate syms x -> separate syms y -> (indexes_only y \/ l_sym x = l_sym y) ->
  mergeable_bodies (l_sym x) (l_sym y) (l_body x) (l_body y).
Proof.
  intros syms x y Hx Hy Sx Sy Iy. constructor.
  - intros n Hn. apply in_app_or in Hn as [Hn|Hn]; split; try (apply Sx; auto; fail); apply Sy; auto.
  - intros Hne n Hn. destruct (Sx n (l_sym y) Hn Hy) as [_ M]. specialize (M (not_eq_sym Hne)). apply orb_false_elim in M. auto.
  - intros Hne n Hn. destruct (Sy n (l_sym x) Hn Hx) as [_ M]. specialize (M Hne). apply orb_false_elim in M. auto.
  - intros Hne n Hn. destruct Iy as [Iy|E]; [apply Iy; auto|congruence].
Qed.

Lemma merge_separate : forall a syms x y cs, In (l_sym x) syms -> In (l_sym y) syms -> separate syms x -> separate syms y ->
  (indexes_only y \/ l_sym x = l_sym y) ->
  merge (as_map x) (as_map y) a = Some (Map (l_sym x) (merged_range (l_range x) (l_range y)) cs) ->
  separate syms (l_sym x, merged_range (l_range x) (l_range y), cs).
Proof.
  intros a syms [[s1 r1] cs1] [[s2 r2] cs2] cs Hx Hy Sx Sy Iy Hm. unfold as_map, l_sym, l_range, l_body, merge in *. cbn [fst snd] in *. cbv zeta in Hm.
  destruct (can_merge _ _ _); try discriminate. apply some_inj in Hm.
  set (mr := merged_range r1 r2) in *.
  assert (G : forall n s, In n (children_of (guard s1 mr r1 (Map s1 r1 cs1)) ++ children_of (guard s1 mr r2 (Map s2 r2 cs2))) -> In s syms ->
            loops_over s n = false /\ (s <> s1 -> tests_or_computes_with s n = false) /\ (s <> s1 -> s <> s2 -> indexes_with s n = false)).
  { intros n s Hn Hs. apply in_app_or in Hn as [Hn|Hn]; apply guard_children_fact in Hn as (F1 & F2 & F3); (split; [|split]).
    - apply F3. intros n' Hn'. apply (Sx n' s Hn' Hs).
    - intros Hne. apply F1; auto. intros n' Hn'. destruct (Sx n' s Hn' Hs) as [_ M]. apply M in Hne. apply orb_false_elim in Hne. apply Hne.
    - intros Hne _. apply F2; auto. intros n' Hn'. destruct (Sx n' s Hn' Hs) as [_ M]. apply M in Hne. apply orb_false_elim in Hne. apply Hne.
    - apply F3. intros n' Hn'. apply (Sy n' s Hn' Hs).
    - intros Hne. apply F1; auto. intros n' Hn'. destruct (string_dec s s2) as [E|E].
      + subst s. destruct Iy as [Iy|E]; [apply (Iy n' Hn')|cbn in E; congruence].
      + destruct (Sy n' s Hn' Hs) as [_ M]. apply M in E. apply orb_false_elim in E. apply E.
    - intros _ Hne. apply F2; auto. intros n' Hn'. destruct (Sy n' s Hn' Hs) as [_ M]. apply M in Hne. apply orb_false_elim in Hne. apply Hne. }
  intros n s Hn Hs. cbn [l_body l_sym fst snd] in *. unfold l_body in Hn; cbn in Hn.
  destruct (String.eqb_spec s2 s1) as [E|E].
  - injection Hm as <-. destruct (G n s Hn Hs) as (A & B & C). split; auto. intros Hne. unfold mentions. rewrite B, C; auto. cbn in *. congruence.
  - cbn [rename] in Hm. injection Hm as _ <-. apply in_map_iff in Hn as (y & <- & Hn). destruct (G y s Hn Hs) as (A & B & C).
    destruct (G y s2 Hn Hy) as (A2 & _ & _). destruct (rename_facts s2 s1 y E A2) as (R1 & R2 & R3 & R4). split; [rewrite R4; auto|].
    intros Hne. unfold mentions. rewrite R3, B by auto. rewrite orb_false_r. destruct (string_dec s s2) as [->|Hs2]; auto.
Qed.

Lemma step1_test : forall s lo hi k, c_test (guard_cond s (mkRange lo hi 1)) k = true <-> lo <= k <= hi.
Proof.
  intros. cbn [guard_cond c_test r_lo r_hi r_step]. rewrite Z.mod_1_r. cbn. rewrite andb_true_r, andb_true_iff, !Z.leb_le. tauto.
Qed.
Lemma test_bounds : forall s r k, c_test (guard_cond s r) k = true -> r_lo r <= k <= r_hi r.
Proof.
  intros s r k H. cbn in H. apply andb_prop in H as [H _]. apply andb_prop in H as [A B]. apply Z.leb_le in A. apply Z.leb_le in B. auto.
Qed.

Lemma chain : forall a syms ls x0 m done,
  Forall (fun l => In (l_sym l) syms /\ separate syms l /\ r_step (l_range l) >= 1) (x0 :: ls) ->
  (forall l, In l ls -> indexes_only l \/ l_sym l = l_sym x0) ->
  (forall e k, iteration e k x0 = flat_map (iteration e k) done) ->
  (forall l, In l done -> r_lo (l_range x0) <= r_lo (l_range l) /\ r_hi (l_range l) <= r_hi (l_range x0)) ->
  merge_all (as_map x0) (map as_map ls) a = Some m ->
  exists x, m = as_map x /\ r_step (l_range x) >= 1 /\ (forall e k, iteration e k x = flat_map (iteration e k) (done ++ ls)) /\
    (forall l, In l (done ++ ls) -> r_lo (l_range x) <= r_lo (l_range l) /\ r_hi (l_range l) <= r_hi (l_range x)).
Proof.
  intros a syms ls. induction ls as [|y ls IH]; intros x0 m done HF HI Hd Hb Hm; cbn [map merge_all] in Hm.
  - injection Hm as <-. exists x0. rewrite app_nil_r. inversion HF; subst. intuition.
  - destruct (merge (as_map x0) (as_map y) a) as [m1|] eqn:Em; try discriminate.
    inversion HF as [|? ? H0 HF']; subst. inversion HF' as [|? ? H1 HF'']; subst. destruct H0 as (I0 & S0 & P0). destruct H1 as (I1 & S1 & P1).
    assert (Iy : indexes_only y \/ l_sym x0 = l_sym y) by (destruct (HI y); cbn; auto).
    pose proof (separate_mergeable syms x0 y I0 I1 S0 S1 Iy) as MB.
    destruct (merge_body _ _ _ _ _ _ _ _ Em MB) as (cs & -> & T).
    pose proof (merge_separate a syms x0 y cs I0 I1 S0 S1 Iy Em) as S'.
    set (x1 := (l_sym x0, merged_range (l_range x0) (l_range y), cs) : loop) in *.
    change (Map (l_sym x0) (merged_range (l_range x0) (l_range y)) cs) with (as_map x1) in Hm.
    destruct (IH x1 m (done ++ [y])) as (x & E & P & Q & R); auto.
    + constructor; auto. split; [exact I0|]. split; auto. unfold x1, l_range; cbn; lia.
    + intros l Hl. apply (HI l). cbn; auto.
    + intros e k. rewrite flat_map_app. cbn [flat_map]. rewrite app_nil_r. rewrite <- Hd.
      unfold iteration at 1. change (l_sym x1) with (l_sym x0). change (l_body x1) with cs.
      change (l_range x1) with (mkRange (Z.min (r_lo (l_range x0)) (r_lo (l_range y))) (Z.max (r_hi (l_range x0)) (r_hi (l_range y))) 1).
      destruct (c_test _ k) eqn:Et.
      * apply step1_test in Et. rewrite T; [reflexivity|]. unfold merged_range. rewrite iterations_step1. apply in_zrange. lia.
      * unfold iteration.
        destruct (c_test (guard_cond (l_sym x0) (l_range x0)) k) eqn:E0.
        { apply test_bounds in E0. assert (F : c_test (guard_cond (l_sym x0) (mkRange (Z.min (r_lo (l_range x0)) (r_lo (l_range y))) (Z.max (r_hi (l_range x0)) (r_hi (l_range y))) 1)) k = true) by (apply step1_test; lia). congruence. }
        destruct (c_test (guard_cond (l_sym y) (l_range y)) k) eqn:E1; auto.
        apply test_bounds in E1. assert (F : c_test (guard_cond (l_sym x0) (mkRange (Z.min (r_lo (l_range x0)) (r_lo (l_range y))) (Z.max (r_hi (l_range x0)) (r_hi (l_range y))) 1)) k = true) by (apply step1_test; lia). congruence.
    + intros l Hl. change (l_range x1) with (merged_range (l_range x0) (l_range y)). cbn [merged_range r_lo r_hi]. apply in_app_or in Hl as [Hl|[<-|[]]].
      * apply Hb in Hl. lia.
      * lia.
    + exists x. rewrite <- app_assoc in Q, R. cbn [app] in Q, R. auto.
Qed.

(** Any row of loops, merged one by one into the first: at each point of a range which covers all of them, the iterations of the loops
    which have one there, in the order of the loops.
    Partial: merging into the first; bodies which use the symbol of another loop, or use their own in code, are excluded. *)
Theorem C42_chain_partial : forall a syms l0 ls m e,
  Forall (fun l => In (l_sym l) syms /\ separate syms l /\ r_step (l_range l) >= 1) (l0 :: ls) ->
  (forall l, In l ls -> indexes_only l \/ l_sym l = l_sym l0) ->
  merge_all (as_map l0) (map as_map ls) a = Some m ->
  exists lo hi, (forall l, In l (l0 :: ls) -> lo <= r_lo (l_range l) /\ r_hi (l_range l) <= hi) /\
    trace e m = flat_map (fun k => flat_map (fun l => if in_dec Z.eq_dec k (iterations (l_range l)) then traces (bind_sym e (l_sym l) k) (l_body l) else []) (l0 :: ls))
                         (zrange lo (hi + 1)).
Proof.
  intros a syms l0 ls m e HF HI Hm.
  destruct (chain a syms ls l0 m [l0] HF HI) as (x & -> & P & Q & R); auto.
  - intros e0 k. cbn. now rewrite app_nil_r.
  - intros l [<-|[]]. lia.
  - exists (r_lo (l_range x)), (r_hi (l_range x)). split; [exact R|]. unfold as_map. rewrite trace_map.
    rewrite <- (flat_map_guarded _ (l_range x) (r_lo (l_range x)) (r_hi (l_range x)) (l_sym x)) by lia.
    apply flat_map_ext_in. intros k _. transitivity (iteration e k x); [reflexivity|]. rewrite Q. apply flat_map_ext_in. intros l Hl. unfold iteration.
    rewrite Forall_forall in HF. destruct (HF l Hl) as (_ & _ & Hs). destruct (in_dec _ _ _) as [H|H].
    + apply in_iterations in H; auto. rewrite (guard_cond_test _ ""), H. reflexivity.
    + destruct (c_test _ k) eqn:E; auto. exfalso. apply H. now apply in_iterations.
Qed.
Print Assumptions C42_chain_partial.

(** two loops over K with a loop over I inside, steps 1 and 3 *)
Definition at_ (s : string) (c : Z) : idx * idx := ((Some s, c), (Some s, c)).
Definition ij : list (idx * idx) := [at_ "__i" 0; at_ "__j" 0].
Definition fld (d : string) (s : string) (c : Z) : memlet := mkMemlet d (ij ++ [at_ s c]).
Definition ex_body (t : task) : node := Map "__i" (mkRange 0 1 1) [Map "__j" (mkRange 0 0 1) [Task t]].
Definition t1 := mkTask 1 [fld "a" "__k_0" 0] [fld "b" "__k_0" 0] [].
Definition t2 := mkTask 2 [fld "c" "__k_1" 0] [fld "d" "__k_1" 0] [].
Definition loop1 : loop := ("__k_0", mkRange 2 4 1, [ex_body t1])%string.
Definition loop2 : loop := ("__k_1", mkRange 0 7 3, [ex_body t2])%string.
Definition no_env : env := fun _ => None.
Definition ks (l : list (option event)) (id : nat) : list (Z * Z) :=
  flat_map (fun o => match o with Some ev => if Nat.eqb (ev_id ev) id then map (fun b => (fst (nth 0 (snd b) (0, 0)), fst (nth 2 (snd b) (0, 0)))) (ev_writes ev) else [] | None => [] end) l.
Example C42_case : exists m, merge (as_map loop1) (as_map loop2) AxK = Some m /\
  mergeable_bodies "__k_0" "__k_1" (l_body loop1) (l_body loop2) /\
  Forall (fun l => In (l_sym l) ["__k_0"; "__k_1"]%string /\ separate ["__k_0"; "__k_1"]%string l /\ r_step (l_range l) >= 1) [loop1; loop2] /\
  indexes_only loop2 /\
  ks (trace no_env m) 1 = [(0, 2); (1, 2); (0, 3); (1, 3); (0, 4); (1, 4)] /\ ks (trace no_env m) 2 = [(0, 0); (1, 0); (0, 3); (1, 3); (0, 6); (1, 6)].
Proof.
  assert (S : Forall (fun l => In (l_sym l) ["__k_0"; "__k_1"]%string /\ separate ["__k_0"; "__k_1"]%string l /\ r_step (l_range l) >= 1) [loop1; loop2]).
  { assert (T : forall (l : loop) n, l_body l = [n] -> forallb (fun s => negb (loops_over s n) && (String.eqb s (l_sym l) || negb (mentions s n))) ["__k_0"; "__k_1"]%string = true -> separate ["__k_0"; "__k_1"]%string l).
    { intros l n El H n' s Hn Hs. rewrite El in Hn. destruct Hn as [<-|[]]. rewrite forallb_forall in H. specialize (H s Hs).
      apply andb_prop in H as [H1 H2]. split; [now apply negb_true_iff|]. intros Hne. apply orb_prop in H2 as [H2|H2]; [apply String.eqb_eq in H2; congruence|now apply negb_true_iff]. }
    constructor; [|constructor; [|constructor]]; (split; [cbn; auto|split; [eapply T; reflexivity|cbn; lia]]). }
  assert (I2 : indexes_only loop2) by (intros n [<-|[]]; reflexivity).
  eexists. split; [reflexivity|]. split; [|split; [|split; [|split; vm_compute; reflexivity]]]; auto.
  inversion S as [|? ? (A & B & _) S']; subst. inversion S' as [|? ? (C & D & _) _]; subst.
  apply (separate_mergeable ["__k_0"; "__k_1"]%string loop1 loop2); auto.
Qed.

(** Finding: renaming the second loop's symbol misses conditions.  Each K loop has its own symbol; of four loops, the first pass merges the
    first two and the last two, the second pass merges the results, and the guards of the last two still test a symbol which no longer exists. *)
Definition simple (id : nat) (d s : string) (lo hi : Z) : node := Map s (mkRange lo hi 1) [Task (mkTask id [] [fld d s 0] [])].
Definition ij_env : env := fun s => if String.eqb s "__i" then Some 0 else if String.eqb s "__j" then Some 0 else None.
Theorem C42_stale_guard_refuted : exists n1 n2 n3 n4 m12 m34 m e,
  merge n1 n2 AxK = Some m12 /\ merge n3 n4 AxK = Some m34 /\ merge m12 m34 AxK = Some m /\
  ~ In None (traces e [n1; n2; n3; n4]) /\ In None (trace e m).
Proof.
  exists (simple 1 "a" "__k_0" 0 4), (simple 2 "b" "__k_1" 0 5), (simple 3 "c" "__k_2" 0 6), (simple 4 "d" "__k_3" 0 7).
  eexists. eexists. eexists. exists ij_env. split; [reflexivity|]. split; [reflexivity|]. split; [reflexivity|]. split.
  - intros H. apply all_some_none in H. vm_compute in H. discriminate.
  - apply all_some_none. vm_compute. reflexivity.
Qed.
Print Assumptions C42_stale_guard_refuted.

(** Finding: nor does it rename the symbol in tasklet code: two loops suffice if the second computes with its index. *)
Theorem C42_stale_code_refuted : exists n1 n2 m e, merge n1 n2 AxK = Some m /\ ~ In None (traces e [n1; n2]) /\ In None (trace e m).
Proof.
  exists (simple 1 "a" "__k_0" 0 4), (Map "__k_1" (mkRange 0 4 1) [Task (mkTask 2 [] [fld "b" "__k_1" 0] ["__k_1"%string])]).
  eexists. exists ij_env. split; [reflexivity|]. split.
  - intros H. apply all_some_none in H. vm_compute in H. discriminate.
  - apply all_some_none. vm_compute. reflexivity.
Qed.
Print Assumptions C42_stale_code_refuted.

(** Finding: a tasklet which stands before a map is moved into it, and runs once per iteration: never, if there are none. *)
Theorem C42_push_refuted :
  (forall t s lo hi cs m e, push_tasklet t (Map s (mkRange lo hi 1) cs) = Some m -> hi < lo -> trace e m = []) /\
  (exists t n m e, push_tasklet t n = Some m /\ List.length (filter (fun o => match o with Some ev => Nat.eqb (ev_id ev) (t_id t) | None => true end) (traces e [Task t; n])) = 1%nat /\
                   List.length (filter (fun o => match o with Some ev => Nat.eqb (ev_id ev) (t_id t) | None => true end) (trace e m)) = 5%nat).
Proof.
  split.
  - intros t s lo hi cs m e H Hlt. injection H as <-. rewrite trace_map, iterations_step1.
    apply flat_map_nil. intros k Hk. apply in_zrange in Hk. lia.
  - exists (mkTask 9 [] [mkMemlet "x" []] []), (simple 1 "a" "__k_0" 0 4). eexists. exists ij_env. split; [reflexivity|]. split; reflexivity.
Qed.
Print Assumptions C42_push_refuted.

(** ** C43 *)
Section C43.
  Context {V : Type}.
  Variable sem : event -> @memory V -> @memory V.
  Hypothesis Hsem : reads_only_declared sem.

  Definition same_outcome (a b : option (@memory V)) : Prop :=
    match a, b with Some m, Some m' => forall d i, m d i = m' d i | None, None => True | _, _ => False end.

  (** every access to data which one of the loops writes and the other uses touches, along the axis, the one point "symbol plus c" *)
  Definition pointwise (ax : nat) (s1 s2 : string) (cs1 cs2 : list node) : Prop := forall x y,
    (In x (flat_map writes_of cs1) /\ In y (flat_map writes_of cs2 ++ flat_map reads_of cs2) \/
     In x (flat_map reads_of cs1) /\ In y (flat_map writes_of cs2)) -> m_data x = m_data y ->
    (exists c, at_point ax s1 c x) /\ (exists c, at_point ax s2 c y).
  (** where the second loop writes, the first uses the same point: what the check does not look at *)
  Definition same_points_as_written (ax : nat) (s1 s2 : string) (cs1 cs2 : list node) : Prop := forall x y,
    In x (flat_map writes_of cs1 ++ flat_map reads_of cs1) -> In y (flat_map writes_of cs2) -> m_data x = m_data y ->
    forall c, at_point ax s1 c x -> at_point ax s2 c y.

  Lemma check_points : forall a s1 r1 cs1 s2 r2 cs2 x y c c',
    can_merge (Map s1 r1 cs1) (Map s2 r2 cs2) a = true ->
    In x (flat_map writes_of cs1) -> In y (flat_map reads_of cs2) -> m_data x = m_data y ->
    at_point (axis_index a) s1 c x -> at_point (axis_index a) s2 c' y -> c = c'.
  Proof.
    intros a s1 r1 cs1 s2 r2 cs2 x y c c' H Hx Hy Hd Px Py. unfold can_merge in H. apply andb_prop in H as [_ H].
    unfold no_dependencies in H. rewrite forallb_forall in H. specialize (H x Hx). unfold at_point in Px, Py. rewrite Px in H.
    rewrite forallb_forall in H. specialize (H y Hy). rewrite Hd, String.eqb_refl in H. cbn [negb orb] in H. rewrite Py in H.
    unfold idx_eqb in H. cbn in H. apply andb_prop in H as [_ H]. now apply Z.eqb_eq.
  Qed.

  (** the dimension of arrays an axis is *)
  Definition position (a : axis) : nat := match a with AxI => 0 | AxJ => 1 | AxK => 2 end%nat.
  (** When the check accepts two loops, running the merged loop gives the memory the two loops give one after the other, provided that
      shared data are accessed at single points along the axis, and that what the second loop writes is used by the first at the same points.
      Partial: without the provisos it is false (below). *)
  Theorem C43_same_memory_partial : forall a s1 r1 cs1 s2 r2 cs2 m e mem,
    merge (Map s1 r1 cs1) (Map s2 r2 cs2) a = Some m -> mergeable_bodies s1 s2 cs1 cs2 -> r_step r1 >= 1 -> r_step r2 >= 1 ->
    pointwise (position a) s1 s2 cs1 cs2 -> same_points_as_written (position a) s1 s2 cs1 cs2 ->
    same_outcome (exec_trace sem mem (trace e m)) (exec_trace sem mem (traces e [Map s1 r1 cs1; Map s2 r2 cs2])).
  Proof.
    intros a s1 r1 cs1 s2 r2 cs2 m e mem Hm Hb S1 S2 Hp Hw.
    assert (PA : position a = axis_index a) by (destruct a; reflexivity). rewrite PA in *. clear PA.
    assert (ET : traces e [Map s1 r1 cs1; Map s2 r2 cs2] = trace e (Map s1 r1 cs1) ++ trace e (Map s2 r2 cs2)) by (unfold traces; cbn [flat_map]; now rewrite app_nil_r).
    rewrite ET. unfold exec_trace.
    destruct (in_dec (fun x y : option event => ltac:(repeat decide equality)) None (trace e m)) as [Hn|Hn].
    { pose proof Hn as Hn'. apply (none_merged _ _ _ _ _ _ _ _ e Hm Hb S1 S2) in Hn'. apply all_some_none in Hn. apply all_some_none in Hn'. rewrite Hn, Hn'. exact I. }
    assert (Hn' : ~ In None (trace e (Map s1 r1 cs1) ++ trace e (Map s2 r2 cs2))) by (intros H; apply Hn; eapply none_merged; eauto).
    rewrite (all_some_events _ Hn), (all_some_events _ Hn'). cbn [option_map same_outcome].
    rewrite (merge_trace _ _ _ _ _ _ _ _ e Hm Hb).
    change (merged_range r1 r2) with (mkRange (Z.min (r_lo r1) (r_lo r2)) (Z.max (r_hi r1) (r_hi r2)) 1). rewrite iterations_step1.
    rewrite !trace_map.
    rewrite <- (flat_map_guarded (fun k => traces (bind_sym e s1 k) cs1) r1 (Z.min (r_lo r1) (r_lo r2)) (Z.max (r_hi r1) (r_hi r2)) s1) by lia.
    rewrite <- (flat_map_guarded (fun k => traces (bind_sym e s2 k) cs2) r2 (Z.min (r_lo r1) (r_lo r2)) (Z.max (r_hi r1) (r_hi r2)) s2) by lia.
    unfold interleaved. rewrite events_app, !events_flat.
    set (f := fun k => events_of (if c_test (guard_cond s1 r1) k then traces (bind_sym e s1 k) cs1 else [])).
    set (g := fun k => events_of (if c_test (guard_cond s2 r2) k then traces (bind_sym e s2 k) cs2 else [])).
    rewrite (flat_map_ext_in _ (fun k => f k ++ g k)) by (intros; apply events_app).
    apply (interleave sem Hsem). intros l1 k l2 E k' Hk' x y Hx Hy.
    assert (Hne : k' <> k).
    { assert (N : NoDup (l1 ++ k :: l2)) by (rewrite <- E; apply zrange_NoDup). apply NoDup_remove_2 in N. intros ->. apply N. apply in_or_app; auto. }
    unfold f in Hx. unfold g in Hy. apply in_events in Hx. apply in_events in Hy.
    destruct (c_test (guard_cond s1 r1) k'); [|destruct Hx]. destruct (c_test (guard_cond s2 r2) k); [|destruct Hy].
    assert (Hc : can_merge (Map s1 r1 cs1) (Map s2 r2 cs2) a = true) by (unfold merge in Hm; destruct (can_merge _ _ _); auto; discriminate).
    destruct Hb as [ML _ _ _].
    apply (points_independent (axis_index a) s1 s2 cs1 cs2 e e k' k x y); auto.
    - intros n Hn0. apply ML. apply in_or_app; auto.
    - intros n Hn0. apply ML. apply in_or_app; auto.
    - intros u v Hu Hv Hd. destruct (Hp u v) as ((c & Pc) & (c' & Pc')); auto.
      apply in_app_or in Hv as [Hv|Hv].
      + exists c. split; auto. apply (Hw u v); auto. apply in_or_app; auto.
      + exists c. split; auto. rewrite (check_points _ _ _ _ _ _ _ _ _ _ _ Hc Hu Hv Hd Pc Pc'). auto.
    - intros u v Hu Hv Hd. destruct (Hp u v) as ((c & Pc) & _); auto. exists c. split; auto. apply (Hw u v); auto. apply in_or_app; auto.
  Qed.

  (** A tasklet moved into the map which follows: the memory is the same if the map runs at least once, the tasklet does not read what it writes, the
      body writes nothing the tasklet reads or writes, and the tasklet does not mention the symbol of the map. *)
  Theorem C43_push_partial : forall t s r cs m e mem ev,
    push_tasklet t (Map s r cs) = Some m -> iterations r <> [] -> run_task e t = Some ev ->
    mentions s (Task t) = false ->
    (forall d i, in_boxes d i (ev_writes ev) = true -> in_boxes d i (ev_reads ev) = false) ->
    (forall b, In (Some b) (trace e (Map s r cs)) -> leaves b ev) ->
    same_outcome (exec_trace sem mem (trace e m)) (exec_trace sem mem (traces e [Task t; Map s r cs])).
  Proof.
    intros t s r cs m e mem ev Hm Hne Ht Hs Hself Hb. injection Hm as <-.
    assert (ET : trace e (Map s r (Task t :: cs)) = flat_map (fun k => Some ev :: traces (bind_sym e s k) cs) (iterations r)).
    { rewrite trace_map. apply flat_map_ext_in. intros k _. unfold traces; cbn [flat_map app].
      assert (trace (bind_sym e s k) (Task t) = trace e (Task t)).
      { apply trace_ext. intros x Hx. apply bind_other. intros ->. unfold mentions in Hs. apply orb_false_elim in Hs. destruct Hs, Hx; congruence. }
      rewrite H. cbn [trace app]. rewrite Ht. reflexivity. }
    assert (ES : traces e [Task t; Map s r cs] = Some ev :: trace e (Map s r cs)).
    { unfold traces; cbn [flat_map trace app]. rewrite Ht, app_nil_r. reflexivity. }
    rewrite ET, ES. unfold exec_trace.
    assert (NI : In None (flat_map (fun k => Some ev :: traces (bind_sym e s k) cs) (iterations r)) <-> In None (Some ev :: trace e (Map s r cs))).
    { rewrite trace_map, in_flat_map. cbn [In]. rewrite in_flat_map. split.
      - intros (k & Hk & [H|H]); [discriminate|]. right. exists k. auto.
      - intros [H|(k & Hk & H)]; [discriminate|]. exists k. cbn. auto. }
    destruct (in_dec (fun x y : option event => ltac:(repeat decide equality)) None (Some ev :: trace e (Map s r cs))) as [Hn|Hn].
    { pose proof Hn as Hn'. apply NI in Hn'. apply all_some_none in Hn. apply all_some_none in Hn'. rewrite Hn, Hn'. exact I. }
    assert (Hn' : ~ In None (flat_map (fun k => Some ev :: traces (bind_sym e s k) cs) (iterations r))) by (intros H; apply Hn; now apply NI).
    rewrite (all_some_events _ Hn), (all_some_events _ Hn'). cbn [option_map same_outcome]. rewrite events_flat.
    change (events_of (Some ev :: trace e (Map s r cs))) with (ev :: events_of (trace e (Map s r cs))). rewrite trace_map, events_flat.
    rewrite (flat_map_ext_in _ (fun k => ev :: events_of (traces (bind_sym e s k) cs))) by reflexivity.
    assert (HB : forall k b, In k (iterations r) -> In b (events_of (traces (bind_sym e s k) cs)) -> leaves b ev).
    { intros k b Hk Hbk. apply Hb. rewrite trace_map. apply in_flat_map. exists k. split; auto. now apply in_events. }
    destruct (iterations r) as [|k0 l] eqn:Ek; [congruence|]. cbn [flat_map app].
    cbn [exec fold_left]. change (fold_left (exec1 sem) ?l ?m) with (exec sem m l). rewrite !ex_app.
    apply (repeat_event sem Hsem ev (fun k => events_of (traces (bind_sym e s k) cs))).
    - intros; eapply HB; cbn; eauto.
    - apply (settled_list sem Hsem); [intros; eapply HB; cbn; eauto|]. apply (settle sem Hsem); auto.
  Qed.

  (** A loop exchanged with the map below it: the memory is the same if what the body writes is only used at the same point along the axis. *)
  Theorem C43_swap_partial : forall ax v r s r' cs m e mem,
    swap_for (Map v r [Map s r' cs]) = Some m -> v <> s ->
    (forall n, In n cs -> loops_over s n = false) -> r_step r' >= 1 ->
    (forall x y, In x (flat_map writes_of cs) -> In y (flat_map writes_of cs ++ flat_map reads_of cs) -> m_data x = m_data y ->
                 exists c, at_point ax s c x /\ at_point ax s c y) ->
    same_outcome (exec_trace sem mem (trace e m)) (exec_trace sem mem (trace e (Map v r [Map s r' cs]))).
  Proof.
    intros ax v r s r' cs m e mem Hm Hvs Hl Hs Hp. injection Hm as <-.
    assert (E1 : trace e (Map s r' [Map v r cs]) = flat_map (fun k => flat_map (fun n => traces (bind_sym (bind_sym e v n) s k) cs) (iterations r)) (iterations r')).
    { cbn [trace]. apply flat_map_ext_in. intros k _. cbn [flat_map]. rewrite app_nil_r. cbn [trace]. apply flat_map_ext_in. intros n _.
      apply traces_ext. intros n0 x _ _. unfold bind_sym. destruct (String.eqb_spec x v), (String.eqb_spec x s); congruence. }
    assert (E2 : trace e (Map v r [Map s r' cs]) = flat_map (fun n => flat_map (fun k => traces (bind_sym (bind_sym e v n) s k) cs) (iterations r')) (iterations r)).
    { cbn [trace]. apply flat_map_ext_in. intros n _. cbn [flat_map]. rewrite app_nil_r. reflexivity. }
    rewrite E1, E2. unfold exec_trace.
    assert (NI : In None (flat_map (fun k => flat_map (fun n => traces (bind_sym (bind_sym e v n) s k) cs) (iterations r)) (iterations r')) <->
                 In None (flat_map (fun n => flat_map (fun k => traces (bind_sym (bind_sym e v n) s k) cs) (iterations r')) (iterations r))).
    { rewrite !in_flat_map. split; intros (x & Hx & H); apply in_flat_map in H as (y & Hy & H); exists y; split; auto; apply in_flat_map; exists x; auto. }
    match type of NI with In None ?a <-> In None ?b => set (A := a) in *; set (B := b) in * end.
    destruct (in_dec (fun x y : option event => ltac:(repeat decide equality)) None A) as [Hn|Hn].
    { pose proof Hn as Hn'. apply NI in Hn'. apply all_some_none in Hn. apply all_some_none in Hn'. rewrite Hn, Hn'. exact I. }
    assert (Hn' : ~ In None B) by (intros H; apply Hn; now apply NI).
    rewrite (all_some_events _ Hn), (all_some_events _ Hn'). cbn [option_map same_outcome]. unfold A, B. rewrite !events_flat.
    rewrite (flat_map_ext_in _ (fun k => flat_map (fun n => events_of (traces (bind_sym (bind_sym e v n) s k) cs)) (iterations r))) by (intros; apply events_flat).
    rewrite (flat_map_ext_in (fun n => events_of (flat_map _ _)) (fun n => flat_map (fun k => events_of (traces (bind_sym (bind_sym e v n) s k) cs)) (iterations r'))) by (intros; apply events_flat).
    apply (exchange sem Hsem (fun n k => events_of (traces (bind_sym (bind_sym e v n) s k) cs))).
    intros l1 k l2 E k' Hk' n n' x y Hx Hy.
    assert (Hne : k' <> k).
    { assert (N : NoDup (l1 ++ k :: l2)).
      { rewrite <- E. unfold iterations. apply FinFun.Injective_map_NoDup; [|apply seq_NoDup]. intros i j Hij. nia. }
      apply NoDup_remove_2 in N. intros ->. apply N. apply in_or_app; auto. }
    apply in_events in Hx. apply in_events in Hy.
    apply (points_independent ax s s cs cs (bind_sym e v n) (bind_sym e v n') k' k x y); auto.
    intros u w Hu Hw Hd. destruct (Hp w u) as (c & P1 & P2); eauto. apply in_or_app; auto.
  Qed.
End C43.
Print Assumptions C43_same_memory_partial.
Print Assumptions C43_push_partial.
Print Assumptions C43_swap_partial.

(** ** cases and findings for C43 *)

(** a tasklet which reads one box stores one more than the value at its end, any other stores its own number *)
Definition ex_sem (ev : event) (m : @memory Z) : @memory Z := fun d i =>
  match ev_reads ev with
  | [b] => if in_boxes (fst b) (map snd (snd b)) (ev_reads ev) then m (fst b) (map snd (snd b)) + 1 else 0
  | _ => Z.of_nat (ev_id ev)
  end.
Lemma ex_sem_ok : reads_only_declared ex_sem.
Proof.
  intros ev m m' H d i. unfold ex_sem. destruct (ev_reads ev) as [|b [|c l]] eqn:E; auto.
  destruct (in_boxes _ _ [b]) eqn:Eb; auto. rewrite H; auto.
Qed.
Definition zero : @memory Z := fun _ _ => 0.
Definition value (t : list (option event)) (d : string) (i : list Z) : option Z := option_map (fun m => m d i) (exec_trace ex_sem zero t).

(** a[k] = 1 for k in 0..3; b[k] = a[k] + 1 for k in 2..5 *)
Definition k_loop (lo hi : Z) (t : task) : node := Map "__k" (mkRange lo hi 1) [Task t].
Definition set_a := mkTask 1 [] [fld "a" "__k" 0] [].
Definition b_from_a := mkTask 2 [fld "a" "__k" 0] [fld "b" "__k" 0] [].
Lemma one_body : forall s t u, mergeable_bodies s s [Task t] [Task u].
Proof. intros s t u. constructor; try congruence. intros n [<-|[<-|[]]]; auto. Qed.
Example C43_case : exists m, merge (k_loop 0 3 set_a) (k_loop 2 5 b_from_a) AxK = Some m /\
  mergeable_bodies "__k" "__k" [Task set_a] [Task b_from_a] /\
  pointwise 2 "__k" "__k" [Task set_a] [Task b_from_a] /\ same_points_as_written 2 "__k" "__k" [Task set_a] [Task b_from_a] /\
  value (trace ij_env m) "b" [0; 0; 3] = Some 2 /\ value (trace ij_env m) "b" [0; 0; 4] = Some 1 /\
  value (trace ij_env m) "a" [0; 0; 3] = Some 1 /\ value (trace ij_env m) "a" [0; 0; 4] = Some 0.
Proof.
  eexists. split; [reflexivity|]. split; [apply one_body|]. split; [|split; [|repeat split; reflexivity]].
  - intros x y [[[<-|[]] Hy]|[[] _]] E. cbn in Hy. destruct Hy as [<-|[<-|[]]]; [discriminate|]. split; exists 0; reflexivity.
  - intros x y Hx [<-|[]] E. cbn in Hx. destruct Hx as [<-|[]]. discriminate.
Qed.
Example C43_push_case : exists m ev, push_tasklet (mkTask 4 [] [mkMemlet "s" ij] []) (k_loop 0 3 set_a) = Some m /\
  run_task ij_env (mkTask 4 [] [mkMemlet "s" ij] []) = Some ev /\ iterations (mkRange 0 3 1) <> [] /\
  (forall b, In (Some b) (trace ij_env (k_loop 0 3 set_a)) -> leaves b ev) /\ value (trace ij_env m) "s" [0; 0] = Some 4.
Proof.
  eexists. eexists. split; [reflexivity|]. split; [reflexivity|]. split; [vm_compute; discriminate|]. split; [|reflexivity].
  intros b Hb. cbn in Hb. intros d i Hd.
  assert (D : d = "a"%string) by (repeat (destruct Hb as [Hb|Hb]; [injection Hb as <-; cbn in Hd; rewrite orb_false_r in Hd; apply in_box_data in Hd; auto|]); destruct Hb).
  subst d. split; reflexivity.
Qed.
Example C43_swap_case : exists m, swap_for (Map "n" (mkRange 0 1 1) [k_loop 0 3 set_a]) = Some m /\
  (forall x y, In x (writes_of (Task set_a)) -> In y (writes_of (Task set_a) ++ reads_of (Task set_a)) -> m_data x = m_data y ->
               exists c, at_point 2 "__k" c x /\ at_point 2 "__k" c y) /\ value (trace ij_env m) "a" [0; 0; 3] = Some 1.
Proof.
  eexists. split; [reflexivity|]. split; [|reflexivity]. intros x y [<-|[]] [<-|[]] _. exists 0. split; reflexivity.
Qed.

Definition differs (n1 n2 m : node) : Prop := exists d i, value (trace ij_env m) d i <> value (traces ij_env [n1; n2]) d i.

(** Finding: the check looks at what the second loop reads, not at what it writes.
    b[k] = a[k-1] followed by a[k] = 7: the merged loop reads values of the second. *)
Theorem C43_write_after_read_refuted : exists r1 b1 r2 b2 m, merge (Map "__k" r1 b1) (Map "__k" r2 b2) AxK = Some m /\
  mergeable_bodies "__k" "__k" b1 b2 /\ pointwise 2 "__k" "__k" b1 b2 /\ differs (Map "__k" r1 b1) (Map "__k" r2 b2) m.
Proof.
  exists (mkRange 1 3 1), [Task (mkTask 1 [fld "a" "__k" (-1)] [fld "b" "__k" 0] [])], (mkRange 1 3 1), [Task (mkTask 7 [] [fld "a" "__k" 0] [])].
  eexists. split; [reflexivity|]. split; [apply one_body|]. split.
  - intros x y [[[<-|[]] [<-|[]]]|[[<-|[]] [<-|[]]]] E; try discriminate. split; eexists; reflexivity.
  - exists "b"%string, [0; 0; 2]. vm_compute. discriminate.
Qed.
Print Assumptions C43_write_after_read_refuted.
(** a[k-1] = 1 followed by a[k] = 7: the merged loop leaves the first loop's values. *)
Theorem C43_write_after_write_refuted : exists r1 b1 r2 b2 m, merge (Map "__k" r1 b1) (Map "__k" r2 b2) AxK = Some m /\
  mergeable_bodies "__k" "__k" b1 b2 /\ pointwise 2 "__k" "__k" b1 b2 /\ differs (Map "__k" r1 b1) (Map "__k" r2 b2) m.
Proof.
  exists (mkRange 1 3 1), [Task (mkTask 1 [] [fld "a" "__k" (-1)] [])], (mkRange 1 3 1), [Task (mkTask 7 [] [fld "a" "__k" 0] [])].
  eexists. split; [reflexivity|]. split; [apply one_body|]. split.
  - intros x y [[[<-|[]] [<-|[]]]|[[] _]] E; try discriminate. split; eexists; reflexivity.
  - exists "a"%string, [0; 0; 1]. vm_compute. discriminate.
Qed.
Print Assumptions C43_write_after_write_refuted.
(** Finding: data without the axis are skipped.  s = 1 at level 5, then b[k] = s + 1 at every level: below level 5 the merged loop reads s before
    it is written. *)
Theorem C43_lower_dimension_refuted : exists r1 b1 r2 b2 m, merge (Map "__k" r1 b1) (Map "__k" r2 b2) AxK = Some m /\
  mergeable_bodies "__k" "__k" b1 b2 /\ same_points_as_written 2 "__k" "__k" b1 b2 /\ differs (Map "__k" r1 b1) (Map "__k" r2 b2) m.
Proof.
  exists (mkRange 5 5 1), [Task (mkTask 1 [] [mkMemlet "s" ij] [])], (mkRange 0 9 1), [Task (mkTask 2 [mkMemlet "s" ij] [fld "b" "__k" 0] [])].
  eexists. split; [|split; [apply one_body|split]].
  - vm_compute. reflexivity.
  - intros x y [<-|[]] [<-|[]] E. discriminate.
  - exists "b"%string, [0; 0; 0]. vm_compute. discriminate.
Qed.
Print Assumptions C43_lower_dimension_refuted.
(** Finding: only the start of a range is compared.  a[k] = 1, then b[k] from a[k..k+1]: accepted, and the merged loop reads a[k+1] too early. *)
Theorem C43_range_refuted : exists r1 b1 r2 b2 m, merge (Map "__k" r1 b1) (Map "__k" r2 b2) AxK = Some m /\
  mergeable_bodies "__k" "__k" b1 b2 /\ same_points_as_written 2 "__k" "__k" b1 b2 /\ differs (Map "__k" r1 b1) (Map "__k" r2 b2) m.
Proof.
  exists (mkRange 0 3 1), [Task set_a], (mkRange 0 2 1),
    [Task (mkTask 2 [mkMemlet "a" (ij ++ [((Some "__k"%string, 0), (Some "__k"%string, 1))])] [fld "b" "__k" 0] [])].
  eexists. split; [reflexivity|]. split; [apply one_body|]. split.
  - intros x y [<-|[]] [<-|[]] E. discriminate.
  - exists "b"%string, [0; 0; 1]. vm_compute. discriminate.
Qed.
Print Assumptions C43_range_refuted.
(** Finding: moving a tasklet into the next map is not checked at all: x = x + 1 runs once per level. *)
Theorem C43_push_refuted : exists t n m, push_tasklet t n = Some m /\ differs (Task t) n m.
Proof.
  exists (mkTask 1 [mkMemlet "x" []] [mkMemlet "x" []] []), (k_loop 0 3 set_a). eexists. split; [reflexivity|].
  exists "x"%string, []. vm_compute. discriminate.
Qed.
Print Assumptions C43_push_refuted.
(** Finding: nor is exchanging a loop with the map below it.  Twice, at each level: a[k] = a[k+1] + 1. *)
Theorem C43_swap_refuted : exists v r n m, swap_for (Map v r [n]) = Some m /\
  exists d i, value (trace ij_env m) d i <> value (trace ij_env (Map v r [n])) d i.
Proof.
  exists "n"%string, (mkRange 0 1 1), (Map "__k" (mkRange 1 3 1) [Task (mkTask 1 [fld "a" "__k" 1] [fld "a" "__k" 0] [])]).
  eexists. split; [reflexivity|]. exists "a"%string, [0; 0; 1]. vm_compute. discriminate.
Qed.
Print Assumptions C43_swap_refuted.
