(** C139: the check for data dependencies of two loops.

    Full statement: no_data_dependencies accepts two loops if and only if no data that the first writes are read by the second; restricted to K
    it is the check along K; loops it accepts can be merged along every axis without a change of the results.  has_dynamic_memlets is true exactly if
    some tasklet of the loops has a dynamic memlet. *)
From Verif Require Import Base MergeModel MergeProofs MergeProps DepModel.
From Coq Require Import Lia.

Section Collect.
  Variable f : task -> list memlet.
  Fixpoint collect (n : node) : list memlet := match n with Task t => f t | Map _ _ cs => flat_map collect cs | If _ cs => flat_map collect cs end.
  Lemma collect_in m : forall n, In m (collect n) <-> exists t, within t n /\ In m (f t).
  Proof.
    fix IH 1. intros [t|s r cs|c cs]; cbn [collect].
    - split; [intros I; exists t; split; [constructor|exact I]|]. intros (t' & W & I). now inversion W; subst.
    - assert (H : In m (flat_map collect cs) <-> exists n, In n cs /\ exists t, within t n /\ In m (f t)).
      { induction cs as [|n cs IC]; cbn; [split; [easy|now intros (n & [] & _)]|]. rewrite in_app_iff, IC, IH. split.
        - intros [A|(n' & I & A)]; [exists n|exists n']; auto.
        - intros (n' & [<-|I] & A); [now left|right; eauto]. }
      rewrite H. split; [intros (n & I & t & W & J); exists t; split; [econstructor; eauto|exact J]|]. intros (t & W & J). inversion W; subst. eauto.
    - assert (H : In m (flat_map collect cs) <-> exists n, In n cs /\ exists t, within t n /\ In m (f t)).
      { induction cs as [|n cs IC]; cbn; [split; [easy|now intros (n & [] & _)]|]. rewrite in_app_iff, IC, IH. split.
        - intros [A|(n' & I & A)]; [exists n|exists n']; auto.
        - intros (n' & [<-|I] & A); [now left|right; eauto]. }
      rewrite H. split; [intros (n & I & t & W & J); exists t; split; [econstructor; eauto|exact J]|]. intros (t & W & J). inversion W; subst. eauto.
  Qed.
End Collect.
Lemma writes_of_in m n : In m (writes_of n) <-> exists t, within t n /\ In m (t_out t).
Proof. exact (collect_in t_out m n). Qed.
Lemma reads_of_in m n : In m (reads_of n) <-> exists t, within t n /\ In m (t_in t).
Proof. exact (collect_in t_in m n). Qed.
Lemma writes_data n d : writes n d <-> exists m, In m (writes_of n) /\ m_data m = d.
Proof. unfold writes. split; [intros (t & m & W & I & E); exists m; rewrite writes_of_in; eauto|intros (m & I & E); apply writes_of_in in I; destruct I as (t & W & I); eauto 6]. Qed.
Lemma reads_data n d : reads n d <-> exists m, In m (reads_of n) /\ m_data m = d.
Proof. unfold reads. split; [intros (t & m & W & I & E); exists m; rewrite reads_of_in; eauto|intros (m & I & E); apply reads_of_in in I; destruct I as (t & W & I); eauto 6]. Qed.

Lemma check_false ws rs : exists b, check false ws rs = Some b /\ (b = true <-> forall w r, In w ws -> In r rs -> m_data w <> m_data r).
Proof.
  induction ws as [|w ws (b & E & H)]; cbn [check]; [exists true; split; [reflexivity|split; [intros _ w r []|reflexivity]]|].
  destruct (existsb _ rs) eqn:X.
  - apply existsb_exists in X. destruct X as (r & I & X). apply String.eqb_eq in X. exists false. split; [reflexivity|]. split; [discriminate|]. intros G. exfalso. now apply (G w r (or_introl eq_refl) I).
  - exists b. split; [exact E|]. rewrite H. split.
    + intros G w' r [<-|I] J; [|now apply G]. intros D. assert (existsb (fun r => String.eqb (m_data w) (m_data r)) rs = true) by (apply existsb_exists; exists r; split; [exact J|now apply String.eqb_eq]). congruence.
    + intros G w' r I J. apply G; [now right|exact J].
Qed.
(** it never raises, and accepts exactly the loops of which the second reads nothing that the first writes *)
Theorem C139_exact : forall first second, exists b, no_data_dependencies first second false = Some b /\ (b = true <-> forall d, ~ (writes first d /\ reads second d)).
Proof.
  intros first second. destruct (check_false (writes_of first) (reads_of second)) as (b & E & H). exists b. split; [exact E|]. rewrite H. split.
  - intros G d [W R]. apply writes_data in W. apply reads_data in R. destruct W as (w & W & <-), R as (r & R & D). now apply (G w r W R).
  - intros G w r W R D. apply (G (m_data w)). rewrite writes_data, reads_data. split; eauto.
Qed.
Print Assumptions C139_exact.
(** what it accepts is accepted along every axis *)
Theorem C139_axes : forall first second a, no_data_dependencies first second false = Some true -> no_dependencies first second a = true.
Proof.
  intros first second a E. unfold no_data_dependencies in E. destruct (check_false (writes_of first) (reads_of second)) as (b & E' & H). rewrite E in E'. injection E' as <-. destruct H as [H _]. specialize (H eq_refl).
  unfold no_dependencies. apply forallb_forall. intros w W. destruct (nth_error _ _) as [[wb we]|]; [|reflexivity]. apply forallb_forall. intros r R.
  destruct (String.eqb_spec (m_data w) (m_data r)) as [D|]; [|reflexivity]. exfalso. now apply (H w r W R).
Qed.
Print Assumptions C139_axes.
Lemma k_reads_eq d k rs : match k_reads d k rs with Some b => b | None => false end =
  forallb (fun r => negb (String.eqb d (m_data r)) || match nth_error (m_sub r) 2 with Some (rb, _) => idx_eqb k rb | None => false end) rs.
Proof.
  induction rs as [|r rs IH]; [reflexivity|]. cbn [k_reads forallb]. destruct (String.eqb d (m_data r)); cbn [negb orb]; [|exact IH].
  destruct (nth_error (m_sub r) 2) as [[b e]|]; [|reflexivity]. destruct (idx_eqb k b); [exact IH|reflexivity].
Qed.
Lemma k_reads_raises d k rs : k_reads d k rs = None -> exists r, In r rs /\ m_data r = d /\ (List.length (m_sub r) < 3)%nat.
Proof.
  induction rs as [|r rs IH]; [discriminate|]. cbn [k_reads]. destruct (String.eqb_spec d (m_data r)) as [->|].
  - destruct (nth_error (m_sub r) 2) as [[b e]|] eqn:N.
    + destruct (idx_eqb k b); [|discriminate]. intros E. destruct (IH E) as (r' & I & X). exists r'. split; [now right|exact X].
    + intros _. exists r. split; [now left|]. split; [reflexivity|]. apply nth_error_None in N. lia.
  - intros E. destruct (IH E) as (r' & I & X). exists r'. split; [now right|exact X].
Qed.
(** restricted to K it is the check along K; it raises instead of refusing only if the second loop reads, without a level, data that the first writes with one *)
Theorem C139_k : forall first second,
  no_dependencies first second AxK = match no_data_dependencies first second true with Some b => b | None => false end /\
  (no_data_dependencies first second true = None ->
   exists t u w r, within t first /\ In w (t_out t) /\ within u second /\ In r (t_in u) /\ m_data w = m_data r /\ (3 <= List.length (m_sub w))%nat /\ (List.length (m_sub r) < 3)%nat).
Proof.
  intros first second. unfold no_dependencies, no_data_dependencies.
  assert (G : forall ws, (forall w, In w ws -> In w (writes_of first)) ->
    forallb (fun w => match nth_error (m_sub w) (axis_index AxK) with None => true | Some (wb, _) =>
      forallb (fun r => negb (String.eqb (m_data w) (m_data r)) || match nth_error (m_sub r) (axis_index AxK) with Some (rb, _) => idx_eqb wb rb | None => false end) (reads_of second) end) ws =
    match check true ws (reads_of second) with Some b => b | None => false end /\
    (check true ws (reads_of second) = None -> exists w r, In w (writes_of first) /\ In r (reads_of second) /\ m_data w = m_data r /\ (3 <= List.length (m_sub w))%nat /\ (List.length (m_sub r) < 3)%nat)).
  { induction ws as [|w ws IH]; intros S; [split; [reflexivity|discriminate]|]. cbn [forallb check axis_index].
    destruct (IH (fun w I => S w (or_intror I))) as [IH1 IH2]. cbn [axis_index] in IH1. rewrite IH1. clear IH IH1.
    destruct (Nat.ltb_spec (List.length (m_sub w)) 3) as [L|L].
    - destruct (nth_error (m_sub w) 2) as [x|] eqn:N; [|split; [reflexivity|exact IH2]]. exfalso. assert (2 < List.length (m_sub w))%nat by (apply nth_error_Some; congruence). lia.
    - destruct (nth_error (m_sub w) 2) as [[k e]|] eqn:N; [|apply nth_error_None in N; lia]. rewrite <- k_reads_eq.
      destruct (k_reads (m_data w) k (reads_of second)) as [[|]|] eqn:K; cbn [andb]; [split; [reflexivity|exact IH2]|split; [reflexivity|discriminate]|split; [reflexivity|]].
      intros _. apply k_reads_raises in K. destruct K as (r & I & D & Lr). exists w, r. split; [apply S; now left|]. auto. }
  destruct (G (writes_of first) (fun w I => I)) as [G1 G2]. split; [exact G1|]. intros E. destruct (G2 E) as (w & r & W & R & X). apply writes_of_in in W. apply reads_of_in in R.
  destruct W as (t & Wt & W), R as (u & Ru & R). exists t, u, w, r. auto.
Qed.
Print Assumptions C139_k.
(** Partial: loops that are accepted in both orders and write different data can be merged along any axis, whatever the tasklets compute (their bodies as in C42).
    Missing: the code asks for one order only, and looks at reads only (refuted below) *)
Theorem C139_merge_partial : forall V (sem : event -> @memory V -> @memory V), reads_only_declared sem ->
  forall a s1 r1 cs1 s2 r2 cs2 e mem, let first := Map s1 r1 cs1 in let second := Map s2 r2 cs2 in
  no_data_dependencies first second false = Some true -> no_data_dependencies second first false = Some true -> (forall d, ~ (writes first d /\ writes second d)) ->
  String.prefix (axis_str a) s1 = true -> String.prefix (axis_str a) s2 = true -> mergeable_bodies s1 s2 cs1 cs2 -> r_step r1 >= 1 -> r_step r2 >= 1 ->
  exists m, merge first second a = Some m /\ same_outcome (exec_trace sem mem (trace e m)) (exec_trace sem mem (traces e [first; second])).
Proof.
  intros V sem Hs a s1 r1 cs1 s2 r2 cs2 e mem first second A B W P1 P2 M S1 S2.
  assert (C : can_merge (Map s1 r1 cs1) (Map s2 r2 cs2) a = true) by (unfold can_merge; cbn [is_axis_map]; rewrite P1, P2; cbn [andb]; now apply C139_axes).
  destruct (merge first second a) as [m|] eqn:Em; [|unfold merge, first, second in Em; rewrite C in Em; discriminate]. exists m. split; [reflexivity|].
  destruct (C139_exact first second) as (b & Eb & Hb). rewrite A in Eb. injection Eb as <-. destruct Hb as [Hb _]. specialize (Hb eq_refl).
  destruct (C139_exact second first) as (b & Eb & Hc). rewrite B in Eb. injection Eb as <-. destruct Hc as [Hc _]. specialize (Hc eq_refl).
  assert (N : forall x y, In x (flat_map writes_of cs1) -> In y (flat_map writes_of cs2) -> m_data x <> m_data y).
  { intros x y X Y D. apply (W (m_data x)). rewrite !writes_data. split; [now exists x|now exists y]. }
  assert (N1 : forall x y, In x (flat_map writes_of cs1) -> In y (flat_map reads_of cs2) -> m_data x <> m_data y).
  { intros x y X Y D. apply (Hb (m_data x)). rewrite writes_data, reads_data. split; [now exists x|now exists y]. }
  assert (N2 : forall x y, In x (flat_map reads_of cs1) -> In y (flat_map writes_of cs2) -> m_data x <> m_data y).
  { intros x y X Y D. apply (Hc (m_data x)). rewrite writes_data, reads_data. split; [now exists y|now exists x]. }
  apply (C43_same_memory_partial sem Hs a); auto.
  - intros x y [[X Y]|[X Y]] D; [apply in_app_or in Y; destruct Y as [Y|Y]|]; exfalso; [now apply (N x y)|now apply (N1 x y)|now apply (N2 x y)].
  - intros x y X Y D. apply in_app_or in X. exfalso. destruct X as [X|X]; [now apply (N x y)|now apply (N2 x y)].
Qed.
Print Assumptions C139_merge_partial.
Example C139_case : let first := k_loop 0 3 set_a in let second := k_loop 2 5 (mkTask 2 [fld "c" "__k" 1] [fld "b" "__k" 0] []) in
  no_data_dependencies first second false = Some true /\ no_data_dependencies second first false = Some true /\ no_data_dependencies first (k_loop 2 5 b_from_a) false = Some false /\
  no_data_dependencies first (k_loop 2 5 b_from_a) true = Some true /\ mergeable_bodies "__k" "__k" [Task set_a] [Task (mkTask 2 [fld "c" "__k" 1] [fld "b" "__k" 0] [])] /\
  (forall d, ~ (writes first d /\ writes second d)) /\
  no_data_dependencies first (k_loop 0 3 (mkTask 2 [mkMemlet "a" ij] [] [])) true = None.
Proof.
  repeat (split; [reflexivity|]). split; [apply one_body|]. split; [|reflexivity]. intros d [W R]. apply writes_data in W, R. destruct W as (w & [<-|[]] & <-), R as (r & [<-|[]] & D). discriminate.
Qed.
(** Accepted in the one order that is looked at, the merged loop can give another result: b[k] = a[k-1] followed by a[k] = 7. *)
Theorem C139_order_refuted : exists r1 b1 r2 b2 m, no_data_dependencies (Map "__k" r1 b1) (Map "__k" r2 b2) false = Some true /\
  merge (Map "__k" r1 b1) (Map "__k" r2 b2) AxK = Some m /\ mergeable_bodies "__k" "__k" b1 b2 /\ differs (Map "__k" r1 b1) (Map "__k" r2 b2) m.
Proof.
  exists (mkRange 1 3 1), [Task (mkTask 1 [fld "a" "__k" (-1)] [fld "b" "__k" 0] [])], (mkRange 1 3 1), [Task (mkTask 7 [] [fld "a" "__k" 0] [])].
  eexists. split; [reflexivity|]. split; [reflexivity|]. split; [apply one_body|]. exists "b"%string, [0; 0; 2]. vm_compute. discriminate.
Qed.
Print Assumptions C139_order_refuted.
(** a dynamic memlet anywhere in either loop is found, and nothing else is *)
Theorem C139_dynamic : forall dynamic first second, has_dynamic_memlets dynamic first second = true <->
  exists t m, (within t first \/ within t second) /\ (In m (t_in t) \/ In m (t_out t)) /\ dynamic m = true.
Proof.
  intros dynamic first second. unfold has_dynamic_memlets. rewrite existsb_exists. split.
  - intros (m & I & D). rewrite !in_app_iff, !reads_of_in, !writes_of_in in I. destruct I as [(t & W & I)|[(t & W & I)|[(t & W & I)|(t & W & I)]]]; exists t, m; auto.
  - intros (t & m & W & I & D). exists m. split; [|exact D]. rewrite !in_app_iff, !reads_of_in, !writes_of_in. destruct W as [W|W], I as [I|I]; eauto 8.
Qed.
Print Assumptions C139_dynamic.
Example C139_dynamic_case : has_dynamic_memlets (fun m => String.eqb (m_data m) "b") (k_loop 0 3 set_a) (k_loop 2 5 b_from_a) = true /\ has_dynamic_memlets (fun m => String.eqb (m_data m) "c") (k_loop 0 3 set_a) (k_loop 2 5 b_from_a) = false.
Proof. split; reflexivity. Qed.
