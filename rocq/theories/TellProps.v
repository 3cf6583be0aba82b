(** C128: reports of comparisons list the failures, the worst first or named as such, and their counts. *)
From Verif Require Import Base MetricModel TellModel TellProofs.
From Coq Require Import Permutation Sorted Lia.
Import ListNotations.
Local Open Scope nat_scope.
Local Open Scope list_scope.

Lemma nth_error_combine (l l' : list fl) : length l = length l' -> forall i, i < length l' -> nth_error (combine l l') i = Some (nth i l NaN, nth i l' NaN).
Proof.
  revert l'. induction l as [|x l IH]; intros [|y l'] L i Hi; cbn in L, Hi; try lia. destruct i as [|i]; cbn; [reflexivity|]. apply IH; lia.
Qed.
Lemma forallb_false l : forallb (fun b : bool => b) l = false -> exists i, nth_error l i = Some false.
Proof.
  induction l as [|b l IH]; cbn; [discriminate|]. destruct b; [|exists 0; reflexivity]. intros E. destruct (IH E) as (i & Hi). exists (S i). exact Hi.
Qed.

Section Legacy.
Context (rnd : Q -> Q) (eps : Q) (near_zero : option Q) (computed reference : list fl).
Definition verdicts := map (fun p => legacy_success rnd eps near_zero (fst p) (snd p)) (combine computed reference).
Definition details := map (fun i => let c := nth i computed NaN in let r := nth i reference NaN in Failure i c r (fabs (fsub rnd c r)) (metric rnd c r)) (failing verdicts).
Lemma report_eq : legacy_report rnd eps near_zero computed reference =
  if forallb (fun b => b) verdicts then Reported None
  else if Nat.eqb (length verdicts) 1 then Raised
  else match snd (fold_left update_worst details (Num 0, None)) with
       | Some w => Reported (Some (Summary (length details) (length verdicts) w details))
       | None => Raised
       end.
Proof. reflexivity. Qed.
Context (L : length computed = length reference).
Lemma verdicts_length : length verdicts = length reference.
Proof. unfold verdicts. rewrite map_length, combine_length. lia. Qed.
Lemma verdict_at i v : nth_error verdicts i = Some v <-> i < length reference /\ legacy_success rnd eps near_zero (nth i computed NaN) (nth i reference NaN) = v.
Proof.
  unfold verdicts. rewrite nth_error_map. split.
  - intros E. assert (Hi : i < length reference).
    { destruct (nth_error (combine computed reference) i) eqn:N; [|discriminate]. assert (H : i < length (combine computed reference)) by (apply nth_error_Some; congruence).
      rewrite combine_length in H. lia. }
    rewrite nth_error_combine in E by assumption. cbn in E. split; [exact Hi|congruence].
  - intros (Hi & <-). rewrite nth_error_combine by assumption. reflexivity.
Qed.
Lemma details_usual : Forall (fun f => usual (f_metric f)) details.
Proof. apply Forall_forall. intros f Hf. unfold details in Hf. apply in_map_iff in Hf as (i & <- & _). cbn. apply fabs_usual. Qed.
End Legacy.

(** C128.  If LegacyMetric.report reports failures, it lists every point that failed the comparison once, in the order of the array, with its two values, their distance and the error
    relative to the reference, and counts them; if it reports none, all points passed. *)
Theorem C128_failures_listed : forall rnd eps near_zero computed reference o, length computed = length reference ->
  legacy_report rnd eps near_zero computed reference = Reported o ->
  let passed i := legacy_success rnd eps near_zero (nth i computed NaN) (nth i reference NaN) in
  match o with
  | None => forall i, i < length reference -> passed i = true
  | Some s =>
      failed s = length (failures s) /\ of_ s = length reference /\ 0 < failed s /\
      StronglySorted lt (map f_at (failures s)) /\
      (forall i, In i (map f_at (failures s)) <-> i < length reference /\ passed i = false) /\
      forall f, In f (failures s) ->
        f_computed f = nth (f_at f) computed NaN /\ f_reference f = nth (f_at f) reference NaN /\ f_absolute f = fabs (fsub rnd (f_computed f) (f_reference f)) /\
        f_metric f = fabs (fdiv rnd (fsub rnd (f_computed f) (f_reference f)) (if feq0 (f_reference f) then Num 1 else f_reference f))
  end.
Proof.
  intros rnd eps nz computed reference o L. rewrite report_eq. destruct (forallb _ _) eqn:A.
  - intros [= <-] passed i Hi. subst passed. cbn beta. rewrite forallb_forall in A. apply A. eapply nth_error_In. apply verdict_at; [exact L|]. split; [exact Hi|reflexivity].
  - destruct (Nat.eqb (length _) 1); [discriminate|]. destruct (snd _) as [w|]; [|discriminate]. intros [= <-] passed. cbn [failed of_ failures].
    split; [reflexivity|]. split; [now apply verdicts_length|].
    assert (E : map f_at (details rnd eps nz computed reference) = failing (verdicts rnd eps nz computed reference)) by (unfold details; rewrite map_map; cbn [f_at]; apply map_id).
    assert (M : forall i, In i (map f_at (details rnd eps nz computed reference)) <-> i < length reference /\ passed i = false).
    { intros i. rewrite E, in_failing. apply (verdict_at rnd eps nz computed reference L i false). }
    split; [|split; [|split; [exact M|]]].
    + apply forallb_false in A as (i & Hi). apply verdict_at in Hi; [|exact L]. apply M in Hi. destruct (details _ _ _ _ _); [destruct Hi|cbn; lia].
    + rewrite E. apply nonzero_sorted.
    + intros f Hf. unfold details in Hf. apply in_map_iff in Hf as (i & <- & _). repeat split; reflexivity.
Qed.
Print Assumptions C128_failures_listed.

(** C128.  The failure named as the worst is one of those listed; its error is NaN, or no error listed is NaN or greater. *)
Theorem C128_worst : forall rnd eps near_zero computed reference s, length computed = length reference ->
  legacy_report rnd eps near_zero computed reference = Reported (Some s) ->
  In (worst s) (failures s) /\
  (f_metric (worst s) = NaN \/ forall f, In f (failures s) -> f_metric f <> NaN /\ fle (f_metric f) (f_metric (worst s)) = true).
Proof.
  intros rnd eps nz computed reference s L. rewrite report_eq. destruct (forallb _ _); [discriminate|]. destruct (Nat.eqb _ 1); [discriminate|].
  destruct (worst_loop (details rnd eps nz computed reference) (Num 0) None [] (details_usual _ _ _ _ _)) as (R1 & R2 & R3).
  - right. reflexivity. - reflexivity. - right. intros f [].
  - destruct (fold_left _ _ _) as [e [w|]]; cbn [fst snd app] in *; [|discriminate]. intros [= <-]. cbn [worst failures]. destruct R2 as [-> R2]. split; [exact R2|].
    destruct R3 as [R3|R3]; [now left|right]. intros f Hf. specialize (R3 f Hf). split; [|exact R3]. intros N. rewrite N in R3. discriminate.
Qed.
Print Assumptions C128_worst.

Lemma failed_metric rnd eps nz c r : (0 < eps)%Q -> legacy_success rnd eps nz c r = false -> fle (metric rnd c r) (Num 0) = false.
Proof.
  intros P. unfold legacy_success. fold (metric rnd c r). destruct (flt (metric rnd c r) (Num eps)) eqn:F; [rewrite orb_true_r; discriminate|]. intros _.
  destruct (metric rnd c r) as [|[]|q]; cbn in *; try reflexivity; try discriminate. unfold qlt in F. destruct (Qle_bool eps q) eqn:E; [|discriminate].
  destruct (Qle_bool q 0) eqn:Z; [|reflexivity]. apply Qle_bool_iff in E, Z. exfalso. apply (Qlt_irrefl 0). eapply Qlt_le_trans; [exact P|]. eapply Qle_trans; eassumption.
Qed.

(** C128 (partial: with a positive threshold and more than one element).  The report is made. *)
Theorem C128_reported_partial : forall rnd eps near_zero computed reference, length computed = length reference -> (0 < eps)%Q -> length reference <> 1 ->
  exists o, legacy_report rnd eps near_zero computed reference = Reported o.
Proof.
  intros rnd eps nz computed reference L P N. rewrite report_eq. destruct (forallb _ _) eqn:A; [eexists; reflexivity|].
  rewrite verdicts_length by exact L. destruct (Nat.eqb_spec (length reference) 1); [contradiction|].
  destruct (worst_loop (details rnd eps nz computed reference) (Num 0) None [] (details_usual _ _ _ _ _)) as (R1 & R2 & R3).
  - right. reflexivity. - reflexivity. - right. intros f [].
  - destruct (fold_left _ _ _) as [e [w|]]; cbn [fst snd app] in *; [eexists; reflexivity|]. subst e. exfalso. destruct R3 as [R3|R3]; [discriminate|].
    apply forallb_false in A as (i & Hi). pose proof Hi as V. apply verdict_at in V as (_ & V); [|exact L]. apply failed_metric in V; [|exact P].
    specialize (R3 (Failure i (nth i computed NaN) (nth i reference NaN) (fabs (fsub rnd (nth i computed NaN) (nth i reference NaN))) (metric rnd (nth i computed NaN) (nth i reference NaN)))).
    cbn [f_metric] in R3. rewrite R3 in V; [discriminate|]. unfold details. apply in_map_iff. exists i. split; [reflexivity|]. now apply in_failing.
Qed.
Print Assumptions C128_reported_partial.

(** C128, refuted for the threshold 0: equal values fail, and the report of this raises. *)
Theorem C128_zero_refuted : exists computed reference, computed = reference /\ legacy_report (fun q => q) 0 None computed reference = Raised.
Proof. exists [Num 1; Num 2], [Num 1; Num 2]. split; reflexivity. Qed.
Print Assumptions C128_zero_refuted.

(** C128, refuted for variables of one element: if the values differ, the report raises. *)
Theorem C128_single_refuted : exists eps c r, (0 < eps)%Q /\ legacy_report (fun q => q) eps None [c] [r] = Raised.
Proof. exists (1 # 10)%Q, (Num 1), (Num 2). split; [reflexivity|vm_compute; reflexivity]. Qed.
Print Assumptions C128_single_refuted.

(** ** MultiModalFloatMetric *)
Definition both_nan (points : list (fl * fl)) (i : nat) : bool := isnan (fst (nth i points (NaN, NaN))) && isnan (snd (nth i points (NaN, NaN))).

Lemma order_perm rnd spacing sort argsort points p : sorts argsort -> order rnd spacing sort argsort points = Some p -> Permutation p (seq 0 (length points)).
Proof.
  intros S. assert (G : forall key : fl * fl -> fl, Permutation (argsort (map key points)) (seq 0 (length points))) by (intros key; destruct (S (map key points)) as [P _]; rewrite map_length in P; exact P).
  destruct sort; cbn [order]; intros [= <-]; [apply G|apply G|apply G|]. symmetry. apply Permutation_rev.
Qed.

Lemma rows_at rnd spacing t points p : map at_ (flat_map (make_row rnd spacing t points) p) = filter (fun i => negb (both_nan points i)) p.
Proof.
  induction p as [|i p IH]; cbn [flat_map filter]; [reflexivity|]. rewrite map_app, IH. unfold make_row, both_nan.
  destruct (nth i points (NaN, NaN)) as [c r]. cbn [fst snd]. destruct (isnan c && isnan r); reflexivity.
Qed.
Lemma row_in rnd spacing t points p x : In x (flat_map (make_row rnd spacing t points) p) ->
  In (at_ x) p /\ nth (at_ x) points (NaN, NaN) = (computed_ x, reference_ x) /\ [x] = make_row rnd spacing t points (at_ x).
Proof.
  rewrite in_flat_map. intros (i & Hi & Hx). pose proof Hx as Hx'. unfold make_row in Hx'. destruct (nth i points (NaN, NaN)) as [c r] eqn:E. destruct (isnan c && isnan r) eqn:N; [destruct Hx'|].
  destruct Hx' as [<-|[]]. cbn [at_ computed_ reference_]. split; [exact Hi|]. split; [exact E|]. unfold make_row. rewrite E, N. reflexivity.
Qed.

(** C128.  The report of a MultiModalFloatMetric has exactly one row for each point, except for those that are NaN on both sides, with its two values, its distances and the marks of the
    three comparisons. *)
Theorem C128_rows : forall rnd spacing t sort argsort three changing points h rows, sorts argsort ->
  multi_report rnd spacing t sort argsort three changing points = Some (h, rows) ->
  Permutation (map at_ rows) (filter (fun i => negb (both_nan points i)) (seq 0 (length points))) /\
  forall x, In x rows ->
    nth_error points (at_ x) = Some (computed_ x, reference_ x) /\
    fst (absolute x) = fabs (fsub rnd (computed_ x) (reference_ x)) /\
    fst (relative x) = fmul rnd (fdiv rnd (fst (absolute x)) (fmax (fabs (computed_ x)) (fabs (reference_ x)))) (Num 100) /\
    fst (ulp x) = fdiv rnd (fst (absolute x)) (fspacing spacing (fmax (fabs (computed_ x)) (fabs (reference_ x)))).
Proof.
  intros rnd spacing t sort argsort three changing points h rows S. unfold multi_report. destruct (Nat.eqb _ 0); [discriminate|].
  destruct (order _ _ _ _ _) as [p|] eqn:O; [|discriminate]. intros [= _ <-]. apply order_perm in O; [|exact S].
  assert (O' : Permutation (rev p) (seq 0 (length points))) by (eapply Permutation_trans; [symmetry; apply Permutation_rev|exact O]). split.
  - rewrite rows_at. apply perm_filter, O'.
  - intros x Hx. destruct (row_in _ _ _ _ _ _ Hx) as (I & E & M). split.
    + assert (In (at_ x) (seq 0 (length points))) by (eapply Permutation_in; eassumption). apply in_seq in H. rewrite <- E. apply nth_error_nth'. lia.
    + unfold make_row in M. rewrite E in M. destruct (isnan _ && isnan _); [discriminate|]. injection M as ->. cbn. auto.
Qed.
Print Assumptions C128_rows.

(** C128.  The rows are sorted along the distance chosen, the greatest first and NaN before all, or by index, the first one first.  (What str() shows of them is their beginning.) *)
Theorem C128_order : forall rnd spacing t sort argsort three changing points h rows, sorts argsort ->
  multi_report rnd spacing t sort argsort three changing points = Some (h, rows) ->
  match sort with
  | Ulp => StronglySorted (fun x y => not_after (fst (ulp y)) (fst (ulp x))) rows
  | Absolute => StronglySorted (fun x y => not_after (fst (absolute y)) (fst (absolute x))) rows
  | Relative => StronglySorted (fun x y => not_after (relative_distance rnd (computed_ y) (reference_ y)) (relative_distance rnd (computed_ x) (reference_ x))) rows
  | Index => StronglySorted (fun x y => at_ x < at_ y) rows
  | Unknown => False
  end /\ shown rows = firstn (if Nat.leb (length rows) 11 then length rows else 11) rows.
Proof.
  intros rnd spacing t sort argsort three changing points h rows S. unfold multi_report. destruct (Nat.eqb _ 0); [discriminate|].
  destruct (order _ _ _ _ _) as [p|] eqn:O; [|discriminate]. intros [= _ <-].
  assert (One : forall i, length (make_row rnd spacing t points i) <= 1) by (intros i; unfold make_row; destruct (nth i points _); destruct (_ && _); cbn; lia).
  assert (G : forall (key : fl * fl -> fl) (P : row -> fl), p = argsort (map key points) ->
    (forall x, [x] = make_row rnd spacing t points (at_ x) -> P x = key (computed_ x, reference_ x)) ->
    StronglySorted (fun x y => not_after (P y) (P x)) (flat_map (make_row rnd spacing t points) (rev p))).
  { intros key P -> HP. destruct (S (map key points)) as [Pm St]. apply ssorted_map, ssorted_rev in St.
    eapply ssorted_flat; [exact St|exact One|]. intros i j a b Hi Hj R Ha Hb. cbn beta in R.
    assert (Bd : forall k, In k (rev (argsort (map key points))) -> k < length (map key points)).
    { intros k Hk. apply in_rev in Hk. apply (Permutation_in _ Pm) in Hk. apply in_seq in Hk. lia. }
    assert (K : forall k c, In k (rev (argsort (map key points))) -> In c (make_row rnd spacing t points k) -> P c = nth k (map key points) NaN).
    { intros k c Hk Hc. assert (Hc' : In c (flat_map (make_row rnd spacing t points) [k])) by (cbn; rewrite app_nil_r; exact Hc).
      destruct (row_in _ _ _ _ _ _ Hc') as ([E1|[]] & E2 & E3). rewrite (HP c E3). rewrite (nth_indep _ NaN (key (NaN, NaN))) by auto. rewrite map_nth, E1, E2. reflexivity. }
    rewrite (K i a Hi Ha), (K j b Hj Hb). exact R. }
  split.
  - destruct sort; cbn [order] in O; try discriminate; injection O as O.
    + apply (G (fun p => ulp_distance rnd spacing (fst p) (snd p)) (fun x => fst (ulp x))); [now symmetry|].
      intros x E. unfold make_row in E. destruct (nth _ _ _) as [c r]. destruct (_ && _); [discriminate|]. injection E as ->. reflexivity.
    + apply (G (fun p => absolute_distance rnd (fst p) (snd p)) (fun x => fst (absolute x))); [now symmetry|].
      intros x E. unfold make_row in E. destruct (nth _ _ _) as [c r]. destruct (_ && _); [discriminate|]. injection E as ->. reflexivity.
    + apply (G (fun p => relative_distance rnd (fst p) (snd p)) (fun x => relative_distance rnd (computed_ x) (reference_ x))); [now symmetry|]. reflexivity.
    + rewrite <- O, rev_involutive. eapply (ssorted_flat _ lt); [|exact One|].
      * clear. generalize 0 as n. induction (length points) as [|m IH]; intros n; cbn [seq]; constructor; [apply IH|]. apply Forall_forall. intros j Hj. apply in_seq in Hj. lia.
      * intros i j a b _ _ R Ha Hb. assert (E : forall k c, In c (make_row rnd spacing t points k) -> at_ c = k).
        { intros k c. unfold make_row. destruct (nth k _ _). destruct (_ && _); [intros []|]. intros [<-|[]]. reflexivity. }
        rewrite (E i a Ha), (E j b Hb). exact R.
  - unfold shown. destruct (Nat.ltb_spec 12 (Datatypes.S (length (flat_map (make_row rnd spacing t points) (rev p))))), (Nat.leb_spec (length (flat_map (make_row rnd spacing t points) (rev p))) 11); try lia; [reflexivity|now rewrite firstn_all].
Qed.
Print Assumptions C128_order.

Lemma row_success rnd spacing t c r : isnan c && isnan r = false ->
  multi_success rnd spacing (t_absolute t) (t_relative t) (t_ulp t) c r =
  (flt (absolute_distance rnd c r) (fmul rnd (Num (t_relative t)) (largest c r)) || flt (absolute_distance rnd c r) (Num (t_absolute t)) || fle (ulp_distance rnd spacing c r) (Num (t_ulp t))).
Proof. intros N. unfold multi_success. rewrite N. reflexivity. Qed.

Lemma count_le l : count l <= length l.
Proof. unfold count. rewrite nonzero_length. induction l as [|[] l IH]; cbn; lia. Qed.
Lemma count_and l : forall l', count (map (fun p => fst p && snd p) (combine l l')) <= count l'.
Proof.
  unfold count. induction l as [|a l IH]; intros l'; cbn [combine map]; [cbn; lia|]. destruct l' as [|b l']; [cbn; lia|]. specialize (IH l'). rewrite !nonzero_length in *. cbn [combine map fst snd filter].
  destruct a, b; cbn [andb length] in *; lia.
Qed.

(** C128.  The head gives the number of points of the array and of the failures, which are the rows that pass none of the three comparisons; the columns counted as failed are among the
    changing ones, of which there are at most as many as columns. *)
Theorem C128_counts : forall rnd spacing t sort argsort three changing points h rows, sorts argsort ->
  multi_report rnd spacing t sort argsort three changing points = Some (h, rows) ->
  let failed := length (filter (fun x => negb (snd (absolute x) || snd (relative x) || snd (ulp x))) rows) in
  let total := length points in
  match h with
  | All bad full => bad = failed /\ full = total
  | Changing bad_columns columns bad changed full => bad = failed /\ full = total /\ bad_columns <= columns /\
      exists levels ch, three = Some levels /\ changing = Some ch /\ changed = length (filter (fun b => b) ch) /\ columns <= length ch / levels
  end.
Proof.
  intros rnd spacing t sort argsort three changing points h rows S. unfold multi_report. destruct (Nat.eqb _ 0); [discriminate|].
  destruct (order _ _ _ _ _) as [p|] eqn:O; [|discriminate]. intros [= <- <-]. apply order_perm in O; [|exact S].
  set (failed := length (filter _ _)). set (total := length points).
  assert (O' : Permutation (rev p) (seq 0 (length points))) by (eapply Permutation_trans; [symmetry; apply Permutation_rev|exact O]).
  set (success := map _ points).
  assert (B : length (failing success) = failed).
  { subst failed. unfold failing. rewrite nonzero_length. unfold success. rewrite map_map, filter_map_length. rewrite (filter_nth_length _ (NaN, NaN) points).
    rewrite (filter_flat_length _ _ (fun i => negb (multi_success rnd spacing (t_absolute t) (t_relative t) (t_ulp t) (fst (nth i points (NaN, NaN))) (snd (nth i points (NaN, NaN)))))).
    - apply Permutation_length, perm_filter. symmetry. exact O'.
    - intros i _. unfold make_row. destruct (nth i points (NaN, NaN)) as [c r]. cbn [fst snd]. destruct (isnan c && isnan r) eqn:N.
      + unfold multi_success. rewrite N. reflexivity.
      + rewrite row_success by exact N. cbn [filter absolute relative ulp snd]. rewrite (orb_comm (flt _ (fmul _ _ _))). destruct (_ || _ || _); reflexivity. }
  assert (T : length success = total) by (unfold success; apply map_length).
  unfold make_head. rewrite B, T. destruct three as [levels|]; [|auto]. destruct changing as [ch|]; [|auto]. split; [reflexivity|]. split; [reflexivity|]. split; [apply count_and|].
  exists levels, ch. split; [reflexivity|]. split; [reflexivity|]. split; [apply nonzero_length|]. etransitivity; [apply count_le|]. unfold column_map. rewrite map_length, seq_length. lia.
Qed.
Print Assumptions C128_counts.

(** C128.  A column is counted once, as changing if a point of the column changes, and as failed if besides a point of the column, that one or another, fails. *)
Lemma any_spec l : any l = true <-> exists k, k < length l /\ nth k l false = true.
Proof.
  induction l as [|b l IH]; cbn; [split; [discriminate|intros (k & H & _); lia]|]. rewrite orb_true_iff, IH. split.
  - intros [->|(k & H & E)]; [exists 0; split; [lia|reflexivity]|exists (S k); split; [lia|exact E]].
  - intros ([|k] & H & E); [now left|right; exists k; split; [lia|exact E]].
Qed.
Lemma nth_firstn_skipn (l : list bool) a m k : k < m -> nth k (firstn m (skipn a l)) false = nth (a + k) l false.
Proof.
  intros H. rewrite <- (firstn_skipn a l) at 2. destruct (Nat.le_gt_cases a (length l)) as [A|A].
  - rewrite app_nth2; rewrite firstn_length_le by exact A; [|lia]. replace (a + k - a) with k by lia. set (s := skipn a l). clearbody s. revert m k H. induction s as [|b s IH]; intros m k H; [rewrite firstn_nil; reflexivity|].
    destruct m; [lia|]. destruct k; [reflexivity|]. cbn. apply IH. lia.
  - rewrite skipn_all2 by lia. rewrite firstn_nil, app_nil_r. rewrite !nth_overflow; [reflexivity|rewrite firstn_length; lia|cbn; lia].
Qed.
Lemma column_spec levels n l c : length l = n * levels -> c < n ->
  (any (firstn levels (skipn (c * levels) l)) = true <-> exists k, k < levels /\ nth (c * levels + k) l false = true).
Proof.
  intros L H. assert (M : c * levels + levels <= n * levels) by (replace (c * levels + levels) with (S c * levels) by (cbn; lia); apply Nat.mul_le_mono_r; lia).
  rewrite any_spec. rewrite firstn_length, skipn_length, L. split; intros (k & K & E); exists k.
  - split; [lia|]. rewrite nth_firstn_skipn in E by lia. exact E.
  - split; [lia|]. rewrite nth_firstn_skipn by lia. exact E.
Qed.
Lemma count_filter {A} (f : A -> bool) l : count (map f l) = length (filter f l).
Proof. unfold count. rewrite nonzero_length. induction l as [|x l IH]; cbn; [reflexivity|]. destruct (f x); cbn; congruence. Qed.
Theorem C128_columns : forall rnd spacing t sort argsort levels n ch points bad_columns columns bad changed full rows,
  0 < levels -> length ch = n * levels -> length points = n * levels ->
  multi_report rnd spacing t sort argsort (Some levels) (Some ch) points = Some (Changing bad_columns columns bad changed full, rows) ->
  let changes c := exists k, k < levels /\ nth (c * levels + k) ch false = true in
  let fails c := exists k, k < levels /\ let '(x, y) := nth (c * levels + k) points (NaN, NaN) in multi_success rnd spacing (t_absolute t) (t_relative t) (t_ulp t) x y = false in
  (exists l, NoDup l /\ (forall c, In c l <-> c < n /\ changes c) /\ columns = length l) /\
  (exists l, NoDup l /\ (forall c, In c l <-> c < n /\ changes c /\ fails c) /\ bad_columns = length l).
Proof.
  intros rnd spacing t sort argsort levels n ch points bad_columns columns bad changed full rows P L1 L2 R changes fails.
  unfold multi_report in R. destruct (Nat.eqb _ 0); [discriminate|]. destruct (order _ _ _ _ _); [|discriminate]. unfold make_head in R. injection R as E1 E2 _ _ _ _.
  set (f := fun p : fl * fl => multi_success rnd spacing (t_absolute t) (t_relative t) (t_ulp t) (fst p) (snd p)) in *. unfold column_map in E1, E2. rewrite !map_length, L1 in *. rewrite L2 in E1. rewrite Nat.div_mul in * by lia.
  set (g := fun c => any (firstn levels (skipn (c * levels) ch))) in *. set (b := fun c => any (firstn levels (skipn (c * levels) (map negb (map f points))))) in *.
  assert (G : forall c, c < n -> (g c = true <-> changes c)) by (intros c H; apply column_spec with n; assumption).
  assert (B : forall c, c < n -> (b c = true <-> fails c)).
  { intros c H. unfold b. rewrite (column_spec levels n) by (rewrite ?map_length; assumption).
    assert (M : c * levels + levels <= n * levels) by (replace (c * levels + levels) with (S c * levels) by (cbn; lia); apply Nat.mul_le_mono_r; lia).
    unfold fails. split; intros (k & K & E); exists k; (split; [exact K|]); rewrite map_map in *.
    - rewrite (nth_indep _ false (negb (f (NaN, NaN)))) in E by (rewrite map_length; lia). rewrite map_nth with (f := fun p => negb (f p)) in E. destruct (nth _ points _) as [x y]. apply negb_true_iff in E. exact E.
    - rewrite (nth_indep _ false (negb (f (NaN, NaN)))) by (rewrite map_length; lia). rewrite map_nth with (f := fun p => negb (f p)). destruct (nth _ points _) as [x y]. apply negb_true_iff. exact E. }
  split.
  - exists (filter g (seq 0 n)). split; [apply NoDup_filter, seq_NoDup|]. split; [|rewrite <- E2; apply count_filter]. intros c. rewrite filter_In, in_seq. split; [intros [H1 H2]; split; [lia|apply G; [lia|exact H2]]|]. intros [H1 H2]. split; [lia|apply G; assumption].
  - exists (filter (fun c => b c && g c) (seq 0 n)). split; [apply NoDup_filter, seq_NoDup|]. split.
    + intros c. rewrite filter_In, in_seq, andb_true_iff. split; [intros [H1 [H2 H3]]; split; [lia|]; split; [apply G|apply B]; (assumption || lia)|]. intros (H1 & H2 & H3). split; [lia|]. split; [apply B|apply G]; assumption.
    + rewrite <- E1. assert (C : forall s : list nat, combine (map b s) (map g s) = map (fun c => (b c, g c)) s) by (induction s as [|c s IH]; cbn; [reflexivity|now rewrite IH]). rewrite C, map_map. cbn [fst snd]. apply count_filter.
Qed.
Print Assumptions C128_columns.
Example C128_columns_case : exists rows, forall argsort,
  multi_report (fun q => q) (fun _ => (1 # 1000000)%Q) (Thresholds (1 # 1000) (1 # 1000) 1) Index argsort (Some 2) (Some [true; false; false; true; false; false])
    [(Num 1, Num 1); (Num 3, Num 4); (Num 1, Num 1); (Num 1, Num 1); (Num 1, Num 2); (Num 1, Num 1)] = Some (Changing 1 2 2 2 6, rows).
Proof. eexists. intros argsort. vm_compute. reflexivity. Qed.

(** C128, refuted for the changing points: the failures given as a part of the changing points are the failures of all points (here 2 of 1). *)
Theorem C128_changing_refuted : exists points t changing bad_columns columns bad changed full rows,
  length points = 2 * 2 * 2 /\ length changing = 2 * 2 * 2 /\ changed < bad /\
  forall argsort, multi_report (fun q => q) (fun _ => (1 # 1000000)%Q) t Index argsort (Some 2) (Some changing) points = Some (Changing bad_columns columns bad changed full, rows).
Proof.
  exists [(Num 1, Num 2); (Num 3, Num 4); (Num 1, Num 1); (Num 1, Num 1); (Num 1, Num 1); (Num 1, Num 1); (Num 1, Num 1); (Num 1, Num 1)],
    (Thresholds (1 # 1000) (1 # 1000) 1), [true; false; false; false; false; false; false; false]. exists 1, 1, 2, 1, 8. eexists.
  split; [reflexivity|]. split; [reflexivity|]. split; [lia|]. intros argsort. vm_compute. reflexivity.
Qed.
Print Assumptions C128_changing_refuted.

(** C128.  Without points, which is no difference, or with an unknown way of sorting there is an exception; otherwise a report. *)
Theorem C128_exceptions : forall rnd spacing t sort argsort three changing points,
  multi_report rnd spacing t sort argsort three changing points = None <-> points = [] \/ sort = Unknown.
Proof.
  intros. unfold multi_report. rewrite map_length. destruct points as [|p points]; cbn [length Nat.eqb]; [split; auto|]. destruct sort; cbn [order]; split; try discriminate; auto; intros [?|?]; discriminate.
Qed.
Print Assumptions C128_exceptions.

Example C128_case : exists s, legacy_report (fun q => q) (1 # 100) None [Num 1; Num 2; Num 5; NaN] [Num 1; Num 3; Num 4; NaN] = Reported (Some s) /\
  failed s = 2 /\ of_ s = 4 /\ f_at (worst s) = 1 /\ map f_at (failures s) = [1; 2].
Proof. eexists. split; [vm_compute; reflexivity|]. repeat split; reflexivity. Qed.

(** Orders as np.argsort gives them exist: by insertion *)
Definition before (x y : fl) : bool := isnan y || fle x y.
Fixpoint put_in (d : list fl) (i : nat) (l : list nat) : list nat :=
  match l with [] => [i] | j :: l' => if before (nth i d NaN) (nth j d NaN) then i :: l else j :: put_in d i l' end.
Definition by_insertion (d : list fl) : list nat := fold_right (put_in d) [] (seq 0 (length d)).
Lemma before_spec x y : before x y = true <-> not_after x y.
Proof. unfold before, not_after. destruct y; cbn; split; auto; intros [H|H]; try discriminate; exact H. Qed.
Lemma before_total x y : before x y = false -> not_after y x.
Proof.
  unfold before, not_after. destruct x as [|[]|a], y as [|[]|b]; cbn; auto; try discriminate. intros E. right. apply Qle_bool_iff. apply Qlt_le_weak, Qnot_le_lt.
  intros H. apply Qle_bool_iff in H. congruence.
Qed.
Lemma not_after_trans x y z : not_after x y -> not_after y z -> not_after x z.
Proof. intros [->|A] [->|B]; unfold not_after; auto; [destruct z; discriminate B|]. right. eapply fle_trans; eassumption. Qed.
Lemma by_insertion_sorts : sorts by_insertion.
Proof.
  intros d. unfold by_insertion. assert (P : forall i l, Permutation (put_in d i l) (i :: l)).
  { intros i l. induction l as [|j l IH]; cbn [put_in]; [apply Permutation_refl|]. destruct (before _ _); [apply Permutation_refl|]. rewrite IH. constructor. }
  split.
  - induction (seq 0 (length d)) as [|i l IH]; cbn [fold_right]; [constructor|]. rewrite P. now constructor.
  - induction (seq 0 (length d)) as [|i l IH]; cbn [fold_right]; [constructor|]. revert IH. generalize (fold_right (put_in d) [] l) as m. clear l. induction m as [|j m IH]; intros H; cbn [put_in map].
    + repeat constructor.
    + destruct (before (nth i d NaN) (nth j d NaN)) eqn:E; cbn [map] in *.
      * constructor; [exact H|]. apply before_spec in E. apply StronglySorted_inv in H as [_ H]. constructor; [exact E|]. eapply Forall_impl; [|exact H]. intros y Hy. eapply not_after_trans; eassumption.
      * apply StronglySorted_inv in H as [H F]. constructor; [auto|]. apply Forall_forall. intros y Hy. apply in_map_iff in Hy as (k & <- & Hk). apply (Permutation_in _ (P i m)) in Hk as [<-|Hk].
        -- now apply before_total.
        -- rewrite Forall_forall in F. apply F, in_map_iff. exists k. auto.
Qed.
Example C128_multi_case : sorts by_insertion /\ exists h rows,
  multi_report (fun q => q) (fun _ => (1 # 1000000)%Q) (Thresholds (1 # 1000) (1 # 1000) 1) Ulp by_insertion None None [(Num 1, Num 2); (NaN, NaN); (Num 3, Num 3); (Num 1, NaN)] = Some (h, rows) /\
  h = All 2 4 /\ map at_ rows = [3; 0; 2].
Proof. split; [exact by_insertion_sorts|]. eexists. eexists. split; [vm_compute; reflexivity|]. split; reflexivity. Qed.
