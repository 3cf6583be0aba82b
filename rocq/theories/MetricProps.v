(** C48: comparison metrics pass iff values agree. *)
From Verif Require Import Base MetricModel.
From Coq Require Import Qfield Lqa.
Local Open Scope Q_scope.

Lemma qlt_spec a b : qlt a b = true <-> a < b.
Proof.
  unfold qlt. rewrite negb_true_iff. split; intros H.
  - apply Qnot_le_lt. intros L. apply Qle_bool_iff in L. congruence.
  - destruct (Qle_bool b a) eqn:E; [|reflexivity]. apply Qle_bool_iff in E. exfalso. apply (Qlt_not_le _ _ H E).
Qed.
Lemma qlt_false a b : qlt a b = false <-> b <= a.
Proof. unfold qlt. rewrite negb_false_iff. apply Qle_bool_iff. Qed.
Lemma qeq0 a : Qeq_bool a 0 = true <-> a == 0.
Proof. apply Qeq_bool_iff. Qed.
Lemma qeq0_false a : Qeq_bool a 0 = false <-> ~ a == 0.
Proof. rewrite <- qeq0. destruct (Qeq_bool a 0); intuition congruence. Qed.

(** finite or NaN *)
Definition no_inf (x : fl) : Prop := match x with Inf _ => False | _ => True end.

(** Equal data pass, for every rounding, every tolerance above 0: NaN agrees with NaN, a number with itself. (Infinities: see
    the refutation.) *)
Theorem C48_equal_partial : forall rnd spacing eps near_zero absolute relative ulp (l : list fl),
  (forall q, q == 0 -> rnd q == 0) -> 0 < eps -> 0 < absolute -> Forall no_inf l ->
  check (legacy_success rnd eps near_zero) l l = true /\ check (multi_success rnd spacing absolute relative ulp) l l = true.
Proof.
  intros rnd sp eps nz a r u l R E A F. unfold check.
  assert (K : forall x, no_inf x -> legacy_success rnd eps nz x x = true /\ multi_success rnd sp a r u x x = true).
  { intros x Hx. unfold legacy_success, multi_success. destruct x as [|s|q]; [auto|destruct Hx|]. cbn [isnan andb orb].
    assert (S : rnd (q + - q) == 0) by (apply R; ring). split.
    - apply orb_true_iff. left. cbn [feq0]. destruct (Qeq_bool q 0) eqn:Z.
      + cbn. rewrite (proj2 (qlt_spec _ _)); [reflexivity|]. rewrite R; [exact E|]. rewrite S. field.
      + cbn. rewrite Z. cbn. rewrite (proj2 (qlt_spec _ _)); [reflexivity|]. rewrite R; [exact E|]. rewrite S.
        apply qeq0_false in Z. field. exact Z.
    - apply orb_true_iff. left. apply orb_true_iff. right. cbn. apply qlt_spec. rewrite S. exact A. }
  split; (induction l as [|x l IH]; cbn [combine forallb fst snd]; [reflexivity|]; apply Forall_cons_iff in F; destruct F as [F1 F2];
    rewrite (IH F2); destruct (K x F1) as [K1 K2]; rewrite ?K1, ?K2; reflexivity).
Qed.
Print Assumptions C48_equal_partial.
Example C48_equal_case : Forall no_inf [NaN; Num (7 # 3); Num 0] /\
  check (multi_success (fun q => q) (fun _ => 1) f64_absolute (1 # 1000000) 1) [NaN; Num (7 # 3)] [NaN; Num (7 # 3)] = true.
Proof. split; [repeat constructor|reflexivity]. Qed.

(** In exact arithmetic the legacy metric passes for numbers exactly when they agree to the relative tolerance (absolute when
    the reference is 0), or both are near zero when that is asked for. *)
Theorem C48_legacy_tolerance : forall eps near_zero c r,
  legacy_success (fun q => q) eps near_zero (Num c) (Num r) = true <->
  (r == 0 /\ Qabs (c - r) < eps) \/ (~ r == 0 /\ Qabs (c - r) < eps * Qabs r) \/
  (exists z, near_zero = Some z /\ Qabs c < z /\ Qabs r < z).
Proof.
  intros eps nz c r. unfold legacy_success. cbn [isnan andb orb feq0]. rewrite orb_true_iff.
  assert (N : match nz with Some z => flt (fabs (Num c)) (Num z) && flt (fabs (Num r)) (Num z) | None => false end = true <->
              exists z, nz = Some z /\ Qabs c < z /\ Qabs r < z).
  { destruct nz as [z|]; cbn.
    - rewrite andb_true_iff, !qlt_spec. split; [intros []; exists z; auto|]. intros (z' & [= <-] & H). exact H.
    - split; [discriminate|]. intros (z & H & _). discriminate. }
  rewrite N. assert (M : flt (fabs (fdiv (fun q => q) (fsub (fun q => q) (Num c) (Num r)) (if Qeq_bool r 0 then Num 1 else Num r))) (Num eps) = true <->
    (r == 0 /\ Qabs (c - r) < eps) \/ (~ r == 0 /\ Qabs (c - r) < eps * Qabs r)).
  { destruct (Qeq_bool r 0) eqn:Z.
    - cbn. rewrite qlt_spec. apply qeq0 in Z. assert (E : Qabs ((c + - r) / 1) == Qabs (c - r)) by (apply Qabs_wd; field). rewrite E. intuition.
    - cbn. rewrite Z. cbn. rewrite qlt_spec. apply qeq0_false in Z.
      assert (P : 0 < Qabs r).
      { destruct (Qlt_le_dec 0 (Qabs r)) as [|L]; [assumption|]. exfalso. apply Z.
        pose proof (Qle_Qabs r). pose proof (Qle_Qabs (- r)) as H'. rewrite Qabs_opp in H'. lra. }
      assert (E : Qabs ((c + - r) / r) == Qabs (c - r) / Qabs r).
      { unfold Qdiv. rewrite Qabs_Qmult, Qabs_Qinv. reflexivity. }
      rewrite E. split.
      + intros H. right. split; [exact Z|]. apply (Qmult_lt_r _ _ (Qabs r)) in H; [|exact P].
        assert (Q1 : Qabs (c - r) / Qabs r * Qabs r == Qabs (c - r)) by (field; lra). rewrite Q1 in H. exact H.
      + intros [[H _]|[_ H]]; [contradiction|]. apply (Qmult_lt_r _ _ (Qabs r)); [exact P|].
        assert (Q1 : Qabs (c - r) / Qabs r * Qabs r == Qabs (c - r)) by (field; lra). rewrite Q1. exact H. }
  rewrite M. tauto.
Qed.
Print Assumptions C48_legacy_tolerance.
Example C48_legacy_case :
  legacy_success (fun q => q) (1 # 100) None (Num 101) (Num 102) = true /\ legacy_success (fun q => q) (1 # 100) None (Num 101) (Num 99) = false.
Proof. split; reflexivity. Qed.

Lemma fmax_num a b : fmax (Num a) (Num b) = Num (if qlt a b then b else a).
Proof. unfold fmax. cbn. now destruct (qlt a b). Qed.

(** In exact arithmetic the multi-modal metric passes for numbers exactly when one of the three distances is within its
    tolerance. *)
Theorem C48_multi_tolerance : forall spacing absolute relative ulp c r,
  (forall q, 0 < spacing q) ->
  let m := if qlt (Qabs c) (Qabs r) then Qabs r else Qabs c in
  multi_success (fun q => q) spacing absolute relative ulp (Num c) (Num r) = true <->
  Qabs (c - r) < absolute \/ Qabs (c - r) < relative * m \/ Qabs (c - r) <= ulp * spacing m.
Proof.
  intros sp a rel u c r P m. unfold multi_success. cbn [isnan andb orb fabs]. rewrite fmax_num. fold m.
  cbn [fsub fadd fneg fabs fmul fspacing fdiv flt]. specialize (P m).
  assert (Z : Qeq_bool (sp m) 0 = false) by (apply qeq0_false; lra). rewrite Z. cbn [fle].
  rewrite !orb_true_iff, !qlt_spec, Qle_bool_iff. fold (c - r).
  assert (U : Qabs (c - r) / sp m <= u <-> Qabs (c - r) <= u * sp m).
  { assert (Q1 : Qabs (c - r) / sp m * sp m == Qabs (c - r)) by (field; lra). split; intros H.
    - apply (Qmult_le_compat_r _ _ (sp m)) in H; [|lra]. rewrite Q1 in H. exact H.
    - apply (Qmult_le_r _ _ (sp m)); [exact P|]. rewrite Q1. exact H. }
  rewrite U. tauto.
Qed.
Print Assumptions C48_multi_tolerance.
Example C48_multi_case :
  multi_success (fun q => q) (fun _ => 1 # 1024) f64_absolute (1 # 1000000) 1 (Num 1) (Num (1025 # 1024)) = true /\
  multi_success (fun q => q) (fun _ => 1 # 1024) f64_absolute (1 # 1000000) 1 (Num 1) (Num (1027 # 1024)) = false.
Proof. split; reflexivity. Qed.

(** A NaN on one side only fails, whatever the tolerances and the rounding. *)
Theorem C48_nan_fails : forall rnd spacing eps near_zero absolute relative ulp x,
  x <> NaN ->
  legacy_success rnd eps near_zero x NaN = false /\ legacy_success rnd eps near_zero NaN x = false /\
  multi_success rnd spacing absolute relative ulp x NaN = false /\ multi_success rnd spacing absolute relative ulp NaN x = false.
Proof.
  intros rnd sp eps nz a r u x N.
  assert (X : fsub rnd x NaN = NaN) by (destruct x; reflexivity).
  assert (I : isnan x = false) by (destruct x; [congruence|reflexivity|reflexivity]).
  unfold legacy_success, multi_success. rewrite X. cbn. rewrite I. cbn.
  assert (D : forall y, fdiv rnd NaN y = NaN) by reflexivity. rewrite ?D. cbn.
  assert (F : forall y, flt y NaN = false) by (destruct y; reflexivity).
  assert (M : fmax (fabs x) NaN = NaN) by (unfold fmax; cbn; now rewrite orb_true_r). rewrite ?M. cbn.
  repeat split; destruct nz; auto. now rewrite andb_false_r.
Qed.
Print Assumptions C48_nan_fails.
Example C48_nan_case : multi_success (fun q => q) (fun _ => 1) 1000 1000 1000 (Num 3) NaN = false.
Proof. reflexivity. Qed.

(** Booleans, legacy metric: passes iff equal, for every tolerance in (0, 1]. *)
Theorem C48_legacy_bool : forall eps c r, 0 < eps -> eps <= 1 -> (legacy_success_bool eps c r = true <-> c = r).
Proof.
  intros eps c r H H1. unfold legacy_success_bool. rewrite qlt_spec. destruct c, r; cbn; split; intros E; try reflexivity; try discriminate; lra.
Qed.
Print Assumptions C48_legacy_bool.
Example C48_legacy_bool_case : legacy_success_bool (1 # 10) true true = true /\ legacy_success_bool (1 # 10) true false = false.
Proof. split; reflexivity. Qed.

(** Finding: for booleans the multi-modal metric passes exactly when the values differ, everywhere. *)
Theorem C48_bool_refuted :
  (forall c r, multi_success_bool c r = true <-> c <> r) /\
  (exists l, check multi_success_bool l l = false) /\
  (exists c r, c <> r /\ length c = length r /\ check multi_success_bool c r = true).
Proof.
  split; [|split].
  - intros [] []; cbn; intuition congruence.
  - exists [true; false]. reflexivity.
  - exists [true; false], [false; true]. split; [discriminate|]. split; reflexivity.
Qed.
Print Assumptions C48_bool_refuted.

(** Finding: equal infinities fail in both metrics, for every rounding and tolerance; and with the legacy tolerance 0 equal
    numbers fail. *)
Theorem C48_equal_refuted :
  (forall rnd spacing eps near_zero absolute relative ulp s,
     legacy_success rnd eps near_zero (Inf s) (Inf s) = false /\ multi_success rnd spacing absolute relative ulp (Inf s) (Inf s) = false) /\
  (exists q, legacy_success (fun q => q) 0 None (Num q) (Num q) = false).
Proof.
  split.
  - intros rnd sp eps nz a r u s. unfold legacy_success, multi_success. destruct s, nz; cbn; auto.
  - exists 1. reflexivity.
Qed.
Print Assumptions C48_equal_refuted.

(** ** thresholds over a sequence of comparisons *)
Lemma raised_to_max v o : v <= raised_to v o /\ o <= raised_to v o /\ (raised_to v o = v \/ raised_to v o = o).
Proof.
  unfold raised_to. destruct (qlt v o) eqn:E.
  - apply qlt_spec in E. split; [lra|]. split; [lra|auto].
  - apply qlt_false in E. split; [lra|]. split; [lra|auto].
Qed.

(** The relative and ulp tolerances in force after any sequence of comparisons: the largest ever asked for (or the default). *)
Theorem C48_thresholds_exact : forall os,
  let k := after os in
  (relative_fraction fresh_class <= relative_fraction k /\ (forall o, In o os -> o_rel o <= relative_fraction k) /\
   (relative_fraction k = relative_fraction fresh_class \/ exists o, In o os /\ relative_fraction k = o_rel o)) /\
  (ulp_threshold fresh_class <= ulp_threshold k /\ (forall o, In o os -> o_ulp o <= ulp_threshold k) /\
   (ulp_threshold k = ulp_threshold fresh_class \/ exists o, In o os /\ ulp_threshold k = o_ulp o)).
Proof.
  induction os as [|o os IH]; cbv zeta in *.
  - cbn [after]. split; (split; [apply Qle_refl|]; split; [intros o []|now left]).
  - cbn [after]. set (k := after os) in *. destruct IH as [(A1 & A2 & A3) (B1 & B2 & B3)]. cbn [construct fst relative_fraction ulp_threshold].
    destruct (raised_to_max (relative_fraction k) (o_rel o)) as (R1 & R2 & R3).
    destruct (raised_to_max (ulp_threshold k) (o_ulp o)) as (U1 & U2 & U3). split.
    + split; [eapply Qle_trans; eauto|]. split.
      * intros o' [<-|I]; [exact R2|]. eapply Qle_trans; eauto.
      * destruct R3 as [-> | ->]; [|right; exists o; split; [now left|reflexivity]].
        destruct A3 as [->|(o' & I & ->)]; [now left|right; exists o'; split; [now right|reflexivity]].
    + split; [eapply Qle_trans; eauto|]. split.
      * intros o' [<-|I]; [exact U2|]. eapply Qle_trans; eauto.
      * destruct U3 as [-> | ->]; [|right; exists o; split; [now left|reflexivity]].
        destruct B3 as [->|(o' & I & ->)]; [now left|right; exists o'; split; [now right|reflexivity]].
Qed.
Print Assumptions C48_thresholds_exact.
(** The absolute tolerance is that of this comparison (if it is above the default). *)
Theorem C48_absolute_own : forall d k o, d < o_abs o -> fst (fst (snd (construct d k o))) = o_abs o.
Proof. intros d k o H. cbn. unfold raised_to. apply qlt_spec in H. now rewrite H. Qed.
Print Assumptions C48_absolute_own.
Example C48_absolute_case : f64_absolute < o_abs (mkOv (1 # 10) (-1) (-1)).
Proof. reflexivity. Qed.

(** Finding: a comparison without overrides is done with the tolerance of an earlier one; values it should reject pass.  And
    a tolerance below the default is ignored. *)
Theorem C48_own_tolerance_refuted :
  (exists earlier c r spacing,
     let none := mkOv (-1) (-1) (-1) in
     let used k := snd (construct f64_absolute k none) in
     let success t := multi_success (fun q => q) spacing (fst (fst t)) (snd (fst t)) (snd t) (Num c) (Num r) in
     success (used fresh_class) = false /\ success (used (after [earlier])) = true) /\
  (exists o, 0 < o_rel o /\ o_rel o < snd (fst (snd (construct f64_absolute fresh_class o)))).
Proof.
  split.
  - exists (mkOv (-1) (1 # 2) (-1)), 2, 3, (fun _ => 1 # 1024). cbv zeta. split; reflexivity.
  - exists (mkOv (-1) (1 # 100000000) (-1)). split; reflexivity.
Qed.
Print Assumptions C48_own_tolerance_refuted.
