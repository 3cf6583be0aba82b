(** C123: basic stencils and functions *)
From Coq Require Import ZArith Reals Lra Lia List Bool.
From Flocq Require Import Core BinarySingleNaN.
From Verif Require Import Base OpsModel OpsProofs.
Import ListNotations.
Local Open Scope Z_scope.

(** ** specification: the points of the domain *)
Definition in_domain (d : domain) (i j k : Z) : Prop := i0 d <= i < i0 d + ni d /\ j0 d <= j < j0 d + nj d /\ k0 d <= k < k0 d + nk d.
Definition in_columns (d : domain) (i j : Z) : Prop := i0 d <= i < i0 d + ni d /\ j0 d <= j < j0 d + nj d.
(** r is the field q with the values v at the points of the domain and nothing else changed *)
Definition exactly {V} (d : domain) (q v r : Z -> Z -> Z -> V) : Prop :=
  forall i j k, (in_domain d i j k -> r i j k = v i j k) /\ (~ in_domain d i j k -> r i j k = q i j k).
Lemma plane_true d i j : in_plane d i j = true <-> in_columns d i j.
Proof. unfold in_plane, in_columns. lia. Qed.
Lemma parallel_exactly {V} d (v q : Z -> Z -> Z -> V) : exactly d q v (parallel d v q).
Proof.
  intros i j k. unfold parallel. destruct (_ && _) eqn:E; [split; [reflexivity|]|split; [|reflexivity]]; intros H.
  - exfalso. apply H. apply andb_prop in E. destruct E as [E1 E2]. apply plane_true in E1. unfold in_domain, in_columns, in_levels in *. lia.
  - exfalso. apply not_true_iff_false in E. apply E. apply andb_true_iff. rewrite plane_true. unfold in_domain, in_columns, in_levels in *. lia.
Qed.

Theorem C123_copy {V} d (q_in q_out : Z -> Z -> Z -> V) : exactly d q_out q_in (copy d q_in q_out).
Proof. apply parallel_exactly. Qed.
Theorem C123_set_value {V} d (q_out : Z -> Z -> Z -> V) x : exactly d q_out (fun _ _ _ => x) (set_value d q_out x).
Proof. apply parallel_exactly. Qed.
Theorem C123_set_value_2D {V} d (b : Z -> Z -> V) x : 1 <= nk d -> exists r, set_value_2D d b x = Some r
  /\ forall i j, (in_columns d i j -> r i j = x) /\ (~ in_columns d i j -> r i j = b i j).
Proof.
  intros N. unfold set_value_2D. destruct (Z.ltb_spec (nk d) 1); [lia|]. eexists. split; [reflexivity|]. intros i j. rewrite forward_snoc by lia. rewrite forward_nil by lia. unfold assign_ij.
  rewrite andb_true_r. destruct (in_plane d i j) eqn:P.
  - apply plane_true in P. tauto.
  - assert (~ in_columns d i j) by (rewrite <- plane_true; congruence). tauto.
Qed.
(** a level for each column: the last one of the domain whose number in k_mask is the selected one; columns without one keep their value *)
Theorem C123_select {V} d (f : Z -> Z -> Z -> V) out mask sel i j : 0 <= nk d ->
  let r := select_k d f out mask sel in
  (in_columns d i j -> forall k, in_domain d i j k -> mask i j k = sel i j -> (forall k', in_domain d i j k' -> k < k' -> mask i j k' <> sel i j) -> r i j = f i j k)
  /\ (in_columns d i j -> (forall k, in_domain d i j k -> mask i j k <> sel i j) -> r i j = out i j)
  /\ (~ in_columns d i j -> r i j = out i j).
Proof.
  intros N. cbv zeta. unfold select_k. assert (H := select_up d f out mask sel i j (Z.to_nat (nk d))). cbv zeta in H. rewrite Z2Nat.id in H by exact N. destruct H as (H1 & H2 & H3). split; [|split].
  - intros C k (_ & _ & K) M U. apply H3; [now apply plane_true|exact K|exact M|]. intros k' K'. apply U; [|lia]. destruct C. unfold in_domain. lia.
  - intros C U. apply H2; [now apply plane_true|]. intros k K. apply U. destruct C. unfold in_domain. lia.
  - intros C. apply H1. rewrite <- plane_true in C. now destruct (in_plane d i j).
Qed.
(** with a mask that lists the levels, the selected level *)
Theorem C123_select_level {V} d (f : Z -> Z -> Z -> V) out sel i j : in_columns d i j -> 0 <= sel i j < nk d ->
  select_k d f out (fun _ _ k => k - k0 d) sel i j = f i j (k0 d + sel i j).
Proof.
  intros C S. destruct (C123_select d f out (fun _ _ k => k - k0 d) sel i j ltac:(lia)) as [H _]. apply (H C); [|lia|].
  - destruct C. unfold in_domain. lia.
  - intros k' _ K. lia.
Qed.

Section Float.
Context (prec emax : Z) (P0 : Prec_gt_0 prec) (PE : Prec_lt_emax prec emax).
Notation float := (binary_float prec emax).
Notation rnd := (round radix2 (FLT_exp (3 - emax - prec) prec) ZnearestE).
Theorem C123_adjust d (a : Z -> Z -> float) q : exactly d q (fun i j k => Bmult mode_NE (q i j k) (a i j)) (adjustmentfactor d a q).
Proof. apply parallel_exactly. Qed.
Theorem C123_divide d (a q : Z -> Z -> Z -> float) : exactly d q (fun i j k => Bdiv mode_NE (q i j k) (a i j k)) (adjust_divide d a q).
Proof. apply parallel_exactly. Qed.
(** the mean lies between the two numbers; so the mean of equal numbers is that number.  missing: sums out of range (C123_average_refuted) *)
Theorem C123_average_partial d (q a : Z -> Z -> Z -> float) : 1 < prec -> forall i j k,
  (in_domain d i j k -> is_finite (q i j k) = true -> is_finite (a i j k) = true -> (Rabs (rnd (B2R (q i j k) + B2R (a i j k))) < bpow radix2 emax)%R ->
    is_finite (average_in d q a i j k) = true /\ (Rmin (B2R (q i j k)) (B2R (a i j k)) <= B2R (average_in d q a i j k) <= Rmax (B2R (q i j k)) (B2R (a i j k)))%R)
  /\ (~ in_domain d i j k -> average_in d q a i j k = q i j k).
Proof.
  intros P i j k. destruct (parallel_exactly d (fun i j k => average (q i j k) (a i j k)) q i j k) as [H1 H2]. split; [|exact H2].
  intros I F1 F2 O. change (average_in d q a i j k) with (parallel d (fun i j k => average (q i j k) (a i j k)) q i j k). rewrite (H1 I). now apply average_ok.
Qed.
(** sign: the size of a; the sign of b, if b has one.  missing: b = +0 (C123_sign_refuted) *)
Theorem C123_sign_partial (a b : float) : Babs (sign a b) = Babs a
  /\ (is_nan a = false -> is_nan b = false -> (forall s, b <> B754_zero s) -> Bsign (sign a b) = Bsign b).
Proof.
  split; [unfold sign; destruct (positive b), a; reflexivity|]. intros NA NB Z0. unfold sign.
  assert (E : positive b = negb (Bsign b)) by (destruct b as [s|[|]| |[|] m e H]; try discriminate NB; try reflexivity; now destruct (Z0 s)).
  rewrite E. destruct (Bsign b), a; try discriminate NA; reflexivity.
Qed.
(** dim: nothing if a <= b, the rounded difference, and more than nothing, if a > b *)
Theorem C123_dim (a b : float) : is_finite a = true -> is_finite b = true ->
  ((B2R a <= B2R b)%R -> is_finite (dim a b) = true /\ B2R (dim a b) = 0%R)
  /\ ((B2R b < B2R a)%R -> dim a b = B754_infinity false \/ is_finite (dim a b) = true /\ B2R (dim a b) = rnd (B2R a - B2R b)%R /\ (0 < B2R (dim a b))%R).
Proof. apply dim_ok. Qed.
End Float.
Print Assumptions C123_copy.
Print Assumptions C123_set_value.
Print Assumptions C123_set_value_2D.
Print Assumptions C123_select.
Print Assumptions C123_select_level.
Print Assumptions C123_adjust.
Print Assumptions C123_divide.
Print Assumptions C123_average_partial.
Print Assumptions C123_sign_partial.
Print Assumptions C123_dim.

(** ** doubles *)
Global Instance double_prec : Prec_gt_0 53 := eq_refl.
Global Instance double_emax : Prec_lt_emax 53 1024 := eq_refl.
Notation double := (binary_float 53 1024).
Definition two_to (e : Z) : double := Bldexp mode_NE Bone e.
(** the mean of two large numbers is infinite *)
Theorem C123_average_refuted : exists q : double, is_finite q = true /\ average q q = B754_infinity false.
Proof.
  exists (two_to 1023). split; [vm_compute; reflexivity|].
  assert (E : B2SF (average (two_to 1023) (two_to 1023)) = SpecFloat.S754_infinity false) by (vm_compute; reflexivity).
  destruct (average _ _); try discriminate E. injection E as ->. reflexivity.
Qed.
Print Assumptions C123_average_refuted.
(** the sign of +0 is taken to be negative *)
Theorem C123_sign_refuted : exists a b : double, is_finite a = true /\ is_nan b = false /\ Bsign b = false /\ Bsign (sign a b) = true.
Proof. exists (two_to 0), (B754_zero false). repeat split; vm_compute; reflexivity. Qed.
Print Assumptions C123_sign_refuted.
(** multiplying and dividing by the same number does not give the first number back *)
Theorem C123_inverse_refuted : exists (d : domain) (q a : Z -> Z -> Z -> double), in_domain d 0 0 0 /\ is_finite (q 0 0 0) = true /\ Beqb (a 0 0 0) (B754_zero false) = false /\ is_finite (a 0 0 0) = true
  /\ Beqb (adjust_divide d a (adjustmentfactor d (fun i j => a i j 0) q) 0 0 0) (q 0 0 0) = false.
Proof.
  exists (Dom 0 1 0 1 0 1), (fun _ _ _ => two_to 1000), (fun _ _ _ => two_to 1000). split; [unfold in_domain; cbn; lia|]. repeat split; vm_compute; reflexivity.
Qed.
Print Assumptions C123_inverse_refuted.

(** cases *)
Example C123_select_case : map (fun i => select_k (Dom 1 3 0 1 2 4) (fun i j k => 100 * i + k) (fun i j => -1) (fun i j k => k - 2) (fun i j => i) i 0) [0; 1; 2; 3; 4] = [-1; 103; 204; 305; -1].
Proof. reflexivity. Qed.
Example C123_select_outside : select_k (Dom 0 1 0 1 0 3) (fun i j k => k) (fun i j => -1) (fun i j k => k) (fun i j => 7) 0 0 = -1.
Proof. reflexivity. Qed.
Example C123_average_case : B2SF (average (two_to 3) (two_to 1)) = B2SF (Bplus mode_NE (two_to 2) (two_to 0)) /\ (1 < 53).
Proof. split; [vm_compute; reflexivity|lia]. Qed.
Example C123_sign_case : B2SF (sign (two_to 3) (Bopp (two_to (-1074)))) = B2SF (Bopp (two_to 3)) /\ B2SF (sign (Bopp (two_to 3)) (two_to 0)) = B2SF (two_to 3).
Proof. split; vm_compute; reflexivity. Qed.
Example C123_dim_case : B2SF (dim (two_to (-1074)) (Bopp (two_to (-1074)))) = B2SF (two_to (-1073)) /\ B2SF (dim (two_to 0) (two_to 1)) = SpecFloat.S754_zero false.
Proof. split; vm_compute; reflexivity. Qed.
