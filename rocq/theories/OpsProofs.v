(** Lemmas about OpsModel.v *)
From Coq Require Import ZArith Reals Lra Lia List Bool.
From Flocq Require Import Core BinarySingleNaN Plus_error.
From Verif Require Import Base OpsModel.
Import ListNotations.
Local Open Scope Z_scope.

(** ** levels *)
Lemma forward_snoc {S} a b (step : Z -> S -> S) s : a <= b -> forward a (b + 1) step s = step b (forward a b step s).
Proof. intros L. unfold forward. rewrite zrange_snoc by exact L. now rewrite fold_left_app. Qed.
Lemma forward_nil {S} a b (step : Z -> S -> S) s : b <= a -> forward a b step s = s.
Proof. intros L. unfold forward. now rewrite zrange_nil by exact L. Qed.
Lemma select_up {V} d (f : Z -> Z -> Z -> V) out mask sel i j : forall n : nat,
  let r := forward (k0 d) (k0 d + Z.of_nat n) (fun k => assign_ij d (fun i j => mask i j k =? sel i j) (fun i j => f i j k)) out i j in
  (in_plane d i j = false -> r = out i j)
  /\ (in_plane d i j = true -> (forall k, k0 d <= k < k0 d + Z.of_nat n -> mask i j k <> sel i j) -> r = out i j)
  /\ (in_plane d i j = true -> forall k, k0 d <= k < k0 d + Z.of_nat n -> mask i j k = sel i j -> (forall k', k < k' < k0 d + Z.of_nat n -> mask i j k' <> sel i j) -> r = f i j k).
Proof.
  induction n as [|n IH]; intros r.
  - unfold r. rewrite forward_nil by lia. split; [reflexivity|]. split; [reflexivity|]. intros _ k K. lia.
  - cbv zeta in IH. destruct IH as (I1 & I2 & I3).
    assert (E : r = if in_plane d i j && (mask i j (k0 d + Z.of_nat n) =? sel i j) then f i j (k0 d + Z.of_nat n)
      else forward (k0 d) (k0 d + Z.of_nat n) (fun k => assign_ij d (fun i j => mask i j k =? sel i j) (fun i j => f i j k)) out i j).
    { unfold r. replace (k0 d + Z.of_nat (S n)) with (k0 d + Z.of_nat n + 1) by lia. rewrite forward_snoc by lia. reflexivity. }
    rewrite E. clear E r. replace (k0 d + Z.of_nat (S n)) with (k0 d + Z.of_nat n + 1) by lia.
    destruct (in_plane d i j) eqn:P; cbn [andb].
    + split; [discriminate|]. split; intros _; destruct (Z.eqb_spec (mask i j (k0 d + Z.of_nat n)) (sel i j)) as [E|E].
      * intros H. exfalso. apply (H (k0 d + Z.of_nat n)); [lia|exact E].
      * intros H. apply I2; [reflexivity|]. intros k K. apply H. lia.
      * intros k K M H. destruct (Z.eq_dec k (k0 d + Z.of_nat n)) as [->|N]; [reflexivity|]. exfalso. apply (H (k0 d + Z.of_nat n)); [lia|exact E].
      * intros k K M H. destruct (Z.eq_dec k (k0 d + Z.of_nat n)) as [->|N]; [contradiction|]. apply I3; [reflexivity|lia|exact M|]. intros k' K'. apply H. lia.
    + split; [intros _; now apply I1|]. split; discriminate.
Qed.

(** ** numbers *)
Section Float.
Context (prec emax : Z) (P0 : Prec_gt_0 prec) (PE : Prec_lt_emax prec emax).
Hypothesis prec_two : 1 < prec.
Notation float := (binary_float prec emax).
Notation fexp := (SpecFloat.fexp prec emax).
Notation rnd := (round radix2 fexp ZnearestE).
Local Instance fexp_valid : Valid_exp fexp := fexp_correct prec emax P0.
Local Open Scope R_scope.

Lemma half_is : B2R (half : float) = / 2 /\ is_finite (half : float) = true.
Proof.
  unfold half. assert (C := Bldexp_correct prec emax P0 PE mode_NE Bone (-1)). cbn [round_mode] in C. rewrite Bone_correct, Rmult_1_l in C.
  rewrite round_generic in C; [|apply valid_rnd_N|].
  - change (bpow radix2 (-1)) with (/ 2) in C. rewrite Rlt_bool_true in C.
    + destruct C as (C1 & C2 & _). split; [exact C1|]. rewrite C2. apply is_finite_Bone.
    + rewrite Rabs_pos_eq by lra. apply Rlt_trans with (bpow radix2 0); [cbn; lra|]. apply bpow_lt. unfold Prec_lt_emax, Prec_gt_0 in *. lia.
  - apply generic_format_bpow. unfold SpecFloat.fexp, SpecFloat.emin. unfold Prec_lt_emax, Prec_gt_0 in *. lia.
Qed.
Lemma double_format x : generic_format radix2 fexp x -> generic_format radix2 fexp (2 * x).
Proof.
  intros F. change fexp with (FLT_exp (SpecFloat.emin prec emax) prec) in *. apply FLT_format_generic in F; [|exact P0]. destruct F as [f E1 E2 E3]. apply generic_format_FLT. exists (Float radix2 (Fnum f) (Fexp f + 1)).
  - rewrite E1. unfold F2R. cbn [Fnum Fexp]. rewrite bpow_plus. change (bpow radix2 1) with 2. ring.
  - exact E2.
  - cbn [Fexp]. lia.
Qed.
Lemma sum_between x y : generic_format radix2 fexp x -> generic_format radix2 fexp y -> Rmin x y <= rnd (rnd (x + y) * / 2) <= Rmax x y.
Proof.
  intros X Y.
  assert (A : generic_format radix2 fexp (Rmin x y)) by (unfold Rmin; destruct (Rle_dec x y); assumption).
  assert (B : generic_format radix2 fexp (Rmax x y)) by (unfold Rmax; destruct (Rle_dec x y); assumption).
  assert (M := Rmin_l x y). assert (M' := Rmin_r x y). assert (N := Rmax_l x y). assert (N' := Rmax_r x y).
  assert (S1 : 2 * Rmin x y <= rnd (x + y)).
  { rewrite <- (round_generic radix2 fexp ZnearestE (2 * Rmin x y)) by now apply double_format. apply round_le; [exact fexp_valid|apply valid_rnd_N|lra]. }
  assert (S2 : rnd (x + y) <= 2 * Rmax x y).
  { rewrite <- (round_generic radix2 fexp ZnearestE (2 * Rmax x y)) by now apply double_format. apply round_le; [exact fexp_valid|apply valid_rnd_N|lra]. }
  split.
  - rewrite <- (round_generic radix2 fexp ZnearestE (Rmin x y)) by exact A. apply round_le; [exact fexp_valid|apply valid_rnd_N|lra].
  - rewrite <- (round_generic radix2 fexp ZnearestE (Rmax x y)) by exact B. apply round_le; [exact fexp_valid|apply valid_rnd_N|lra].
Qed.
Lemma average_ok (a b : float) : is_finite a = true -> is_finite b = true -> Rabs (rnd (B2R a + B2R b)) < bpow radix2 emax ->
  is_finite (average a b) = true /\ Rmin (B2R a) (B2R b) <= B2R (average a b) <= Rmax (B2R a) (B2R b).
Proof.
  intros FA FB O. unfold average. assert (C := Bplus_correct prec emax P0 PE mode_NE a b FA FB). cbn [round_mode] in C. rewrite Rlt_bool_true in C by exact O. destruct C as (C1 & C2 & _).
  assert (M := Bmult_correct prec emax P0 PE mode_NE (Bplus mode_NE a b) half). cbn [round_mode] in M. destruct half_is as [H1 H2]. rewrite C1, H1 in M.
  assert (S := sum_between (B2R a) (B2R b) (generic_format_B2R prec emax a) (generic_format_B2R prec emax b)).
  rewrite Rlt_bool_true in M.
  - destruct M as (M1 & M2 & _). rewrite M2, C2, H2. split; [reflexivity|]. rewrite M1. exact S.
  - assert (LA := abs_B2R_lt_emax prec emax a). assert (LB := abs_B2R_lt_emax prec emax b). apply Rabs_lt_inv in LA. apply Rabs_lt_inv in LB. apply Rabs_lt.
    unfold Rmin, Rmax in S. destruct (Rle_dec _ _) in S; lra.
Qed.
Lemma sign_R (x : float) : is_finite x = true -> if Bsign x then B2R x <= 0 else 0 <= B2R x.
Proof.
  destruct x as [s|s| |s m e H]; intros F; try discriminate F; cbn [Bsign B2R]; [destruct s; lra|]. destruct s; [apply F2R_le_0|apply F2R_ge_0]; cbn; lia.
Qed.
Lemma dim_ok (a b : float) : is_finite a = true -> is_finite b = true ->
  (B2R a <= B2R b -> is_finite (dim a b) = true /\ B2R (dim a b) = 0)
  /\ (B2R b < B2R a -> dim a b = B754_infinity false \/ is_finite (dim a b) = true /\ B2R (dim a b) = rnd (B2R a - B2R b) /\ 0 < B2R (dim a b)).
Proof.
  intros FA FB. unfold dim, greater. assert (C := Bminus_correct prec emax P0 PE mode_NE a b FA FB). cbn [round_mode] in C.
  assert (Z0 : B2R (B754_zero false : float) = 0) by reflexivity.
  destruct (Rlt_bool_spec (Rabs (rnd (B2R a - B2R b))) (bpow radix2 emax)) as [O|O].
  - destruct C as (C1 & C2 & _). assert (L := Bltb_correct prec emax _ (B754_zero false) C2 eq_refl). rewrite Z0, C1 in L. split; intros H.
    + assert (R : rnd (B2R a - B2R b) <= 0).
      { rewrite <- (round_0 radix2 fexp ZnearestE). apply round_le; [exact fexp_valid|apply valid_rnd_N|lra]. }
      rewrite L. destruct (Rlt_bool_spec (rnd (B2R a - B2R b)) 0) as [X|X]; [split; [reflexivity|exact Z0]|]. split; [exact C2|]. rewrite C1. lra.
    + assert (R : 0 <= rnd (B2R a - B2R b)).
      { rewrite <- (round_0 radix2 fexp ZnearestE). apply round_le; [exact fexp_valid|apply valid_rnd_N|lra]. }
      rewrite L. rewrite Rlt_bool_false by exact R. right. split; [exact C2|]. split; [exact C1|]. rewrite C1.
      assert (NZ : rnd (B2R a - B2R b) <> 0).
      { apply (round_plus_neq_0 radix2 (FLT_exp (SpecFloat.emin prec emax) prec)); [apply valid_rnd_N|apply generic_format_B2R|apply generic_format_opp, generic_format_B2R|lra]. }
      lra.
  - destruct C as [C1 C2]. assert (SA := sign_R a FA). assert (SB := sign_R b FB). unfold binary_overflow in C1. cbn [overflow_to_inf] in C1.
    assert (E : Bminus mode_NE a b = B754_infinity (Bsign a)) by (destruct (Bminus mode_NE a b) as [s|s| |s m e H]; try discriminate C1; cbn in C1; congruence). rewrite E.
    assert (N : B2R a - B2R b <> 0).
    { intros N. rewrite N, round_0, Rabs_R0 in O by apply valid_rnd_N. assert (Q := bpow_gt_0 radix2 emax). lra. }
    split; intros H.
    + destruct (Bsign a); [split; reflexivity|]. destruct (Bsign b); [|discriminate C2]. exfalso. lra.
    + destruct (Bsign a); [destruct (Bsign b); [discriminate C2|]; exfalso; lra|]. left. reflexivity.
Qed.
End Float.
