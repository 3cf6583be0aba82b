(** Lemmas about AreaModel: gnomonic rectangles *)
Require Import Reals Lra Lia ZArith Bool Arith Psatz.
From Coquelicot Require Import Coquelicot.
From Verif Require Import SphereModel SphereProofs SphereProps SphereProps2 AreaModel.
Open Scope R_scope.

(** *** the angle formulas depend on inner products only *)
Lemma sa_dots c p q c' p' q' : dot c c = dot c' c' -> dot p p = dot p' p' -> dot q q = dot q' q' ->
  dot c p = dot c' p' -> dot c q = dot c' q' -> dot p q = dot p' q' -> spherical_angle c p q = spherical_angle c' p' q'.
Proof. intros E1 E2 E3 E4 E5 E6. unfold spherical_angle, spherical_cos. cbv zeta. rewrite !cross_dots. now rewrite E1, E2, E3, E4, E5, E6. Qed.
Lemma rect_dots p1 p2 p3 p4 q1 q2 q3 q4 r :
  dot p1 p1 = dot q1 q1 -> dot p2 p2 = dot q2 q2 -> dot p3 p3 = dot q3 q3 -> dot p4 p4 = dot q4 q4 ->
  dot p1 p2 = dot q1 q2 -> dot p1 p3 = dot q1 q3 -> dot p1 p4 = dot q1 q4 -> dot p2 p3 = dot q2 q3 -> dot p2 p4 = dot q2 q4 -> dot p3 p4 = dot q3 q4 ->
  rectangle_area p1 p2 p3 p4 r = rectangle_area q1 q2 q3 q4 r.
Proof.
  intros. unfold rectangle_area. cbv zeta.
  rewrite (sa_dots p2 p3 p1 q2 q3 q1), (sa_dots p3 p2 p4 q3 q2 q4), (sa_dots p4 p3 p1 q4 q3 q1), (sa_dots p1 p4 p2 q1 q4 q2);
    try reflexivity; try assumption; rewrite dot_comm; (rewrite (dot_comm q2) || rewrite (dot_comm q3) || rewrite (dot_comm q4)); assumption.
Qed.
Lemma rect_scale k1 k2 k3 k4 p1 p2 p3 p4 r : 0 < k1 -> 0 < k2 -> 0 < k3 -> 0 < k4 ->
  rectangle_area (vscale k1 p1) (vscale k2 p2) (vscale k3 p3) (vscale k4 p4) r = rectangle_area p1 p2 p3 p4 r.
Proof. intros. unfold rectangle_area. cbv zeta. now rewrite !C72_angle_scale by assumption. Qed.

(** *** a rectangle on the plane z = 1, seen from the origin *)
Definition F (x y : R) : vec := (x, y, 1).
Definition G (x y : R) : R := asin (x * y / sqrt ((1 + x * x) * (1 + y * y))).
Lemma A_nz y : ((0, 1, - y) : vec) <> (0, 0, 0). Proof. intros [= H]; lra. Qed.
Lemma C_nz x : ((1, 0, - x) : vec) <> (0, 0, 0). Proof. intros [= H]; lra. Qed.
Lemma vangle_AC x y : vangle (0, 1, - y) (1, 0, - x) = PI / 2 - G x y.
Proof.
  unfold vangle, G. rewrite acos_asin.
  - f_equal. f_equal. cbn [dot]. replace (0 * 1 + 1 * 0 + - y * - x) with (x * y) by ring.
    replace ((0 * 0 + 1 * 1 + - y * - y) * (1 * 1 + 0 * 0 + - x * - x)) with ((1 + x * x) * (1 + y * y)) by ring. reflexivity.
  - apply (ratio_bound (0, 1, - y) (1, 0, - x)); [apply A_nz|apply C_nz].
Qed.
Lemma rect_closed x x' y y' r : x < x' -> y < y' ->
  rectangle_area (F x y) (F x y') (F x' y') (F x' y) r = (G x y + G x' y' - G x y' - G x' y) * r ^ 2.
Proof.
  intros X Y. unfold rectangle_area. cbv zeta.
  assert (K1 : 0 < x' - x) by lra. assert (K2 : 0 < y' - y) by lra.
  assert (O : forall v : vec, v <> (0, 0, 0) -> vscale (-1) v <> (0, 0, 0)) by (intros; apply scale_nonzero; [lra|assumption]).
  assert (HA : forall y : R, vscale (-1) (0, 1, - y) <> (0, 0, 0)) by (intro; apply O, A_nz).
  assert (HC : forall x : R, vscale (-1) (1, 0, - x) <> (0, 0, 0)) by (intro; apply O, C_nz).
  assert (E23 : cross (F x y') (F x' y') = vscale (x' - x) (0, 1, - y')) by (unfold F; cbn; apply triple_eq; ring).
  assert (E21 : cross (F x y') (F x y) = vscale (y' - y) (1, 0, - x)) by (unfold F; cbn; apply triple_eq; ring).
  assert (E14 : cross (F x y) (F x' y) = vscale (x' - x) (0, 1, - y)) by (unfold F; cbn; apply triple_eq; ring).
  assert (E12 : cross (F x y) (F x y') = vscale (y' - y) (vscale (-1) (1, 0, - x))) by (unfold F; cbn; apply triple_eq; ring).
  assert (E32 : cross (F x' y') (F x y') = vscale (x' - x) (vscale (-1) (0, 1, - y'))) by (unfold F; cbn; apply triple_eq; ring).
  assert (E34 : cross (F x' y') (F x' y) = vscale (y' - y) (1, 0, - x')) by (unfold F; cbn; apply triple_eq; ring).
  assert (E43 : cross (F x' y) (F x' y') = vscale (y' - y) (vscale (-1) (1, 0, - x'))) by (unfold F; cbn; apply triple_eq; ring).
  assert (E41 : cross (F x' y) (F x y) = vscale (x' - x) (vscale (-1) (0, 1, - y))) by (unfold F; cbn; apply triple_eq; ring).
  assert (SC : forall k l u v, 0 < k -> 0 < l -> u <> (0, 0, 0) -> v <> (0, 0, 0) -> vangle (vscale k u) (vscale l v) = vangle u v).
  { intros k l u v K L U V. rewrite vangle_scale_l; [|assumption|assumption|apply scale_nonzero; [lra|assumption]]. now apply vangle_scale_r. }
  rewrite !sa_vangle; try (rewrite ?E23, ?E21, ?E14, ?E12, ?E32, ?E34, ?E43, ?E41; apply scale_nonzero; [lra|auto using A_nz, C_nz]).
  rewrite E23, E21, E14, E12, E32, E34, E43, E41. rewrite !(SC (x' - x) (y' - y)), !(SC (y' - y) (x' - x)) by (auto using A_nz, C_nz).
  rewrite !vangle_opp_r, !vangle_opp_l by (auto using A_nz, C_nz).
  rewrite ?(vangle_sym (1, 0, - x) (0, 1, _)), ?(vangle_sym (1, 0, - x') (0, 1, _)), !vangle_AC. ring.
Qed.

(** *** the formula as an integral *)
Definition root (x y : R) : R := sqrt (1 + x * x + y * y).
Lemma root_pos x y : 0 < root x y. Proof. apply sqrt_lt_R0. nra. Qed.
Lemma root_sq x y : root x y * root x y = 1 + x * x + y * y. Proof. apply sqrt_sqrt. nra. Qed.
Lemma G_atan x y : G x y = atan (x * y / root x y).
Proof.
  unfold G. pose proof (root_pos x y) as P. pose proof (root_sq x y) as Q.
  assert (D : 0 < (1 + x * x) * (1 + y * y)) by nra. pose proof (sqrt_lt_R0 _ D) as S. pose proof (sqrt_sqrt _ (Rlt_le _ _ D)) as SS.
  set (s := sqrt ((1 + x * x) * (1 + y * y))) in *. set (rr := root x y) in *.
  assert (E : s * s = rr * rr + (x * y) * (x * y)) by nra.
  assert (B : -1 < x * y / s < 1).
  { assert (HB : -s < x * y < s) by (split; nra). split; apply (Rmult_lt_reg_r s); try exact S; unfold Rdiv; rewrite Rmult_assoc, Rinv_l by lra; lra. }
  rewrite asin_atan by exact B. f_equal. unfold Rsqr.
  replace (1 - x * y / s * (x * y / s)) with (rr / s * (rr / s)); [rewrite sqrt_square|].
  - field. lra.
  - apply Rlt_le, Rdiv_lt_0_compat; assumption.
  - apply (Rmult_eq_reg_r (s * s)); [|nra]. transitivity (rr * rr); [field; lra|]. transitivity (s * s - x * y * (x * y)); [lra|field; lra].
Qed.
Lemma dG_x x y : is_derive (fun x => G x y) x (y / ((1 + x * x) * root x y)).
Proof.
  apply (is_derive_ext (fun x => atan (x * y / root x y))); [intro; symmetry; apply G_atan|]. unfold root.
  pose proof (root_pos x y) as P. pose proof (root_sq x y) as Q. unfold root in P, Q.
  auto_derive; [repeat split; nra || lra|]. set (s := sqrt (1 + x * x + y * y)) in *.
  assert (H : s * s + x * y * (x * y) = (1 + x * x) * (1 + y * y)) by (rewrite Q; ring).
  assert (N0 : 1 + x * x <> 0) by nra. assert (N1 : s * s + x * y * (x * y) <> 0) by nra.
  transitivity (y * (s * s - x * x) / (s * (s * s + x * y * (x * y)))).
  { field. repeat split; lra || nra. }
  rewrite H, Q. field. repeat split; lra || nra.
Qed.
Lemma dinner x y : is_derive (fun y => y / ((1 + x * x) * root x y)) y (/ (root x y * root x y * root x y)).
Proof.
  unfold root. pose proof (root_pos x y) as P. pose proof (root_sq x y) as Q. unfold root in P, Q.
  auto_derive; [repeat split; [nra|]; assert (0 < (1 + x * x) * sqrt (1 + x * x + y * y)) by (apply Rmult_lt_0_compat; nra); lra|].
  set (s := sqrt (1 + x * x + y * y)) in *. assert (N0 : 1 + x * x <> 0) by nra.
  transitivity ((s * s - y * y) / ((1 + x * x) * (s * s * s))); [field; lra|]. rewrite Q at 1. field. lra.
Qed.
Lemma cont_density x y : continuous (fun y => / (root x y * root x y * root x y)) y.
Proof.
  apply (ex_derive_continuous (V := R_NormedModule)). unfold root. pose proof (root_pos x y) as P. unfold root in P.
  auto_derive. repeat split; try nra. assert (0 < sqrt (1 + x * x + y * y) * sqrt (1 + x * x + y * y)) by (apply Rmult_lt_0_compat; lra).
  assert (0 < sqrt (1 + x * x + y * y) * sqrt (1 + x * x + y * y) * sqrt (1 + x * x + y * y)) by (apply Rmult_lt_0_compat; lra). lra.
Qed.
Lemma cont_inner x y : continuous (fun x => y / ((1 + x * x) * root x y)) x.
Proof.
  apply (ex_derive_continuous (V := R_NormedModule)). unfold root. pose proof (root_pos x y) as P. unfold root in P.
  assert (0 < (1 + x * x) * sqrt (1 + x * x + y * y)) by (apply Rmult_lt_0_compat; nra).
  auto_derive. repeat split; nra || lra.
Qed.
Lemma inner_integral x y y' : is_RInt (fun y => / (root x y * root x y * root x y)) y y' (y' / ((1 + x * x) * root x y') - y / ((1 + x * x) * root x y)).
Proof.
  apply (is_RInt_derive (V := R_CompleteNormedModule) (fun y => y / ((1 + x * x) * root x y))); intros; [apply dinner|apply cont_density].
Qed.
Lemma outer_integral x x' y y' :
  is_RInt (fun x => RInt (fun y => / (root x y * root x y * root x y)) y y') x x' (G x y + G x' y' - G x y' - G x' y).
Proof.
  apply (is_RInt_ext (fun x => y' / ((1 + x * x) * root x y') - y / ((1 + x * x) * root x y))).
  { intros z _. symmetry. apply is_RInt_unique, inner_integral. }
  replace (G x y + G x' y' - G x y' - G x' y) with (minus (minus (G x' y') (G x y')) (minus (G x' y) (G x y))) by (unfold minus, plus, opp; cbn; ring).
  apply (is_RInt_minus (V := R_NormedModule)); apply (is_RInt_derive (V := R_CompleteNormedModule) (fun x => G x _)); intros; (apply dG_x || apply cont_inner).
Qed.
Lemma inner_mono x y y' : y < y' -> y / ((1 + x * x) * root x y) < y' / ((1 + x * x) * root x y').
Proof.
  intro Y. destruct (MVT_gen (fun y => y / ((1 + x * x) * root x y)) y y' (fun y => / (root x y * root x y * root x y))) as (c & _ & E).
  - intros; apply dinner.
  - intros z _. apply continuity_pt_filterlim. apply (ex_derive_continuous (V := R_NormedModule) (fun y => y / ((1 + x * x) * root x y))).
    eexists. apply dinner.
  - assert (0 < / (root x c * root x c * root x c)).
    { pose proof (root_pos x c). apply Rinv_0_lt_compat. repeat apply Rmult_lt_0_compat; assumption. }
    nra.
Qed.
Lemma rect_positive x x' y y' : x < x' -> y < y' -> 0 < G x y + G x' y' - G x y' - G x' y.
Proof.
  intros X Y. set (f := fun x => G x y' - G x y).
  destruct (MVT_gen f x x' (fun x => y' / ((1 + x * x) * root x y') - y / ((1 + x * x) * root x y))) as (c & _ & E).
  - intros z _. unfold f. apply (is_derive_minus (V := R_NormedModule)); apply dG_x.
  - intros z _. apply continuity_pt_filterlim. apply (ex_derive_continuous (V := R_NormedModule) f). eexists.
    unfold f. apply (is_derive_minus (V := R_NormedModule)); apply dG_x.
  - unfold f in E. pose proof (inner_mono c y y' Y). nra.
Qed.

(** the corners of a face *)
Lemma G_one : G 1 1 = PI / 6.
Proof.
  unfold G. replace ((1 + 1 * 1) * (1 + 1 * 1)) with (2 * 2) by ring. rewrite sqrt_square by lra.
  replace (1 * 1 / 2) with (sin (PI / 6)) by (rewrite sin_PI6; lra). pose proof PI_RGT_0. apply asin_sin. lra.
Qed.
Lemma G_opp_l x y : G (- x) y = - G x y.
Proof.
  unfold G. rewrite <- asin_opp. f_equal. replace (- x * - x) with (x * x) by ring. unfold Rdiv. ring.
Qed.
Lemma G_sym x y : G x y = G y x.
Proof. unfold G. f_equal. rewrite (Rmult_comm x y). f_equal. f_equal. ring. Qed.
