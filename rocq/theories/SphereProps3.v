(** Properties C73-C75 and C58: stretching, directions and reflections on the sphere, rotations of longitude and latitude *)
Require Import Reals Lra Psatz Ranalysis.
From Verif Require Import SphereModel SphereProofs SphereProps.
Open Scope R_scope.

Lemma lon_range_trig a : cos (lon_range a) = cos a /\ sin (lon_range a) = sin a.
Proof.
  unfold lon_range. destruct (Rlt_dec a 0); cbv zeta;
    match goal with |- context [Rle_dec ?u ?v] => destruct (Rle_dec u v) end;
    rewrite ?cos_minus, ?sin_minus, ?cos_plus, ?sin_plus, ?cos_2PI, ?sin_2PI; split; ring.
Qed.
Lemma lon_range_bound a : - (2 * PI) <= a < 4 * PI -> 0 <= lon_range a < 2 * PI.
Proof.
  intro A. pose proof PI_RGT_0. unfold lon_range. destruct (Rlt_dec a 0); cbv zeta;
    match goal with |- context [Rle_dec ?u ?v] => destruct (Rle_dec u v) end; lra.
Qed.

(** *** Stretching *)
Lemma sin_range a : -1 <= sin a <= 1.
Proof. apply SIN_bound. Qed.
Lemma stretch_quotient s u : 0 < s -> -1 <= u <= 1 ->
  0 < (1 + s ^ 2) + (1 - s ^ 2) * u /\ -1 <= ((1 - s ^ 2) + (1 + s ^ 2) * u) / ((1 + s ^ 2) + (1 - s ^ 2) * u) <= 1.
Proof.
  intros S U. assert (S2 : 0 < s ^ 2) by (apply pow_lt; exact S).
  assert (D : 0 < (1 + s ^ 2) + (1 - s ^ 2) * u).
  { replace ((1 + s ^ 2) + (1 - s ^ 2) * u) with ((1 + u) + s ^ 2 * (1 - u)) by ring.
    destruct (Rlt_dec u 1); [nra|]. replace u with 1 by lra. nra. }
  split; [exact D|]. split.
  - apply (Rmult_le_reg_r _ _ _ D). unfold Rdiv. rewrite Rmult_assoc, Rinv_l by lra. nra.
  - apply (Rmult_le_reg_r _ _ _ D). unfold Rdiv. rewrite Rmult_assoc, Rinv_l by lra. nra.
Qed.
Lemma sin_stretched s lat : 0 < s -> 1 / 10 ^ 7 < Rabs (1 - s ^ 2) ->
  sin (stretched s lat) = ((1 - s ^ 2) + (1 + s ^ 2) * sin lat) / ((1 + s ^ 2) + (1 - s ^ 2) * sin lat) /\
  - (PI / 2) <= stretched s lat <= PI / 2.
Proof.
  intros S T. unfold stretched. cbv zeta. destruct (Rlt_dec (1 / 10 ^ 7) (Rabs (1 - s ^ 2))); [|lra].
  destruct (stretch_quotient s (sin lat) S (sin_range lat)) as [_ B]. rewrite sin_asin by exact B.
  split; [reflexivity|apply asin_bound].
Qed.

(** *** The rotation in direct_transform *)
Definition turn (lon_p lat_p : R) (v : vec) : vec :=
  let '(x, y, z) := v in
  let a := sin lat_p * x - cos lat_p * z in
  let b := - y in
  (a * cos lon_p - b * sin lon_p, a * sin lon_p + b * cos lon_p, - (cos lat_p * x) - sin lat_p * z).

Lemma turn_dot lon_p lat_p u v : dot (turn lon_p lat_p u) (turn lon_p lat_p v) = dot u v.
Proof.
  destruct u as [[x1 y1] z1], v as [[x2 y2] z2]. cbn.
  pose proof (sin2_cos2 lon_p) as A. pose proof (sin2_cos2 lat_p) as B. unfold Rsqr in *.
  set (s := sin lon_p) in *. set (c := cos lon_p) in *. set (sp := sin lat_p) in *. set (cp := cos lat_p) in *.
  transitivity ((s * s + c * c) * ((sp * x1 - cp * z1) * (sp * x2 - cp * z2) + y1 * y2) + (cp * x1 + sp * z1) * (cp * x2 + sp * z2)).
  { ring. }
  rewrite A. transitivity ((sp * sp + cp * cp) * (x1 * x2 + z1 * z2) + y1 * y2); [ring|rewrite B; ring].
Qed.
Lemma turn_cross lon_p lat_p u v : cross (turn lon_p lat_p u) (turn lon_p lat_p v) = turn lon_p lat_p (cross u v).
Proof.
  destruct u as [[x1 y1] z1], v as [[x2 y2] z2]. cbn.
  pose proof (sin2_cos2 lon_p) as A. pose proof (sin2_cos2 lat_p) as B. unfold Rsqr in *.
  set (s := sin lon_p) in *. set (c := cos lon_p) in *. set (sp := sin lat_p) in *. set (cp := cos lat_p) in *.
  apply triple_eq.
  - transitivity ((sp * (y1 * z2 - z1 * y2) - cp * (x1 * y2 - y1 * x2)) * c + s * ((sp * sp + cp * cp) * (z1 * x2 - x1 * z2)));
      [ring|rewrite B; ring].
  - transitivity ((sp * (y1 * z2 - z1 * y2) - cp * (x1 * y2 - y1 * x2)) * s - c * ((sp * sp + cp * cp) * (z1 * x2 - x1 * z2)));
      [ring|rewrite B; ring].
  - transitivity ((s * s + c * c) * (- (cp * (y1 * z2 - z1 * y2)) - sp * (x1 * y2 - y1 * x2))); [ring|rewrite A; ring].
Qed.

Lemma transform_turn lon lat s lon_p lat_p :
  let L := lon_range (lon + 190 * PI / 180) in
  let T := stretched s lat in
  1 / 10 ^ 7 <= 1 - Rabs (sin lat_p * sin T + cos lat_p * cos T * cos L) ->
  exists lon' lat', direct_transform lon lat s lon_p lat_p = (lon', lat') /\ - (PI / 2) <= lat' <= PI / 2 /\
    lon_lat_to_xyz lon' lat' = turn lon_p lat_p (lon_lat_to_xyz L T).
Proof.
  intros L T N. unfold direct_transform. cbv zeta. fold L T. rewrite Rabs_Ropp.
  destruct (Rlt_dec (1 - Rabs (sin lat_p * sin T + cos lat_p * cos T * cos L)) (1 / 10 ^ 7)) as [X | _]; [exfalso; lra|].
  eexists. eexists. split; [reflexivity|]. split; [apply asin_bound|].
  set (Z := - (sin lat_p * sin T + cos lat_p * cos T * cos L)).
  set (Y := - cos T * sin L). set (X := - sin T * cos lat_p + cos T * sin lat_p * cos L).
  rewrite (xyz_eq _ (asin Z)), (xyz_eq L T).
  assert (U : X * X + Y * Y + Z * Z = 1).
  { pose proof (turn_dot 0 lat_p (cos T * cos L, cos T * sin L, sin T) (cos T * cos L, cos T * sin L, sin T)) as D.
    rewrite sphere_unit in D. cbn in D. rewrite cos_0, sin_0 in D. unfold X, Y, Z. rewrite <- D. ring. }
  assert (ZB : Rabs Z < 1) by (unfold Z; rewrite Rabs_Ropp; lra).
  assert (Z1 : -1 < Z < 1) by (apply Rabs_def2 in ZB; lra).
  assert (NZ : X <> 0 \/ Y <> 0).
  { destruct (Req_dec X 0) as [E | E]; [right|now left]. intro F. rewrite E, F in U. nra. }
  destruct (atan2_spec X Y NZ) as (C & S & _).
  assert (R0 : sqrt (X * X + Y * Y) = cos (asin Z)).
  { rewrite cos_asin by lra. f_equal. unfold Rsqr. lra. }
  rewrite R0 in C, S.
  destruct (lon_range_trig (lon_p + atan2 Y X)) as [LC LS]. rewrite LC, LS, cos_plus, sin_plus, sin_asin by lra.
  unfold turn. apply triple_eq.
  - transitivity (cos (asin Z) * cos (atan2 Y X) * cos lon_p - cos (asin Z) * sin (atan2 Y X) * sin lon_p); [ring|].
    rewrite C, S. unfold X, Y. ring.
  - transitivity (cos (asin Z) * cos (atan2 Y X) * sin lon_p + cos (asin Z) * sin (atan2 Y X) * cos lon_p); [ring|].
    rewrite C, S. unfold X, Y. ring.
  - unfold Z. ring.
Qed.

(** ** Specification *)
(** a rotation of space: inner products and handedness are kept *)
Definition rotation (T : vec -> vec) : Prop :=
  (forall u v, dot (T u) (T v) = dot u v) /\ (forall u v, T (cross u v) = cross (T u) (T v)).
(** distance from the axis in the stereographic projection that sends the south pole to the origin *)
Definition from_south (lat : R) : R := tan ((lat + PI / 2) / 2).

(** ** C73: direct_transform *)
(** Points away from the poles of the result (sine of the new latitude at least 1e-7 off +-1): stretch the latitude, add 190 degrees to
    the longitude, and apply one rotation that depends on the target only. *)
Theorem C73_rotation_partial lon_p lat_p : exists T, rotation T /\
  forall lon lat s x y z,
  at_lon_lat (lon + 190 * PI / 180) (stretched s lat) x y z ->
  let '(x', y', z') := T (x, y, z) in
  Rabs z' <= 1 - 1 / 10 ^ 7 ->
  exists lon' lat', direct_transform lon lat s lon_p lat_p = (lon', lat') /\ at_lon_lat lon' lat' x' y' z' /\
    - (PI / 2) <= lat' <= PI / 2.
Proof.
  exists (turn lon_p lat_p). split.
  { split; [apply turn_dot|intros; symmetry; apply turn_cross]. }
  intros lon lat s x y z AT. destruct (turn lon_p lat_p (x, y, z)) as [[x' y'] z'] eqn:E. intro N.
  destruct (lon_range_trig (lon + 190 * PI / 180)) as [LC LS].
  assert (V : lon_lat_to_xyz (lon_range (lon + 190 * PI / 180)) (stretched s lat) = (x, y, z)).
  { rewrite xyz_eq, LC, LS. destruct AT as (-> & -> & ->). reflexivity. }
  assert (ZE : Rabs z' = Rabs (sin lat_p * sin (stretched s lat) + cos lat_p * cos (stretched s lat) * cos (lon_range (lon + 190 * PI / 180)))).
  { rewrite <- Rabs_Ropp. f_equal. rewrite LC. unfold turn in E. injection E as _ _ <-. destruct AT as (-> & _ & ->). ring. }
  destruct (transform_turn lon lat s lon_p lat_p) as (lon' & lat' & D & B & X); [cbv zeta; rewrite <- ZE; lra|].
  exists lon', lat'. split; [exact D|]. split; [|exact B].
  rewrite V, E, xyz_eq in X. injection X as <- <- <-. repeat split.
Qed.
Print Assumptions C73_rotation_partial.

(** Stretching divides the stereographic distance from the south pole (the centre of tile 6) by the factor; the poles stay. *)
Theorem C73_stretch s lat : 0 < s -> 1 / 10 ^ 7 < Rabs (1 - s ^ 2) -> - (PI / 2) < lat < PI / 2 ->
  from_south (stretched s lat) = from_south lat / s.
Proof.
  intros S T L. destruct (sin_stretched s lat S T) as [E B]. pose proof PI_RGT_0 as PP.
  assert (F : forall a, - (PI / 2) < a < PI / 2 -> from_south a = sqrt ((1 + sin a) / (1 - sin a))).
  { intros a A. unfold from_south. set (h := (a + PI / 2) / 2). assert (H : 0 < h < PI / 2) by (unfold h; lra).
    assert (HC : 0 < cos h) by (apply cos_gt_0; lra). assert (HS : 0 < sin h) by (apply sin_gt_0; lra).
    assert (A2 : sin a = - cos (2 * h)).
    { replace (2 * h) with (PI / 2 + a) by (unfold h; field). rewrite (cos_plus (PI / 2)), cos_PI2, sin_PI2. ring. }
    rewrite A2. unfold tan.
    replace ((1 + - cos (2 * h)) / (1 - - cos (2 * h))) with ((sin h / cos h) * (sin h / cos h)).
    - rewrite sqrt_square; [reflexivity|]. apply Rlt_le. apply Rdiv_lt_0_compat; assumption.
    - replace (1 + - cos (2 * h)) with (2 * (sin h * sin h)) by (rewrite cos_2a_sin; ring).
      replace (1 - - cos (2 * h)) with (2 * (cos h * cos h)) by (rewrite cos_2a_cos; ring). field. lra. }
  assert (S2 : 0 < s ^ 2) by (apply pow_lt; exact S).
  assert (SL : -1 < sin lat < 1).
  { assert (X : sin (- (PI / 2)) < sin lat) by (apply sin_increasing_1; lra). assert (Y : sin lat < sin (PI / 2)) by (apply sin_increasing_1; lra).
    rewrite sin_neg, sin_PI2 in *. lra. }
  assert (D : 0 < (1 + s ^ 2) + (1 - s ^ 2) * sin lat) by (apply stretch_quotient; [exact S|lra]).
  assert (P : 1 + sin (stretched s lat) = 2 * (1 + sin lat) / ((1 + s ^ 2) + (1 - s ^ 2) * sin lat)) by (rewrite E; field; lra).
  assert (M : 1 - sin (stretched s lat) = 2 * s ^ 2 * (1 - sin lat) / ((1 + s ^ 2) + (1 - s ^ 2) * sin lat)) by (rewrite E; field; lra).
  assert (P0 : 0 < 1 + sin (stretched s lat)).
  { rewrite P. apply Rdiv_lt_0_compat; [nra|exact D]. }
  assert (M0 : 0 < 1 - sin (stretched s lat)).
  { rewrite M. apply Rdiv_lt_0_compat; [|exact D]. apply Rmult_lt_0_compat; nra. }
  assert (BB : - (PI / 2) < stretched s lat < PI / 2).
  { split.
    - destruct (Req_dec (stretched s lat) (- (PI / 2))) as [X | X]; [rewrite X, sin_neg, sin_PI2 in P0; lra|lra].
    - destruct (Req_dec (stretched s lat) (PI / 2)) as [X | X]; [rewrite X, sin_PI2 in M0; lra|lra]. }
  rewrite !F by assumption. rewrite P, M.
  replace (2 * (1 + sin lat) / (1 + s ^ 2 + (1 - s ^ 2) * sin lat) / (2 * s ^ 2 * (1 - sin lat) / (1 + s ^ 2 + (1 - s ^ 2) * sin lat)))
    with (((1 + sin lat) / (1 - sin lat)) / (s ^ 2)) by (field; repeat split; lra).
  assert (Q : 0 <= (1 + sin lat) / (1 - sin lat)) by (apply Rlt_le, Rdiv_lt_0_compat; lra).
  rewrite sqrt_div_alt by exact S2. f_equal. replace (s ^ 2) with (s * s) by ring. apply sqrt_square. lra.
Qed.
Print Assumptions C73_stretch.

(** The centre of tile 6 goes to the target. *)
Theorem C73_centre lon s lon_p lat_p : 0 < s -> 0 <= lon_p < 2 * PI -> - (PI / 2) <= lat_p <= PI / 2 -> 1 / 10 ^ 7 <= 1 - Rabs (sin lat_p) ->
  direct_transform lon (- (PI / 2)) s lon_p lat_p = (lon_p, lat_p).
Proof.
  intros S LP LA N. pose proof PI_RGT_0 as PP.
  assert (T : stretched s (- (PI / 2)) = - (PI / 2)).
  { unfold stretched. cbv zeta. destruct (Rlt_dec (1 / 10 ^ 7) (Rabs (1 - s ^ 2))); [|reflexivity].
    rewrite sin_neg, sin_PI2. assert (0 < s ^ 2) by (apply pow_lt; exact S).
    replace ((1 - s ^ 2 + (1 + s ^ 2) * Ropp 1) / (1 + s ^ 2 + (1 - s ^ 2) * Ropp 1)) with (Ropp 1) by (field; lra).
    now rewrite asin_opp, asin_1. }
  unfold direct_transform. cbv zeta. rewrite T, sin_neg, cos_neg, sin_PI2, cos_PI2.
  replace (- (sin lat_p * Ropp 1 + cos lat_p * 0 * cos (lon_range (lon + 190 * PI / 180)))) with (sin lat_p) by ring.
  destruct (Rlt_dec (1 - Rabs (sin lat_p)) (1 / 10 ^ 7)) as [X | _]; [exfalso; lra|].
  rewrite asin_sin by exact LA. f_equal.
  assert (C : 0 < cos lat_p).
  { apply cos_gt_0.
    - destruct (Req_dec lat_p (- (PI / 2))) as [E | E]; [exfalso|lra].
      rewrite E, sin_neg, sin_PI2, Rabs_Ropp, Rabs_R1 in N. lra.
    - destruct (Req_dec lat_p (PI / 2)) as [E | E]; [exfalso|lra]. rewrite E, sin_PI2, Rabs_R1 in N. lra. }
  replace (- 0 * sin (lon_range (lon + 190 * PI / 180))) with 0 by ring.
  replace (- Ropp 1 * cos lat_p + 0 * sin lat_p * cos (lon_range (lon + 190 * PI / 180))) with (cos lat_p) by ring.
  unfold atan2. destruct (total_order_T 0 (cos lat_p)) as [[H | H] | H]; try lra.
  unfold Rdiv at 1. rewrite Rmult_0_l, atan_0, Rplus_0_r.
  unfold lon_range. destruct (Rlt_dec lon_p 0); [lra|]. destruct (Rle_dec (2 * PI) lon_p); lra.
Qed.
Print Assumptions C73_centre.

(** Without stretching (and away from the poles of the result) distances are kept. *)
Theorem C73_distances_partial lon1 lat1 lon2 lat2 s lon_p lat_p lon1' lat1' lon2' lat2' radius :
  Rabs (1 - s ^ 2) <= 1 / 10 ^ 7 ->
  direct_transform lon1 lat1 s lon_p lat_p = (lon1', lat1') -> direct_transform lon2 lat2 s lon_p lat_p = (lon2', lat2') ->
  Rabs (sin lat1') <= 1 - 1 / 10 ^ 7 -> Rabs (sin lat2') <= 1 - 1 / 10 ^ 7 ->
  great_circle_distance lon1' lon2' lat1' lat2' radius = great_circle_distance lon1 lon2 lat1 lat2 radius.
Proof.
  intros NS D1 D2 P1 P2. pose proof PI_RGT_0 as PP.
  assert (ST : forall lat, stretched s lat = lat).
  { intro lat. unfold stretched. cbv zeta. destruct (Rlt_dec (1 / 10 ^ 7) (Rabs (1 - s ^ 2))); [lra|reflexivity]. }
  assert (G : forall lon lat lon' lat', direct_transform lon lat s lon_p lat_p = (lon', lat') -> Rabs (sin lat') <= 1 - 1 / 10 ^ 7 ->
              lon_lat_to_xyz lon' lat' = turn lon_p lat_p (lon_lat_to_xyz (lon_range (lon + 190 * PI / 180)) lat)).
  { intros lon lat lon' lat' D P.
    destruct (Rle_lt_dec (1 / 10 ^ 7) (1 - Rabs (sin lat_p * sin (stretched s lat) +
        cos lat_p * cos (stretched s lat) * cos (lon_range (lon + 190 * PI / 180))))) as [N | N].
    - destruct (transform_turn lon lat s lon_p lat_p N) as (a & b & E & _ & X). rewrite E in D. injection D as -> ->.
      rewrite X, ST. reflexivity.
    - exfalso. unfold direct_transform in D. cbv zeta in D. rewrite Rabs_Ropp in D.
      destruct (Rlt_dec (1 - Rabs (sin lat_p * sin (stretched s lat) +
        cos lat_p * cos (stretched s lat) * cos (lon_range (lon + 190 * PI / 180)))) (1 / 10 ^ 7)) as [_ | X]; [|contradiction].
      injection D as _ <-. rewrite (Rabs_right (PI / 2)) in P by lra.
      set (o := - (sin lat_p * sin (stretched s lat) + cos lat_p * cos (stretched s lat) * cos (lon_range (lon + 190 * PI / 180)))) in *.
      assert (O : o <> 0).
      { intro E. unfold o in E. rewrite <- Rabs_Ropp in N. rewrite E, Rabs_R0 in N. lra. }
      unfold rsign in P. destruct (Rlt_dec o 0).
      + replace (PI / 2 * -1) with (- (PI / 2)) in P by ring. rewrite sin_neg, sin_PI2, Rabs_Ropp, Rabs_R1 in P. lra.
      + destruct (Rlt_dec 0 o); [|lra]. rewrite Rmult_1_r, sin_PI2, Rabs_R1 in P. lra. }
  unfold great_circle_distance. rewrite !beta_acos, (G _ _ _ _ D1 P1), (G _ _ _ _ D2 P2), turn_dot. do 2 f_equal.
  rewrite !xyz_eq. destruct (lon_range_trig (lon1 + 190 * PI / 180)) as [-> ->]. destruct (lon_range_trig (lon2 + 190 * PI / 180)) as [-> ->].
  cbn. rewrite !cos_plus, !sin_plus. set (k := 190 * PI / 180). pose proof (sin2_cos2 k) as K. unfold Rsqr in K.
  transitivity (cos lat1 * cos lat2 * (cos lon1 * cos lon2 + sin lon1 * sin lon2) * (sin k * sin k + cos k * cos k) + sin lat1 * sin lat2);
    [ring|rewrite K; ring].
Qed.
Print Assumptions C73_distances_partial.

(** Points that land within sin = 1e-7 of a pole are all moved to the pole: two grid points 4 km apart become one. *)
Lemma cos_lower t : 0 <= t -> 1 - t * t / 2 <= cos t.
Proof.
  intro T. replace t with (2 * (t / 2)) at 3 by field. rewrite cos_2a_sin.
  assert (S : sin (t / 2) * sin (t / 2) <= (t / 2) * (t / 2)).
  { destruct (Req_dec t 0) as [-> | N]; [replace (0 / 2) with 0 by field; rewrite sin_0; lra|].
    pose proof (sin_lt_x (t / 2) ltac:(lra)) as U.
    destruct (Rle_lt_dec 0 (sin (t / 2))) as [P | P]; [nra|].
    pose proof (SIN_bound (t / 2)) as [B _]. destruct (Rle_lt_dec 1 (t / 2)) as [G | G]; [nra|].
    exfalso. assert (0 < sin (t / 2)) by (apply sin_gt_0; pose proof PI2_1; lra). lra. }
  lra.
Qed.
Theorem C73_poles_refuted : exists lon1 lon2 lat lon_p lat_p,
  direct_transform lon1 lat 1 lon_p lat_p = direct_transform lon2 lat 1 lon_p lat_p /\
  4000 <= great_circle_distance lon1 lon2 lat lat 6371000.
Proof.
  pose proof PI_RGT_0 as PP.
  set (w := - (1 - 5 / 10 ^ 8)). assert (W : -1 <= w <= 1) by (unfold w; lra).
  exists 0, PI, (asin w), 0, (PI / 2). split.
  - unfold direct_transform, stretched. cbv zeta.
    replace (1 - 1 ^ 2) with 0 by ring. rewrite Rabs_R0. destruct (Rlt_dec (1 / 10 ^ 7) 0) as [X | _]; [lra|].
    rewrite sin_PI2, cos_PI2, sin_asin by exact W.
    assert (E : forall a, - (1 * w + 0 * cos (asin w) * a) = 1 - 5 / 10 ^ 8) by (intro; unfold w; ring). rewrite !E.
    rewrite (Rabs_right (1 - 5 / 10 ^ 8)) by lra.
    destruct (Rlt_dec (1 - (1 - 5 / 10 ^ 8)) (1 / 10 ^ 7)) as [_ | X]; [reflexivity|lra].
  - unfold great_circle_distance. rewrite beta_acos, !xyz_eq, cos_0, sin_0, cos_PI, sin_PI. cbn [dot].
    rewrite sin_asin by exact W.
    assert (CC : cos (asin w) * cos (asin w) = 1 - w * w).
    { rewrite cos_asin by exact W. unfold Rsqr. apply sqrt_sqrt. nra. }
    set (d := cos (asin w) * 1 * (cos (asin w) * -1) + cos (asin w) * 0 * (cos (asin w) * 0) + w * w).
    assert (D : d = 2 * (w * w) - 1) by (unfold d; replace (_ + _ + _) with (- (cos (asin w) * cos (asin w)) + w * w) by ring; rewrite CC; ring).
    assert (DB : -1 <= d <= 1) by (rewrite D; nra).
    pose proof (acos_bound d) as [A0 _]. pose proof (cos_lower (acos d) A0) as C. rewrite cos_acos in C by exact DB.
    assert (W2 : w * w = 1 - 1 / 10 ^ 7 + 25 / 10 ^ 16) by (unfold w; field).
    assert (TT : 399999 / 10 ^ 12 <= acos d * acos d) by (rewrite W2 in D; clearbody d; lra).
    destruct (Rle_lt_dec (4000 / 6371000) (acos d)) as [H | H]; [lra|exfalso].
    assert (acos d * acos d <= (4000 / 6371000) * (4000 / 6371000)) by nra. lra.
Qed.
Print Assumptions C73_poles_refuted.

Example C73_case : 0 < 3 /\ 1 / 10 ^ 7 < Rabs (1 - 3 ^ 2) /\ - (PI / 2) < 0 < PI / 2 /\ 1 / 10 ^ 7 <= 1 - Rabs (sin 0).
Proof.
  pose proof PI_RGT_0. rewrite sin_0, Rabs_R0, Rabs_left by lra. repeat split; lra.
Qed.

(** ** C74: unit vectors *)
(** get_unit_vector_direction is the unit vector along the chord from the first point to the second *)
Theorem C74_direction lon1 lat1 lon2 lat2 x1 y1 z1 x2 y2 z2 :
  at_lon_lat lon1 lat1 x1 y1 z1 -> at_lon_lat lon2 lat2 x2 y2 z2 ->
  (x2, y2, z2) <> (x1, y1, z1) -> (x2, y2, z2) <> (- x1, - y1, - z1) ->
  direction (x2 - x1, y2 - y1, z2 - z1) (unit_vector_direction lon1 lat1 lon2 lat2).
Proof.
  intros A1 A2 N M. pose proof (xyz_unit lon1 lat1) as U1. pose proof (xyz_unit lon2 lat2) as U2.
  assert (E1 : lon_lat_to_xyz lon1 lat1 = (x1, y1, z1)) by (rewrite xyz_eq; destruct A1 as (-> & -> & ->); reflexivity).
  assert (E2 : lon_lat_to_xyz lon2 lat2 = (x2, y2, z2)) by (rewrite xyz_eq; destruct A2 as (-> & -> & ->); reflexivity).
  unfold unit_vector_direction. cbv zeta. rewrite E1, E2. rewrite E1 in U1. rewrite E2 in U2.
  set (p := (x1, y1, z1)) in *. set (q := (x2, y2, z2)) in *.
  assert (NA : dot p q <> -1).
  { intro D. apply M. apply unit_dot_1.
    - exact U2.
    - unfold p in U1. cbn in *. nra.
    - unfold p, q in D. cbn in *. nra. }
  destruct (midpoint_dot p q U1 U2 NA) as [MP MQ].
  pose proof (unit_dot p q U1 U2) as B.
  set (h := sqrt ((1 + dot p q) / 2)) in *. assert (H : 0 < h) by (apply sqrt_lt_R0; lra).
  rewrite triple_cross, MP, MQ.
  set (c := vsub q p).
  assert (CE : vsub (vscale h q) (vscale h p) = vscale h c) by (unfold c, p, q; cbn; apply triple_eq; ring).
  assert (CN : c <> (0, 0, 0)).
  { intro Z. apply N. unfold c, p, q in *. cbn in Z. injection Z as Z1 Z2 Z3. apply triple_eq; lra. }
  rewrite CE, normalize_scale by assumption.
  change (x2 - x1, y2 - y1, z2 - z1) with c.
  pose proof (normalize_unit c CN) as NU. pose proof (sqrt_lt_R0 _ (dot_nonzero c CN)) as L.
  assert (CC : c = vscale (sqrt (dot c c)) (normalize c)).
  { unfold normalize. rewrite scale_scale. replace (sqrt (dot c c) * (1 / sqrt (dot c c))) with 1 by (field; lra). now rewrite scale_1. }
  destruct (normalize c) as [[n1 n2] n3] eqn:EN. set (k := sqrt (dot c c)) in *. clearbody k c.
  destruct c as [[c1 c2] c3]. cbn in CC. injection CC as -> -> ->. exists k. repeat split; try exact L. exact NU.
Qed.
Print Assumptions C74_direction.

(** get_lonlat_vect: with the position, an orthonormal right-handed frame, *)
Theorem C74_frame lon lat : let e := lon_vect lon lat in let n := lat_vect lon lat in let r := (cos lat * cos lon, cos lat * sin lon, sin lat) in
  dot e e = 1 /\ dot n n = 1 /\ dot e n = 0 /\ dot e r = 0 /\ dot n r = 0 /\ cross e n = r.
Proof.
  cbv zeta. unfold lon_vect, lat_vect. cbn. pose proof (sin2_cos2 lon) as A. pose proof (sin2_cos2 lat) as B. unfold Rsqr in *.
  repeat split; try ring.
  - rewrite <- A. ring.
  - transitivity ((sin lon * sin lon + cos lon * cos lon) * (sin lat * sin lat) + cos lat * cos lat); [ring|]. rewrite A. lra.
  - transitivity (- ((sin lon * sin lon + cos lon * cos lon) * sin lat * cos lat) + sin lat * cos lat); [ring|]. rewrite A. ring.
  - apply triple_eq; [ring|ring|]. transitivity ((sin lon * sin lon + cos lon * cos lon) * sin lat); [ring|]. rewrite A. ring.
Qed.
Print Assumptions C74_frame.

(** whose first two vectors are the directions in which the position moves with the longitude and with the latitude. *)
Definition coordinate (k : nat) (v : vec) : R := let '(x, y, z) := v in match k with O => x | 1%nat => y | _ => z end.
Theorem C74_derivatives lon lat k :
  derivable_pt_lim (fun l => coordinate k (lon_lat_to_xyz l lat)) lon (cos lat * coordinate k (lon_vect lon lat)) /\
  derivable_pt_lim (fun l => coordinate k (lon_lat_to_xyz lon l)) lat (coordinate k (lat_vect lon lat)).
Proof.
  assert (EXT : forall f g x l, (forall t, f t = g t) -> derivable_pt_lim g x l -> derivable_pt_lim f x l).
  { intros f g x l E D eps P. destruct (D eps P) as [d H]. exists d. intros h N L. rewrite !E. now apply H. }
  assert (SC : forall f c x l, derivable_pt_lim f x l -> derivable_pt_lim (fun t => c * f t) x (c * l)) by (intros; now apply derivable_pt_lim_scal).
  assert (SC2 : forall f c x l, derivable_pt_lim f x l -> derivable_pt_lim (fun t => f t * c) x (l * c)).
  { intros f c x l D. apply EXT with (g := fun t => c * f t); [intro; ring|]. rewrite Rmult_comm. now apply SC. }
  split.
  - apply EXT with (g := fun t => coordinate k (cos lat * cos t, cos lat * sin t, sin lat)); [intro; now rewrite xyz_eq|].
    unfold lon_vect, coordinate. destruct k as [|[|k]].
    + apply SC. apply derivable_pt_lim_cos.
    + apply SC. apply derivable_pt_lim_sin.
    + rewrite Rmult_0_r. apply derivable_pt_lim_const.
  - apply EXT with (g := fun t => coordinate k (cos t * cos lon, cos t * sin lon, sin t)); [intro; now rewrite xyz_eq|].
    unfold lat_vect, coordinate. destruct k as [|[|k]].
    + apply SC2. apply derivable_pt_lim_cos.
    + apply SC2. apply derivable_pt_lim_cos.
    + apply derivable_pt_lim_sin.
Qed.
Print Assumptions C74_derivatives.

Example C74_case : at_lon_lat 0 0 1 0 0 /\ at_lon_lat (PI / 2) 0 0 1 0 /\ (0, 1, 0) <> (1, 0, 0) /\ (0, 1, 0) <> (- (1), - (0), - (0)).
Proof.
  unfold at_lon_lat. rewrite cos_0, sin_0, cos_PI2, sin_PI2. repeat split; try ring; intro E; inversion E; lra.
Qed.
