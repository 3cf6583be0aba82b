(** Properties C70 and C71: coordinates and distances on the sphere, in exact arithmetic *)
Require Import Reals Lra Psatz.
From Verif Require Import SphereModel SphereProofs.
Open Scope R_scope.

(** ** Specification: the unit sphere, described without the model's functions *)
(** [x, y, z] is the point of the unit sphere at that longitude and latitude *)
Definition at_lon_lat (lon lat x y z : R) : Prop := x = cos lat * cos lon /\ y = cos lat * sin lon /\ z = sin lat.
(** the direction of [v] is [u] *)
Definition direction (v u : vec) : Prop :=
  let '(a, b, c) := v in let '(x, y, z) := u in
  exists k, 0 < k /\ a = k * x /\ b = k * y /\ c = k * z /\ x * x + y * y + z * z = 1.
(** [t] is the angle between two unit vectors *)
Definition angle_between (u v : vec) (t : R) : Prop :=
  let '(a, b, c) := u in let '(x, y, z) := v in 0 <= t <= PI /\ cos t = a * x + b * y + c * z.

Lemma direction_normalize v u : direction v u -> normalize v = u /\ dot u u = 1 /\ v <> (0, 0, 0).
Proof.
  destruct v as [[a b] c], u as [[r2 r3] r4]. unfold direction. intros (k & K & -> & -> & -> & U).
  assert (N : (r2, r3, r4) <> (0, 0, 0)) by (intros [= -> -> ->]; lra).
  split; [|split; [exact U|]].
  - change (k * r2, k * r3, k * r4) with (vscale k (r2, r3, r4)). rewrite normalize_scale by assumption. now apply normalize_id.
  - intros [= A B C]. apply N. f_equal; [f_equal|]; nra.
Qed.

(** ** C70: converting to longitude and latitude and back *)
(** Away from the poles (farther than 1e-10) both round trips are the identity. *)
Theorem C70_xyz_round_trip_partial v x y z :
  direction v (x, y, z) -> 1 / 10 ^ 10 <= Rabs x + Rabs y ->
  exists lon lat, xyz_to_lon_lat v = (lon, lat) /\ at_lon_lat lon lat x y z /\ 0 <= lon < 2 * PI /\ - (PI / 2) <= lat <= PI / 2 /\
    lon_lat_to_xyz lon lat = (x, y, z).
Proof.
  intros D N. destruct (direction_normalize _ _ D) as (E & U & NZ).
  destruct (lonlat_spec x y z U N) as (lon & lat & L & R1 & R2 & X & Y & Z).
  exists lon, lat. rewrite (lonlat_normalize v NZ), E. split; [exact L|]. unfold at_lon_lat. rewrite xyz_eq, X, Y, Z. auto 6.
Qed.
Print Assumptions C70_xyz_round_trip_partial.

Theorem C70_lon_lat_round_trip_partial lon lat :
  0 <= lon < 2 * PI -> - (PI / 2) <= lat <= PI / 2 ->
  1 / 10 ^ 10 <= Rabs (cos lat * cos lon) + Rabs (cos lat * sin lon) ->
  xyz_to_lon_lat (lon_lat_to_xyz lon lat) = (lon, lat).
Proof.
  intros A B N. rewrite xyz_eq.
  destruct (lonlat_spec _ _ _ (sphere_unit lon lat) N) as (lon' & lat' & L & R1 & R2 & X & Y & Z). rewrite L.
  assert (LAT : lat' = lat).
  { rewrite <- (asin_sin lat') by exact R2. rewrite <- (asin_sin lat) by exact B. now rewrite Z. }
  subst lat'. f_equal.
  assert (C : cos lat <> 0).
  { intro C. rewrite C, !Rmult_0_l, Rabs_R0 in N. lra. }
  apply angle_unique_2pi; [exact R1|exact A| |].
  - apply (Rmult_eq_reg_l (cos lat)); assumption.
  - apply (Rmult_eq_reg_l (cos lat)); assumption.
Qed.
Print Assumptions C70_lon_lat_round_trip_partial.

(** Everywhere, poles included, the point found from the computed longitude and latitude is within 2e-10 of the direction given. *)
Theorem C70_everywhere_close v x y z :
  direction v (x, y, z) ->
  exists lon lat x' y' z', xyz_to_lon_lat v = (lon, lat) /\ at_lon_lat lon lat x' y' z' /\
    0 <= lon < 2 * PI /\ - (PI / 2) <= lat <= PI / 2 /\
    z' = z /\ sqrt ((x' - x) ^ 2 + (y' - y) ^ 2 + (z' - z) ^ 2) <= 2 / 10 ^ 10.
Proof.
  intro D. destruct (direction_normalize _ _ D) as (E & U & NZ).
  destruct (Rlt_dec (Rabs x + Rabs y) (1 / 10 ^ 10)) as [L | L].
  - assert (Z : -1 <= z <= 1) by (eapply unit_z; exact U).
    exists 0, (asin z), (cos (asin z)), 0, z. rewrite (lonlat_normalize v NZ), E, lonlat_pole by assumption.
    split; [reflexivity|]. unfold at_lon_lat. rewrite cos_0, sin_0, sin_asin by exact Z.
    split; [repeat split; ring|]. split; [pose proof PI_RGT_0; lra|]. split; [apply asin_bound|]. split; [reflexivity|].
    rewrite cos_asin by exact Z. replace (1 - z²) with (x * x + y * y) by (cbn in U; unfold Rsqr; lra).
    set (s := sqrt (x * x + y * y)). assert (SS : s * s = x * x + y * y) by (apply sqrt_sqrt; nra).
    assert (S0 : 0 <= s) by apply sqrt_pos. set (e := 1 / 10 ^ 10) in *. replace (2 / 10 ^ 10) with (2 * e) by (unfold e; field).
    assert (XY : s * s <= (Rabs x + Rabs y) * (Rabs x + Rabs y)).
    { rewrite SS. pose proof (Rabs_pos x). pose proof (Rabs_pos y).
      assert (X2 : Rabs x * Rabs x = x * x) by (rewrite <- Rabs_mult; apply Rabs_right; nra).
      assert (Y2 : Rabs y * Rabs y = y * y) by (rewrite <- Rabs_mult; apply Rabs_right; nra). nra. }
    assert (Hs : s <= Rabs x + Rabs y) by (pose proof (Rabs_pos x); pose proof (Rabs_pos y); nra).
    assert (Hx : Rabs x <= s). { unfold s. rewrite <- sqrt_Rsqr_abs. apply sqrt_le_1_alt. unfold Rsqr. nra. }
    rewrite <- (sqrt_square (2 * e)) by (pose proof (Rabs_pos x); pose proof (Rabs_pos y); lra). apply sqrt_le_1_alt.
    assert (- s <= x) by (pose proof (Rle_abs (- x)); rewrite Rabs_Ropp in *; lra).
    replace ((s - x) ^ 2 + (0 - y) ^ 2 + (z - z) ^ 2) with (s * s - 2 * s * x + (x * x + y * y)) by ring. rewrite <- SS.
    assert (s * (- x) <= s * s) by (apply Rmult_le_compat_l; lra).
    assert (s * s <= e * e) by (apply Rmult_le_compat; lra). lra.
  - destruct (C70_xyz_round_trip_partial v x y z D ltac:(lra)) as (lon & lat & A & (-> & -> & ->) & B & C & _).
    exists lon, lat, (cos lat * cos lon), (cos lat * sin lon), (sin lat). split; [exact A|]. split; [unfold at_lon_lat; auto|].
    split; [exact B|]. split; [exact C|]. split; [reflexivity|].
    replace (_ + _ + _) with 0 by ring. rewrite sqrt_0. lra.
Qed.
Print Assumptions C70_everywhere_close.

(** At the poles the longitude is lost, so the round trip is not the identity. *)
Theorem C70_poles_refuted : exists lon lat, 0 <= lon < 2 * PI /\ - (PI / 2) <= lat <= PI / 2 /\
  xyz_to_lon_lat (lon_lat_to_xyz lon lat) <> (lon, lat).
Proof.
  exists 1, (PI / 2). pose proof PI_RGT_0. pose proof PI_4. pose proof PI2_1.
  split; [lra|]. split; [lra|].
  rewrite xyz_eq, lonlat_pole.
  - intros [= A _]. lra.
  - apply sphere_unit.
  - rewrite cos_PI2, !Rmult_0_l, Rabs_R0. lra.
Qed.
Print Assumptions C70_poles_refuted.

Example C70_case : direction (0, -5, 0) (0, -1, 0) /\ 1 / 10 ^ 10 <= Rabs 0 + Rabs (-1).
Proof.
  split; [exists 5; repeat split; lra|]. rewrite Rabs_R0, Rabs_left by lra. lra.
Qed.
Example C70_case2 : 1 / 10 ^ 10 <= Rabs (cos 0 * cos PI) + Rabs (cos 0 * sin PI).
Proof. rewrite cos_0, cos_PI, sin_PI, !Rmult_1_l, Rabs_R0, Rabs_left by lra. lra. Qed.

(** ** C71: great-circle distances *)
(** The value is radius times the angle between the two points; hence it is a metric. *)
Theorem C71_distance_is_angle lon1 lon2 lat1 lat2 radius x1 y1 z1 x2 y2 z2 :
  at_lon_lat lon1 lat1 x1 y1 z1 -> at_lon_lat lon2 lat2 x2 y2 z2 ->
  exists t, angle_between (x1, y1, z1) (x2, y2, z2) t /\ great_circle_distance lon1 lon2 lat1 lat2 radius = radius * t.
Proof.
  intros (-> & -> & ->) (-> & -> & ->).
  exists (great_circle_beta lon1 lon2 lat1 lat2). split; [|reflexivity].
  rewrite beta_acos. unfold angle_between. split; [apply acos_bound|].
  rewrite cos_acos by (apply unit_dot; apply xyz_unit). now rewrite !xyz_eq.
Qed.
Print Assumptions C71_distance_is_angle.

Theorem C71_metric radius lon1 lon2 lon3 lat1 lat2 lat3 : 0 < radius ->
  let d a b c e := great_circle_distance a b c e radius in
  d lon1 lon2 lat1 lat2 = d lon2 lon1 lat2 lat1 /\
  0 <= d lon1 lon2 lat1 lat2 <= radius * PI /\
  (d lon1 lon2 lat1 lat2 = 0 <-> forall x y z, at_lon_lat lon1 lat1 x y z <-> at_lon_lat lon2 lat2 x y z) /\
  d lon1 lon3 lat1 lat3 <= d lon1 lon2 lat1 lat2 + d lon2 lon3 lat2 lat3.
Proof.
  intros R0 d. unfold d, great_circle_distance. rewrite !beta_acos.
  pose proof (xyz_unit lon1 lat1) as U1. pose proof (xyz_unit lon2 lat2) as U2. pose proof (xyz_unit lon3 lat3) as U3.
  split; [now rewrite dot_comm|]. split; [|split].
  - pose proof (acos_bound (dot (lon_lat_to_xyz lon1 lat1) (lon_lat_to_xyz lon2 lat2))). nra.
  - split.
    + intro Z. assert (A : acos (dot (lon_lat_to_xyz lon1 lat1) (lon_lat_to_xyz lon2 lat2)) = acos 1) by (rewrite acos_1; nra).
      apply acos_inj in A; [|apply unit_dot; assumption|lra]. apply unit_dot_1 in A; [|assumption|assumption].
      rewrite !xyz_eq in A. injection A as A B C. intros. unfold at_lon_lat. rewrite A, B, C. tauto.
    + intro H. destruct (H (cos lat1 * cos lon1) (cos lat1 * sin lon1) (sin lat1)) as [F _].
      destruct F as (A & B & C); [repeat split|]. rewrite !xyz_eq, <- A, <- B, <- C, sphere_unit, acos_1. ring.
  - pose proof (angle_triangle _ _ _ U1 U2 U3). nra.
Qed.
Print Assumptions C71_metric.

(** lon_lat_midpoint halves the arc, unless the points are antipodal or the midpoint is within 1e-10 of a pole *)
Theorem C71_midpoint_partial lon1 lon2 lat1 lat2 radius x1 y1 z1 x2 y2 z2 x y z :
  at_lon_lat lon1 lat1 x1 y1 z1 -> at_lon_lat lon2 lat2 x2 y2 z2 ->
  direction (x1 + x2, y1 + y2, z1 + z2) (x, y, z) -> 1 / 10 ^ 10 <= Rabs x + Rabs y ->
  exists lon lat, lon_lat_midpoint lon1 lon2 lat1 lat2 = (lon, lat) /\ at_lon_lat lon lat x y z /\
    great_circle_distance lon lon1 lat lat1 radius = great_circle_distance lon1 lon2 lat1 lat2 radius / 2 /\
    great_circle_distance lon lon2 lat lat2 radius = great_circle_distance lon1 lon2 lat1 lat2 radius / 2.
Proof.
  intros A1 A2 D N. pose proof (xyz_unit lon1 lat1) as U1. pose proof (xyz_unit lon2 lat2) as U2.
  assert (E1 : lon_lat_to_xyz lon1 lat1 = (x1, y1, z1)) by (rewrite xyz_eq; destruct A1 as (-> & -> & ->); reflexivity).
  assert (E2 : lon_lat_to_xyz lon2 lat2 = (x2, y2, z2)) by (rewrite xyz_eq; destruct A2 as (-> & -> & ->); reflexivity).
  destruct (direction_normalize _ _ D) as (DN & DU & DZ).
  assert (M : midpoint (x1, y1, z1) (x2, y2, z2) = (x, y, z)) by exact DN.
  assert (D1 : direction (x, y, z) (x, y, z)) by (exists 1; repeat split; try ring; [lra|exact DU]).
  destruct (C70_xyz_round_trip_partial _ _ _ _ D1 N) as (lon & lat & L & AT & _ & _ & LX).
  exists lon, lat. unfold lon_lat_midpoint. rewrite E1, E2, M. split; [exact L|]. split; [exact AT|].
  rewrite E1 in U1. rewrite E2 in U2.
  assert (NA : dot (x1, y1, z1) (x2, y2, z2) <> -1).
  { intro X. apply DZ. apply dot_zero. change (x1 + x2, y1 + y2, z1 + z2) with (vadd (x1, y1, z1) (x2, y2, z2)).
    rewrite !dot_add_l, !dot_add_r, U1, U2, (dot_comm (x2, y2, z2)), X. ring. }
  destruct (midpoint_dot _ _ U1 U2 NA) as (M1 & M2). rewrite M in M1, M2.
  unfold great_circle_distance. rewrite !beta_acos, LX, E1, E2, M1, M2.
  rewrite half_acos by (apply unit_dot; assumption). split; field.
Qed.
Print Assumptions C71_midpoint_partial.

(** great_circle_distance_xyz depends on the directions of its arguments only, and is radius times their angle, away from the poles *)
Theorem C71_distance_xyz_partial p1 p2 u1 u2 radius :
  direction p1 u1 -> direction p2 u2 ->
  (let '(x, y, _) := u1 in 1 / 10 ^ 10 <= Rabs x + Rabs y) -> (let '(x, y, _) := u2 in 1 / 10 ^ 10 <= Rabs x + Rabs y) ->
  exists t, angle_between u1 u2 t /\ great_circle_distance_xyz p1 p2 radius = radius * t.
Proof.
  destruct u1 as [[x1 y1] z1], u2 as [[x2 y2] z2]. intros D1 D2 N1 N2.
  destruct (C70_xyz_round_trip_partial _ _ _ _ D1 N1) as (lon1 & lat1 & L1 & A1 & _).
  destruct (C70_xyz_round_trip_partial _ _ _ _ D2 N2) as (lon2 & lat2 & L2 & A2 & _).
  unfold great_circle_distance_xyz. rewrite L1, L2. now apply C71_distance_is_angle.
Qed.
Print Assumptions C71_distance_xyz_partial.

(** antipodal points have no midpoint: the sum of their positions is the zero vector, which the code divides by its length 0 *)
Theorem C71_antipodal_midpoint_refuted : exists lon1 lon2 lat1 lat2,
  let p := vadd (lon_lat_to_xyz lon1 lat1) (lon_lat_to_xyz lon2 lat2) in sqrt (dot p p) = 0.
Proof.
  exists 0, PI, 0, 0. rewrite !xyz_eq, cos_0, sin_0, cos_PI, sin_PI. cbn.
  replace (_ + _ + _) with 0 by ring. apply sqrt_0.
Qed.
Print Assumptions C71_antipodal_midpoint_refuted.

Example C71_case : at_lon_lat 0 0 1 0 0 /\ at_lon_lat (PI / 2) 0 0 1 0 /\
  direction (1 + 0, 0 + 1, 0 + 0) (/ sqrt 2, / sqrt 2, 0) /\ 1 / 10 ^ 10 <= Rabs (/ sqrt 2) + Rabs (/ sqrt 2).
Proof.
  unfold at_lon_lat. rewrite cos_0, sin_0, cos_PI2, sin_PI2.
  assert (S0 : 0 < sqrt 2) by (apply sqrt_lt_R0; lra). assert (S2 : sqrt 2 * sqrt 2 = 2) by (apply sqrt_sqrt; lra).
  assert (I : / sqrt 2 * / sqrt 2 = / 2) by (rewrite <- Rinv_mult, S2; reflexivity).
  split; [repeat split; ring|]. split; [repeat split; ring|].
  assert (P : 0 < / sqrt 2) by now apply Rinv_0_lt_compat.
  split.
  - exists (sqrt 2). repeat split; try lra; try (rewrite Rinv_r; lra).
  - rewrite Rabs_right by lra. assert (/ 2 <= / sqrt 2); [|lra]. apply Rinv_le_contravar; nra.
Qed.
