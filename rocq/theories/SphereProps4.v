(** Properties C75 and C58: reflections on the sphere, rotations of longitude, latitude and radius *)
Require Import Reals Lra Psatz.
From Verif Require Import SphereModel SphereProofs SphereProps.
Open Scope R_scope.

(** ** C75: _mirror_latlon *)
(** [m] is the mirror image of [p] in the plane through the origin, [p1] and [p2]: the segment from [p] to [m] is at right angles to the plane
    and its middle is in the plane *)
Definition mirror_image (p1 p2 p m : vec) : Prop :=
  dot (vsub m p) p1 = 0 /\ dot (vsub m p) p2 = 0 /\ dot (vadd m p) (cross p1 p2) = 0.

Lemma mirror_unit_normal p1 p2 : cross p1 p2 <> (0, 0, 0) ->
  exists n k, n = normalize (cross p1 p2) /\ 0 < k /\ cross p1 p2 = vscale k n /\ dot n n = 1 /\ dot p1 n = 0 /\ dot p2 n = 0.
Proof.
  intro N. exists (normalize (cross p1 p2)), (sqrt (dot (cross p1 p2) (cross p1 p2))).
  pose proof (sqrt_lt_R0 _ (dot_nonzero _ N)) as L. repeat split; try exact L.
  - unfold normalize. rewrite scale_scale. replace (_ * (1 / _)) with 1 by (field; lra). now rewrite scale_1.
  - now apply normalize_unit.
  - unfold normalize. rewrite dot_scale_r, cross_dot_l. ring.
  - unfold normalize. rewrite dot_scale_r, cross_dot_r. ring.
Qed.

Lemma mirror_spec p1 p2 p : cross p1 p2 <> (0, 0, 0) ->
  mirror_image p1 p2 p (mirror p1 p2 p) /\ mirror p1 p2 (mirror p1 p2 p) = p /\
  (forall q, dot (mirror p1 p2 p) (mirror p1 p2 q) = dot p q) /\ mirror p1 p2 p1 = p1 /\ mirror p1 p2 p2 = p2.
Proof.
  intro N. destruct (mirror_unit_normal p1 p2 N) as (n & k & E & K & X & U & D1 & D2). unfold mirror_image, mirror. cbv zeta. rewrite <- E.
  repeat split.
  - rewrite !dot_sub_l, dot_scale_l, (dot_comm n p1), D1. ring.
  - rewrite !dot_sub_l, dot_scale_l, (dot_comm n p2), D2. ring.
  - rewrite X, dot_scale_r, dot_add_l, dot_sub_l, dot_scale_l, U. ring.
  - rewrite dot_sub_l, dot_scale_l, U. clear - U. destruct p as [[a b] c], n as [[x y] z]. cbn. apply triple_eq; ring.
  - intro q. rewrite !dot_sub_l, !dot_sub_r, !dot_scale_l, !dot_scale_r, U, (dot_comm n q). ring.
  - rewrite D1. destruct p1 as [[a b] c], n as [[x y] z]. cbn. apply triple_eq; ring.
  - rewrite D2. destruct p2 as [[a b] c], n as [[x y] z]. cbn. apply triple_eq; ring.
Qed.

(** mirror images are unique, so the specification says which point it is *)
Lemma mirror_image_unique p1 p2 p m m' : cross p1 p2 <> (0, 0, 0) -> mirror_image p1 p2 p m -> mirror_image p1 p2 p m' -> m = m'.
Proof.
  intros N (A & B & C) (A' & B' & C').
  set (d := vsub m m').
  assert (D1 : dot d p1 = 0) by (unfold d; rewrite dot_sub_l in *; lra).
  assert (D2 : dot d p2 = 0) by (unfold d; rewrite dot_sub_l in *; lra).
  assert (D3 : dot d (cross p1 p2) = 0) by (unfold d; rewrite dot_sub_l; rewrite !dot_add_l in *; lra).
  assert (Z : cross d (cross p1 p2) = (0, 0, 0)).
  { rewrite triple_cross, D1, D2. destruct p1 as [[? ?] ?], p2 as [[? ?] ?]. cbn. apply triple_eq; ring. }
  assert (L : dot d d * dot (cross p1 p2) (cross p1 p2) = 0).
  { pose proof (lagrange d (cross p1 p2)) as H. rewrite Z, D3 in H. cbn [dot] in H. lra. }
  apply Rmult_integral in L. pose proof (dot_nonzero _ N). destruct L as [L | L]; [|lra].
  apply dot_zero in L. unfold d in L. destruct m as [[? ?] ?], m' as [[? ?] ?]. cbn in L. injection L as ? ? ?. apply triple_eq; lra.
Qed.

(** The longitude and latitude returned are those of the mirror image (unless it is within 1e-10 of a pole); mirroring again gives the
    point back; the two points that define the plane are as far from the image as from the point. *)
Theorem C75_mirror_partial lon1 lat1 lon2 lat2 lon0 lat0 p1 p2 p0 x y z radius :
  p1 = lon_lat_to_xyz lon1 lat1 -> p2 = lon_lat_to_xyz lon2 lat2 -> p0 = lon_lat_to_xyz lon0 lat0 ->
  cross p1 p2 <> (0, 0, 0) -> mirror_image p1 p2 p0 (x, y, z) -> 1 / 10 ^ 10 <= Rabs x + Rabs y ->
  exists lon lat, mirror_latlon lon1 lat1 lon2 lat2 lon0 lat0 = (lon, lat) /\ at_lon_lat lon lat x y z /\
    0 <= lon < 2 * PI /\ - (PI / 2) <= lat <= PI / 2 /\
    great_circle_distance lon lon1 lat lat1 radius = great_circle_distance lon0 lon1 lat0 lat1 radius /\
    great_circle_distance lon lon2 lat lat2 radius = great_circle_distance lon0 lon2 lat0 lat2 radius.
Proof.
  intros -> -> -> N M F.
  destruct (mirror_spec _ _ (lon_lat_to_xyz lon0 lat0) N) as (S & _ & D & F1 & F2).
  assert (E : mirror (lon_lat_to_xyz lon1 lat1) (lon_lat_to_xyz lon2 lat2) (lon_lat_to_xyz lon0 lat0) = (x, y, z))
    by (eapply mirror_image_unique; eassumption).
  assert (U : dot (x, y, z) (x, y, z) = 1) by (rewrite <- E, D; apply xyz_unit).
  assert (DI : direction (x, y, z) (x, y, z)) by (exists 1; repeat split; try ring; [lra|exact U]).
  destruct (C70_xyz_round_trip_partial _ _ _ _ DI F) as (lon & lat & L & AT & B1 & B2 & X).
  exists lon, lat. unfold mirror_latlon. rewrite E. split; [exact L|]. split; [exact AT|]. split; [exact B1|]. split; [exact B2|].
  unfold great_circle_distance. rewrite !beta_acos, X, <- E. split; do 2 f_equal.
  - rewrite <- F1 at 2. apply D.
  - rewrite <- F2 at 2. apply D.
Qed.
Print Assumptions C75_mirror_partial.

Theorem C75_involution p1 p2 p m : cross p1 p2 <> (0, 0, 0) -> mirror p1 p2 p = m ->
  mirror_image p1 p2 p m /\ mirror p1 p2 m = p /\ dot m m = dot p p.
Proof. intros N <-. destruct (mirror_spec p1 p2 p N) as (A & B & C & _). auto. Qed.
Print Assumptions C75_involution.

(** Near a pole the direction of the image is lost: a point within 1e-10 of the north pole on the meridian of pi, mirrored in the equator, comes back on the meridian of 0. *)
Theorem C75_pole_refuted : exists lon0 lat0 x y z lon lat,
  mirror_image (lon_lat_to_xyz 0 0) (lon_lat_to_xyz (PI / 2) 0) (lon_lat_to_xyz lon0 lat0) (x, y, z) /\
  mirror_latlon 0 0 (PI / 2) 0 lon0 lat0 = (lon, lat) /\ ~ at_lon_lat lon lat x y z.
Proof.
  set (e := 1 / 10 ^ 11). assert (E0 : 0 < e) by (unfold e; lra). assert (E1 : e < 1 / 10 ^ 10) by (unfold e; lra). assert (E2 : e < 1) by (unfold e; lra).
  assert (C : cos (acos e) = e) by (apply cos_acos; lra).
  exists PI, (acos e), (- e), 0, (- sin (acos e)), 0, (asin (- sin (acos e))).
  assert (M : mirror_image (lon_lat_to_xyz 0 0) (lon_lat_to_xyz (PI / 2) 0) (lon_lat_to_xyz PI (acos e)) (- e, 0, - sin (acos e))).
  { rewrite !xyz_eq, cos_0, sin_0, cos_PI2, sin_PI2, cos_PI, sin_PI, C. unfold mirror_image. cbn. repeat split; ring. }
  assert (N : cross (lon_lat_to_xyz 0 0) (lon_lat_to_xyz (PI / 2) 0) <> (0, 0, 0)).
  { rewrite !xyz_eq, cos_0, sin_0, cos_PI2, sin_PI2. cbn. intros [= _ _ H]. lra. }
  destruct (mirror_spec _ _ (lon_lat_to_xyz PI (acos e)) N) as (S & _ & D & _).
  assert (E : mirror (lon_lat_to_xyz 0 0) (lon_lat_to_xyz (PI / 2) 0) (lon_lat_to_xyz PI (acos e)) = (- e, 0, - sin (acos e))) by (eapply mirror_image_unique; eassumption).
  split; [exact M|]. split.
  - unfold mirror_latlon. rewrite E. apply lonlat_pole; [rewrite <- E, D; apply xyz_unit|]. rewrite Rabs_Ropp, Rabs_R0, Rabs_right by lra. lra.
  - intros (X & _). rewrite cos_0, Rmult_1_r in X. pose proof (asin_bound (- sin (acos e))) as B. pose proof (cos_ge_0 (asin (- sin (acos e))) ltac:(lra) ltac:(lra)). lra.
Qed.
Print Assumptions C75_pole_refuted.

(** the plane of the code: corners of the tile at longitude 3 pi/4 and 5 pi/4 (here on the equator: the plane z = 0 *)
Example C75_case : cross (lon_lat_to_xyz 0 0) (lon_lat_to_xyz (PI / 2) 0) <> (0, 0, 0) /\
  mirror_image (lon_lat_to_xyz 0 0) (lon_lat_to_xyz (PI / 2) 0) (lon_lat_to_xyz 0 (PI / 4)) (1 / sqrt 2, 0, - (1 / sqrt 2)) /\
  1 / 10 ^ 10 <= Rabs (1 / sqrt 2) + Rabs 0.
Proof.
  rewrite !xyz_eq, cos_0, sin_0, cos_PI2, sin_PI2, cos_PI4, sin_PI4. unfold mirror_image. cbn.
  assert (S0 : 0 < sqrt 2) by (apply sqrt_lt_R0; lra). assert (S2 : sqrt 2 * sqrt 2 = 2) by (apply sqrt_sqrt; lra).
  split; [intro E; inversion E; lra|]. split; [repeat split; ring|].
  rewrite Rabs_R0. assert (/ 2 <= 1 / sqrt 2) by (unfold Rdiv; rewrite Rmult_1_l; apply Rinv_le_contravar; nra).
  rewrite Rabs_right by lra. lra.
Qed.

(** ** C58 for longitude, latitude and radius (convert=True), both orientations *)
Definition valid_position (p : vec) : Prop :=
  let '(lon, lat, r) := p in - PI < lon <= PI /\ - (PI / 2) <= lat <= PI / 2 /\ 0 < r.
(** the cartesian position; [up] is 1 for a right-hand grid and -1 otherwise *)
Definition position (up : R) (p : vec) : vec := let '(lon, lat, r) := p in (r * cos lon * cos lat, r * sin lon * cos lat, up * r * sin lat).
Definition hand (rhg : bool) : R := if rhg then 1 else -1.
(** farther than 1e-10 (in the unit of the radius) from the axis of the poles *)
Definition off_axis (p : vec) : Prop := let '(x, y, _) := p in 1 / 10 ^ 10 <= Rabs x + Rabs y.

Lemma s2c_position rhg p : spherical_to_cartesian rhg p = position (hand rhg) p.
Proof. destruct p as [[lon lat] r], rhg; cbn; apply triple_eq; ring. Qed.
Lemma position_length up p : up * up = 1 -> let '(_, _, r) := p in dot (position up p) (position up p) = r * r.
Proof.
  destruct p as [[lon lat] r]. intro U. cbn. pose proof (sin2_cos2 lon) as A. pose proof (sin2_cos2 lat) as B. unfold Rsqr in *.
  transitivity (r * r * ((sin lon * sin lon + cos lon * cos lon) * (cos lat * cos lat) + (up * up) * (sin lat * sin lat))); [ring|].
  rewrite A, U. transitivity (r * r * (sin lat * sin lat + cos lat * cos lat)); [ring|]. rewrite B. ring.
Qed.
Lemma hand_sq rhg : hand rhg * hand rhg = 1.
Proof. destruct rhg; cbn; ring. Qed.

Lemma c2s_spec rhg q : q <> (0, 0, 0) -> off_axis q ->
  let p := cartesian_to_spherical rhg q in
  valid_position p /\ position (hand rhg) p = q /\ (let '(_, _, r) := p in r = sqrt (dot q q)).
Proof.
  destruct q as [[x y] z]. intros N F. cbv zeta. unfold cartesian_to_spherical, off_axis in *.
  set (r := sqrt (x * x + y * y + z * z)).
  assert (L : 0 < x * x + y * y + z * z) by exact (dot_nonzero _ N).
  assert (R0 : 0 < r) by (apply sqrt_lt_R0; exact L).
  assert (RR : r * r = x * x + y * y + z * z) by (apply sqrt_sqrt; lra).
  destruct (Rlt_dec (Rabs x + Rabs y) (1 / 10 ^ 10)) as [X | _]; [exfalso; lra|].
  assert (NZ : x <> 0 \/ y <> 0).
  { destruct (Req_dec x 0) as [-> | X]; [right|left; exact X]. intros ->. rewrite Rabs_R0 in F. lra. }
  destruct (atan2_spec x y NZ) as (C & S & B).
  assert (ZB : -1 <= z / r <= 1).
  { split; apply (Rmult_le_reg_r r); try exact R0; unfold Rdiv; rewrite Rmult_assoc, Rinv_l by lra; nra. }
  assert (SQ : r * sqrt (1 - (z / r)²) = sqrt (x * x + y * y)).
  { rewrite <- (sqrt_square r) at 1 by lra. rewrite <- sqrt_mult; [|nra|].
    - f_equal. unfold Rsqr. transitivity (r * r - z * z); [field; lra|]. rewrite RR. ring.
    - unfold Rsqr. nra. }
  assert (LAT : forall b : bool, let lat := if b then asin (z / r) else acos (z / r) - PI / 2 in
            - (PI / 2) <= lat <= PI / 2 /\ cos lat = sqrt (1 - (z / r)²) /\ hand b * r * sin lat = z).
  { intros [|]; cbv zeta; cbn [hand].
    - split; [apply asin_bound|]. split; [now apply cos_asin|]. rewrite sin_asin by exact ZB. field. lra.
    - rewrite acos_asin by exact ZB. replace (PI / 2 - asin (z / r) - PI / 2) with (- asin (z / r)) by ring.
      rewrite cos_neg, sin_neg. pose proof (asin_bound (z / r)). split; [lra|]. split; [now apply cos_asin|].
      rewrite sin_asin by exact ZB. field. lra. }
  destruct (LAT rhg) as (LB & LC & LS).
  split; [|split].
  - split; [exact B|]. split; [exact LB|exact R0].
  - unfold position. rewrite LS, LC. apply triple_eq; [| |reflexivity].
    + rewrite <- C at 2. rewrite <- SQ. ring.
    + rewrite <- S at 2. rewrite <- SQ. ring.
  - reflexivity.
Qed.

Lemma position_inj up p q : up * up = 1 -> valid_position p -> valid_position q ->
  off_axis (position up p) -> position up p = position up q -> p = q.
Proof.
  intros U P Q F E. pose proof (position_length up p U) as LP. pose proof (position_length up q U) as LQ.
  destruct p as [[lon lat] r], q as [[lon' lat'] r']. destruct P as (P1 & P2 & P3), Q as (Q1 & Q2 & Q3).
  assert (R0 : r = r') by (rewrite E in LP; nra). subst r'.
  unfold position, off_axis in *. injection E as X Y Z.
  assert (SL : sin lat = sin lat').
  { apply (Rmult_eq_reg_l (up * r)); [exact Z|]. assert (up <> 0) by nra. apply Rmult_integral_contrapositive. split; lra. }
  assert (LA : lat = lat').
  { rewrite <- (asin_sin lat), <- (asin_sin lat'), SL by assumption. reflexivity. }
  subst lat'. assert (CL : r * cos lat <> 0).
  { intro C. replace (r * cos lon * cos lat) with (cos lon * (r * cos lat)) in F by ring.
    replace (r * sin lon * cos lat) with (sin lon * (r * cos lat)) in F by ring. rewrite C, !Rmult_0_r, Rabs_R0 in F. lra. }
  f_equal. f_equal. apply angle_unique; try assumption; apply (Rmult_eq_reg_l (r * cos lat)); try assumption; lra.
Qed.

Lemma rot_dot axis p a q b q' : rot_cartesian axis p a = Some q -> rot_cartesian axis b a = Some q' -> dot q q' = dot p b.
Proof.
  destruct p as [[x y] z], b as [[x' y'] z']. pose proof (sin2_cos2 a) as A. unfold Rsqr in A.
  destruct axis as [|[|[|[|axis]]]]; cbn; try discriminate; intros [= <-] [= <-]; cbn.
  - transitivity (x * x' + (sin a * sin a + cos a * cos a) * (y * y' + z * z')); [ring|rewrite A; ring].
  - transitivity ((sin a * sin a + cos a * cos a) * (x * x' + z * z') + y * y'); [ring|rewrite A; ring].
  - transitivity ((sin a * sin a + cos a * cos a) * (x * x' + y * y') + z * z'); [ring|rewrite A; ring].
Qed.
Lemma rot_back axis p a q : rot_cartesian axis p a = Some q -> rot_cartesian axis q (- a) = Some p.
Proof.
  destruct p as [[x y] z]. pose proof (sin2_cos2 a) as A. unfold Rsqr in A.
  destruct axis as [|[|[|[|axis]]]]; cbn; try discriminate; intros [= <-]; cbn [rot_cartesian]; rewrite cos_neg, sin_neg; f_equal; apply triple_eq; try ring.
  - transitivity ((sin a * sin a + cos a * cos a) * y); [ring|rewrite A; ring].
  - transitivity ((sin a * sin a + cos a * cos a) * z); [ring|rewrite A; ring].
  - transitivity ((sin a * sin a + cos a * cos a) * x); [ring|rewrite A; ring].
  - transitivity ((sin a * sin a + cos a * cos a) * z); [ring|rewrite A; ring].
  - transitivity ((sin a * sin a + cos a * cos a) * x); [ring|rewrite A; ring].
  - transitivity ((sin a * sin a + cos a * cos a) * y); [ring|rewrite A; ring].
Qed.

(** Rotating: the radius stays, inner products of positions stay, and rotating back gives the longitude, latitude and radius back. *)
Theorem C58_lon_lat_rotation_partial rhg axis a p q :
  valid_position p -> valid_position q ->
  forall p' q', rot_spherical rhg axis p a = Some p' -> rot_spherical rhg axis q a = Some q' ->
  off_axis (position (hand rhg) p) ->
  (forall c, rot_cartesian axis (position (hand rhg) p) a = Some c -> off_axis c) ->
  (forall c, rot_cartesian axis (position (hand rhg) q) a = Some c -> off_axis c) ->
  valid_position p' /\ snd p' = snd p /\
  dot (position (hand rhg) p') (position (hand rhg) q') = dot (position (hand rhg) p) (position (hand rhg) q) /\
  rot_spherical rhg axis p' (- a) = Some p.
Proof.
  intros VP VQ p' q' RP RQ OP FP FQ. pose proof (hand_sq rhg) as H.
  unfold rot_spherical in *. rewrite s2c_position in *.
  destruct (rot_cartesian axis (position (hand rhg) p) a) as [cp|] eqn:EP; [|discriminate].
  destruct (rot_cartesian axis (position (hand rhg) q) a) as [cq|] eqn:EQ; [|discriminate].
  injection RP as <-. injection RQ as <-.
  assert (NZ : forall v c, valid_position v -> rot_cartesian axis (position (hand rhg) v) a = Some c -> dot c c = snd v * snd v /\ c <> (0, 0, 0)).
  { intros v c V R0. pose proof (rot_dot _ _ _ _ _ _ R0 R0) as D. pose proof (position_length (hand rhg) v H) as L.
    destruct v as [[lon lat] r]. cbn [snd]. rewrite L in D. split; [exact D|]. intros ->. cbn in D. destruct V as (_ & _ & V). nra. }
  destruct (NZ p cp VP EP) as [DP NP]. destruct (NZ q cq VQ EQ) as [DQ NQ].
  destruct (c2s_spec rhg cp NP (FP _ eq_refl)) as (V1 & V2 & V3). destruct (c2s_spec rhg cq NQ (FQ _ eq_refl)) as (_ & W2 & _).
  split; [exact V1|]. split; [|split].
  - assert (SN : forall w : vec, (let '(_, _, r) := w in r = sqrt (dot cp cp)) -> snd w = sqrt (dot cp cp)) by (intros [[? ?] ?]; auto).
    rewrite (SN _ V3), DP. apply sqrt_square. destruct p as [[? ?] ?]. destruct VP as (_ & _ & ?). cbn. lra.
  - rewrite V2, W2. eapply rot_dot; eassumption.
  - rewrite V2, (rot_back _ _ _ _ EP). f_equal.
    assert (PN : position (hand rhg) p <> (0, 0, 0)).
    { intro Z. pose proof (position_length (hand rhg) p H) as L. rewrite Z in L. destruct p as [[? ?] ?]. destruct VP as (_ & _ & ?). cbn in L. nra. }
    destruct (c2s_spec rhg _ PN OP) as (U1 & U2 & _). symmetry. eapply position_inj; try eassumption. symmetry. exact U2.
Qed.
Print Assumptions C58_lon_lat_rotation_partial.

(** On the axis of the poles the longitude is lost: rotating by 0 and back does not give it back. *)
Theorem C58_poles_refuted : exists rhg axis p p', valid_position p /\ rot_spherical rhg axis p 0 = Some p' /\ p' <> p.
Proof.
  exists true, 3%nat, (1, PI / 2, 1). eexists. pose proof PI_RGT_0. pose proof PI2_1.
  split; [repeat split; lra|]. split.
  - unfold rot_spherical. cbn. reflexivity.
  - rewrite cos_0, sin_0, cos_PI2.
    match goal with |- context [Rlt_dec ?u ?v] => replace u with 0; [destruct (Rlt_dec 0 v) as [_ | X]|] end.
    + intros [= E _ _]. lra.
    + exfalso. apply X. lra.
    + replace (1 * (1 * cos 1 * 0) + 0 * (1 * sin 1 * 0)) with 0 by ring.
      replace (-0 * (1 * cos 1 * 0) + 1 * (1 * sin 1 * 0)) with 0 by ring. rewrite Rabs_R0. ring.
Qed.
Print Assumptions C58_poles_refuted.

Example C58_lon_lat_case : valid_position (0, 0, 2) /\ off_axis (position 1 (0, 0, 2)) /\
  rot_cartesian 3 (position 1 (0, 0, 2)) (PI / 2) = Some (0, -2, 0) /\ off_axis (0, -2, 0).
Proof.
  pose proof PI_RGT_0. unfold valid_position, off_axis, position, rot_cartesian. rewrite cos_0, sin_0, cos_PI2, sin_PI2.
  repeat split; try lra.
  - replace (2 * 1 * 1) with 2 by ring. replace (2 * 0 * 1) with 0 by ring. rewrite Rabs_R0, Rabs_right by lra. lra.
  - f_equal. apply triple_eq; ring.
  - rewrite Rabs_R0, Rabs_left by lra. lra.
Qed.
