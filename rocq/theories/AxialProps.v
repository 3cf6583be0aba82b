(** C130: the factors l2c_v and l2c_u are the axial angular momentum of a unit wind along the edge.

    l2c_v and l2c_u are, for every edge of the compute domain, the eastward component of the unit vector along the edge at its midpoint times the distance of the midpoint from the axis: the
    component along the edge of a rotation of unit angular velocity about the axis, which is the cosine between the axis and the normal of the edge's great circle.  They lie between -1 and 1,
    change sign with the direction of the edge, are the same for all edges of one great circle (and so for the two tiles at a tile edge), do not depend on the layout, and are 0 in the halo. *)
Require Import Reals ZArith Bool Lia Lra Psatz.
From Verif Require Import SphereModel SphereProofs SphereProps SphereProps2 SphereProps3 AxialModel.
Local Open Scope R_scope.

Lemma dir_dot v u : direction v u -> dot u u = 1.
Proof. intro D. now destruct (direction_normalize v u D) as (_ & U & _). Qed.
Lemma sum_nonzero x1 y1 z1 x2 y2 z2 : (x2, y2, z2) <> (- x1, - y1, - z1) -> vadd (x1, y1, z1) (x2, y2, z2) <> (0, 0, 0).
Proof. intros N [= A B C]. apply N. apply triple_eq; lra. Qed.
Lemma normalize_direction v : v <> (0, 0, 0) -> direction v (normalize v).
Proof.
  intro N. pose proof (normalize_unit v N) as U. pose proof (len_pos v N) as L. destruct v as [[a b] c]. unfold normalize in *. set (k := sqrt (dot (a, b, c) (a, b, c))) in *. cbn [vscale] in *. exists k. cbn [dot] in U.
  repeat split; try exact L; try (field; lra). exact U.
Qed.
(** the velocity of unit rotation about the axis, seen along the edge *)
Lemma l2c_parts lon1 lat1 lon2 lat2 x1 y1 z1 x2 y2 z2 : at_lon_lat lon1 lat1 x1 y1 z1 -> at_lon_lat lon2 lat2 x2 y2 z2 -> (x2, y2, z2) <> (x1, y1, z1) -> (x2, y2, z2) <> (- x1, - y1, - z1) ->
  exists tx ty tz mx my mz x' y' , direction (x2 - x1, y2 - y1, z2 - z1) (tx, ty, tz) /\ direction (x1 + x2, y1 + y2, z1 + z2) (mx, my, mz) /\
    l2c (lon1, lat1) (lon2, lat2) = tx * - y' + ty * x' /\ sqrt ((x' - mx) ^ 2 + (y' - my) ^ 2) <= 2 / 10 ^ 10 /\ (1 / 10 ^ 10 <= Rabs mx + Rabs my -> x' = mx /\ y' = my) /\ x' * x' + y' * y' <= 1.
Proof.
  intros A1 A2 N M. pose proof (C74_direction _ _ _ _ _ _ _ _ _ _ A1 A2 N M) as DT. pose proof (normalize_direction _ (sum_nonzero _ _ _ _ _ _ M)) as DM.
  assert (E1 : lon_lat_to_xyz lon1 lat1 = (x1, y1, z1)) by (rewrite xyz_eq; destruct A1 as (-> & -> & ->); reflexivity).
  assert (E2 : lon_lat_to_xyz lon2 lat2 = (x2, y2, z2)) by (rewrite xyz_eq; destruct A2 as (-> & -> & ->); reflexivity).
  unfold l2c. destruct (unit_vector_direction lon1 lat1 lon2 lat2) as [[tx ty] tz] eqn:T.
  assert (X : lon_lat_midpoint lon1 lon2 lat1 lat2 = xyz_to_lon_lat (normalize (vadd (x1, y1, z1) (x2, y2, z2)))) by (unfold lon_lat_midpoint, midpoint; now rewrite E1, E2).
  rewrite X. destruct (normalize (vadd (x1, y1, z1) (x2, y2, z2))) as [[mx my] mz] eqn:EM.
  assert (D1 : direction (mx, my, mz) (mx, my, mz)) by (pose proof (dir_dot _ _ DM) as U; exists 1; cbn in U; repeat split; try ring; [lra|exact U]).
  destruct (C70_everywhere_close _ _ _ _ D1) as (lon & lat & x' & y' & z' & L & (-> & -> & ->) & _ & _ & Z & C).
  rewrite L. exists tx, ty, tz, mx, my, mz, (cos lat * cos lon), (cos lat * sin lon). split; [exact DT|]. split; [exact DM|]. split; [unfold lon_vect; cbn; ring|]. split; [|split].
  - rewrite Z in C. replace ((mz - mz) ^ 2) with 0 in C by ring. now rewrite Rplus_0_r in C.
  - intro P. destruct (C70_xyz_round_trip_partial _ _ _ _ D1 P) as (lon' & lat' & L' & (-> & -> & _) & _). rewrite L in L'. injection L' as <- <-. auto.
  - pose proof (sphere_unit lon lat) as U. cbn in U. nra.
Qed.
(** the normal of the great circle through the two points *)
Lemma normal_parts x1 y1 z1 x2 y2 z2 tx ty tz mx my mz nx ny nz : x1 * x1 + y1 * y1 + z1 * z1 = 1 -> x2 * x2 + y2 * y2 + z2 * z2 = 1 ->
  direction (x2 - x1, y2 - y1, z2 - z1) (tx, ty, tz) -> direction (x1 + x2, y1 + y2, z1 + z2) (mx, my, mz) -> direction (y1 * z2 - z1 * y2, z1 * x2 - x1 * z2, x1 * y2 - y1 * x2) (nx, ny, nz) ->
  nz = tx * - my + ty * mx.
Proof.
  intros U1 U2 (k & K & T1 & T2 & T3 & UT) (l & L & M1 & M2 & M3 & UM) (c & C & N1 & N2 & N3 & UN).
  assert (O : mx * tx + my * ty + mz * tz = 0).
  { assert (H : l * k * (mx * tx + my * ty + mz * tz) = 0).
    { transitivity ((l * mx) * (k * tx) + (l * my) * (k * ty) + (l * mz) * (k * tz)); [ring|]. rewrite <- T1, <- T2, <- T3, <- M1, <- M2, <- M3.
      transitivity ((x2 * x2 + y2 * y2 + z2 * z2) - (x1 * x1 + y1 * y1 + z1 * z1)); [ring|]. rewrite U1, U2. ring. }
    apply Rmult_integral in H. destruct H as [H|H]; [|exact H]. exfalso. assert (0 < l * k) by (now apply Rmult_lt_0_compat). lra. }
  set (w1 := my * tz - mz * ty). set (w2 := mz * tx - mx * tz). set (w3 := mx * ty - my * tx).
  assert (UW : w1 * w1 + w2 * w2 + w3 * w3 = 1).
  { unfold w1, w2, w3. transitivity ((mx * mx + my * my + mz * mz) * (tx * tx + ty * ty + tz * tz) - (mx * tx + my * ty + mz * tz) * (mx * tx + my * ty + mz * tz)); [ring|]. rewrite UM, UT, O. ring. }
  assert (W1 : l * k * w1 = 2 * c * nx).
  { unfold w1. transitivity ((l * my) * (k * tz) - (l * mz) * (k * ty)); [ring|]. rewrite <- T2, <- T3, <- M2, <- M3. transitivity (2 * (y1 * z2 - z1 * y2)); [ring|]. rewrite N1. ring. }
  assert (W2 : l * k * w2 = 2 * c * ny).
  { unfold w2. transitivity ((l * mz) * (k * tx) - (l * mx) * (k * tz)); [ring|]. rewrite <- T1, <- T3, <- M1, <- M3. transitivity (2 * (z1 * x2 - x1 * z2)); [ring|]. rewrite N2. ring. }
  assert (W3 : l * k * w3 = 2 * c * nz).
  { unfold w3. transitivity ((l * mx) * (k * ty) - (l * my) * (k * tx)); [ring|]. rewrite <- T1, <- T2, <- M1, <- M2. transitivity (2 * (x1 * y2 - y1 * x2)); [ring|]. rewrite N3. ring. }
  assert (LK : 0 < l * k) by (now apply Rmult_lt_0_compat).
  assert (S : (l * k) * (l * k) = (2 * c) * (2 * c)).
  { transitivity ((l * k) * (l * k) * (w1 * w1 + w2 * w2 + w3 * w3)); [rewrite UW; ring|]. transitivity ((l * k * w1) * (l * k * w1) + (l * k * w2) * (l * k * w2) + (l * k * w3) * (l * k * w3)); [ring|].
    rewrite W1, W2, W3. transitivity ((2 * c) * (2 * c) * (nx * nx + ny * ny + nz * nz)); [ring|]. rewrite UN. ring. }
  assert (E : l * k = 2 * c) by nra. assert (nz = w3) as -> by (apply (Rmult_eq_reg_l (l * k)); [rewrite W3, E; ring|lra]). unfold w3. ring.
Qed.
Lemma small_dot tx ty tz a b e : tx * tx + ty * ty + tz * tz = 1 -> sqrt (a ^ 2 + b ^ 2) <= e -> Rabs (tx * - b + ty * a) <= e.
Proof.
  intros U S. apply Rle_trans with (2 := S). rewrite <- sqrt_Rsqr_abs. apply sqrt_le_1_alt. unfold Rsqr.
  assert (Q : (tx * - b + ty * a) * (tx * - b + ty * a) + (tx * a + ty * b) * (tx * a + ty * b) = (tx * tx + ty * ty) * (a ^ 2 + b ^ 2)) by ring.
  assert (0 <= (tx * a + ty * b) * (tx * a + ty * b)) by apply Rle_0_sqr. assert ((tx * tx + ty * ty) * (a ^ 2 + b ^ 2) <= 1 * (a ^ 2 + b ^ 2)) by (apply Rmult_le_compat_r; nra). lra.
Qed.

(** ** C130 *)
(** The factor of an edge is the z component of the unit normal of its great circle: within 2e-10 everywhere, and exactly if the midpoint is not within 1e-10 of a pole *)
Theorem C130_value : forall lon1 lat1 lon2 lat2 x1 y1 z1 x2 y2 z2 nx ny nz, at_lon_lat lon1 lat1 x1 y1 z1 -> at_lon_lat lon2 lat2 x2 y2 z2 ->
  (x2, y2, z2) <> (x1, y1, z1) -> (x2, y2, z2) <> (- x1, - y1, - z1) -> direction (y1 * z2 - z1 * y2, z1 * x2 - x1 * z2, x1 * y2 - y1 * x2) (nx, ny, nz) ->
  Rabs (l2c (lon1, lat1) (lon2, lat2) - nz) <= 2 / 10 ^ 10 /\
  (forall mx my mz, direction (x1 + x2, y1 + y2, z1 + z2) (mx, my, mz) -> 1 / 10 ^ 10 <= Rabs mx + Rabs my -> l2c (lon1, lat1) (lon2, lat2) = nz).
Proof.
  intros lon1 lat1 lon2 lat2 x1 y1 z1 x2 y2 z2 nx ny nz A1 A2 N M DN. destruct (l2c_parts _ _ _ _ _ _ _ _ _ _ A1 A2 N M) as (tx & ty & tz & mx & my & mz & x' & y' & DT & DM & E & S & P & _).
  assert (U1 : x1 * x1 + y1 * y1 + z1 * z1 = 1) by (destruct A1 as (-> & -> & ->); exact (sphere_unit lon1 lat1)).
  assert (U2 : x2 * x2 + y2 * y2 + z2 * z2 = 1) by (destruct A2 as (-> & -> & ->); exact (sphere_unit lon2 lat2)).
  pose proof (normal_parts _ _ _ _ _ _ _ _ _ _ _ _ _ _ _ U1 U2 DT DM DN) as Z. rewrite E, Z. split.
  - pose proof (dir_dot _ _ DT) as UT. replace (tx * - y' + ty * x' - (tx * - my + ty * mx)) with (tx * - (y' - my) + ty * (x' - mx)) by ring. exact (small_dot tx ty tz (x' - mx) (y' - my) _ UT S).
  - intros ax ay az DA F. destruct (direction_normalize _ _ DA) as (EA & _ & _). destruct (direction_normalize _ _ DM) as (EB & _ & _). rewrite EA in EB. injection EB as -> -> ->. destruct (P F) as [-> ->]. reflexivity.
Qed.
Print Assumptions C130_value.
(** It is the component along the edge of a rotation of unit angular velocity about the axis, (0, 0, 1) x position, at the midpoint of the edge *)
Theorem C130_rotation_partial : forall lon1 lat1 lon2 lat2 x1 y1 z1 x2 y2 z2 tx ty tz mx my mz, at_lon_lat lon1 lat1 x1 y1 z1 -> at_lon_lat lon2 lat2 x2 y2 z2 ->
  (x2, y2, z2) <> (x1, y1, z1) -> direction (x2 - x1, y2 - y1, z2 - z1) (tx, ty, tz) -> direction (x1 + x2, y1 + y2, z1 + z2) (mx, my, mz) -> 1 / 10 ^ 10 <= Rabs mx + Rabs my ->
  l2c (lon1, lat1) (lon2, lat2) = tx * - my + ty * mx + tz * 0.
Proof.
  intros lon1 lat1 lon2 lat2 x1 y1 z1 x2 y2 z2 tx ty tz mx my mz A1 A2 N DT DM F.
  assert (M : (x2, y2, z2) <> (- x1, - y1, - z1)). { intros [= -> -> ->]. destruct (direction_normalize _ _ DM) as (_ & _ & Q). apply Q. apply triple_eq; ring. }
  destruct (l2c_parts _ _ _ _ _ _ _ _ _ _ A1 A2 N M) as (ax & ay & az & bx & b_y & bz & x' & y' & DT' & DM' & E & _ & P & _).
  destruct (direction_normalize _ _ DT) as (E1 & _ & _). destruct (direction_normalize _ _ DT') as (E2 & _ & _). rewrite E1 in E2. injection E2 as -> -> ->.
  destruct (direction_normalize _ _ DM) as (E3 & _ & _). destruct (direction_normalize _ _ DM') as (E4 & _ & _). rewrite E3 in E4. injection E4 as -> -> ->. destruct (P F) as [-> ->]. rewrite E. ring.
Qed.
Print Assumptions C130_rotation_partial.
(** always between -1 and 1 *)
Theorem C130_bounded : forall lon1 lat1 lon2 lat2 x1 y1 z1 x2 y2 z2, at_lon_lat lon1 lat1 x1 y1 z1 -> at_lon_lat lon2 lat2 x2 y2 z2 -> (x2, y2, z2) <> (x1, y1, z1) -> (x2, y2, z2) <> (- x1, - y1, - z1) ->
  -1 <= l2c (lon1, lat1) (lon2, lat2) <= 1.
Proof.
  intros lon1 lat1 lon2 lat2 x1 y1 z1 x2 y2 z2 A1 A2 N M. destruct (l2c_parts _ _ _ _ _ _ _ _ _ _ A1 A2 N M) as (tx & ty & tz & mx & my & mz & x' & y' & DT & DM & -> & _ & _ & B).
  pose proof (dir_dot _ _ DT) as U. cbn in U.
  assert (Q : sqrt (x' ^ 2 + y' ^ 2) <= 1) by (rewrite <- sqrt_1; apply sqrt_le_1_alt; lra). pose proof (small_dot tx ty tz x' y' 1 U Q) as H. unfold Rabs in H. destruct (Rcase_abs _) in H; lra.
Qed.
Print Assumptions C130_bounded.
(** the other way along the edge: the other sign, at the poles too *)
Theorem C130_reversed : forall lon1 lat1 lon2 lat2 x1 y1 z1 x2 y2 z2, at_lon_lat lon1 lat1 x1 y1 z1 -> at_lon_lat lon2 lat2 x2 y2 z2 -> (x2, y2, z2) <> (x1, y1, z1) -> (x2, y2, z2) <> (- x1, - y1, - z1) ->
  l2c (lon2, lat2) (lon1, lat1) = - l2c (lon1, lat1) (lon2, lat2).
Proof.
  intros lon1 lat1 lon2 lat2 x1 y1 z1 x2 y2 z2 A1 A2 N M. assert (T : unit_vector_direction lon2 lat2 lon1 lat1 = vscale (-1) (unit_vector_direction lon1 lat1 lon2 lat2)).
  { assert (N' : (x1, y1, z1) <> (x2, y2, z2)) by congruence. assert (M' : (x1, y1, z1) <> (- x2, - y2, - z2)) by (intros [= -> -> ->]; apply M; apply triple_eq; ring).
    pose proof (C74_direction _ _ _ _ _ _ _ _ _ _ A1 A2 N M) as D. pose proof (C74_direction _ _ _ _ _ _ _ _ _ _ A2 A1 N' M') as D'.
    destruct (direction_normalize _ _ D') as (<- & _ & _). destruct (unit_vector_direction lon1 lat1 lon2 lat2) as [[a b] c]. cbn [vscale].
    assert (X : direction (x1 - x2, y1 - y2, z1 - z2) (-1 * a, -1 * b, -1 * c)). { destruct D as (k & K & E1 & E2 & E3 & U). exists k. repeat split; try exact K; try lra. }
    now destruct (direction_normalize _ _ X) as (-> & _ & _). }
  unfold l2c. rewrite T. replace (lon_lat_midpoint lon2 lon1 lat2 lat1) with (lon_lat_midpoint lon1 lon2 lat1 lat2).
  - destruct (lon_lat_midpoint lon1 lon2 lat1 lat2) as [lon lat]. rewrite dot_scale_l. ring.
  - unfold lon_lat_midpoint, midpoint. f_equal. f_equal. destruct (lon_lat_to_xyz lon1 lat1) as [[a b] c], (lon_lat_to_xyz lon2 lat2) as [[d e] f]. cbn. apply triple_eq; ring.
Qed.
Print Assumptions C130_reversed.
(** two edges of one great circle, in the same sense about it, have the same factor *)
Theorem C130_great_circle_partial : forall lon1 lat1 lon2 lat2 lon3 lat3 lon4 lat4 x1 y1 z1 x2 y2 z2 x3 y3 z3 x4 y4 z4 nx ny nz mx my mz mx' my' mz',
  at_lon_lat lon1 lat1 x1 y1 z1 -> at_lon_lat lon2 lat2 x2 y2 z2 -> at_lon_lat lon3 lat3 x3 y3 z3 -> at_lon_lat lon4 lat4 x4 y4 z4 ->
  direction (y1 * z2 - z1 * y2, z1 * x2 - x1 * z2, x1 * y2 - y1 * x2) (nx, ny, nz) -> direction (y3 * z4 - z3 * y4, z3 * x4 - x3 * z4, x3 * y4 - y3 * x4) (nx, ny, nz) ->
  direction (x1 + x2, y1 + y2, z1 + z2) (mx, my, mz) -> 1 / 10 ^ 10 <= Rabs mx + Rabs my -> direction (x3 + x4, y3 + y4, z3 + z4) (mx', my', mz') -> 1 / 10 ^ 10 <= Rabs mx' + Rabs my' ->
  l2c (lon1, lat1) (lon2, lat2) = l2c (lon3, lat3) (lon4, lat4).
Proof.
  intros lon1 lat1 lon2 lat2 lon3 lat3 lon4 lat4 x1 y1 z1 x2 y2 z2 x3 y3 z3 x4 y4 z4 nx ny nz mx my mz mx' my' mz' A1 A2 A3 A4 D D' M F M' F'.
  assert (X : forall x1 y1 z1 x2 y2 z2 s, direction (y1 * z2 - z1 * y2, z1 * x2 - x1 * z2, x1 * y2 - y1 * x2) (nx, ny, nz) -> (x2, y2, z2) <> (s * x1, s * y1, s * z1)).
  { intros a b c d e f s Q [= -> -> ->]. destruct (direction_normalize _ _ Q) as (_ & _ & Z). apply Z. apply triple_eq; ring. }
  assert (Y : forall x1 y1 z1 x2 y2 z2, direction (y1 * z2 - z1 * y2, z1 * x2 - x1 * z2, x1 * y2 - y1 * x2) (nx, ny, nz) -> (x2, y2, z2) <> (x1, y1, z1) /\ (x2, y2, z2) <> (- x1, - y1, - z1)).
  { intros a b c d e f Q. split; intro Z; [apply (X a b c d e f 1 Q)|apply (X a b c d e f (-1) Q)]; rewrite Z; apply triple_eq; ring. }
  destruct (Y _ _ _ _ _ _ D) as [N1 N2]. destruct (Y _ _ _ _ _ _ D') as [N3 N4].
  destruct (C130_value _ _ _ _ _ _ _ _ _ _ _ _ _ A1 A2 N1 N2 D) as [_ V]. destruct (C130_value _ _ _ _ _ _ _ _ _ _ _ _ _ A3 A4 N3 N4 D') as [_ V']. now rewrite (V _ _ _ M F), (V' _ _ _ M' F').
Qed.
Print Assumptions C130_great_circle_partial.

(** the arrays *)
Local Open Scope Z_scope.
(** On a rank whose points are those of one grid G from (i0, j0) on, the arrays hold the factors of the edges of G in the compute domain, and 0 elsewhere *)
Theorem C130_arrays : forall G dgrid i0 j0 nx ny h, 0 <= nx -> 0 <= ny -> 0 < h -> (forall i j, 0 <= i < nx + 1 + 2 * h -> 0 <= j < ny + 1 + 2 * h -> dgrid i j = G (i0 + i) (j0 + j)) ->
  exists v u, l2c_v dgrid (nx + 1 + 2 * h) (ny + 1 + 2 * h) h = Some v /\ l2c_u dgrid (nx + 1 + 2 * h) (ny + 1 + 2 * h) h = Some u /\
  (forall i j, h <= i <= h + nx -> h <= j < h + ny -> v i j = l2c (G (i0 + i) (j0 + j)) (G (i0 + i) (j0 + j + 1))) /\
  (forall i j, h <= i < h + nx -> h <= j <= h + ny -> u i j = l2c (G (i0 + i) (j0 + j)) (G (i0 + i + 1) (j0 + j))) /\
  (forall i j, ~ (h <= i <= h + nx /\ h <= j < h + ny) -> v i j = 0%R) /\ (forall i j, ~ (h <= i < h + nx /\ h <= j <= h + ny) -> u i j = 0%R).
Proof.
  intros G dgrid i0 j0 nx ny h NX NY H D. unfold l2c_v, l2c_u.
  assert (W : forall n, 0 <= n -> slice_length (n + 1 + 2 * h) h (- h) = n + 1 /\ slice_length (n + 1 + 2 * h) h (- h - 1) = n /\ slice_length (n + 1 + 2 * h) (h + 1) (- h) = n).
  { intros n N. unfold slice_length, bound. repeat match goal with |- context [?a <? 0] => destruct (Z.ltb_spec a 0) end; lia. }
  destruct (W nx NX) as (-> & -> & ->). destruct (W ny NY) as (-> & -> & ->). unfold compatible. rewrite !Z.eqb_refl. cbn [orb negb].
  eexists. eexists. split; [reflexivity|]. split; [reflexivity|]. cbv beta. split; [|split; [|split]]; intros i j.
  - intros I J. destruct (Z.leb_spec h i), (Z.ltb_spec i (h + (nx + 1))), (Z.leb_spec h j), (Z.ltb_spec j (h + ny)); try lia. cbn [andb]. rewrite !D by lia. f_equal. f_equal. lia.
  - intros I J. destruct (Z.leb_spec h i), (Z.ltb_spec i (h + nx)), (Z.leb_spec h j), (Z.ltb_spec j (h + (ny + 1))); try lia. cbn [andb]. rewrite !D by lia. f_equal. f_equal. lia.
  - intro N. destruct (Z.leb_spec h i), (Z.ltb_spec i (h + (nx + 1))), (Z.leb_spec h j), (Z.ltb_spec j (h + ny)); cbn [andb]; try reflexivity. exfalso. apply N. lia.
  - intro N. destruct (Z.leb_spec h i), (Z.ltb_spec i (h + nx)), (Z.leb_spec h j), (Z.ltb_spec j (h + (ny + 1))); cbn [andb]; try reflexivity. exfalso. apply N. lia.
Qed.
Print Assumptions C130_arrays.
(** Findings.  Without a halo the slices nhalo:-nhalo are empty and the shapes of the two ends of the edges differ: numpy raises *)
Theorem C130_no_halo_refuted : exists nx ny, 2 <= nx /\ 2 <= ny /\ forall dgrid, l2c_v dgrid (nx + 1) (ny + 1) 0 = None /\ l2c_u dgrid (nx + 1) (ny + 1) 0 = None.
Proof. exists 12, 12. split; [lia|]. split; [lia|]. intro dgrid. split; reflexivity. Qed.
Print Assumptions C130_no_halo_refuted.
(** the edge from longitude 0 to 90 degrees along the equator: the factor is 1 *)
Example C130_case : l2c (0%R, 0%R) ((PI / 2)%R, 0%R) = 1%R.
Proof.
  assert (A1 : at_lon_lat 0 0 1 0 0) by (unfold at_lon_lat; rewrite cos_0, sin_0; repeat split; ring). assert (A2 : at_lon_lat (PI / 2) 0 0 1 0) by (unfold at_lon_lat; rewrite cos_0, sin_0, cos_PI2, sin_PI2; repeat split; ring).
  destruct (C130_value _ _ _ _ _ _ _ _ _ _ 0%R 0%R 1%R A1 A2) as [_ V].
  - intros [= E _]; lra.
  - intros [= E F]; lra.
  - exists 1%R. repeat split; lra.
  - apply (V (1 / sqrt 2)%R (1 / sqrt 2)%R 0%R).
    + pose proof (sqrt_lt_R0 2 ltac:(lra)). pose proof (sqrt_sqrt 2 ltac:(lra)) as S. exists (sqrt 2). repeat split; try lra; try (field; lra). replace (1 / sqrt 2 * (1 / sqrt 2))%R with (1 / (sqrt 2 * sqrt 2))%R by (field; lra). rewrite S. lra.
    + assert (sqrt 2 <= 2)%R by (rewrite <- (sqrt_square 2) at 2 by lra; apply sqrt_le_1_alt; lra). pose proof (sqrt_lt_R0 2 ltac:(lra)). assert (1 / 2 <= 1 / sqrt 2)%R by (apply Rmult_le_compat_l; [lra|apply Rinv_le_contravar; lra]).
      rewrite Rabs_right by lra. lra.
Qed.
