(** C82: winds on the cubed grid and in longitude and latitude; C83: the periodic exchange of one rank. *)
Require Import Reals ZArith Bool Lia Lra Psatz.
From Verif Require Import Base PartModel DecompProofs2 ZarrProofs SphereModel SphereProofs SphereProps3 WindModel.
Local Open Scope R_scope.

(** ** The frame *)
Definition position (lon lat : R) : vec := (cos lat * cos lon, cos lat * sin lon, sin lat).
Lemma frame_dot lon lat v w : dot v w = dot v (unit_lon lon lat) * dot w (unit_lon lon lat) + dot v (unit_lat lon lat) * dot w (unit_lat lon lat)
  + dot v (position lon lat) * dot w (position lon lat).
Proof.
  destruct v as [[v1 v2] v3], w as [[w1 w2] w3]. cbn [dot unit_lon unit_lat position].
  pose proof (sin2_cos2 lon) as A. pose proof (sin2_cos2 lat) as B. unfold Rsqr in A, B.
  assert (XX : sin lon * sin lon + (sin lat * sin lat + cos lat * cos lat) * (cos lon * cos lon) = 1) by (rewrite B; lra).
  assert (YY : cos lon * cos lon + (sin lat * sin lat + cos lat * cos lat) * (sin lon * sin lon) = 1) by (rewrite B; lra).
  assert (XY : - (sin lon * cos lon) + (sin lat * sin lat + cos lat * cos lat) * (sin lon * cos lon) = 0) by (rewrite B; lra).
  transitivity (v1 * w1 * (sin lon * sin lon + (sin lat * sin lat + cos lat * cos lat) * (cos lon * cos lon))
    + v2 * w2 * (cos lon * cos lon + (sin lat * sin lat + cos lat * cos lat) * (sin lon * sin lon)) + v3 * w3 * (sin lat * sin lat + cos lat * cos lat)
    + (v1 * w2 + v2 * w1) * (- (sin lon * cos lon) + (sin lat * sin lat + cos lat * cos lat) * (sin lon * cos lon))); [rewrite XX, YY, XY, B; ring|ring].
Qed.
Lemma frame_det lon lat v w : dot (cross v w) (position lon lat) = dot v (unit_lon lon lat) * dot w (unit_lat lon lat) - dot v (unit_lat lon lat) * dot w (unit_lon lon lat).
Proof.
  destruct v as [[v1 v2] v3], w as [[w1 w2] w3]. cbn [dot cross unit_lon unit_lat position].
  pose proof (sin2_cos2 lon) as A. unfold Rsqr in A.
  transitivity ((v2 * w3 - v3 * w2) * (cos lat * cos lon) + (v3 * w1 - v1 * w3) * (cos lat * sin lon) + (v1 * w2 - v2 * w1) * (sin lat * (sin lon * sin lon + cos lon * cos lon)));
    [rewrite A; ring|ring].
Qed.

(** ** Specification *)
(** the two directions of a cell: unit vectors, tangent at its centre, the second to the left of the first; 10^-15 as in the code *)
Definition cell_frame (lon lat : R) (ec1 ec2 : vec) : Prop :=
  dot ec1 ec1 = 1 /\ dot ec2 ec2 = 1 /\ dot ec1 (position lon lat) = 0 /\ dot ec2 (position lon lat) = 0 /\
  0 < dot (cross ec1 ec2) (position lon lat) /\ 1 / 10 ^ 15 <= Rabs (1 - dot ec1 ec2).
(** a wind is a tangent vector; its eastward and northward components *)
Definition tangent (lon lat : R) (wind : vec) : Prop := dot wind (position lon lat) = 0.
Definition east_north (lon lat : R) (wind : vec) : R * R := (dot wind (unit_lon lon lat), dot wind (unit_lat lon lat)).

Lemma sine_ok lon lat ec1 ec2 : cell_frame lon lat ec1 ec2 -> sine_of_cosine (dot ec1 ec2) = dot (cross ec1 ec2) (position lon lat).
Proof.
  intros (U1 & U2 & T1 & T2 & Hd & Hc). unfold sine_of_cosine. destruct (Rlt_dec (Rabs (1 - dot ec1 ec2)) (1 / 10 ^ 15)) as [L|_]; [exfalso; exact (Rlt_irrefl _ (Rle_lt_trans _ _ _ Hc L))|]. cbv zeta.
  pose proof (frame_dot lon lat ec1 ec1) as F1. pose proof (frame_dot lon lat ec2 ec2) as F2. pose proof (frame_dot lon lat ec1 ec2) as F3.
  rewrite T1, U1 in F1. rewrite T2, U2 in F2. rewrite T1 in F3. rewrite frame_det in *.
  set (z11 := dot ec1 (unit_lon lon lat)) in *. set (z12 := dot ec1 (unit_lat lon lat)) in *. set (z21 := dot ec2 (unit_lon lon lat)) in *. set (z22 := dot ec2 (unit_lat lon lat)) in *.
  set (d := z11 * z22 - z12 * z21) in *.
  assert (E : 1 - dot ec1 ec2 ^ 2 = d * d).
  { rewrite F3. transitivity ((z11 * z11 + z12 * z12) * (z21 * z21 + z22 * z22) - (z11 * z21 + z12 * z22) ^ 2); [|unfold d; ring].
    replace (z11 * z11 + z12 * z12) with 1 by lra. replace (z21 * z21 + z22 * z22) with 1 by lra. ring. }
  rewrite E. destruct (Rlt_dec (d * d) 0) as [L|_]; [pose proof (Rle_0_sqr d) as Q; unfold Rsqr in Q; lra|].
  rewrite sqrt_square by lra. destruct (Rlt_dec 1 d) as [L|_]; [|reflexivity].
  exfalso. assert (1 * 1 < d * d) by (apply Rmult_le_0_lt_compat; lra). pose proof (pow2_ge_0 (dot ec1 ec2)). lra.
Qed.

(** C82: from the two covariant components of any wind (its products with the two directions of the cell), the matrix a gives back half
    of the eastward and northward components; and the matrix z goes the other way *)
Theorem C82_matrix lon lat ec1 ec2 wind : cell_frame lon lat ec1 ec2 -> tangent lon lat wind ->
  a_times (grid_a_of ec1 ec2 lon lat) (2 * dot wind ec1) (2 * dot wind ec2) = east_north lon lat wind /\
  a_times (calculate_grid_z ec1 ec2 (unit_lon lon lat) (unit_lat lon lat)) (fst (east_north lon lat wind)) (snd (east_north lon lat wind)) = (dot wind ec1, dot wind ec2).
Proof.
  intros F T. pose proof (sine_ok _ _ _ _ F) as S. destruct F as (_ & _ & T1 & T2 & Hd & _). unfold tangent in T.
  unfold grid_a_of. rewrite S, frame_det in *. rewrite (frame_dot lon lat wind ec1), (frame_dot lon lat wind ec2), T. unfold calculate_grid_a, calculate_grid_z, a_times, east_north. cbn [fst snd].
  replace 0.5 with (1 / 2) by lra. replace (-0.5) with (- (1 / 2)) by lra. split; f_equal; try (field; lra); ring.
Qed.

(** C82: the second order conversion.  If the averages of u over the southern and northern edge and of v over the western and eastern edge,
    weighted with the lengths of the edges, are the covariant components of a wind, the result is that wind in longitude and latitude *)
Theorem C82_second_order grid_type u v dx dy a i j lon lat ec1 ec2 wind : (grid_type < 4)%Z ->
  cell_frame lon lat ec1 ec2 -> tangent lon lat wind -> a i j = grid_a_of ec1 ec2 lon lat ->
  0 < dx i j -> 0 < dx i (j + 1)%Z -> 0 < dy i j -> 0 < dy (i + 1)%Z j ->
  u i j * dx i j + u i (j + 1)%Z * dx i (j + 1)%Z = dot wind ec1 * (dx i j + dx i (j + 1)%Z) ->
  v i j * dy i j + v (i + 1)%Z j * dy (i + 1)%Z j = dot wind ec2 * (dy i j + dy (i + 1)%Z j) ->
  c2l_ord2 grid_type u v dx dy a i j = east_north lon lat wind.
Proof.
  intros G F T Ea X1 X2 Y1 Y2 Eu Ev. unfold c2l_ord2. replace (grid_type <? 4)%Z with true by (symmetry; apply Z.ltb_lt, G). cbv zeta. rewrite Ea, Eu, Ev.
  destruct (C82_matrix lon lat ec1 ec2 wind F T) as [M _]. rewrite <- M. replace 2.0 with 2 by lra. f_equal; field; lra.
Qed.

(** C82: the fourth order conversion away from the edges of the tile is exact for winds that vary as cubic polynomials across the cell *)
Definition cubic (c : R * R * R * R) (x : R) : R := let '(c0, c1, c2, c3) := c in c0 + c1 * x + c2 * x ^ 2 + c3 * x ^ 3.
Theorem C82_fourth_order grid_type u v dx dy a i_start i_end j_start j_end i j lon lat ec1 ec2 wind pu pv : (grid_type < 4)%Z ->
  cell_frame lon lat ec1 ec2 -> tangent lon lat wind -> a i j = grid_a_of ec1 ec2 lon lat ->
  i <> i_start -> i <> i_end -> j <> j_start -> j <> j_end ->
  (forall k, (-1 <= k <= 2)%Z -> u i (j + k)%Z = cubic pu (IZR k - 1 / 2)) -> (forall k, (-1 <= k <= 2)%Z -> v (i + k)%Z j = cubic pv (IZR k - 1 / 2)) ->
  cubic pu 0 = dot wind ec1 -> cubic pv 0 = dot wind ec2 ->
  ord4_transform grid_type u v dx dy a i_start i_end j_start j_end i j = east_north lon lat wind.
Proof.
  intros G F T Ea I1 I2 J1 J2 Hu Hv Eu Ev. unfold ord4_transform. replace (grid_type <? 4)%Z with true by (symmetry; apply Z.ltb_lt, G). cbv zeta.
  apply Z.eqb_neq in I1, I2, J1, J2. rewrite I1, I2, J1, J2. cbn [orb]. rewrite Ea.
  destruct (C82_matrix lon lat ec1 ec2 wind F T) as [M _]. rewrite <- M, <- Eu, <- Ev.
  change (j - 1)%Z with (j + -1)%Z. change (i - 1)%Z with (i + -1)%Z.
  replace (u i j) with (u i (j + 0)%Z) by (rewrite Z.add_0_r; reflexivity). replace (v i j) with (v (i + 0)%Z j) by (rewrite Z.add_0_r; reflexivity).
  rewrite !Hu, !Hv by lia. destruct pu as [[[c0 c1] c2] c3], pv as [[[d0 d1] d2] d3]. unfold cubic, C1, C2. f_equal; lra.
Qed.

(** C82: on a Cartesian grid the result is the value at the centre, exact for cubics of fourth and for linear functions of second order *)
Theorem C82_cartesian grid_type u v dx dy a i_start i_end j_start j_end i j pu pv : (4 <= grid_type)%Z ->
  (forall k, (-1 <= k <= 2)%Z -> u i (j + k)%Z = cubic pu (IZR k - 1 / 2)) -> (forall k, (-1 <= k <= 2)%Z -> v (i + k)%Z j = cubic pv (IZR k - 1 / 2)) ->
  ord4_transform grid_type u v dx dy a i_start i_end j_start j_end i j = (cubic pu 0, cubic pv 0) /\
  (forall c0 c1 d0 d1, pu = (c0, c1, 0, 0) -> pv = (d0, d1, 0, 0) -> c2l_ord2 grid_type u v dx dy a i j = (cubic pu 0, cubic pv 0)).
Proof.
  intros G Hu Hv. unfold ord4_transform, c2l_ord2. replace (grid_type <? 4)%Z with false by (symmetry; apply Z.ltb_ge, G).
  change (j - 1)%Z with (j + -1)%Z. change (i - 1)%Z with (i + -1)%Z.
  replace (u i j) with (u i (j + 0)%Z) by (rewrite Z.add_0_r; reflexivity). replace (v i j) with (v (i + 0)%Z j) by (rewrite Z.add_0_r; reflexivity).
  rewrite !Hu, !Hv by lia. split.
  - destruct pu as [[[c0 c1] c2] c3], pv as [[[d0 d1] d2] d3]. unfold cubic, A1, A2. f_equal; lra.
  - intros c0 c1 d0 d1 -> ->. unfold cubic. f_equal; lra.
Qed.

(** C82: which formula a cell of the tile gets does not depend on the layout: second order in the cells at the edge of the tile, fourth order in all
    others.  The hypotheses on the positions of the edges are those of the externals i_start, ... (C61). *)
Definition edge_cell (n i j : Z) : Prop := (i = 0 \/ i = n - 1 \/ j = 0 \/ j = n - 1)%Z.
Theorem C82_layout grid_type U V DX DY A l rank w h n i_start i_end j_start j_end : (grid_type < 4)%Z ->
  (0 < fst l <= 2 ^ 52 /\ 0 < snd l <= 2 ^ 52)%Z -> (1 <= w -> 1 <= h -> n = snd l * w -> n = fst l * h ->
  let sub := subtile_index l rank in
  let gi := snd sub * w in let gj := fst sub * h in
  (if on_tile_left l rank then i_start = 0 else i_start < 0) -> (if on_tile_right l rank then i_end = w - 1 else w <= i_end) ->
  (if on_tile_bottom l rank then j_start = 0 else j_start < 0) -> (if on_tile_top l rank then j_end = h - 1 else h <= j_end) ->
  let part (f : field) : field := fun i j => f (gi + i) (gj + j) in
  forall i j, 0 <= i < w -> 0 <= j < h ->
  let result := ord4_transform grid_type (part U) (part V) (part DX) (part DY) (fun i j => A (gi + i) (gj + j)) i_start i_end j_start j_end i j in
  (edge_cell n (gi + i) (gj + j) -> result = c2l_ord2 grid_type U V DX DY A (gi + i) (gj + j)) /\
  (~ edge_cell n (gi + i) (gj + j) -> result = ord4_transform grid_type U V DX DY A (-1) (-1) (-1) (-1) (gi + i) (gj + j)))%Z.
Proof.
  intros G Hl Hw Hh Nx Ny sub gi gj Il Ir Jb Jt part i j Hi Hj result.
  pose proof (sub_valid l Hl rank) as [Sy Sx]. fold sub in Sy, Sx.
  unfold on_tile_left, on_tile_right, on_tile_bottom, on_tile_top in *. fold sub in Il, Ir, Jb, Jt.
  assert (E1 : ((i =? i_start) || (i =? i_end) = (gi + i =? 0) || (gi + i =? n - 1))%Z).
  { apply eq_true_iff_eq. rewrite !orb_true_iff, !Z.eqb_eq. unfold gi. destruct (Z.eqb_spec (snd sub) 0) as [Z0|Z0], (Z.eqb_spec (snd sub) (snd l - 1)) as [Z1|Z1]; nia. }
  assert (E2 : ((j =? j_start) || (j =? j_end) = (gj + j =? 0) || (gj + j =? n - 1))%Z).
  { apply eq_true_iff_eq. rewrite !orb_true_iff, !Z.eqb_eq. unfold gj. destruct (Z.eqb_spec (fst sub) 0) as [Z0|Z0], (Z.eqb_spec (fst sub) (fst l - 1)) as [Z1|Z1]; nia. }
  unfold result, ord4_transform, c2l_ord2. replace (grid_type <? 4)%Z with true by (symmetry; apply Z.ltb_lt, G). cbv zeta. rewrite E1, E2. unfold part.
  rewrite !Z.add_assoc, !Z.add_sub_assoc. unfold edge_cell. split.
  - intros Ed. destruct ((gi + i =? 0) || (gi + i =? n - 1))%Z eqn:B1; [reflexivity|]. destruct ((gj + j =? 0) || (gj + j =? n - 1))%Z eqn:B2; [reflexivity|].
    exfalso. apply orb_false_iff in B1, B2. rewrite !Z.eqb_neq in B1, B2. tauto.
  - intros Ed. replace ((gi + i =? 0) || (gi + i =? n - 1))%Z with false by (symmetry; apply orb_false_iff; rewrite !Z.eqb_neq; tauto).
    replace ((gj + j =? 0) || (gj + j =? n - 1))%Z with false by (symmetry; apply orb_false_iff; rewrite !Z.eqb_neq; tauto).
    assert (P1 : (0 <= gi + i)%Z) by (unfold gi; nia). assert (P2 : (0 <= gj + j)%Z) by (unfold gj; nia).
    replace (gi + i =? -1)%Z with false by (symmetry; apply Z.eqb_neq; lia). replace (gj + j =? -1)%Z with false by (symmetry; apply Z.eqb_neq; lia). reflexivity.
Qed.

(** a cell on the equator at longitude 0 whose sides are not at right angles; a wind to the north-east *)
Example C82_case : let ec1 := (0, 1, 0) in let ec2 := (0, 3 / 5, 4 / 5) in let wind := (0, 3, 4) in
  cell_frame 0 0 ec1 ec2 /\ tangent 0 0 wind /\ (dot wind ec1, dot wind ec2) = (3, 5) /\
  c2l_ord2 0 (fun _ j => if (j =? 0)%Z then 2 else 4) (fun _ _ => 5) (fun _ _ => 1) (fun _ _ => 1) (fun _ _ => grid_a_of ec1 ec2 0 0) 0 0 = (3, 4).
Proof.
  cbv zeta. assert (F : cell_frame 0 0 (0, 1, 0) (0, 3 / 5, 4 / 5)).
  { unfold cell_frame, position. cbn [dot cross]. rewrite cos_0, sin_0. repeat split; try lra. rewrite Rabs_pos_eq by lra. lra. }
  assert (T : tangent 0 0 (0, 3, 4)) by (unfold tangent, position; cbn [dot]; rewrite sin_0; lra).
  split; [exact F|]. split; [exact T|]. split; [cbn [dot]; f_equal; lra|].
  rewrite (C82_second_order 0 _ _ _ _ _ 0 0 0 0 (0, 1, 0) (0, 3 / 5, 4 / 5) (0, 3, 4)); try exact F; try exact T; try reflexivity; try lia; try lra.
  - unfold east_north, unit_lon, unit_lat. cbn [dot]. rewrite cos_0, sin_0. f_equal; lra.
  - cbn [dot Z.add Z.eqb]. lra.
  - cbn [dot]. lra.
Qed.
Print Assumptions C82_matrix.
Print Assumptions C82_second_order.
Print Assumptions C82_fourth_order.
Print Assumptions C82_cartesian.
Print Assumptions C82_layout.

(** ** C83: the exchange of a domain with itself *)
Local Open Scope Z_scope.
(** every point of the array, halo and corners of the halo included, holds the value of its periodic image in the compute domain *)
Theorem C83_periodic {T} (q : Z -> Z -> T) m0 m1 isc iec isd ied jsc jec jsd jed :
  0 <= isd <= isc -> 0 <= jsd -> ied < m0 -> jed < m1 ->
  ied - iec = isc - isd -> jsc - jsd = isc - isd -> jed - jec = isc - isd -> isc - isd <= iec - isc + 1 -> isc - isd <= jec - jsc + 1 -> isc <= iec -> jsc <= jec ->
  forall i j, isd <= i <= ied -> jsd <= j <= jed ->
    mock_exchange q m0 m1 isc iec isd ied jsc jec jsd jed i j = q (isc + (i - isc) mod (iec - isc + 1)) (jsc + (j - jsc) mod (jec - jsc + 1)).
Proof.
  intros Hi Hj Mi Mj E1 E2 E3 Wi Wj Ci Cj i j Ri Rj. set (h := isc - isd) in *. set (nx := iec - isc + 1) in *. set (ny := jec - jsc + 1) in *.
  assert (Mx : (i - isc) mod nx = if i <? isc then i - isc + nx else if iec <? i then i - isc - nx else i - isc).
  { destruct (Z.ltb_spec i isc); [|destruct (Z.ltb_spec iec i)].
    - symmetry. apply (Z.mod_unique_pos _ _ (-1)); lia.
    - symmetry. apply (Z.mod_unique_pos _ _ 1); lia.
    - apply Z.mod_small. lia. }
  assert (My : (j - jsc) mod ny = if j <? jsc then j - jsc + ny else if jec <? j then j - jsc - ny else j - jsc).
  { destruct (Z.ltb_spec j jsc); [|destruct (Z.ltb_spec jec j)].
    - symmetry. apply (Z.mod_unique_pos _ _ (-1)); lia.
    - symmetry. apply (Z.mod_unique_pos _ _ 1); lia.
    - apply Z.mod_small. lia. }
  rewrite Mx, My. unfold mock_exchange. cbv zeta. fold h.
  assert (K : forall q' : Z -> Z -> T, forall a b c d x y i' j', assign q' a b c d x y i' j' = if (a <=? i') && (i' <? b) && ((c <=? j') && (j' <? d)) then q' (i' + x) (j' + y) else q' i' j').
  { intros. unfold assign. rewrite <- !andb_assoc. reflexivity. }
  assert (B : forall a b x, a <= x < b -> (a <=? x) && (x <? b) = true) by (intros; apply andb_true_iff; rewrite Z.leb_le, Z.ltb_lt; lia).
  assert (N : forall a b x, x < a \/ b <= x -> (a <=? x) && (x <? b) = false) by (intros; apply andb_false_iff; rewrite Z.leb_gt, Z.ltb_ge; lia).
  Local Ltac go K B N := repeat (rewrite K; match goal with |- context [if (?a <=? ?x) && (?x <? ?b) && ((?c <=? ?y) && (?y <? ?d)) then _ else _] =>
      first [rewrite (B a b x) by lia | rewrite (N a b x) by lia]; first [rewrite (B c d y) by lia | rewrite (N c d y) by lia]; cbn [andb] end).
  destruct (Z.ltb_spec i isc); [|destruct (Z.ltb_spec iec i)]; (destruct (Z.ltb_spec j jsc); [|destruct (Z.ltb_spec jec j)]);
    go K B N; f_equal; lia.
Qed.
(** nothing inside the compute domain changes *)
Theorem C83_inside {T} (q : Z -> Z -> T) m0 m1 isc iec isd ied jsc jec jsd jed : isd <= isc -> jsd <= jsc -> forall i j, isc <= i <= iec -> jsc <= j <= jec ->
  mock_exchange q m0 m1 isc iec isd ied jsc jec jsd jed i j = q i j.
Proof.
  intros H1 H2 i j Hi Hj. unfold mock_exchange. cbv zeta.
  assert (K : forall (q' : Z -> Z -> T) a b c d x y, i < a \/ b <= i \/ j < c \/ d <= j -> assign q' a b c d x y i j = q' i j).
  { intros q' a b c d x y H. unfold assign. destruct (Z.leb_spec a i), (Z.ltb_spec i b), (Z.leb_spec c j), (Z.ltb_spec j d); cbn [andb]; try reflexivity; lia. }
  rewrite !K by lia. reflexivity.
Qed.
(** A wind on the interfaces has one row more than the cells, and the caller hands over all rows but the last (269-270).  The full statement would be
    that all rows of the wind are periodic afterwards, jsd to jed + 1.  Rows jsd to jed are, by C83_periodic with m1 = jed + 1 (row jec + 1, the last one
    of the wind's own compute domain, takes the value of row jsc).  Row jed + 1 keeps what it held. *)
Theorem C83_last_row_kept {T} (q : Z -> Z -> T) m0 isc iec isd ied jsc jec jsd jed i :
  jsc <= jed + 1 -> jec < jed + 1 -> mock_exchange q m0 (jed + 1) isc iec isd ied jsc jec jsd jed i (jed + 1) = q i (jed + 1).
Proof.
  intros H1 H2. unfold mock_exchange. cbv zeta.
  assert (K : forall (q' : Z -> Z -> T) a b c d x y, d <= jed + 1 -> assign q' a b c d x y i (jed + 1) = q' i (jed + 1)).
  { intros q' a b c d x y H. unfold assign. replace (jed + 1 <? d) with false by (symmetry; apply Z.ltb_ge; lia). rewrite andb_false_r. reflexivity. }
  rewrite !K by lia. reflexivity.
Qed.
Theorem C83_interface_refuted : exists (q : Z -> Z -> Z) m0 isc iec isd ied jsc jec jsd jed i,
  0 <= isd <= isc /\ 0 <= jsd /\ ied < m0 /\ ied - iec = isc - isd /\ jsc - jsd = isc - isd /\ jed - jec = isc - isd /\ isc - isd <= iec - isc + 1 /\
  isc - isd <= jec - jsc + 1 /\ isd <= i <= ied /\
  mock_exchange q m0 (jed + 1) isc iec isd ied jsc jec jsd jed i (jed + 1) <> q (isc + (i - isc) mod (iec - isc + 1)) (jsc + (jed + 1 - jsc) mod (jec - jsc + 1)).
Proof. exists (fun i j => 100 * i + j), 11, 3, 6, 0, 9, 3, 6, 0, 9, 4. repeat split; try lia. vm_compute. discriminate. Qed.
(** four by four cells with a halo of three: the corner of the halo holds the opposite corner *)
Example C83_case : let q := mock_exchange (fun i j => 100 * i + j) 11 10 3 6 0 9 3 6 0 9 in (q 0 0, q 9 9, q 2 8, q 4 5, q 7 3) = (404, 505, 604, 405, 303).
Proof. reflexivity. Qed.
Print Assumptions C83_periodic.
Print Assumptions C83_inside.
Print Assumptions C83_last_row_kept.
Print Assumptions C83_interface_refuted.
