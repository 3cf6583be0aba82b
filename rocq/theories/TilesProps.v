(** Property C79: the six tiles that the ranks compute fit together on the sphere (exact arithmetic) *)
Require Import Reals Lra Lia ZArith Bool Arith List.
From Verif Require Import Base SphereModel SphereProofs SphereProps4 GnomModel GnomProofs GnomProps MirrorModel MirrorProofs MirrorProps TilesModel TilesProofs.
From Verif Require PartSpec.
Open Scope R_scope.

(** ** Specification *)
(** The cube of PartSpec.v (faces spanned by [nrm t], [ax t], [ay t], half-width n), where corner (I, J) of tile t is the point
    [PartSpec.surface n t (2 I - n) (2 J - n)].  Every coordinate c of it is stretched to [stretch n c], so that equal steps become equal
    angles along the edges; the corner lies on the sphere in the direction of the point so obtained. *)
Definition stretch (n : nat) (c : Z) : R := sqrt 2 * tan (asin (/ sqrt 3) * (IZR c / INR n)).
Definition cube_corner (n : nat) (t I J : Z) : Z * Z * Z := PartSpec.surface (Z.of_nat n) t (2 * I - Z.of_nat n) (2 * J - Z.of_nat n).
Definition stretched (n : nat) (c : Z * Z * Z) : R * R * R := let '(x, y, z) := c in (stretch n x, stretch n y, stretch n z).
Definition seen_in_direction (lon lat : R) (v : R * R * R) : Prop :=
  exists k, 0 < k /\ v = (k * (cos lat * cos lon), k * (cos lat * sin lon), k * sin lat).
(** longitude and latitude of a direction, with longitude 0 at the poles *)
Definition lon_lat_of (p : R * R) (v : R * R * R) : Prop :=
  seen_in_direction (fst p) (snd p) v /\ - PI < fst p <= PI /\ - (PI / 2) <= snd p <= PI / 2 /\
  (let '(x, y, _) := v in x = 0 -> y = 0 -> fst p = 0).
(** a rank (row, col) of a layout of l by l ranks, on a tile of l * w cells on a side, not finer than 10^12 *)
Definition rank_of_layout (n w : nat) (l row col : Z) : Prop :=
  (1 <= w)%nat /\ Z.of_nat n = (l * Z.of_nat w)%Z /\ (0 <= row < l)%Z /\ (0 <= col < l)%Z /\ INR n <= 10 ^ 12.

Lemma stretch_fc n k : (0 < n)%nat -> stretch n (2 * k - Z.of_nat n) = fc n k.
Proof.
  intro N. unfold stretch, fc. f_equal. f_equal. rewrite <- spaced_edge by exact N. unfold spaced_lat. f_equal.
  rewrite minus_IZR, mult_IZR, <- INR_IZR_INZ. assert (0 < INR n) by (apply lt_0_INR; exact N). field. lra.
Qed.
Lemma stretch_opp n c : (0 < n)%nat -> stretch n (- c) = - stretch n c.
Proof.
  intro N. unfold stretch. rewrite opp_IZR. assert (0 < INR n) by (apply lt_0_INR; exact N).
  replace (asin (/ sqrt 3) * (- IZR c / INR n)) with (- (asin (/ sqrt 3) * (IZR c / INR n))) by (field; lra). rewrite tan_neg. ring.
Qed.
Lemma stretch_n n : (0 < n)%nat -> stretch n (Z.of_nat n) = 1.
Proof. intro N. replace (Z.of_nat n) with (2 * Z.of_nat n - Z.of_nat n)%Z by ring. rewrite stretch_fc by exact N. now apply fc_n. Qed.

(** code coordinates of a face against the cube *)
Lemma face_cube n t I J : (0 < n)%nat -> (0 <= t <= 5)%Z ->
  stretched n (cube_corner n t I J) = let '(x, y, z) := face_xyz t (fc n I) (fc n J) in (x, y, - z).
Proof.
  intros N T. assert (TT : t = 0%Z \/ t = 1%Z \/ t = 2%Z \/ t = 3%Z \/ t = 4%Z \/ t = 5%Z) by lia.
  pose proof (stretch_n n N) as SN. rewrite <- !stretch_fc by exact N. pose proof (fun c => stretch_opp n c N) as SO.
  destruct TT as [-> | [-> | [-> | [-> | [-> | ->]]]]]; unfold cube_corner, PartSpec.surface; cbn [PartSpec.nrm PartSpec.ax PartSpec.ay PartSpec.vscale PartSpec.vadd stretched face_xyz];
  set (x := (2 * I - Z.of_nat n)%Z) in *; set (y := (2 * J - Z.of_nat n)%Z) in *; apply triple_eq;
  match goal with
  | |- stretch n ?u = _ =>
      first [ replace u with (Z.of_nat n) by ring; rewrite SN; ring | replace u with (- Z.of_nat n)%Z by ring; rewrite SO, SN; ring
            | replace u with x by ring; ring | replace u with y by ring; ring
            | replace u with (- x)%Z by ring; rewrite SO; ring | replace u with (- y)%Z by ring; rewrite SO; ring ]
  end.
Qed.

Lemma position_lon_lat lon lat r k t n I J : (0 < n)%nat -> (0 <= t <= 5)%Z -> 0 < r -> 0 < k -> valid_position (lon, lat, r) ->
  position (-1) (lon, lat, r) = vscale k (face_xyz t (fc n I) (fc n J)) -> zero_lon (lon, lat, r) (face_xyz t (fc n I) (fc n J)) ->
  lon_lat_of (lon, lat) (stretched n (cube_corner n t I J)).
Proof.
  intros N T R0 K (V1 & V2 & _) P Z. rewrite face_cube by assumption. unfold lon_lat_of. cbn [fst snd].
  destruct (face_xyz t (fc n I) (fc n J)) as [[x y] z]. unfold position in P. cbn [vscale] in P. injection P as P1 P2 P3.
  split; [|split; [exact V1|split; [exact V2|]]].
  - exists (r / k). split; [now apply Rdiv_lt_0_compat|].
    apply triple_eq; apply (Rmult_eq_reg_l k); try lra; rewrite <- Rmult_assoc; (replace (k * (r / k)) with r by (field; lra)); lra.
  - intros X Y. apply Z. now split.
Qed.

Lemma lon_lat_unique p q v : v <> (0, 0, 0) -> lon_lat_of p v -> lon_lat_of q v -> p = q.
Proof.
  destruct p as [lon lat], q as [lon' lat']. unfold lon_lat_of. cbn [fst snd].
  intros NZ ((k & K & E) & A & B & C) ((k' & K' & E') & A' & B' & C').
  destruct v as [[x y] z]. injection E as E1 E2 E3. injection E' as F1 F2 F3.
  pose proof (sin2_cos2 lon) as Q1. pose proof (sin2_cos2 lat) as Q2. pose proof (sin2_cos2 lon') as Q1'. pose proof (sin2_cos2 lat') as Q2'. unfold Rsqr in *.
  assert (L : x * x + y * y + z * z = k * k).
  { rewrite E1, E2, E3. transitivity (k * k * (cos lat * cos lat * (sin lon * sin lon + cos lon * cos lon) + sin lat * sin lat)); [ring|]. rewrite Q1.
    transitivity (k * k * (sin lat * sin lat + cos lat * cos lat)); [ring|]. rewrite Q2. ring. }
  assert (L' : x * x + y * y + z * z = k' * k').
  { rewrite F1, F2, F3. transitivity (k' * k' * (cos lat' * cos lat' * (sin lon' * sin lon' + cos lon' * cos lon') + sin lat' * sin lat')); [ring|]. rewrite Q1'.
    transitivity (k' * k' * (sin lat' * sin lat' + cos lat' * cos lat')); [ring|]. rewrite Q2'. ring. }
  assert (k = k') by nra. subst k'.
  assert (SL : sin lat = sin lat') by (apply (Rmult_eq_reg_l k); lra).
  assert (LA : lat = lat') by (rewrite <- (asin_sin lat), <- (asin_sin lat'), SL by assumption; reflexivity). subst lat'.
  f_equal. destruct (Req_dec (cos lat) 0) as [Z | Z].
  - rewrite C, C'; try reflexivity; [rewrite E1|rewrite E2|rewrite E1|rewrite E2]; rewrite Z; ring.
  - apply angle_unique; try assumption; (apply (Rmult_eq_reg_l (k * cos lat)); [lra|]; apply Rmult_integral_contrapositive; split; lra).
Qed.
Lemma corner_nonzero n t I J : (0 < n)%nat -> (0 <= t <= 5)%Z -> stretched n (cube_corner n t I J) <> (0, 0, 0).
Proof.
  intros N T. rewrite face_cube by assumption. assert (TT : t = 0%Z \/ t = 1%Z \/ t = 2%Z \/ t = 3%Z \/ t = 4%Z \/ t = 5%Z) by lia.
  destruct TT as [-> | [-> | [-> | [-> | [-> | ->]]]]]; cbn [face_xyz]; intros [= ? ? ?]; lra.
Qed.

(** Every rank's corners of every tile lie where the cube says. *)
Theorem C79_points radius n w l row col ng t a0 : 10 ^ 6 <= radius -> rank_of_layout n w l row col -> (0 <= t <= 5)%Z ->
  exists g, init_dgrid radius n w l l row col ng t a0 = Some g /\
    forall a b, (0 <= a <= Z.of_nat w)%Z -> (0 <= b <= Z.of_nat w)%Z ->
      lon_lat_of (g (ng + a) (ng + b))%Z (stretched n (cube_corner n t (col * Z.of_nat w + a) (row * Z.of_nat w + b))).
Proof.
  intros R0 (W & NW & Hr & Hc & NB) T. assert (N : (0 < n)%nat) by nia. unfold init_dgrid.
  set (gi := (col * Z.of_nat w)%Z). set (gj := (row * Z.of_nat w)%Z). set (wz := Z.of_nat w) in *. set (nz := Z.of_nat n) in *.
  replace ((l - col - 1) * wz)%Z with (nz - gi - wz)%Z by (unfold gi; nia). replace ((l - row - 1) * wz)%Z with (nz - gj - wz)%Z by (unfold gj; nia).
  assert (GI : (0 <= gi /\ gi + wz <= nz)%Z) by (unfold gi; nia). assert (GJ : (0 <= gj /\ gj + wz <= nz)%Z) by (unfold gj; nia).
  assert (F1 : (col =? 0)%Z = true -> gi = 0%Z) by (intro E; apply Z.eqb_eq in E; unfold gi; nia).
  assert (F2 : (col =? l - 1)%Z = true -> (gi + wz = nz)%Z) by (intro E; apply Z.eqb_eq in E; unfold gi; nia).
  assert (F3 : (row =? 0)%Z = true -> gj = 0%Z) by (intro E; apply Z.eqb_eq in E; unfold gj; nia).
  assert (F4 : (row =? l - 1)%Z = true -> (gj + wz = nz)%Z) by (intro E; apply Z.eqb_eq in E; unfold gj; nia).
  assert (SEC : forall we ea so no x y, section_of_tile n w we ea so no x y -> exists g, local_gnomonic_ed n (w + 1) (w + 1) we ea so no x y = Some g /\
     forall i j, (i <= w)%nat -> (j <= w)%nat -> g i j = closed n (x + Z.of_nat i) (y + Z.of_nat j)).
  { intros we ea so no x y S. destruct (C76_section _ _ _ _ _ _ _ _ S) as (g & E & P). exists g. split; [exact E|].
    intros i j Hi Hj. eapply cube_unique; [now apply P|now apply closed_cube]. }
  destruct (SEC (col =? 0)%Z (col =? l - 1)%Z (row =? 0)%Z (row =? l - 1)%Z gi gj) as (g1 & E1 & P1).
  { unfold section_of_tile. fold wz nz. repeat split; try lia; intro E; first [specialize (F1 E)|specialize (F2 E)|specialize (F3 E)|specialize (F4 E)]; lia. }
  destruct (SEC (col =? l - 1)%Z (col =? 0)%Z (row =? 0)%Z (row =? l - 1)%Z (nz - gi - wz)%Z gj) as (g2 & E2 & P2).
  { unfold section_of_tile. fold wz nz. repeat split; try lia; intro E; first [specialize (F1 E)|specialize (F2 E)|specialize (F3 E)|specialize (F4 E)]; lia. }
  destruct (SEC (col =? 0)%Z (col =? l - 1)%Z (row =? l - 1)%Z (row =? 0)%Z gi (nz - gj - wz)%Z) as (g3 & E3 & P3).
  { unfold section_of_tile. fold wz nz. repeat split; try lia; intro E; first [specialize (F1 E)|specialize (F2 E)|specialize (F3 E)|specialize (F4 E)]; lia. }
  destruct (SEC (col =? l - 1)%Z (col =? 0)%Z (row =? l - 1)%Z (row =? 0)%Z (nz - gi - wz)%Z (nz - gj - wz)%Z) as (g4 & E4 & P4).
  { unfold section_of_tile. fold wz nz. repeat split; try lia; intro E; first [specialize (F1 E)|specialize (F2 E)|specialize (F3 E)|specialize (F4 E)]; lia. }
  rewrite E1, E2, E3, E4. eexists. split; [reflexivity|]. intros a b A B. unfold mirror_R.
  assert (SO : section_of nz wz gi gj) by (unfold section_of; lia).
  assert (AV : forall g i j, (0 <= i <= wz)%Z -> (0 <= j <= wz)%Z -> assign_view ng g a0 (w + 1) (w + 1) (ng + i)%Z (ng + j)%Z = g (Z.to_nat i) (Z.to_nat j)).
  { intros g i j Hi Hj. unfold assign_view.
    destruct (Z.leb_spec ng (ng + i)); [|lia]. destruct (Z.ltb_spec (ng + i) (ng + Z.of_nat (w + 1))); [|lia].
    destruct (Z.leb_spec ng (ng + j)); [|lia]. destruct (Z.ltb_spec (ng + j) (ng + Z.of_nat (w + 1))); [|lia]. cbn [andb].
    replace (ng + i - ng)%Z with i by ring. now replace (ng + j - ng)%Z with j by ring. }
  assert (MP : mirrored_parts nz wz gi gj ng (closed n) (assign_view ng g1 a0 (w + 1) (w + 1)) (assign_view ng g2 a0 (w + 1) (w + 1))
                 (assign_view ng g3 a0 (w + 1) (w + 1)) (assign_view ng g4 a0 (w + 1) (w + 1))).
  { intros i j Hi Hj. rewrite !AV by assumption. rewrite P1, P2, P3, P4 by lia. rewrite !Z2Nat.id by lia. auto. }
  assert (HI : (0 <= gi + a <= nz)%Z) by lia. assert (HJ : (0 <= gj + b <= nz)%Z) by lia.
  destruct (tile_rot_spec n (gi + a) (gj + b) radius t N R0 NB HI HJ T) as (lon & lat & k & TR & K & V & P & Z).
  pose proof (position_lon_lat lon lat radius k t n (gi + a) (gj + b) N T ltac:(lra) ltac:(lra) V P Z) as OK.
  destruct (Z.eq_dec t 0) as [-> | T0].
  - rewrite (C77_layout_independent _ _ _ _ _ _ _ _ _ nz wz gi gj ng (closed n) _ _ _ _ (ng + gj)%Z (nz + 1)%Z SO MP a b A B).
    unfold nz. rewrite base_closed by exact N. assert (TR' : closed n (gi + a) (gj + b) = (lon, lat)) by exact TR. rewrite TR'. exact OK.
  - rewrite (rank_tile _ _ _ _ _ _ _ _ _ nz wz gi gj ng (closed n) _ _ _ _ t a b SO MP ltac:(lia) A B). cbv zeta.
    assert (BC : signed_mean Rabs Rplus (Rmult (1 / 4)) copysign_R 0 nz (closed n) (gi + a) (gj + b) = closed n (gi + a) (gj + b)) by (apply base_closed; exact N).
    rewrite BC. rewrite TR. cbn [fst snd].
    (* the values forced are the ones the rotation gives *)
    replace (or_else (rank_lon 0 PI nz wz gi t (gi + a) (gj + b)) lon) with lon.
    + replace (or_else (rank_lat (PI / 2) nz gi gj t (gi + a) (gj + b)) lat) with lat; [exact OK|].
      unfold rank_lat. destruct (Z.eqb_spec t 2) as [-> | _]; cbn [andb]; [|reflexivity]. unfold middle.
      destruct (Z.eqb_spec (2 * (gi + a)) nz) as [EI | _]; cbn [andb]; [|reflexivity].
      destruct (Z.eqb_spec (2 * (gj + b)) nz) as [EJ | _]; cbn [andb]; [|reflexivity].
      destruct (gi =? gj)%Z; [|reflexivity]. cbn [or_else].
      rewrite (fc_mid n (gi + a) N EI), (fc_mid n (gj + b) N EJ) in P. unfold position in P. cbn [face_xyz vscale] in P. injection P as X1 X2 X3.
      destruct V as (V1 & V2 & _). pose proof (sin2_cos2 lat) as Q. pose proof (sin2_cos2 lon) as Q'. unfold Rsqr in Q, Q'. pose proof PI_RGT_0.
      assert (S0 : 0 < sin lat) by (apply (Rmult_lt_reg_l radius); lra).
      assert (C0 : cos lat = 0).
      { assert (SQ : radius * cos lat * (radius * cos lat) = 0); [|apply Rsqr_0_uniq in SQ; apply Rmult_integral in SQ; lra].
        transitivity ((radius * cos lon * cos lat) * (radius * cos lon * cos lat) + (radius * sin lon * cos lat) * (radius * sin lon * cos lat)); [|rewrite X1, X2; ring].
        transitivity ((sin lon * sin lon + cos lon * cos lon) * (radius * cos lat * (radius * cos lat))); [rewrite Q'; ring|ring]. }
      assert (S1 : sin lat = 1) by nra. rewrite <- (asin_sin lat), S1 by lra. apply asin_1.
    + assert (MID : (2 * (gj + b) =? nz)%Z = true -> t = 2%Z \/ t = 3%Z ->
         exists u, lon = (if Rle_dec 0 u then 0 else PI) /\ (t = 3%Z -> u < 0) /\ (t = 2%Z -> u = - fc n (gi + a))).
      { intros EJ TT. apply Z.eqb_eq in EJ. rewrite (fc_mid n (gj + b) N EJ) in P, Z. destruct V as (V1 & V2 & _). pose proof PI_RGT_0 as PP.
        set (u := match t with 2%Z => - fc n (gi + a) | _ => Ropp 1 end).
        assert (PU : radius * cos lon * cos lat = k * u /\ radius * sin lon * cos lat = 0).
        { unfold position in P. destruct TT as [-> | ->]; cbn [face_xyz vscale] in P; injection P as X1 X2 X3; split; unfold u; lra. }
        exists u. split; [|split; intros ->; unfold u; [lra|reflexivity]]. destruct PU as [U1 U2].
        destruct (Req_dec u 0) as [U0 | U0].
        - destruct (Rle_dec 0 u); [|lra]. apply Z. destruct TT as [-> | ->]; cbn [face_xyz] in *; unfold on_axis; unfold u in U0; lra.
        - assert (CL : 0 <= cos lat) by (apply cos_ge_0; lra).
          assert (CN : cos lat <> 0) by (intro C; rewrite C, Rmult_0_r in U1; nra).
          assert (SL : sin lon = 0).
          { apply (Rmult_eq_reg_r (radius * cos lat)); [lra|]. apply Rmult_integral_contrapositive. split; lra. }
          pose proof (sin2_cos2 lon) as Q. unfold Rsqr in Q. rewrite SL in Q.
          assert (KU : radius * cos lat * cos lon = k * u) by lra. assert (RC : 0 < radius * cos lat) by (apply Rmult_lt_0_compat; lra).
          assert (CC : (cos lon - 1) * (cos lon + 1) = 0) by lra. apply Rmult_integral in CC.
          assert (SU : (0 < u -> 0 < k * u) /\ (u < 0 -> k * u < 0)) by (split; intro; [apply Rmult_lt_0_compat; lra|]; assert (0 < k * - u) by (apply Rmult_lt_0_compat; lra); lra).
          destruct (Rle_dec 0 u) as [G | G].
          + assert (cos lon = 1) by (destruct CC as [CC | CC]; [lra|]; assert (CM : cos lon = -1) by lra; rewrite CM in KU; destruct SU as [SU _]; specialize (SU ltac:(lra)); lra). apply angle_unique; try lra; rewrite ?cos_0, ?sin_0; lra.
          + assert (cos lon = -1) by (destruct CC as [CC | CC]; [|lra]; assert (CM : cos lon = 1) by lra; rewrite CM in KU; destruct SU as [_ SU]; specialize (SU ltac:(lra)); lra). apply angle_unique; try lra; rewrite ?cos_PI, ?sin_PI; lra. }
      unfold rank_lon, middle. destruct (2 * (gj + b) =? nz)%Z eqn:EJ; rewrite ?andb_false_r; cbn [andb]; [|reflexivity]. rewrite !andb_true_r.
      destruct (Z.eqb_spec t 2) as [T2 | _].
      * destruct (MID eq_refl (or_introl T2)) as (u & L & _ & U). specialize (U T2). subst t.
        assert (LU : lon = if (2 * (gi + a) <=? nz)%Z then 0 else PI).
        { rewrite L. destruct (fc_sign n (gi + a) N HI) as [SG1 SG2]. fold nz in SG1, SG2.
          destruct (Z.leb_spec (2 * (gi + a)) nz) as [LE | LE].
          - destruct (Z.eq_dec (2 * (gi + a)) nz) as [EE | EE].
            + rewrite (fc_mid n (gi + a) N EE) in U. destruct (Rle_dec 0 u); [reflexivity|lra].
            + specialize (SG1 ltac:(lia)). destruct (Rle_dec 0 u); [reflexivity|lra].
          - specialize (SG2 LE). destruct (Rle_dec 0 u); [lra|reflexivity]. }
        destruct ((2 * gi <=? nz)%Z), (nz <=? 2 * (gi + wz))%Z; cbn [andb or_else Z.eqb Pos.eqb]; try reflexivity. exact LU.
      * cbn [andb]. destruct (Z.eqb_spec t 3) as [T3 | _]; [|reflexivity]. cbn [or_else].
        destruct (MID eq_refl (or_intror T3)) as (u & L & U & _). specialize (U T3). rewrite L. destruct (Rle_dec 0 u); [lra|reflexivity].
Qed.
Print Assumptions C79_points.

(** Hence ranks of any two tiles and any two layouts agree on a corner of the cube that both hold - corners on the edges between tiles
    included - also after the shift of the longitudes; *)
Theorem C79_tiles_meet radius n w l row col ng t a0 g w' l' row' col' ng' t' a0' g' a b a' b' :
  10 ^ 6 <= radius -> rank_of_layout n w l row col -> rank_of_layout n w' l' row' col' -> (0 <= t <= 5)%Z -> (0 <= t' <= 5)%Z ->
  init_dgrid radius n w l l row col ng t a0 = Some g -> init_dgrid radius n w' l' l' row' col' ng' t' a0' = Some g' ->
  (0 <= a <= Z.of_nat w)%Z -> (0 <= b <= Z.of_nat w)%Z -> (0 <= a' <= Z.of_nat w')%Z -> (0 <= b' <= Z.of_nat w')%Z ->
  cube_corner n t (col * Z.of_nat w + a) (row * Z.of_nat w + b) = cube_corner n t' (col' * Z.of_nat w' + a') (row' * Z.of_nat w' + b') ->
  g (ng + a)%Z (ng + b)%Z = g' (ng' + a')%Z (ng' + b')%Z /\ shift_lon (g (ng + a)%Z (ng + b)%Z) = shift_lon (g' (ng' + a')%Z (ng' + b')%Z).
Proof.
  intros R0 L L' T T' E E' A B A' B' C.
  destruct (C79_points radius n w l row col ng t a0 R0 L T) as (h & H & P). rewrite E in H. injection H as <-.
  destruct (C79_points radius n w' l' row' col' ng' t' a0' R0 L' T') as (h' & H' & P'). rewrite E' in H'. injection H' as <-.
  specialize (P a b A B). specialize (P' a' b' A' B'). rewrite <- C in P'.
  assert (N : (0 < n)%nat) by (destruct L; nia).
  assert (Q : g (ng + a)%Z (ng + b)%Z = g' (ng' + a')%Z (ng' + b')%Z) by (eapply lon_lat_unique; [|exact P|exact P']; now apply corner_nonzero).
  split; [exact Q|now rewrite Q].
Qed.
Print Assumptions C79_tiles_meet.

(** the shift that follows turns the point by 10 degrees to the west, up to 10^-10, and leaves a longitude in [0, 2 pi); no tiny values are left *)
Theorem C79_shifted p : - PI < fst p <= PI -> let q := shift_lon p in
  0 <= fst q < 2 * PI /\ (exists k, Rabs (fst q - (fst p - PI / 18 + 2 * PI * IZR k)) < 1 / 10 ^ 10) /\ Rabs (snd q - snd p) < 1 / 10 ^ 10 /\
  (fst q = 0 \/ 1 / 10 ^ 10 <= fst q) /\ (snd q = 0 \/ 1 / 10 ^ 10 <= Rabs (snd q)).
Proof.
  intros H q. pose proof PI_RGT_0 as P. unfold q, shift_lon. cbn [fst snd].
  assert (F : forall x, (flush x = 0 \/ 1 / 10 ^ 10 <= Rabs (flush x)) /\ Rabs (flush x - x) < 1 / 10 ^ 10 /\ (0 <= x -> 0 <= flush x <= x)).
  { intros x. unfold flush. destruct (Rlt_dec (Rabs x) (1 / 10 ^ 10)) as [L|L].
    - split; [left; reflexivity|]. split; [rewrite Rminus_0_l, Rabs_Ropp; exact L|lra].
    - split; [right; lra|]. split; [rewrite Rminus_eq_0, Rabs_R0; lra|lra]. }
  set (lon := if Rlt_dec (fst p - PI / 18) 0 then fst p - PI / 18 + 2 * PI else fst p - PI / 18).
  assert (L : 0 <= lon < 2 * PI) by (unfold lon; destruct (Rlt_dec _ _); lra).
  assert (K : exists k, lon = fst p - PI / 18 + 2 * PI * IZR k).
  { unfold lon. destruct (Rlt_dec _ _); [exists 1%Z|exists 0%Z]; ring. }
  destruct (F lon) as (F1 & F2 & F3), (F (snd p)) as (G1 & G2 & _). specialize (F3 (proj1 L)).
  split; [lra|]. split; [destruct K as [k K]; exists k; rewrite <- K; exact F2|]. split; [exact G2|]. split; [|exact G1].
  rewrite Rabs_pos_eq in F1 by lra. exact F1.
Qed.
Print Assumptions C79_shifted.

(** and different corners of the cube are different points of the sphere. *)
Lemma stretch_range n c : (0 < n)%nat -> (- Z.of_nat n <= c <= Z.of_nat n)%Z -> -1 <= stretch n c <= 1.
Proof.
  intros N C. assert (NR : 0 < INR n) by (apply lt_0_INR; exact N). destruct (IZR_le _ _ (proj1 C)), (IZR_le _ _ (proj2 C)).
  all: assert (MON : forall x y, - alpha <= x -> x <= y -> y <= alpha -> sqrt 2 * tan x <= sqrt 2 * tan y).
  all: try (intros x y X XY Y; pose proof alpha_bound; destruct sqrt2'; apply Rmult_le_compat_l; [lra|];
            destruct (Req_dec x y) as [-> | D]; [lra|]; apply Rlt_le, tan_increasing; lra).
  all: pose proof (stretch_n n N) as SN; pose proof (stretch_opp n (Z.of_nat n) N) as SM; rewrite SN in SM; unfold stretch in *.
  all: change (asin (/ sqrt 3)) with alpha in *; rewrite opp_IZR in *; rewrite <- INR_IZR_INZ in *; pose proof alpha_bound as AB.
  all: assert (Q : -1 <= IZR c / INR n <= 1) by (split; apply (Rmult_le_reg_r (INR n)); try exact NR; unfold Rdiv; rewrite Rmult_assoc, Rinv_l by lra; lra).
  all: replace (- INR n / INR n) with (Ropp 1) in SM by (field; lra); replace (INR n / INR n) with 1 in SN by (field; lra).
  all: split; [replace (-1) with (Ropp 1) by lra; rewrite <- SM|rewrite <- SN]; apply MON; nra.
Qed.
Lemma stretch_inj n c d : (0 < n)%nat -> (- Z.of_nat n <= c <= Z.of_nat n)%Z -> (- Z.of_nat n <= d <= Z.of_nat n)%Z -> stretch n c = stretch n d -> c = d.
Proof.
  intros N C D E. assert (NR : 0 < INR n) by (apply lt_0_INR; exact N).
  assert (MON : forall c d, (- Z.of_nat n <= c)%Z -> (c < d)%Z -> (d <= Z.of_nat n)%Z -> stretch n c < stretch n d).
  { clear. intros c d C CD D. destruct (Nat.eq_dec n 0) as [-> | N]; [cbn in *; lia|]. assert (NR : 0 < INR n) by (apply lt_0_INR; lia).
    apply IZR_le in C, D. apply IZR_lt in CD. rewrite opp_IZR in C. rewrite <- INR_IZR_INZ in C, D. unfold stretch. change (asin (/ sqrt 3)) with alpha.
    pose proof alpha_bound as AB. destruct sqrt2' as [S1 _]. apply Rmult_lt_compat_l; [exact S1|].
    assert (Q1 : -1 <= IZR c / INR n) by (apply (Rmult_le_reg_r (INR n)); try exact NR; unfold Rdiv; rewrite Rmult_assoc, Rinv_l by lra; lra).
    assert (Q2 : IZR d / INR n <= 1) by (apply (Rmult_le_reg_r (INR n)); try exact NR; unfold Rdiv; rewrite Rmult_assoc, Rinv_l by lra; lra).
    assert (Q3 : IZR c / INR n < IZR d / INR n) by (apply Rmult_lt_compat_r; [now apply Rinv_0_lt_compat|exact CD]).
    apply tan_increasing; nra. }
  destruct (Z.lt_trichotomy c d) as [L | [L | L]]; [|exact L|].
  - pose proof (MON c d ltac:(lia) L ltac:(lia)). lra.
  - pose proof (MON d c ltac:(lia) L ltac:(lia)). lra.
Qed.
Lemma corner_coords n t I J : (0 <= t <= 5)%Z -> (0 <= I <= Z.of_nat n)%Z -> (0 <= J <= Z.of_nat n)%Z ->
  let '(x, y, z) := cube_corner n t I J in
  (- Z.of_nat n <= x <= Z.of_nat n /\ - Z.of_nat n <= y <= Z.of_nat n /\ - Z.of_nat n <= z <= Z.of_nat n)%Z /\
  (Z.abs x = Z.of_nat n \/ Z.abs y = Z.of_nat n \/ Z.abs z = Z.of_nat n).
Proof.
  intros T HI HJ. assert (TT : t = 0%Z \/ t = 1%Z \/ t = 2%Z \/ t = 3%Z \/ t = 4%Z \/ t = 5%Z) by lia.
  destruct TT as [-> | [-> | [-> | [-> | [-> | ->]]]]]; cbn [cube_corner PartSpec.surface PartSpec.nrm PartSpec.ax PartSpec.ay PartSpec.vscale PartSpec.vadd];
  unfold cube_corner, PartSpec.surface; cbn [PartSpec.nrm PartSpec.ax PartSpec.ay PartSpec.vscale PartSpec.vadd]; lia.
Qed.
Lemma cube_point_unique n c d k : (0 < n)%nat -> 0 < k ->
  (let '(x, y, z) := c in (- Z.of_nat n <= x <= Z.of_nat n /\ - Z.of_nat n <= y <= Z.of_nat n /\ - Z.of_nat n <= z <= Z.of_nat n)%Z /\
    (Z.abs x = Z.of_nat n \/ Z.abs y = Z.of_nat n \/ Z.abs z = Z.of_nat n)) ->
  (let '(x, y, z) := d in (- Z.of_nat n <= x <= Z.of_nat n /\ - Z.of_nat n <= y <= Z.of_nat n /\ - Z.of_nat n <= z <= Z.of_nat n)%Z /\
    (Z.abs x = Z.of_nat n \/ Z.abs y = Z.of_nat n \/ Z.abs z = Z.of_nat n)) ->
  stretched n c = vscale k (stretched n d) -> c = d.
Proof.
  assert (HALF : forall c d k, (0 < n)%nat -> 0 < k ->
    (let '(x, y, z) := c in (- Z.of_nat n <= x <= Z.of_nat n /\ - Z.of_nat n <= y <= Z.of_nat n /\ - Z.of_nat n <= z <= Z.of_nat n)%Z /\
      (Z.abs x = Z.of_nat n \/ Z.abs y = Z.of_nat n \/ Z.abs z = Z.of_nat n)) ->
    (let '(x, y, z) := d in (- Z.of_nat n <= x <= Z.of_nat n /\ - Z.of_nat n <= y <= Z.of_nat n /\ - Z.of_nat n <= z <= Z.of_nat n)%Z /\
      (Z.abs x = Z.of_nat n \/ Z.abs y = Z.of_nat n \/ Z.abs z = Z.of_nat n)) ->
    stretched n c = vscale k (stretched n d) -> k <= 1).
  { clear. intros [[x y] z] [[x' y'] z'] k N K ((C1 & C2 & C3) & _) ((D1 & D2 & D3) & D4) E. cbn [stretched vscale] in E. injection E as E1 E2 E3.
    pose proof (stretch_range n x N C1) as R1. pose proof (stretch_range n y N C2) as R2. pose proof (stretch_range n z N C3) as R3.
    assert (AB : forall u, Z.abs u = Z.of_nat n -> stretch n u = 1 \/ stretch n u = Ropp 1).
    { intros u U. pose proof (stretch_n n N) as SN. destruct (Z.abs_spec u) as [[_ A] | [_ A]]; rewrite A in U.
      - left. now rewrite U. - right. replace u with (- Z.of_nat n)%Z by lia. now rewrite stretch_opp, SN. }
    destruct D4 as [D | [D | D]]; apply AB in D; destruct D as [D | D]; [rewrite D in E1|rewrite D in E1|rewrite D in E2|rewrite D in E2|rewrite D in E3|rewrite D in E3]; lra. }
  intros N K C D E. pose proof (HALF c d k N K C D E) as K1.
  assert (K2 : / k <= 1).
  { apply (HALF d c (/ k) N (Rinv_0_lt_compat _ K) D C). rewrite E. destruct (stretched n d) as [[u v] w]. cbn [vscale]. apply triple_eq; field; lra. }
  assert (k = 1).
  { apply Rle_antisym; [exact K1|]. rewrite <- (Rinv_inv k). rewrite <- Rinv_1. apply Rinv_le_contravar; [now apply Rinv_0_lt_compat|exact K2]. }
  subst k. destruct c as [[x y] z], d as [[x' y'] z']. destruct C as ((C1 & C2 & C3) & _). destruct D as ((D1 & D2 & D3) & _).
  cbn [stretched vscale] in E. injection E as E1 E2 E3. rewrite Rmult_1_l in E1, E2, E3.
  now rewrite (stretch_inj n x x'), (stretch_inj n y y'), (stretch_inj n z z') by assumption.
Qed.
Theorem C79_no_duplicates n t I J t' I' J' p q : (0 < n)%nat -> (0 <= t <= 5)%Z -> (0 <= t' <= 5)%Z ->
  (0 <= I <= Z.of_nat n)%Z -> (0 <= J <= Z.of_nat n)%Z -> (0 <= I' <= Z.of_nat n)%Z -> (0 <= J' <= Z.of_nat n)%Z ->
  lon_lat_of p (stretched n (cube_corner n t I J)) -> lon_lat_of q (stretched n (cube_corner n t' I' J')) ->
  p = q <-> cube_corner n t I J = cube_corner n t' I' J'.
Proof.
  intros N T T' HI HJ HI' HJ' P Q. split.
  - intros ->. destruct P as ((k & K & E) & _). destruct Q as ((k' & K' & E') & _).
    eapply (cube_point_unique n _ _ (k / k') N); [now apply Rdiv_lt_0_compat|now apply corner_coords|now apply corner_coords|].
    rewrite E, E'. cbn [vscale]. apply triple_eq; field; lra.
  - intro C. rewrite <- C in Q. eapply lon_lat_unique; [|exact P|exact Q]. now apply corner_nonzero.
Qed.
Print Assumptions C79_no_duplicates.

(** the corner where the east edge of tile 0 meets the west edge of tile 1, one cell above the south end, on a 2 by 2 layout of a tile of 4 cells *)
Example C79_case : rank_of_layout 4 2 2 0 1 /\ rank_of_layout 4 2 2 0 0 /\
  cube_corner 4 0 (1 * 2 + 2) (0 * 2 + 1) = cube_corner 4 1 (0 * 2 + 0) (0 * 2 + 1) /\ cube_corner 4 0 4 1 <> cube_corner 4 0 4 2.
Proof.
  split; [|split; [|split; [reflexivity|discriminate]]]; (split; [lia|split; [reflexivity|split; [lia|split; [lia|]]]]); cbn; lra.
Qed.
