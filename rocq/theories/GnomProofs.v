(** Lemmas about GnomModel.v *)
Require Import Reals Lra Lia Psatz ZArith Bool Arith.
From Verif Require Import SphereModel SphereProofs SphereProps SphereProps4 GnomModel.
Open Scope R_scope.

(** *** Constants *)
Lemma sqrt3 : 0 < sqrt 3 /\ sqrt 3 * sqrt 3 = 3.
Proof. split; [apply sqrt_lt_R0; lra|apply sqrt_sqrt; lra]. Qed.
Lemma sqrt2' : 0 < sqrt 2 /\ sqrt 2 * sqrt 2 = 2.
Proof. split; [apply sqrt_lt_R0; lra|apply sqrt_sqrt; lra]. Qed.
Lemma third_pos : 0 < third /\ third * third = / 3.
Proof.
  destruct sqrt3 as [A B]. unfold third. split; [now apply Rinv_0_lt_compat|]. rewrite <- Rinv_mult, B. reflexivity.
Qed.
Lemma third_lt1 : third < 1.
Proof. destruct third_pos. nra. Qed.
Lemma sin_alpha : sin alpha = third.
Proof. destruct third_pos. pose proof third_lt1. apply sin_asin. lra. Qed.
Lemma cos_alpha : cos alpha = sqrt 2 * third.
Proof.
  destruct third_pos as [A B]. pose proof third_lt1. destruct sqrt2' as [C D].
  unfold alpha. rewrite cos_asin by lra. unfold Rsqr.
  rewrite <- (sqrt_square (sqrt 2 * third)) by nra. f_equal. replace (sqrt 2 * third * (sqrt 2 * third)) with (sqrt 2 * sqrt 2 * (third * third)) by ring.
  rewrite D, B. field.
Qed.
Lemma alpha_bound : 0 < alpha < PI / 2.
Proof.
  destruct third_pos. pose proof third_lt1. pose proof PI_RGT_0. pose proof (asin_bound_lt third). split.
  - destruct (Rlt_le_dec 0 alpha) as [L | L]; [exact L|exfalso].
    assert (alpha = 0 \/ alpha < 0) as [E | E] by lra.
    + pose proof sin_alpha as S. rewrite E, sin_0 in S. lra.
    + assert (sin alpha < 0) by (apply sin_lt_0_var; unfold alpha in *; lra). rewrite sin_alpha in *. lra.
  - unfold alpha. lra.
Qed.
Lemma west_trig : cos (75 / 100 * PI) = - / sqrt 2 /\ sin (75 / 100 * PI) = / sqrt 2.
Proof.
  replace (75 / 100 * PI) with (3 * (PI / 4)) by field. rewrite cos_3PI4, sin_3PI4. destruct sqrt2'. split; field; lra.
Qed.
Lemma east_trig : cos (125 / 100 * PI) = - / sqrt 2 /\ sin (125 / 100 * PI) = - / sqrt 2.
Proof.
  replace (125 / 100 * PI) with (5 * (PI / 4)) by field. rewrite cos_5PI4, sin_5PI4. destruct sqrt2'. split; field; lra.
Qed.

Lemma edge_lat_range n k : (0 < n)%nat -> (0 <= k <= Z.of_nat n)%Z -> - alpha <= edge_lat n k <= alpha.
Proof.
  intros N K. pose proof alpha_bound as A. assert (NR : 0 < INR n) by (apply lt_0_INR; exact N).
  assert (K0 : 0 <= IZR k) by (apply IZR_le; lia). assert (K1 : IZR k <= INR n) by (rewrite INR_IZR_INZ; apply IZR_le; lia).
  unfold edge_lat, dely. replace (2 * (alpha / INR n) * IZR k) with (2 * alpha * (IZR k / INR n)) by (field; lra).
  assert (Q : 0 <= IZR k / INR n <= 1).
  { split; [apply Rmult_le_pos; [exact K0|apply Rlt_le, Rinv_0_lt_compat, NR]|].
    apply (Rmult_le_reg_r (INR n)); [exact NR|]. unfold Rdiv. rewrite Rmult_assoc, Rinv_l by lra. lra. }
  split; nra.
Qed.
Lemma edge_lat_0 n : edge_lat n 0 = - alpha.
Proof. unfold edge_lat. ring. Qed.
Lemma edge_lat_n n : (0 < n)%nat -> edge_lat n (Z.of_nat n) = alpha.
Proof.
  intro N. unfold edge_lat, dely. rewrite <- INR_IZR_INZ. assert (0 < INR n) by (apply lt_0_INR; exact N). field. lra.
Qed.
Lemma edge_cos n k : (0 < n)%nat -> (0 <= k <= Z.of_nat n)%Z -> 0 < cos (edge_lat n k) /\ 1 / 2 <= cos (edge_lat n k).
Proof.
  intros N K. pose proof (edge_lat_range n k N K) as R0. pose proof alpha_bound as A.
  assert (C : cos alpha <= cos (edge_lat n k)).
  { destruct (Rle_lt_dec 0 (edge_lat n k)).
    - destruct (Req_dec (edge_lat n k) alpha) as [-> | X]; [lra|]. apply Rlt_le, cos_decreasing_1; lra.
    - rewrite <- (cos_neg (edge_lat n k)). destruct (Req_dec (- edge_lat n k) alpha) as [-> | X]; [lra|].
      apply Rlt_le, cos_decreasing_1; lra. }
  rewrite cos_alpha in C. destruct third_pos as [T1 T2]. destruct sqrt2' as [S1 S2].
  assert (1 / 2 <= sqrt 2 * third); [|lra].
  assert (Q : (sqrt 2 * third) * (sqrt 2 * third) = 2 / 3).
  { replace (sqrt 2 * third * (sqrt 2 * third)) with (sqrt 2 * sqrt 2 * (third * third)) by ring. rewrite S2, T2. field. }
  assert (0 < sqrt 2 * third) by nra. nra.
Qed.

(** *** The reflection that gives the south edge *)
Lemma corner_sw n : lon_lat_to_xyz (75 / 100 * PI) (edge_lat n 0) = (- third, third, - third).
Proof.
  rewrite xyz_eq, edge_lat_0, cos_neg, sin_neg, sin_alpha, cos_alpha. destruct west_trig as [-> ->]. destruct sqrt2'.
  apply triple_eq; field; lra.
Qed.
Lemma corner_ne n : (0 < n)%nat -> lon_lat_to_xyz (125 / 100 * PI) (edge_lat n (Z.of_nat n)) = (- third, - third, third).
Proof.
  intro N. rewrite xyz_eq, edge_lat_n, sin_alpha, cos_alpha by exact N. destruct east_trig as [-> ->]. destruct sqrt2'.
  apply triple_eq; field; lra.
Qed.
Lemma corner_nw n : (0 < n)%nat -> lon_lat_to_xyz (75 / 100 * PI) (edge_lat n (Z.of_nat n)) = (- third, third, third).
Proof.
  intro N. rewrite xyz_eq, edge_lat_n, sin_alpha, cos_alpha by exact N. destruct west_trig as [-> ->]. destruct sqrt2'.
  apply triple_eq; field; lra.
Qed.
Lemma corner_se n : lon_lat_to_xyz (125 / 100 * PI) (edge_lat n 0) = (- third, - third, - third).
Proof.
  rewrite xyz_eq, edge_lat_0, cos_neg, sin_neg, sin_alpha, cos_alpha. destruct east_trig as [-> ->]. destruct sqrt2'.
  apply triple_eq; field; lra.
Qed.

Lemma tile_mirror n x y z : (0 < n)%nat ->
  mirror (lon_lat_to_xyz (75 / 100 * PI) (edge_lat n 0)) (lon_lat_to_xyz (125 / 100 * PI) (edge_lat n (Z.of_nat n))) (x, y, z) = (x, - z, - y).
Proof.
  intro N. rewrite corner_sw, corner_ne by exact N.
  assert (NZ : cross (- third, third, - third) (- third, - third, third) <> (0, 0, 0)).
  { destruct third_pos. cbn. intro E. inversion E. nra. }
  symmetry. apply (mirror_image_unique _ _ (x, y, z) _ _ NZ).
  - unfold mirror_image. cbn [dot vsub vadd cross]. repeat split; ring.
  - now apply mirror_spec.
Qed.

Lemma xyz_west phi : lon_lat_to_xyz (75 / 100 * PI) phi = (- (cos phi / sqrt 2), cos phi / sqrt 2, sin phi).
Proof. rewrite xyz_eq. destruct west_trig as [-> ->]. destruct sqrt2'. apply triple_eq; [field; lra|field; lra|reflexivity]. Qed.
Lemma xyz_east phi : lon_lat_to_xyz (125 / 100 * PI) phi = (- (cos phi / sqrt 2), - (cos phi / sqrt 2), sin phi).
Proof. rewrite xyz_eq. destruct east_trig as [-> ->]. destruct sqrt2'. apply triple_eq; [field; lra|field; lra|reflexivity]. Qed.

Lemma south_edge_xyz n k : (0 < n)%nat -> (0 <= k <= Z.of_nat n)%Z ->
  let ll := mirror_latlon (75 / 100 * PI) (edge_lat n 0) (125 / 100 * PI) (edge_lat n (Z.of_nat n)) (75 / 100 * PI) (edge_lat n k) in
  let c := cos (edge_lat n k) / sqrt 2 in
  lon_lat_to_xyz (fst ll) (snd ll) = (- c, - sin (edge_lat n k), - c).
Proof.
  intros N K. cbv zeta. unfold mirror_latlon. rewrite (xyz_west (edge_lat n k)), tile_mirror by exact N.
  set (c := cos (edge_lat n k) / sqrt 2).
  destruct (edge_cos n k N K) as [C0 C1]. destruct sqrt2' as [S1 S2].
  assert (CP : 1 / 4 <= c). { unfold c. apply (Rmult_le_reg_r (sqrt 2)); [exact S1|]. unfold Rdiv at 2. rewrite Rmult_assoc, Rinv_l by lra. nra. }
  assert (U : dot (- c, - sin (edge_lat n k), - c) (- c, - sin (edge_lat n k), - c) = 1).
  { cbn. pose proof (sin2_cos2 (edge_lat n k)) as T. unfold Rsqr in T.
    assert (CC : 2 * (c * c) = cos (edge_lat n k) * cos (edge_lat n k)).
    { unfold c. replace (2) with (sqrt 2 * sqrt 2) at 1. field. lra. }
    lra. }
  assert (D : direction (- c, - sin (edge_lat n k), - c) (- c, - sin (edge_lat n k), - c)) by (exists 1; repeat split; try ring; [lra|exact U]).
  destruct (C70_xyz_round_trip_partial _ _ _ _ D) as (lon & lat & L & _ & _ & _ & X).
  - pose proof (Rabs_pos (- sin (edge_lat n k))). rewrite (Rabs_left (- c)) by lra. lra.
  - rewrite L. exact X.
Qed.

(** the plane coordinates of the south and of the west edge *)
Lemma south_face n k : (0 < n)%nat -> (0 <= k <= Z.of_nat n)%Z ->
  let ll := mirror_latlon (75 / 100 * PI) (edge_lat n 0) (125 / 100 * PI) (edge_lat n (Z.of_nat n)) (75 / 100 * PI) (edge_lat n k) in
  exists x, to_face (lon_lat_to_xyz (fst ll) (snd ll)) = (x, - (sqrt 2 * third * tan (edge_lat n k)), - third).
Proof.
  intros N K. cbv zeta. rewrite south_edge_xyz by assumption. destruct (edge_cos n k N K) as [C0 _]. destruct sqrt2' as [S1 S2].
  eexists. unfold to_face. apply triple_eq; [reflexivity| |].
  - unfold tan. field. lra.
  - field. lra.
Qed.
Lemma west_face n k : (0 < n)%nat -> (0 <= k <= Z.of_nat n)%Z ->
  exists x, to_face (lon_lat_to_xyz (75 / 100 * PI) (edge_lat n k)) = (x, third, sqrt 2 * third * tan (edge_lat n k)).
Proof.
  intros N K. rewrite xyz_west. destruct (edge_cos n k N K) as [C0 _]. destruct sqrt2' as [S1 S2].
  eexists. unfold to_face. apply triple_eq; [reflexivity| |].
  - field. lra.
  - unfold tan. field. lra.
Qed.
Lemma east_face n k : (0 < n)%nat -> (0 <= k <= Z.of_nat n)%Z ->
  exists x, to_face (lon_lat_to_xyz (125 / 100 * PI) (edge_lat n k)) = (x, - third, sqrt 2 * third * tan (edge_lat n k)).
Proof.
  intros N K. rewrite xyz_east. destruct (edge_cos n k N K) as [C0 _]. destruct sqrt2' as [S1 S2].
  eexists. unfold to_face. apply triple_eq; [reflexivity| |].
  - field. lra.
  - unfold tan. field. lra.
Qed.
Lemma tan_0 n : sqrt 2 * third * tan (edge_lat n 0) = - third.
Proof.
  rewrite edge_lat_0, tan_neg. unfold tan. rewrite sin_alpha, cos_alpha. destruct sqrt2', third_pos. field. lra.
Qed.
Lemma tan_n n : (0 < n)%nat -> sqrt 2 * third * tan (edge_lat n (Z.of_nat n)) = third.
Proof.
  intro N. rewrite edge_lat_n by exact N. unfold tan. rewrite sin_alpha, cos_alpha. destruct sqrt2', third_pos. field. lra.
Qed.

(** *** From the plane of the face to longitude and latitude *)
Lemma face_lon_lat u w : -1 <= u <= 1 -> -1 <= w <= 1 -> exists lon lat,
  xyz_to_lon_lat (- third, - (third * u), third * w) = (lon, lat) /\ lon - PI = atan u /\ lat = atan (w * cos (atan u)).
Proof.
  intros UB WB. destruct third_pos as [T T2]. pose proof PI_RGT_0 as PP.
  set (v := (- third, - (third * u), third * w)).
  set (m := sqrt (1 + u * u + w * w)).
  assert (M0 : 0 < m) by (apply sqrt_lt_R0; nra). assert (MM : m * m = 1 + u * u + w * w) by (apply sqrt_sqrt; nra).
  assert (D : direction v (- / m, - (u / m), w / m)).
  { exists (third * m). split; [nra|]. repeat split; try (field; lra).
    transitivity ((1 + u * u + w * w) / (m * m)); [field; lra|]. rewrite MM. field. nra. }
  set (q := sqrt (1 + u * u)). assert (Q0 : 0 < q) by (apply sqrt_lt_R0; nra). assert (QQ : q * q = 1 + u * u) by (apply sqrt_sqrt; nra).
  assert (CA : cos (atan u) = / q) by (rewrite cos_atan; unfold Rsqr, Rdiv; now rewrite Rmult_1_l).
  assert (SA : sin (atan u) = u / q) by (rewrite sin_atan; reflexivity).
  assert (Generic : forall lon lat, 0 <= lon < 2 * PI -> - (PI / 2) <= lat <= PI / 2 ->
     - / m = cos lat * cos lon -> - (u / m) = cos lat * sin lon -> w / m = sin lat ->
     lon - PI = atan u /\ lat = atan (w * cos (atan u))).
  { intros lon lat B1 B2 X Y Z.
    assert (CL0 : 0 <= cos lat) by (apply cos_ge_0; lra).
    assert (CL : cos lat = q / m).
    { assert (CC : cos lat * cos lat = (q / m) * (q / m)).
      { transitivity ((cos lat * cos lon) * (cos lat * cos lon) + (cos lat * sin lon) * (cos lat * sin lon)).
        - pose proof (sin2_cos2 lon) as S. unfold Rsqr in S.
          transitivity (cos lat * cos lat * (sin lon * sin lon + cos lon * cos lon)); [rewrite S; ring|ring].
        - rewrite <- X, <- Y. transitivity ((1 + u * u) / (m * m)); [field; lra|]. rewrite <- QQ. field. lra. }
      assert (0 < q / m) by now apply Rdiv_lt_0_compat. nra. }
    assert (QM : q / m <> 0) by (apply Rgt_not_eq, Rdiv_lt_0_compat; assumption).
    assert (CLON : cos lon = - / q).
    { apply (Rmult_eq_reg_l (q / m)); [|exact QM]. rewrite <- CL at 1. rewrite <- X. field. lra. }
    assert (SLON : sin lon = - (u / q)).
    { apply (Rmult_eq_reg_l (q / m)); [|exact QM]. rewrite <- CL at 1. rewrite <- Y. field. lra. }
    assert (IQ : 0 < / q) by now apply Rinv_0_lt_compat.
    split.
    - pose proof (atan_bound u) as AB.
      assert (lon <> 0). { intros ->. rewrite cos_0 in CLON. lra. }
      apply angle_unique.
      + lra.
      + lra.
      + rewrite CA. replace (lon - PI) with (lon + - PI) by ring. rewrite cos_plus, cos_neg, sin_neg, cos_PI, sin_PI, CLON. ring.
      + rewrite SA. replace (lon - PI) with (lon + - PI) by ring. rewrite sin_plus, cos_neg, sin_neg, cos_PI, sin_PI, SLON. ring.
    - assert (CP : 0 < cos lat) by (rewrite CL; now apply Rdiv_lt_0_compat).
      assert (B3 : - (PI / 2) < lat < PI / 2).
      { split.
        - destruct (Req_dec lat (- (PI / 2))) as [E | E]; [rewrite E, cos_neg, cos_PI2 in CP; lra|lra].
        - destruct (Req_dec lat (PI / 2)) as [E | E]; [rewrite E, cos_PI2 in CP; lra|lra]. }
      rewrite <- (atan_tan lat) by exact B3. f_equal. unfold tan. rewrite <- Z, CL, CA. field. lra. }
  assert (M2 : m <= 2) by nra.
  assert (IM : / 2 <= / m) by (apply Rinv_le_contravar; lra).
  destruct (C70_xyz_round_trip_partial _ _ _ _ D) as (lon & lat & L & (X & Y & Z) & B1 & B2 & _).
  - pose proof (Rabs_pos (- (u / m))). rewrite (Rabs_left (- / m)) by lra. lra.
  - exists lon, lat. split; [exact L|]. now apply Generic.
Qed.

Lemma tan_range n k : (0 < n)%nat -> (0 <= k <= Z.of_nat n)%Z -> -1 <= sqrt 2 * tan (edge_lat n k) <= 1.
Proof.
  intros N K. pose proof (edge_lat_range n k N K) as [A B]. pose proof alpha_bound as [C D].
  destruct third_pos as [T1 T2]. destruct sqrt2' as [S1 S2].
  assert (TA : sqrt 2 * tan alpha = 1) by (unfold tan; rewrite sin_alpha, cos_alpha; field; lra).
  assert (MON : forall a b, - (PI / 2) < a -> b < PI / 2 -> a <= b -> tan a <= tan b).
  { intros a b A' B' L. destruct (Req_dec a b) as [-> | X]; [lra|]. apply Rlt_le, tan_increasing; lra. }
  assert (tan (edge_lat n k) <= tan alpha) by (apply MON; lra).
  assert (tan (- alpha) <= tan (edge_lat n k)) by (apply MON; lra). rewrite tan_neg in *. nra.
Qed.

(** the closed form of a grid point *)
Definition closed (n : nat) (I J : Z) : R * R :=
  let lon := atan (sqrt 2 * tan (edge_lat n I)) in
  (lon, atan (sqrt 2 * tan (edge_lat n J) * cos lon)).

Lemma face_closed n I J v : (0 < n)%nat -> (0 <= I <= Z.of_nat n)%Z -> (0 <= J <= Z.of_nat n)%Z ->
  v = (- third, - (sqrt 2 * third * tan (edge_lat n I)), sqrt 2 * third * tan (edge_lat n J)) ->
  (fst (xyz_to_lon_lat v) - PI, snd (xyz_to_lon_lat v)) = closed n I J.
Proof.
  intros N HI HJ ->.
  replace (sqrt 2 * third * tan (edge_lat n I)) with (third * (sqrt 2 * tan (edge_lat n I))) by ring.
  replace (sqrt 2 * third * tan (edge_lat n J)) with (third * (sqrt 2 * tan (edge_lat n J))) by ring.
  destruct (face_lon_lat _ _ (tan_range n I N HI) (tan_range n J N HJ)) as (lon & lat & E & A & B). rewrite E. cbn [fst snd].
  unfold closed. now rewrite A, B.
Qed.

(** *** The arrays *)
Definition placed (n im : nat) (west east south north : bool) (gi gj : Z) : Prop :=
  (0 <= gi)%Z /\ (gi + Z.of_nat im <= Z.of_nat n)%Z /\ (0 <= gj)%Z /\ (gj + Z.of_nat im <= Z.of_nat n)%Z /\
  (west = true -> gi = 0%Z) /\ (east = true -> (gi + Z.of_nat im = Z.of_nat n)%Z) /\
  (south = true -> gj = 0%Z) /\ (north = true -> (gj + Z.of_nat im = Z.of_nat n)%Z).

Lemma local_closed n ni west east south north gi gj : (2 <= ni)%nat -> placed n (ni - 1) west east south north gi gj ->
  exists g, local_gnomonic_ed n ni ni west east south north gi gj = Some g /\
    forall i j, (i < ni)%nat -> (j < ni)%nat -> g i j = closed n (gi + Z.of_nat i) (gj + Z.of_nat j).
Proof.
  intros NI P. unfold local_gnomonic_ed. rewrite Nat.eqb_refl. cbn [negb]. eexists. split; [reflexivity|].
  intros i j Hi Hj. set (im := (ni - 1)%nat) in *. destruct P as (P1 & P2 & P3 & P4 & W & E & S & Nn).
  assert (N : (0 < n)%nat) by lia. cbv zeta.
  apply face_closed; [exact N|lia|lia|].
  (* the entries of the south and west edge *)
  match goal with |- context [set1 (fun i => Nat.leb (if west then _ else _) i && _) ?f ?r] => set (ll := set1 (fun i => Nat.leb (if west then 1%nat else 0%nat) i && Nat.ltb i (if east then im else (im + 1)%nat)) f r) end.
  assert (SF : forall k, (k <= im)%nat -> (west = true -> k <> 0%nat) -> exists x z,
     to_face (lon_lat_to_xyz (fst (ll k)) (snd (ll k))) = (x, - (sqrt 2 * third * tan (edge_lat n (gi + Z.of_nat k))), z) /\
     (south = true -> z = - third)).
  { intros k Hk NW. unfold ll, set1.
    destruct (Nat.leb (if west then 1 else 0) k && Nat.ltb k (if east then im else (im + 1)%nat))%bool eqn:B.
    - destruct (south_face n (gi + Z.of_nat k) N ltac:(lia)) as (x & F). exists x, (- third). rewrite F. auto.
    - apply andb_false_iff in B. rewrite Nat.leb_gt, Nat.ltb_ge in B.
      destruct east; [|exfalso; destruct west; [specialize (NW eq_refl)|]; lia].
      destruct (Nat.eqb_spec k im) as [K | K]; [|exfalso; destruct west; [specialize (NW eq_refl)|]; lia]. subst k.
      cbn [fst snd]. destruct (east_face n gj N ltac:(lia)) as (x & F). rewrite F.
      exists x, (sqrt 2 * third * tan (edge_lat n gj)). rewrite (E eq_refl), tan_n by exact N. split; [reflexivity|].
      intro SO. rewrite (S SO), tan_0. reflexivity. }
  assert (TW : west = true -> sqrt 2 * third * tan (edge_lat n (gi + Z.of_nat 0)) = - third).
  { intro X. rewrite (W X). cbn. apply tan_0. }
  assert (TS : south = true -> sqrt 2 * third * tan (edge_lat n (gj + Z.of_nat 0)) = - third).
  { intro X. rewrite (S X). cbn. apply tan_0. }
  unfold set, set1.
  destruct (Nat.leb (if south then 1 else 0) j && Nat.leb (if west then 1 else 0) i)%bool eqn:B.
  - apply andb_true_iff in B. destruct B as [B1 B2]. apply Nat.leb_le in B1, B2.
    (* interior: y from the south edge, z from the west edge *)
    match goal with |- (_, py ?a, pz ?b) = _ => set (ys := a); set (zs := b) end.
    assert (Y : exists x z, ys = (x, - (sqrt 2 * third * tan (edge_lat n (gi + Z.of_nat i))), z)).
    { assert (IW : west = true -> i <> 0%nat) by (intros ->; lia).
      destruct (SF i ltac:(lia) IW) as (x & z & F & _). subst ys. destruct east.
      - destruct (Nat.eqb_spec i im) as [-> | X].
        + rewrite corner_se, (E eq_refl), tan_n by exact N. eauto.
        + destruct west; [destruct (Nat.eqb_spec i 0); [lia|]|]; rewrite F; eauto.
      - destruct west; [destruct (Nat.eqb_spec i 0); [lia|]|]; rewrite F; eauto. }
    assert (Z : exists x y, zs = (x, y, sqrt 2 * third * tan (edge_lat n (gj + Z.of_nat j)))).
    { destruct (west_face n (gj + Z.of_nat j) N ltac:(lia)) as (x & F). subst zs. destruct north.
      - destruct (Nat.eqb_spec j im) as [-> | X].
        + rewrite corner_nw, (Nn eq_refl), tan_n by exact N. eauto.
        + destruct south; [destruct (Nat.eqb_spec j 0); [lia|]|]; rewrite F; eauto.
      - destruct south; [destruct (Nat.eqb_spec j 0); [lia|]|]; rewrite F; eauto. }
    destruct Y as (x1 & z1 & ->). destruct Z as (x2 & y2 & ->). reflexivity.
  - (* on the south or the west edge of the tile *)
    apply andb_false_iff in B. rewrite !Nat.leb_gt in B.
    match goal with |- (_, py ?a, pz _) = _ => set (pe := a) end.
    enough (G : exists x, pe = (x, - (sqrt 2 * third * tan (edge_lat n (gi + Z.of_nat i))), sqrt 2 * third * tan (edge_lat n (gj + Z.of_nat j)))).
    { destruct G as (x & ->). reflexivity. }
    destruct (west_face n (gj + Z.of_nat j) N ltac:(lia)) as (x & WF).
    assert (Q : (Nat.eqb i im && Nat.eqb j im)%bool = false).
    { apply andb_false_iff. rewrite !Nat.eqb_neq. destruct B as [B | B]; [destruct south|destruct west]; lia. }
    assert (PE : forall (b : bool) (v : vec) (base : grid vec),
      (if b then fun i j => if (Nat.eqb i im && Nat.eqb j im)%bool then v else base i j else base) i j = base i j).
    { intros [|] v base; [now rewrite Q|reflexivity]. }
    unfold pe. clear pe. rewrite PE. clear PE.
    destruct south, west; cbn [andb].
    + (* both edges *)
      destruct (Nat.eqb_spec i 0) as [-> | I0].
      * rewrite (TW eq_refl). destruct (Nat.eqb_spec j 0) as [-> | J0].
        -- rewrite (TS eq_refl), corner_sw. cbn [andb]. exists (- third). apply triple_eq; ring.
        -- cbn [andb]. replace (- - third) with third by ring. rewrite WF. eauto.
      * assert (J0 : j = 0%nat) by (destruct B as [B | B]; lia). subst j. rewrite (TS eq_refl). cbn [andb Nat.eqb].
        destruct (SF i ltac:(lia) ltac:(intros _; exact I0)) as (x' & z' & F & ZZ). rewrite F, (ZZ eq_refl). eauto.
    + assert (J0 : j = 0%nat) by (destruct B as [B | B]; lia). subst j. rewrite (TS eq_refl). cbn [Nat.eqb].
      destruct (SF i ltac:(lia) ltac:(discriminate)) as (x' & z' & F & ZZ). rewrite F, (ZZ eq_refl). eauto.
    + assert (I0 : i = 0%nat) by (destruct B as [B | B]; lia). subst i. rewrite (TW eq_refl). cbn [andb Nat.eqb].
      replace (- - third) with third by ring. rewrite WF. eauto.
    + exfalso. destruct B as [B | B]; lia.
Qed.

Lemma global_closed n : (0 < n)%nat ->
  exists g, global_gnomonic n (n + 1) (n + 1) = Some g /\
    forall i j, (i <= n)%nat -> (j <= n)%nat -> g i j = closed n (Z.of_nat i) (Z.of_nat j).
Proof.
  intro N. unfold global_gnomonic. rewrite Nat.eqb_refl. cbn [negb]. eexists. split; [reflexivity|].
  intros i j Hi Hj. replace (n + 1 - 1)%nat with n by lia. apply face_closed; [exact N|lia|lia|]. cbv zeta.
  match goal with |- context [set (fun i _ => Nat.eqb i n) ?f ?r] => set (ll2 := set (fun i _ => Nat.eqb i n) f r) end.
  assert (LW : forall k, ll2 0%nat k = (75 / 100 * PI, edge_lat n (Z.of_nat k))).
  { intro k. unfold ll2, set. destruct (Nat.eqb_spec 0 n); [lia|reflexivity]. }
  assert (LE : forall k, ll2 n k = (125 / 100 * PI, edge_lat n (Z.of_nat k))).
  { intro k. unfold ll2, set. now rewrite Nat.eqb_refl. }
  match goal with |- context [set (fun i j => (Nat.leb 1 i && Nat.ltb i n) && Nat.eqb j n)%bool ?f ?r] =>
    set (ll4 := set (fun i j => (Nat.leb 1 i && Nat.ltb i n) && Nat.eqb j n)%bool f r) end.
  assert (LX : forall k, ll4 0%nat k = (75 / 100 * PI, edge_lat n (Z.of_nat k))).
  { intro k. unfold ll4, set. cbn [Nat.leb andb]. apply LW. }
  assert (LY : forall k, ll4 n k = (125 / 100 * PI, edge_lat n (Z.of_nat k))).
  { intro k. unfold ll4, set. rewrite Nat.ltb_irrefl, andb_false_r. cbn [andb]. apply LE. }
  assert (LZ : forall k, (1 <= k < n)%nat -> ll4 k 0%nat =
     mirror_latlon (75 / 100 * PI) (edge_lat n 0) (125 / 100 * PI) (edge_lat n (Z.of_nat n)) (75 / 100 * PI) (edge_lat n (Z.of_nat k))).
  { intros k K. unfold ll4, set. rewrite !LW, LE. cbn [fst snd].
    destruct (Nat.eqb_spec 0 n); [lia|]. rewrite andb_false_r. rewrite Nat.eqb_refl, andb_true_r.
    destruct (Nat.leb_spec 1 k); [|lia]. destruct (Nat.ltb_spec k n); [|lia]. reflexivity. }
  clearbody ll4. clear LW LE ll2.
  match goal with |- context [set (fun i j => (Nat.leb 1 i && Nat.ltb i n) && Nat.eqb j 0)%bool ?f ?r] =>
    set (pp3 := set (fun i j => (Nat.leb 1 i && Nat.ltb i n) && Nat.eqb j 0)%bool f r) end.
  (* west edge *)
  assert (PW : forall k, (k <= n)%nat -> py (pp3 0%nat k) = third /\ pz (pp3 0%nat k) = sqrt 2 * third * tan (edge_lat n (Z.of_nat k))).
  { intros k K. unfold pp3, set. change (Nat.leb 1 0) with false. change (Nat.eqb 0 0) with true.
    destruct (Nat.leb_spec 1 k), (Nat.ltb_spec k n); cbn [andb orb].
    - rewrite LX. cbn [fst snd]. destruct (west_face n (Z.of_nat k) N ltac:(lia)) as (x & F). rewrite F. now split.
    - assert (k = n) by lia. subst k. rewrite Nat.eqb_refl, orb_true_r, LX. cbn [fst snd].
      rewrite corner_nw, tan_n by exact N. now split.
    - assert (k = 0%nat) by lia. subst k. cbn [Nat.eqb orb]. rewrite LX. cbn [fst snd Z.of_nat]. rewrite corner_sw, tan_0. cbn. split; ring.
    - lia. }
  (* south edge *)
  assert (PS : forall k, (k <= n)%nat -> py (pp3 k 0%nat) = - (sqrt 2 * third * tan (edge_lat n (Z.of_nat k))) /\ pz (pp3 k 0%nat) = - third).
  { intros k K. unfold pp3, set. change (Nat.leb 1 0) with false. change (Nat.eqb 0 0) with true.
    destruct (Nat.leb_spec 1 k), (Nat.ltb_spec k n); cbn [andb orb].
    - rewrite LZ by lia. destruct (south_face n (Z.of_nat k) N ltac:(lia)) as (x & F). rewrite F. now split.
    - assert (k = n) by lia. subst k. rewrite Nat.eqb_refl, orb_true_r, LY. cbn [andb fst snd].
      destruct (Nat.eqb_spec n 0); [lia|]. cbn [andb]. rewrite corner_se, tan_n by exact N. now split.
    - assert (k = 0%nat) by lia. subst k. cbn [Nat.eqb andb orb]. rewrite LX. cbn [fst snd Z.of_nat]. rewrite corner_sw, tan_0. cbn. split; ring.
    - lia. }
  clearbody pp3. unfold set. destruct (Nat.leb_spec 1 j), (Nat.leb_spec 1 i); cbn [andb].
  - unfold px, py at 1, pz at 1. cbn [fst snd]. destruct (PS i Hi) as [-> _]. destruct (PW j Hj) as [_ ->]. reflexivity.
  - assert (i = 0%nat) by lia. subst i. destruct (PW j Hj) as [-> ->]. cbn [Z.of_nat]. rewrite tan_0. apply triple_eq; ring.
  - assert (j = 0%nat) by lia. subst j. destruct (PS i Hi) as [-> ->]. cbn [Z.of_nat]. rewrite tan_0. reflexivity.
  - assert (j = 0%nat) by lia. subst j. destruct (PS i Hi) as [-> ->]. cbn [Z.of_nat]. rewrite tan_0. reflexivity.
Qed.

(** *** Facts about the closed form *)
Lemma edge_lat_flip n k : (0 < n)%nat -> edge_lat n (Z.of_nat n - k) = - edge_lat n k.
Proof.
  intro N. unfold edge_lat, dely. rewrite minus_IZR, <- INR_IZR_INZ. assert (0 < INR n) by (apply lt_0_INR; exact N). field. lra.
Qed.
Lemma edge_lat_mono n k l : (0 < n)%nat -> (k < l)%Z -> edge_lat n k < edge_lat n l.
Proof.
  intros N L. apply IZR_lt in L. assert (0 < INR n) by (apply lt_0_INR; exact N). pose proof alpha_bound.
  assert (0 < dely n) by (unfold dely; apply Rmult_lt_0_compat; [lra|]; apply Rdiv_lt_0_compat; lra).
  unfold edge_lat. nra.
Qed.
