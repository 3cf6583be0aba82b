(** Lemmas about TilesModel *)
Require Import Reals Lra Lia ZArith Bool Arith List.
From Verif Require Import Base SphereModel SphereProofs SphereProps3 SphereProps4 GnomModel GnomProofs GnomProps MirrorModel MirrorProofs MirrorProps TilesModel.
Import ListNotations.
Open Scope R_scope.

Lemma alpha_size : 1 / 2 < alpha < 1.
Proof.
  pose proof alpha_bound as [A0 A1]. destruct third_pos as [T0 T1]. pose proof PI_RGT_0 as P. pose proof PI_4 as P4. split.
  - pose proof (sin_lt_x alpha A0) as S. rewrite sin_alpha in S. nra.
  - destruct (Rlt_le_dec alpha (PI / 4)) as [L | L]; [lra|exfalso].
    assert (S : sin (PI / 4) <= sin alpha).
    { destruct (Req_dec alpha (PI / 4)) as [-> | N]; [lra|]. apply Rlt_le, sin_increasing_1; lra. }
    rewrite sin_alpha, sin_PI4 in S. destruct sqrt2' as [S1 S2].
    assert (I : 1 / sqrt 2 * (1 / sqrt 2) = / 2) by (transitivity (/ (sqrt 2 * sqrt 2)); [field; lra|now rewrite S2]).
    assert (0 < 1 / sqrt 2) by (apply Rdiv_lt_0_compat; lra). nra.
Qed.
Lemma tan_lower x : 0 < x <= 1 -> x / 2 <= tan x.
Proof.
  intros X. destruct (MVT_cor2 sin cos 0 x ltac:(lra)) as (c & E & C); [intros; apply derivable_pt_lim_sin|].
  rewrite sin_0 in E. pose proof (cos_lower c ltac:(lra)) as L. pose proof PI2_1 as P. assert (H : 1 / 2 <= cos c) by nra.
  assert (CX : 0 < cos x) by (apply cos_gt_0; lra). pose proof (COS_bound x) as [_ B].
  unfold tan. apply (Rmult_le_reg_r (cos x)); [exact CX|]. unfold Rdiv at 2. rewrite Rmult_assoc, Rinv_l by lra. nra.
Qed.

(** the coordinate on the face of the cube *)
Definition fc (n : nat) (k : Z) : R := sqrt 2 * tan (edge_lat n k).
Lemma fc_flip n k : (0 < n)%nat -> fc n (Z.of_nat n - k) = - fc n k.
Proof. intro N. unfold fc. rewrite edge_lat_flip, tan_neg by exact N. ring. Qed.
Lemma fc_range n k : (0 < n)%nat -> (0 <= k <= Z.of_nat n)%Z -> -1 <= fc n k <= 1.
Proof. apply tan_range. Qed.
Lemma fc_mid n k : (0 < n)%nat -> (2 * k = Z.of_nat n)%Z -> fc n k = 0.
Proof. intros N E. pose proof (fc_flip n k N) as Q. replace (Z.of_nat n - k)%Z with k in Q by lia. lra. Qed.
Lemma fc_mono n k l : (0 < n)%nat -> (0 <= k)%Z -> (k < l)%Z -> (l <= Z.of_nat n)%Z -> fc n k < fc n l.
Proof.
  intros N K L M. unfold fc. destruct sqrt2' as [S1 _]. apply Rmult_lt_compat_l; [exact S1|].
  pose proof (edge_lat_range n k N ltac:(lia)). pose proof (edge_lat_range n l N ltac:(lia)). pose proof alpha_bound.
  apply tan_increasing; try lra. now apply edge_lat_mono.
Qed.
Lemma fc_0 n : fc n 0 = Ropp 1.
Proof. pose proof (tan_0 n) as T. destruct third_pos. unfold fc. nra. Qed.
Lemma fc_n n : (0 < n)%nat -> fc n (Z.of_nat n) = 1.
Proof. intro N. pose proof (tan_n n N) as T. destruct third_pos. unfold fc. nra. Qed.
Lemma fc_sign n k : (0 < n)%nat -> (0 <= k <= Z.of_nat n)%Z -> ((2 * k < Z.of_nat n)%Z -> fc n k < 0) /\ ((Z.of_nat n < 2 * k)%Z -> 0 < fc n k).
Proof.
  intros N K. pose proof (fc_flip n k N) as Q. split; intro H.
  - pose proof (fc_mono n k (Z.of_nat n - k) N ltac:(lia) ltac:(lia) ltac:(lia)). lra.
  - pose proof (fc_mono n (Z.of_nat n - k) k N ltac:(lia) ltac:(lia) ltac:(lia)). lra.
Qed.
Lemma fc_lower n k : (0 < n)%nat -> (0 <= k <= Z.of_nat n)%Z -> (2 * k <> Z.of_nat n)%Z -> / (4 * INR n) <= Rabs (fc n k).
Proof.
  intros N K D. assert (NR : 0 < INR n) by (apply lt_0_INR; exact N).
  assert (G : forall k, (0 <= k <= Z.of_nat n)%Z -> (Z.of_nat n < 2 * k)%Z -> / (4 * INR n) <= fc n k).
  { clear k K D. intros k K D. pose proof alpha_size as A. pose proof (edge_lat_range n k N K) as R0.
    assert (E : alpha / INR n <= edge_lat n k).
    { unfold edge_lat, dely. assert (H : IZR (Z.of_nat n) + 1 <= IZR (2 * k)) by (rewrite <- plus_IZR; apply IZR_le; lia).
      rewrite mult_IZR in H. rewrite <- INR_IZR_INZ in H. apply (Rmult_le_reg_r (INR n)); [exact NR|].
      replace (alpha / INR n * INR n) with alpha by (field; lra).
      replace ((- alpha + 2 * (alpha / INR n) * IZR k) * INR n) with (alpha * (2 * IZR k - INR n)) by (field; lra). nra. }
    assert (P : 0 < alpha / INR n) by (apply Rdiv_lt_0_compat; lra).
    pose proof (tan_lower (edge_lat n k) ltac:(lra)) as T. destruct sqrt2' as [S1 S2]. unfold fc.
    assert (S3 : 1 <= sqrt 2) by nra.
    assert (I : / (4 * INR n) <= edge_lat n k / 2).
    { replace (/ (4 * INR n)) with ((1 / 2) / INR n / 2) by (field; lra).
      assert (1 / 2 / INR n <= alpha / INR n) by (apply Rmult_le_compat_r; [apply Rlt_le, Rinv_0_lt_compat, NR|lra]). lra. }
    assert (0 < / (4 * INR n)) by (apply Rinv_0_lt_compat; lra). nra. }
  destruct (Z_lt_le_dec (Z.of_nat n) (2 * k)) as [H | H].
  - specialize (G k K H). assert (0 < / (4 * INR n)) by (apply Rinv_0_lt_compat; lra). rewrite Rabs_right by lra. exact G.
  - specialize (G (Z.of_nat n - k)%Z ltac:(lia) ltac:(lia)). rewrite fc_flip in G by exact N.
    assert (0 < / (4 * INR n)) by (apply Rinv_0_lt_compat; lra). rewrite Rabs_left by lra. exact G.
Qed.

(** ** the base region in exact arithmetic *)
Lemma copysign_abs x : copysign_R (Rabs x) x = x.
Proof.
  unfold copysign_R. rewrite Rabs_Rabsolu. destruct (Rlt_dec x 0); [rewrite Rabs_left by lra; ring|apply Rabs_right; lra].
Qed.
Lemma mean_same a b c d x : Rabs a = Rabs x -> Rabs b = Rabs x -> Rabs c = Rabs x -> Rabs d = Rabs x ->
  1 / 4 * (Rabs a + Rabs b + Rabs c + Rabs d) = Rabs x.
Proof. intros -> -> -> ->. field. Qed.
Lemma base_closed n I J : (0 < n)%nat ->
  signed_mean Rabs Rplus (Rmult (1 / 4)) copysign_R 0 (Z.of_nat n) (closed n) I J = closed n I J.
Proof.
  intro N. unfold signed_mean.
  assert (L : forall K L, fst (closed n (Z.of_nat n - K) L) = - fst (closed n K L) /\ snd (closed n (Z.of_nat n - K) L) = snd (closed n K L)).
  { intros K L. unfold closed. cbn [fst snd]. rewrite edge_lat_flip, tan_neg by exact N.
    replace (sqrt 2 * - tan (edge_lat n K)) with (- (sqrt 2 * tan (edge_lat n K))) by ring. rewrite atan_opp, cos_neg. auto. }
  assert (M : forall K L, fst (closed n K (Z.of_nat n - L)) = fst (closed n K L) /\ snd (closed n K (Z.of_nat n - L)) = - snd (closed n K L)).
  { intros K L'. unfold closed. cbn [fst snd]. rewrite edge_lat_flip, tan_neg by exact N. split; [reflexivity|].
    rewrite <- atan_opp. f_equal. ring. }
  destruct (L I J) as [L1 L2]. destruct (M I J) as [M1 M2]. destruct (M (Z.of_nat n - I)%Z J) as [N1 N2].
  rewrite N1, N2, L1, L2, M1, M2.
  rewrite !(mean_same _ _ _ _ (fst (closed n I J))) by (rewrite ?Rabs_Ropp; reflexivity).
  rewrite !(mean_same _ _ _ _ (snd (closed n I J))) by (rewrite ?Rabs_Ropp; reflexivity). rewrite !copysign_abs.
  unfold middle. destruct (Z.eqb_spec (2 * I) (Z.of_nat n)) as [E|]; [|symmetry; apply surjective_pairing].
  rewrite (surjective_pairing (closed n I J)) at 2. f_equal. unfold closed. cbn [fst]. change (sqrt 2 * tan (edge_lat n I)) with (fc n I).
  rewrite fc_mid by assumption. symmetry. apply atan_0.
Qed.

(** ** rotations with conversion *)
Definition on_axis (q : vec) : Prop := let '(x, y, _) := q in x = 0 /\ y = 0.
Definition good (q : vec) : Prop := q <> (0, 0, 0) /\ (off_axis q \/ on_axis q).
Definition zero_lon (p q : vec) : Prop := on_axis q -> fst (fst p) = 0.
Lemma c2s_full q : good q -> let p := cartesian_to_spherical false q in
  valid_position p /\ position (-1) p = q /\ snd p = sqrt (dot q q) /\ zero_lon p q.
Proof.
  intros [N [O | O]]; cbv zeta.
  - destruct (c2s_spec false q N O) as (V & P & R0). split; [exact V|]. split; [exact P|]. split.
    + destruct (cartesian_to_spherical false q) as [[? ?] ?]. exact R0.
    + intro A. exfalso. destruct q as [[x y] z]. destruct A as [-> ->]. unfold off_axis in O. rewrite Rabs_R0 in O. lra.
  - destruct q as [[x y] z]. destruct O as [-> ->]. assert (Z : z <> 0) by (intros ->; now apply N).
    unfold cartesian_to_spherical. rewrite Rabs_R0. destruct (Rlt_dec (0 + 0) (1 / 10 ^ 10)) as [_ | X]; [|exfalso; apply X; lra].
    cbn [dot]. replace (0 * 0 + 0 * 0 + z * z) with (z²) by (unfold Rsqr; ring). rewrite sqrt_Rsqr_abs.
    pose proof (Rabs_pos_lt z Z) as AZ. pose proof PI_RGT_0 as P.
    unfold zero_lon. cbn [fst snd]. unfold valid_position, position. rewrite cos_0, sin_0.
    destruct (Rlt_le_dec z 0) as [S | S].
    + assert (E : z / Rabs z = Ropp 1) by (rewrite Rabs_left by exact S; field; lra). rewrite E, acos_opp, acos_1.
      replace (PI - 0 - PI / 2) with (PI / 2) by field. rewrite cos_PI2, sin_PI2. split; [repeat split; lra|].
      split; [|auto]. rewrite Rabs_left by exact S. apply triple_eq; ring.
    + assert (E : z / Rabs z = 1) by (rewrite Rabs_right by lra; field; lra). rewrite E, acos_1.
      replace (0 - PI / 2) with (- (PI / 2)) by ring. rewrite cos_neg, sin_neg, cos_PI2, sin_PI2. split; [repeat split; lra|].
      split; [|auto]. rewrite Rabs_right by lra. apply triple_eq; ring.
Qed.
Lemma rot_step axis p a q q' : position (-1) p = q -> rot_cartesian axis q a = Some q' -> good q' ->
  exists p', rot_spherical false axis p a = Some p' /\ valid_position p' /\ position (-1) p' = q' /\ snd p' = sqrt (dot q q) /\ zero_lon p' q'.
Proof.
  intros P R0 G. unfold rot_spherical. rewrite s2c_position. change (hand false) with (-1). rewrite P, R0. eexists. split; [reflexivity|].
  destruct (c2s_full q' G) as (V & P' & S & Z). split; [exact V|]. split; [exact P'|]. split; [|exact Z].
  rewrite S. f_equal. eapply rot_dot; eassumption.
Qed.

(** cartesian coordinates (with z downwards, as the code has them) of a corner of tile t, up to a factor *)
Definition face_xyz (t : Z) (x y : R) : vec :=
  match t with
  | 1%Z => (- x, 1, - y) | 2%Z => (- x, - y, Ropp 1) | 3%Z => (Ropp 1, - y, x) | 4%Z => (y, Ropp 1, x) | 5%Z => (y, x, 1) | _ => (1, x, - y)
  end.
Lemma closed_position n I J r : (0 < n)%nat -> 0 < r -> (0 <= I <= Z.of_nat n)%Z -> (0 <= J <= Z.of_nat n)%Z ->
  exists k, r / 2 <= k <= r /\ valid_position (fst (closed n I J), snd (closed n I J), r) /\
    position (-1) (fst (closed n I J), snd (closed n I J), r) = vscale k (face_xyz 0 (fc n I) (fc n J)) /\
    k * k * (1 + fc n I * fc n I + fc n J * fc n J) = r * r.
Proof.
  intros N R0 HI HJ. unfold closed. cbn [fst snd]. change (sqrt 2 * tan (edge_lat n I)) with (fc n I). change (sqrt 2 * tan (edge_lat n J)) with (fc n J).
  set (x := fc n I). set (y := fc n J). pose proof (fc_range n I N HI) as X. pose proof (fc_range n J N HJ) as Y. fold x in X. fold y in Y. clearbody x y.
  set (lon := atan x). set (lat := atan (y * cos lon)).
  pose proof (atan_bound x) as B1. fold lon in B1. pose proof (atan_bound (y * cos lon)) as B2. fold lat in B2. pose proof PI_RGT_0 as P.
  assert (T1 : tan lon = x) by apply tan_atan. assert (T2 : tan lat = y * cos lon) by apply tan_atan. clearbody lon lat.
  assert (C1 : 0 < cos lon) by (apply cos_gt_0; lra). assert (C2 : 0 < cos lat) by (apply cos_gt_0; lra).
  assert (S1 : sin lon = x * cos lon) by (rewrite <- T1; unfold tan; field; lra).
  assert (S2 : sin lat = y * cos lon * cos lat) by (rewrite <- T2; unfold tan; field; lra).
  pose proof (sin2_cos2 lon) as Q1. pose proof (sin2_cos2 lat) as Q2. unfold Rsqr in Q1, Q2.
  set (k := cos lon * cos lat). assert (K0 : 0 < k) by (apply Rmult_lt_0_compat; assumption).
  assert (KK : k * k * (1 + x * x + y * y) = 1).
  { rewrite S1 in Q1. rewrite S2 in Q2. unfold k.
    transitivity ((x * cos lon * (x * cos lon) + cos lon * cos lon) * (cos lat * cos lat) + y * cos lon * cos lat * (y * cos lon * cos lat)); [ring|].
    rewrite Q1. lra. }
  exists (r * k). assert (k * k <= 1) by nra. assert (/ 4 <= k * k) by nra. assert (1 / 2 <= k <= 1) by nra. split; [nra|]. split; [|split].
  - unfold valid_position. lra.
  - unfold position, face_xyz, vscale. apply triple_eq.
    + unfold k. ring.
    + rewrite S1. unfold k. ring.
    + rewrite S2. unfold k. ring.
  - transitivity (r * r * (k * k * (1 + x * x + y * y))); [ring|]. rewrite KK. ring.
Qed.

Lemma deg_90 : deg2rad 90 = PI / 2.
Proof. unfold deg2rad. field. Qed.
Lemma deg_m90 : deg2rad (-90) = - (PI / 2).
Proof. unfold deg2rad. field. Qed.
Lemma deg_m180 : deg2rad (-180) = - PI.
Proof. unfold deg2rad. field. Qed.
Lemma deg_0 : deg2rad 0 = 0.
Proof. unfold deg2rad. field. Qed.

Lemma vscale_face_dot k t x y : dot (vscale k (face_xyz t x y)) (vscale k (face_xyz t x y)) = k * k * (1 + x * x + y * y).
Proof. unfold face_xyz. destruct t as [|[[[|[]|]|[]|]|[[|[]|]|[]|]|]|]; cbn [vscale dot]; ring. Qed.

Lemma tile_rot_spec n I J r t : (0 < n)%nat -> 10 ^ 6 <= r -> INR n <= 10 ^ 12 -> (0 <= I <= Z.of_nat n)%Z -> (0 <= J <= Z.of_nat n)%Z -> (0 <= t <= 5)%Z ->
  exists lon lat k, tile_rot r t (closed n I J) = (lon, lat) /\ r / 2 <= k <= r /\ valid_position (lon, lat, r) /\
    position (-1) (lon, lat, r) = vscale k (face_xyz t (fc n I) (fc n J)) /\ zero_lon (lon, lat, r) (face_xyz t (fc n I) (fc n J)).
Proof.
  intros N R0 NB HI HJ HT. assert (RP : 0 < r) by lra. destruct (closed_position n I J r N RP HI HJ) as (k & K & V & P & KK).
  set (x := fc n I) in *. set (y := fc n J) in *. assert (KP : 0 < k) by lra.
  assert (LOW : forall i, (0 <= i <= Z.of_nat n)%Z -> fc n i = 0 \/ 1 / 10 ^ 10 <= Rabs (k * fc n i)).
  { intros i Hi. destruct (Z.eq_dec (2 * i) (Z.of_nat n)) as [E|E]; [left; now apply fc_mid|right].
    pose proof (fc_lower n i N Hi E) as L. rewrite Rabs_mult, (Rabs_right k) by lra.
    assert (NR : 0 < INR n) by (apply lt_0_INR; exact N).
    assert (/ (4 * 10 ^ 12) <= / (4 * INR n)) by (apply Rinv_le_contravar; lra).
    apply Rle_trans with (5 * 10 ^ 5 * / (4 * 10 ^ 12)); [lra|]. apply Rmult_le_compat; try lra. }
  assert (NZ : forall t', vscale k (face_xyz t' x y) <> (0, 0, 0)).
  { intros t' E. pose proof (vscale_face_dot k t' x y) as D. rewrite E, KK in D. cbn in D. nra. }
  assert (GXY : forall u v w, (u = k \/ u = - k \/ v = k \/ v = - k) -> off_axis (u, v, w)).
  { intros u v w H. unfold off_axis. pose proof (Rabs_pos u). pose proof (Rabs_pos v).
    assert (A : Rabs u = k \/ Rabs v = k).
    { destruct H as [H | [H | [H | H]]]; [left|left|right|right]; rewrite H, ?Rabs_Ropp; apply Rabs_right; lra. }
    destruct A; lra. }
  assert (G : forall t', (0 <= t' <= 5)%Z -> good (vscale k (face_xyz t' x y))).
  { intros t' T. split; [apply NZ|].
    assert (TT : t' = 0%Z \/ t' = 1%Z \/ t' = 2%Z \/ t' = 3%Z \/ t' = 4%Z \/ t' = 5%Z) by lia.
    destruct (LOW I HI) as [X | X], (LOW J HJ) as [Y | Y]; fold x in X; fold y in Y;
    destruct TT as [-> | [-> | [-> | [-> | [-> | ->]]]]]; cbn [face_xyz vscale].
    all: try (left; apply GXY; first [left; ring|right; left; ring|right; right; left; ring|right; right; right; ring]).
    all: try (left; unfold off_axis; rewrite <- ?Ropp_mult_distr_r, ?Rabs_Ropp; pose proof (Rabs_pos (k * x)); pose proof (Rabs_pos (k * y)); lra).
    all: right; split; rewrite ?X, ?Y; ring. }
  assert (SQ : sqrt (r * r) = r) by (apply sqrt_square; lra).
  assert (FIN : forall p t', (0 <= t' <= 5)%Z -> valid_position p -> position (-1) p = vscale k (face_xyz t' x y) -> snd p = r ->
      zero_lon p (vscale k (face_xyz t' x y)) -> tile_rot r t (closed n I J) = fst p -> t' = t ->
      exists lon lat k, tile_rot r t (closed n I J) = (lon, lat) /\ r / 2 <= k <= r /\ valid_position (lon, lat, r) /\
        position (-1) (lon, lat, r) = vscale k (face_xyz t x y) /\ zero_lon (lon, lat, r) (face_xyz t x y)).
  { intros [[lon lat] r'] t' T' Vp Pp Sp Zp E ->. cbn [snd] in Sp. subst r'. cbn [fst] in E. exists lon, lat, k.
    split; [exact E|]. split; [exact K|]. split; [exact Vp|]. split; [exact Pp|]. intro A. apply Zp. revert A.
    destruct (face_xyz t x y) as [[u v] w]. cbn. intros [-> ->]. split; ring. }
  assert (STEP : forall axis a p q t', position (-1) p = q -> dot q q = r * r -> (0 <= t' <= 5)%Z -> rot_cartesian axis q a = Some (vscale k (face_xyz t' x y)) ->
     exists p', rot_spherical false axis p a = Some p' /\ valid_position p' /\ position (-1) p' = vscale k (face_xyz t' x y) /\ snd p' = r /\ zero_lon p' (vscale k (face_xyz t' x y))).
  { intros axis a p q t' Pp D T' R1. destruct (rot_step axis p a q _ Pp R1 (G t' T')) as (p' & A1 & A2 & A3 & A4 & A5). exists p'. rewrite D, SQ in A4. auto. }
  assert (DD : forall t', dot (vscale k (face_xyz t' x y)) (vscale k (face_xyz t' x y)) = r * r) by (intro t'; rewrite vscale_face_dot; exact KK).
  assert (UF : forall p : vec, tile_rot r t (closed n I J) = (let '(lon, lat, _) := p in (lon, lat)) -> tile_rot r t (closed n I J) = fst p) by (intros [[? ?] ?]; auto).
  assert (TT : t = 0%Z \/ t = 1%Z \/ t = 2%Z \/ t = 3%Z \/ t = 4%Z \/ t = 5%Z) by lia.
  destruct TT as [-> | [-> | [-> | [-> | [-> | ->]]]]].
  - apply (FIN (fst (closed n I J), snd (closed n I J), r) 0%Z ltac:(lia)); try assumption; try reflexivity.
    intro A. exfalso. cbn in A. lra.
  - destruct (STEP 3%nat (deg2rad (-90)) _ _ 1%Z P (DD 0%Z) ltac:(lia)) as (p1 & E1 & V1 & P1 & S1 & Z1).
    { rewrite deg_m90. cbn [rot_cartesian vscale face_xyz]. rewrite cos_neg, sin_neg, cos_PI2, sin_PI2. f_equal. apply triple_eq; ring. }
    apply (FIN p1 1%Z ltac:(lia)); try assumption; try reflexivity. apply UF. unfold tile_rot. cbn [rotations rotate_all]. now rewrite E1.
  - destruct (STEP 3%nat (deg2rad (-90)) _ _ 1%Z P (DD 0%Z) ltac:(lia)) as (p1 & E1 & V1 & P1 & S1 & Z1).
    { rewrite deg_m90. cbn [rot_cartesian vscale face_xyz]. rewrite cos_neg, sin_neg, cos_PI2, sin_PI2. f_equal. apply triple_eq; ring. }
    destruct (STEP 1%nat (deg2rad 90) _ _ 2%Z P1 (DD 1%Z) ltac:(lia)) as (p2 & E2 & V2 & P2 & S2 & Z2).
    { rewrite deg_90. cbn [rot_cartesian vscale face_xyz]. rewrite cos_PI2, sin_PI2. f_equal. apply triple_eq; ring. }
    apply (FIN p2 2%Z ltac:(lia)); try assumption; try reflexivity. apply UF. unfold tile_rot. cbn [rotations rotate_all]. now rewrite E1, E2.
  - destruct (rot_step 3%nat (fst (closed n I J), snd (closed n I J), r) (deg2rad (-180)) _ (vscale k (Ropp 1, - x, - y)) P) as (p1 & E1 & V1 & P1 & S1 & Z1).
    { rewrite deg_m180. cbn [rot_cartesian vscale face_xyz]. rewrite cos_neg, sin_neg, cos_PI, sin_PI. f_equal. apply triple_eq; ring. }
    { split; [intros [= A _ _]; lra|]. left. apply GXY. right; left. ring. }
    destruct (STEP 1%nat (deg2rad 90) _ _ 3%Z P1) as (p2 & E2 & V2 & P2 & S2 & Z2); [|lia| |].
    { rewrite <- (DD 0%Z). cbn [vscale face_xyz dot]. ring. }
    { rewrite deg_90. cbn [rot_cartesian vscale face_xyz]. rewrite cos_PI2, sin_PI2. f_equal. apply triple_eq; ring. }
    apply (FIN p2 3%Z ltac:(lia)); try assumption; try reflexivity. apply UF. unfold tile_rot. cbn [rotations rotate_all]. now rewrite E1, E2.
  - destruct (rot_step 3%nat (fst (closed n I J), snd (closed n I J), r) (deg2rad 90) _ (vscale k (x, Ropp 1, - y)) P) as (p1 & E1 & V1 & P1 & S1 & Z1).
    { rewrite deg_90. cbn [rot_cartesian vscale face_xyz]. rewrite cos_PI2, sin_PI2. f_equal. apply triple_eq; ring. }
    { split; [intros [= _ A _]; lra|]. left. apply GXY. right; right; right. ring. }
    destruct (STEP 2%nat (deg2rad 90) _ _ 4%Z P1) as (p2 & E2 & V2 & P2 & S2 & Z2); [|lia| |].
    { rewrite <- (DD 0%Z). cbn [vscale face_xyz dot]. ring. }
    { rewrite deg_90. cbn [rot_cartesian vscale face_xyz]. rewrite cos_PI2, sin_PI2. f_equal. apply triple_eq; ring. }
    apply (FIN p2 4%Z ltac:(lia)); try assumption; try reflexivity. apply UF. unfold tile_rot. cbn [rotations rotate_all]. now rewrite E1, E2.
  - destruct (STEP 2%nat (deg2rad 90) _ _ 5%Z P (DD 0%Z) ltac:(lia)) as (p1 & E1 & V1 & P1 & S1 & Z1).
    { rewrite deg_90. cbn [rot_cartesian vscale face_xyz]. rewrite cos_PI2, sin_PI2. f_equal. apply triple_eq; ring. }
    destruct (STEP 3%nat (deg2rad 0) _ _ 5%Z P1 (DD 5%Z) ltac:(lia)) as (p2 & E2 & V2 & P2 & S2 & Z2).
    { rewrite deg_0. cbn [rot_cartesian vscale face_xyz]. rewrite cos_0, sin_0. f_equal. apply triple_eq; ring. }
    apply (FIN p2 5%Z ltac:(lia)); try assumption; try reflexivity. apply UF. unfold tile_rot. cbn [rotations rotate_all]. now rewrite E1, E2.
Qed.
