(** Property C89: lengths of the sides of the cells (exact arithmetic) *)
Require Import Reals Lra Lia ZArith Bool Arith Psatz.
From Verif Require Import Base SphereModel SphereProofs SphereProps SphereProps2 GnomModel GnomProofs MirrorModel TilesModel TilesProofs TilesProps AreaModel AreaProofs AreaProps.
Open Scope R_scope.

(** ** Specification *)
(** [theta] is the angle in [0, pi] between two directions *)
Definition angle_between (u v : R * R * R) (theta : R) : Prop :=
  0 <= theta <= PI /\
  let '(a, b, c) := u in let '(d, e, f) := v in
  cos theta * (sqrt (a * a + b * b + c * c) * sqrt (d * d + e * e + f * f)) = a * d + b * e + c * f.
(** the direction of corner (I, J) of tile t, from the cube *)
Definition corner (n : nat) (t I J : Z) : R * R * R := TilesProps.stretched n (cube_corner n t I J).

(** ** Lemmas *)
(** the angle from the middle of a row to the point *)
Definition along (x y : R) : R := atan (x / sqrt (1 + y * y)).
Lemma sq1 y : 0 < sqrt (1 + y * y) /\ sqrt (1 + y * y) * sqrt (1 + y * y) = 1 + y * y.
Proof. split; [apply sqrt_lt_R0; nra|apply sqrt_sqrt; nra]. Qed.
Lemma along_trig x y : cos (along x y) * root x y = sqrt (1 + y * y) /\ sin (along x y) * root x y = x.
Proof.
  destruct (sq1 y) as [S Q]. pose proof (root_pos x y) as P. pose proof (root_sq x y) as R0. unfold along.
  set (s := sqrt (1 + y * y)) in *. set (r := root x y) in *.
  assert (E : sqrt (1 + Rsqr (x / s)) = r / s).
  { unfold Rsqr. replace (1 + x / s * (x / s)) with (r / s * (r / s)).
    - apply sqrt_square. apply Rlt_le, Rdiv_lt_0_compat; assumption.
    - apply (Rmult_eq_reg_r (s * s)); [|nra]. transitivity (r * r); [field; lra|]. transitivity (s * s + x * x); [lra|field; lra]. }
  rewrite cos_atan, sin_atan, E. split; field; lra.
Qed.
Lemma along_mono x x' y : x < x' -> along x y < along x' y.
Proof. intro X. apply atan_increasing. destruct (sq1 y) as [S _]. apply Rmult_lt_compat_r; [now apply Rinv_0_lt_compat|exact X]. Qed.
Lemma along_bound x y : - PI / 2 < along x y < PI / 2. Proof. apply atan_bound. Qed.
Lemma row_angle x x' y : x <= x' -> vangle (F x y) (F x' y) = along x' y - along x y.
Proof.
  intro X. unfold vangle. destruct (along_trig x y) as [C1 S1], (along_trig x' y) as [C2 S2]. pose proof (root_pos x y) as P1. pose proof (root_pos x' y) as P2.
  destruct (sq1 y) as [SY QY].
  assert (E : dot (F x y) (F x' y) / sqrt (dot (F x y) (F x y) * dot (F x' y) (F x' y)) = cos (along x' y - along x y)).
  { cbn [F dot]. replace (x * x + y * y + 1 * 1) with (1 + x * x + y * y) by ring. replace (x' * x' + y * y + 1 * 1) with (1 + x' * x' + y * y) by ring.
    rewrite sqrt_mult by nra. fold (root x y) (root x' y). rewrite cos_minus.
    apply (Rmult_eq_reg_r (root x y * root x' y)); [|apply Rmult_integral_contrapositive; split; lra].
    transitivity (x * x' + y * y + 1 * 1); [field; lra|].
    transitivity ((cos (along x' y) * root x' y) * (cos (along x y) * root x y) + (sin (along x' y) * root x' y) * (sin (along x y) * root x y)); [|ring].
    rewrite C1, C2, S1, S2. rewrite QY. ring. }
  rewrite E. apply acos_cos. pose proof (along_bound x y). pose proof (along_bound x' y).
  assert (along x y <= along x' y) by (destruct X as [X | ->]; [apply Rlt_le, along_mono; exact X|lra]). lra.
Qed.
Lemma F_nz x y : F x y <> (0, 0, 0). Proof. unfold F. intros [= _ _ H]; lra. Qed.
Lemma col_angle x y y' : vangle (F x y) (F x y') = vangle (F y x) (F y' x).
Proof. unfold vangle. cbn [F dot]. f_equal. f_equal; [ring|]. f_equal. ring. Qed.
Lemma dots_vangle u v u' v' : dot u u = dot u' u' -> dot v v = dot v' v' -> dot u v = dot u' v' -> vangle u v = vangle u' v'.
Proof. intros A B C. unfold vangle. now rewrite A, B, C. Qed.
Lemma vangle_between u v : u <> (0, 0, 0) -> v <> (0, 0, 0) -> angle_between u v (vangle u v).
Proof.
  intros U V. split; [apply vangle_bound|]. destruct u as [[a b] c], v as [[d e] f]. exact (vangle_cos _ _ U V).
Qed.
Lemma corner_angle n t I J I' J' : (0 < n)%nat -> (0 <= t <= 5)%Z ->
  vangle (corner n t I J) (corner n t I' J') = vangle (F (coord n I) (coord n J)) (F (coord n I') (coord n J')).
Proof. intros N T. apply dots_vangle; now apply face_dots. Qed.

(** distance of two corners of a rank *)
Lemma shifted_distance p q u v radius : lon_lat_of p u -> lon_lat_of q v -> kept p -> kept q ->
  great_circle_distance (fst (shift_lon p)) (fst (shift_lon q)) (snd (shift_lon p)) (snd (shift_lon q)) radius = radius * vangle u v.
Proof.
  intros LP LQ KP KQ. unfold great_circle_distance. rewrite beta_acos. f_equal. rewrite kept_dots by assumption.
  destruct (seen_scale _ _ LP) as (k & K & ->), (seen_scale _ _ LQ) as (m & M & ->).
  assert (U : forall lon lat, lon_lat_to_xyz lon lat <> (0, 0, 0)).
  { intros lon lat Z. pose proof (xyz_unit lon lat) as Q. rewrite Z in Q. cbn in Q. lra. }
  rewrite vangle_scale_l; [|exact K|apply U|apply scale_nonzero; [lra|apply U]]. rewrite vangle_scale_r by (assumption || apply U).
  unfold vangle. rewrite !xyz_unit, Rmult_1_l, sqrt_1. f_equal. field.
Qed.

(** ** C89: every side *)
Theorem C89_dx radius n w l row col t a0 : 10 ^ 6 <= radius -> rank_of_layout n w l row col -> (0 <= t <= 5)%Z ->
  exists g dx, init_dgrid radius n w l l row col 3 t a0 = Some g /\ rank_dx radius n w l row col t a0 = Some dx /\
  forall a b, (0 <= a < Z.of_nat w)%Z -> (0 <= b <= Z.of_nat w)%Z -> kept (g (3 + a) (3 + b))%Z -> kept (g (3 + (a + 1)) (3 + b))%Z ->
    exists theta, angle_between (corner n t (col * Z.of_nat w + a) (row * Z.of_nat w + b)) (corner n t (col * Z.of_nat w + a + 1) (row * Z.of_nat w + b)) theta /\
      dx (3 + a)%Z (3 + b)%Z = radius * theta /\ 0 < dx (3 + a)%Z (3 + b)%Z.
Proof.
  intros R0 L T. destruct (corners radius n w l row col t a0 R0 L T) as (g & E & E' & P). pose proof (layout_pos _ _ _ _ _ L) as N.
  exists g. unfold rank_dx. rewrite E'. eexists. split; [exact E|]. split; [reflexivity|].
  intros a b A B K1 K2. set (I := (col * Z.of_nat w + a)%Z). set (J := (row * Z.of_nat w + b)%Z).
  exists (vangle (corner n t I J) (corner n t (I + 1) J)).
  split; [apply vangle_between; now apply corner_nonzero|].
  assert (Q : on_corners (compute_dx radius (Z.of_nat w)) (fun i j => shift_lon (g i j)) (3 + a)%Z (3 + b)%Z = radius * vangle (corner n t I J) (corner n t (I + 1) J)).
  { unfold on_corners, compute_dx. destruct (Z.leb_spec 3 (3 + a)); [|lia]. destruct (Z.ltb_spec (3 + a) (3 + Z.of_nat w)); [|lia].
    destruct (Z.leb_spec 3 (3 + b)); [|lia]. destruct (Z.ltb_spec (3 + b) (3 + Z.of_nat w + 1)); [|lia]. cbn [andb].
    unfold distance_along_axis, from3. cbv zeta beta iota.
    replace (3 + a - 3 + 3)%Z with (3 + a)%Z by ring. replace (3 + b - 3 + 3)%Z with (3 + b)%Z by ring. replace (3 + a - 3 + 1 + 3)%Z with (3 + (a + 1))%Z by ring.
    apply shifted_distance; try assumption; [apply P; lia|]. unfold corner. replace (I + 1)%Z with (col * Z.of_nat w + (a + 1))%Z by (unfold I; ring). apply P; lia. }
  rewrite Q. split; [reflexivity|]. rewrite corner_angle by assumption.
  assert (C : coord n I < coord n (I + 1)) by (destruct L as (W & NW & Hr & Hc & _); apply coord_mono; try exact N; unfold I; nia).
  rewrite row_angle by lra. pose proof (along_mono _ _ (coord n J) C). apply Rmult_lt_0_compat; lra.
Qed.
Print Assumptions C89_dx.

Theorem C89_dy radius n w l row col t a0 : 10 ^ 6 <= radius -> rank_of_layout n w l row col -> (0 <= t <= 5)%Z ->
  exists g dy, init_dgrid radius n w l l row col 3 t a0 = Some g /\ rank_dy radius n w l row col t a0 = Some dy /\
  forall a b, (0 <= a <= Z.of_nat w)%Z -> (0 <= b < Z.of_nat w)%Z -> kept (g (3 + a) (3 + b))%Z -> kept (g (3 + a) (3 + (b + 1)))%Z ->
    exists theta, angle_between (corner n t (col * Z.of_nat w + a) (row * Z.of_nat w + b)) (corner n t (col * Z.of_nat w + a) (row * Z.of_nat w + b + 1)) theta /\
      dy (3 + a)%Z (3 + b)%Z = radius * theta /\ 0 < dy (3 + a)%Z (3 + b)%Z.
Proof.
  intros R0 L T. destruct (corners radius n w l row col t a0 R0 L T) as (g & E & E' & P). pose proof (layout_pos _ _ _ _ _ L) as N.
  exists g. unfold rank_dy. rewrite E'. eexists. split; [exact E|]. split; [reflexivity|].
  intros a b A B K1 K2. set (I := (col * Z.of_nat w + a)%Z). set (J := (row * Z.of_nat w + b)%Z).
  exists (vangle (corner n t I J) (corner n t I (J + 1))).
  split; [apply vangle_between; now apply corner_nonzero|].
  assert (Q : on_corners (compute_dy radius (Z.of_nat w)) (fun i j => shift_lon (g i j)) (3 + a)%Z (3 + b)%Z = radius * vangle (corner n t I J) (corner n t I (J + 1))).
  { unfold on_corners, compute_dy. destruct (Z.leb_spec 3 (3 + a)); [|lia]. destruct (Z.ltb_spec (3 + a) (3 + Z.of_nat w + 1)); [|lia].
    destruct (Z.leb_spec 3 (3 + b)); [|lia]. destruct (Z.ltb_spec (3 + b) (3 + Z.of_nat w)); [|lia]. cbn [andb].
    unfold distance_along_axis, from3. cbv zeta beta iota.
    replace (3 + a - 3 + 3)%Z with (3 + a)%Z by ring. replace (3 + b - 3 + 3)%Z with (3 + b)%Z by ring. replace (3 + b - 3 + 1 + 3)%Z with (3 + (b + 1))%Z by ring.
    apply shifted_distance; try assumption; [apply P; lia|]. unfold corner. replace (J + 1)%Z with (row * Z.of_nat w + (b + 1))%Z by (unfold J; ring). apply P; lia. }
  rewrite Q. split; [reflexivity|]. rewrite corner_angle, col_angle by assumption.
  assert (C : coord n J < coord n (J + 1)) by (destruct L as (W & NW & Hr & Hc & _); apply coord_mono; try exact N; unfold J; nia).
  rewrite row_angle by lra. pose proof (along_mono _ _ (coord n I) C). apply Rmult_lt_0_compat; lra.
Qed.
Print Assumptions C89_dy.

Lemma between_unique u v th th' : u <> (0, 0, 0) -> v <> (0, 0, 0) -> angle_between u v th -> angle_between u v th' -> th = th'.
Proof.
  intros U V (B & E) (B' & E'). pose proof (len_pos u U) as LU. pose proof (len_pos v V) as LV. destruct u as [[a b] c], v as [[d e] f].
  unfold dot in LU, LV. rewrite <- (acos_cos th), <- (acos_cos th') by assumption. f_equal.
  apply (Rmult_eq_reg_r (sqrt (a * a + b * b + c * c) * sqrt (d * d + e * e + f * f))); [lra|]. apply Rmult_integral_contrapositive. split; lra.
Qed.

(** ** C89: along a row (or a column) of a tile the lengths add up to the distance between its ends *)
Lemma total_rows (f : Z -> R) m w : total m (fun c => total w (fun a => f (c * Z.of_nat w + a + 1)%Z - f (c * Z.of_nat w + a)%Z)) = f (Z.of_nat m * Z.of_nat w)%Z - f 0%Z.
Proof.
  rewrite (total_ext m _ (fun c => (fun d => f (d * Z.of_nat w)%Z) (c + 1)%Z - (fun d => f (d * Z.of_nat w)%Z) c)).
  - exact (total_tele m (fun d => f (d * Z.of_nat w)%Z)).
  - intros c _. cbv beta. set (h := fun a => f (c * Z.of_nat w + a)%Z).
    rewrite (total_ext w _ (fun a => h (a + 1)%Z - h a)) by (intros; unfold h; now rewrite Z.add_assoc).
    rewrite total_tele. unfold h. replace (c * Z.of_nat w + Z.of_nat w)%Z with ((c + 1) * Z.of_nat w)%Z by ring. now rewrite Z.add_0_r.
Qed.
Theorem C89_row radius n w l t a0 row b (dx : Z -> array) : 10 ^ 6 <= radius -> rank_of_layout n w l row 0 -> (0 <= t <= 5)%Z -> (0 <= b <= Z.of_nat w)%Z ->
  (forall col, (0 <= col < l)%Z -> rank_dx radius n w l row col t a0 = Some (dx col)) ->
  (forall col g, (0 <= col < l)%Z -> init_dgrid radius n w l l row col 3 t a0 = Some g -> forall i, (0 <= i <= Z.of_nat w)%Z -> kept (g (3 + i) (3 + b))%Z) ->
  exists theta, angle_between (corner n t 0 (row * Z.of_nat w + b)) (corner n t (Z.of_nat n) (row * Z.of_nat w + b)) theta /\
    total (Z.to_nat l) (fun col => total w (fun a => dx col (3 + a)%Z (3 + b)%Z)) = radius * theta.
Proof.
  intros R0 L T B S K. pose proof (layout_pos _ _ _ _ _ L) as N. set (J := (row * Z.of_nat w + b)%Z).
  exists (vangle (corner n t 0 J) (corner n t (Z.of_nat n) J)). split; [apply vangle_between; now apply corner_nonzero|].
  rewrite corner_angle by assumption.
  assert (C : coord n 0 < coord n (Z.of_nat n)) by (apply coord_mono; lia). rewrite row_angle by lra.
  pose proof L as (W & NW & Hr & Hl & NB). replace (Z.of_nat n) with (Z.of_nat (Z.to_nat l) * Z.of_nat w)%Z by (rewrite Z2Nat.id by lia; lia).
  rewrite <- (total_rows (fun I => along (coord n I) (coord n J))). rewrite <- total_scale. apply total_ext. intros col Hc. rewrite Z2Nat.id in Hc by lia.
  rewrite <- total_scale. apply total_ext. intros a A.
  assert (L' : rank_of_layout n w l row col) by (repeat split; try assumption; lia).
  destruct (C89_dx radius n w l row col t a0 R0 L' T) as (g & d & E & E' & Q). rewrite (S col Hc) in E'. assert (d = dx col) as -> by congruence.
  destruct (Q a b A B) as (th & AB & -> & _); [apply (K col g Hc E); lia|apply (K col g Hc E); lia|]. f_equal. fold J in AB.
  rewrite (between_unique _ _ _ (vangle (corner n t (col * Z.of_nat w + a) J) (corner n t (col * Z.of_nat w + a + 1) J)) (corner_nonzero _ _ _ _ N T) (corner_nonzero _ _ _ _ N T) AB)
    by (apply vangle_between; now apply corner_nonzero).
  rewrite corner_angle by assumption. assert (CC : coord n (col * Z.of_nat w + a) < coord n (col * Z.of_nat w + a + 1)) by (apply coord_mono; try exact N; nia).
  apply row_angle. lra.
Qed.
Print Assumptions C89_row.
Theorem C89_column radius n w l t a0 col a (dy : Z -> array) : 10 ^ 6 <= radius -> rank_of_layout n w l 0 col -> (0 <= t <= 5)%Z -> (0 <= a <= Z.of_nat w)%Z ->
  (forall row, (0 <= row < l)%Z -> rank_dy radius n w l row col t a0 = Some (dy row)) ->
  (forall row g, (0 <= row < l)%Z -> init_dgrid radius n w l l row col 3 t a0 = Some g -> forall j, (0 <= j <= Z.of_nat w)%Z -> kept (g (3 + a) (3 + j))%Z) ->
  exists theta, angle_between (corner n t (col * Z.of_nat w + a) 0) (corner n t (col * Z.of_nat w + a) (Z.of_nat n)) theta /\
    total (Z.to_nat l) (fun row => total w (fun b => dy row (3 + a)%Z (3 + b)%Z)) = radius * theta.
Proof.
  intros R0 L T B S K. pose proof (layout_pos _ _ _ _ _ L) as N. set (J := (col * Z.of_nat w + a)%Z).
  exists (vangle (corner n t J 0) (corner n t J (Z.of_nat n))). split; [apply vangle_between; now apply corner_nonzero|].
  rewrite corner_angle, col_angle by assumption.
  assert (C : coord n 0 < coord n (Z.of_nat n)) by (apply coord_mono; lia). rewrite row_angle by lra.
  pose proof L as (W & NW & Hl & Hr & NB). replace (Z.of_nat n) with (Z.of_nat (Z.to_nat l) * Z.of_nat w)%Z by (rewrite Z2Nat.id by lia; lia).
  rewrite <- (total_rows (fun I => along (coord n I) (coord n J))). rewrite <- total_scale. apply total_ext. intros row Hc. rewrite Z2Nat.id in Hc by lia.
  rewrite <- total_scale. apply total_ext. intros b A.
  assert (L' : rank_of_layout n w l row col) by (repeat split; try assumption; lia).
  destruct (C89_dy radius n w l row col t a0 R0 L' T) as (g & d & E & E' & Q). rewrite (S row Hc) in E'. assert (d = dy row) as -> by congruence.
  destruct (Q a b B A) as (th & AB & -> & _); [apply (K row g Hc E); lia|apply (K row g Hc E); lia|]. f_equal. fold J in AB.
  rewrite (between_unique _ _ _ (vangle (corner n t J (row * Z.of_nat w + b)) (corner n t J (row * Z.of_nat w + b + 1))) (corner_nonzero _ _ _ _ N T) (corner_nonzero _ _ _ _ N T) AB)
    by (apply vangle_between; now apply corner_nonzero).
  rewrite corner_angle, col_angle by assumption. assert (CC : coord n (row * Z.of_nat w + b) < coord n (row * Z.of_nat w + b + 1)) by (apply coord_mono; try exact N; nia).
  apply row_angle. lra.
Qed.
Print Assumptions C89_column.

(** ** C89: along the edges of a tile all lengths are the same, so that they agree with those of the tile on the other side *)
Lemma along_edge n I : (0 < n)%nat -> (0 <= I <= Z.of_nat n)%Z -> forall y, y * y = 1 -> along (coord n I) y = asin (/ sqrt 3) * (2 * IZR I / INR n - 1).
Proof.
  intros N HI y Y. unfold along. rewrite Y. replace (1 + 1) with 2 by ring. unfold coord, stretch.
  assert (S2 : 0 < sqrt 2) by (apply sqrt_lt_R0; lra). assert (NR : 0 < INR n) by (apply lt_0_INR; exact N).
  replace (sqrt 2 * tan (asin (/ sqrt 3) * (IZR (2 * I - Z.of_nat n) / INR n)) / sqrt 2) with (tan (asin (/ sqrt 3) * (IZR (2 * I - Z.of_nat n) / INR n))) by (field; lra).
  replace (IZR (2 * I - Z.of_nat n) / INR n) with (2 * IZR I / INR n - 1).
  - pose proof alpha_bound as AB. pose proof alpha_size as AS. change alpha with (asin (/ sqrt 3)) in AB, AS. set (al := asin (/ sqrt 3)) in *.
    assert (B : -1 <= 2 * IZR I / INR n - 1 <= 1).
    { destruct HI as [H0 H1]. apply IZR_le in H0, H1. rewrite <- INR_IZR_INZ in H1.
      assert (0 <= IZR I / INR n <= 1); [|lra]. split; [apply Rmult_le_pos; [lra|apply Rlt_le, Rinv_0_lt_compat; lra]|].
      apply (Rmult_le_reg_r (INR n)); [lra|]. unfold Rdiv. rewrite Rmult_assoc, Rinv_l by lra. lra. }
    apply atan_tan. assert (- al <= al * (2 * IZR I / INR n - 1) <= al) by (split; nra). lra.
  - rewrite minus_IZR, mult_IZR, <- INR_IZR_INZ. field. lra.
Qed.
Theorem C89_edge n t I J : (0 < n)%nat -> (0 <= t <= 5)%Z -> (0 <= I < Z.of_nat n)%Z -> J = 0%Z \/ J = Z.of_nat n ->
  angle_between (corner n t I J) (corner n t (I + 1) J) (2 * asin (/ sqrt 3) / INR n) /\
  angle_between (corner n t J I) (corner n t J (I + 1)) (2 * asin (/ sqrt 3) / INR n).
Proof.
  intros N T HI HJ.
  assert (Y : coord n J * coord n J = 1) by (destruct HJ as [-> | ->]; [rewrite coord_0 by exact N|rewrite coord_n by exact N]; ring).
  assert (C : coord n I < coord n (I + 1)) by (apply coord_mono; try exact N; lia).
  assert (E : along (coord n (I + 1)) (coord n J) - along (coord n I) (coord n J) = 2 * asin (/ sqrt 3) / INR n).
  { rewrite !along_edge by (assumption || lia). rewrite plus_IZR. assert (0 < INR n) by (apply lt_0_INR; exact N). field. lra. }
  rewrite <- E. split.
  - rewrite <- row_angle by lra. rewrite <- (corner_angle n t) by assumption. apply vangle_between; now apply corner_nonzero.
  - rewrite <- row_angle by lra. rewrite <- col_angle. rewrite <- (corner_angle n t) by assumption. apply vangle_between; now apply corner_nonzero.
Qed.
Print Assumptions C89_edge.

(** ** C89: the same side in two layouts *)
Theorem C89_layout radius n w l row col w' l' row' col' t a0 a0' a b a' b' : 10 ^ 6 <= radius ->
  rank_of_layout n w l row col -> rank_of_layout n w' l' row' col' -> (0 <= t <= 5)%Z ->
  (col * Z.of_nat w + a = col' * Z.of_nat w' + a')%Z -> (row * Z.of_nat w + b = row' * Z.of_nat w' + b')%Z ->
  (forall dx dx', rank_dx radius n w l row col t a0 = Some dx -> rank_dx radius n w' l' row' col' t a0' = Some dx' ->
     (0 <= a < Z.of_nat w)%Z -> (0 <= b <= Z.of_nat w)%Z -> (0 <= a' < Z.of_nat w')%Z -> (0 <= b' <= Z.of_nat w')%Z ->
     dx (3 + a)%Z (3 + b)%Z = dx' (3 + a')%Z (3 + b')%Z) /\
  (forall dy dy', rank_dy radius n w l row col t a0 = Some dy -> rank_dy radius n w' l' row' col' t a0' = Some dy' ->
     (0 <= a <= Z.of_nat w)%Z -> (0 <= b < Z.of_nat w)%Z -> (0 <= a' <= Z.of_nat w')%Z -> (0 <= b' < Z.of_nat w')%Z ->
     dy (3 + a)%Z (3 + b)%Z = dy' (3 + a')%Z (3 + b')%Z).
Proof.
  intros R0 L L' T EI EJ. pose proof (layout_pos _ _ _ _ _ L) as N.
  destruct (corners radius n w l row col t a0 R0 L T) as (g & _ & E & P). destruct (corners radius n w' l' row' col' t a0' R0 L' T) as (g' & _ & E' & P').
  assert (U : forall c d, (0 <= a + c <= Z.of_nat w)%Z -> (0 <= b + d <= Z.of_nat w)%Z -> (0 <= a' + c <= Z.of_nat w')%Z -> (0 <= b' + d <= Z.of_nat w')%Z ->
            g (3 + (a + c))%Z (3 + (b + d))%Z = g' (3 + (a' + c))%Z (3 + (b' + d))%Z).
  { intros c d H1 H2 H3 H4. pose proof (P (a + c)%Z (b + d)%Z H1 H2) as U. pose proof (P' (a' + c)%Z (b' + d)%Z H3 H4) as U'.
    replace (col' * Z.of_nat w' + (a' + c))%Z with (col * Z.of_nat w + (a + c))%Z in U' by lia.
    replace (row' * Z.of_nat w' + (b' + d))%Z with (row * Z.of_nat w + (b + d))%Z in U' by lia.
    eapply lon_lat_unique; [|exact U|exact U']. now apply corner_nonzero. }
  assert (X0 : forall x, (3 + x - 3 + 3 = 3 + (x + 0))%Z) by (intro; ring). assert (X1 : forall x, (3 + x - 3 + 1 + 3 = 3 + (x + 1))%Z) by (intro; ring).
  split; intros d d' S S' A B A' B'.
  - unfold rank_dx in S, S'. rewrite E in S. rewrite E' in S'.
    assert (d = on_corners (compute_dx radius (Z.of_nat w)) (fun i j => shift_lon (g i j))) as -> by congruence.
    assert (d' = on_corners (compute_dx radius (Z.of_nat w')) (fun i j => shift_lon (g' i j))) as -> by congruence. clear S S'.
    unfold on_corners, compute_dx.
    destruct (Z.leb_spec 3 (3 + a)); [|lia]. destruct (Z.ltb_spec (3 + a) (3 + Z.of_nat w)); [|lia].
    destruct (Z.leb_spec 3 (3 + b)); [|lia]. destruct (Z.ltb_spec (3 + b) (3 + Z.of_nat w + 1)); [|lia].
    destruct (Z.leb_spec 3 (3 + a')); [|lia]. destruct (Z.ltb_spec (3 + a') (3 + Z.of_nat w')); [|lia].
    destruct (Z.leb_spec 3 (3 + b')); [|lia]. destruct (Z.ltb_spec (3 + b') (3 + Z.of_nat w' + 1)); [|lia]. cbn [andb].
    unfold distance_along_axis, from3. cbv zeta beta iota. rewrite !X0, !X1. now rewrite !U by lia.
  - unfold rank_dy in S, S'. rewrite E in S. rewrite E' in S'.
    assert (d = on_corners (compute_dy radius (Z.of_nat w)) (fun i j => shift_lon (g i j))) as -> by congruence.
    assert (d' = on_corners (compute_dy radius (Z.of_nat w')) (fun i j => shift_lon (g' i j))) as -> by congruence. clear S S'.
    unfold on_corners, compute_dy.
    destruct (Z.leb_spec 3 (3 + a)); [|lia]. destruct (Z.ltb_spec (3 + a) (3 + Z.of_nat w + 1)); [|lia].
    destruct (Z.leb_spec 3 (3 + b)); [|lia]. destruct (Z.ltb_spec (3 + b) (3 + Z.of_nat w)); [|lia].
    destruct (Z.leb_spec 3 (3 + a')); [|lia]. destruct (Z.ltb_spec (3 + a') (3 + Z.of_nat w' + 1)); [|lia].
    destruct (Z.leb_spec 3 (3 + b')); [|lia]. destruct (Z.ltb_spec (3 + b') (3 + Z.of_nat w')); [|lia]. cbn [andb].
    unfold distance_along_axis, from3. cbv zeta beta iota. rewrite !X0, !X1. now rewrite !U by lia.
Qed.
Print Assumptions C89_layout.

Example C89_case : rank_of_layout 2 1 2 0 0 /\
  forall a0 t row col g, (0 <= t <= 5)%Z -> (0 <= row < 2)%Z -> (0 <= col < 2)%Z -> init_dgrid (6371200) 2 1 2 2 row col 3 t a0 = Some g ->
    forall i j, (0 <= i <= 1)%Z -> (0 <= j <= 1)%Z -> kept (g (3 + i) (3 + j))%Z.
Proof. destruct C88_case as (A & B & _). split; assumption. Qed.
