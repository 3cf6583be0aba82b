(** Property C88: areas of the cells (exact arithmetic) *)
Require Import Reals Lra Lia ZArith Bool Arith Psatz.
From Coquelicot Require Import Coquelicot.
From Verif Require Import Base SphereModel SphereProofs SphereProps SphereProps2 GnomModel GnomProofs MirrorModel TilesModel TilesProofs TilesProps AreaModel AreaProofs.
Open Scope R_scope.

(** ** Specification *)
(** The sphere of radius 1 around the origin, seen from which the point (x, y) of a face of the cube (the plane at distance 1) is the point
    [on_sphere x y]; the surface element of this map is the length of the cross product of its partial derivatives. *)
Definition on_sphere (x y : R) : R * R * R := let s := sqrt (1 + x ^ 2 + y ^ 2) in (x / s, y / s, 1 / s).
Definition has_partials (x y : R) (dx dy : R * R * R) : Prop :=
  (is_derive (fun x => fst (fst (on_sphere x y))) x (fst (fst dx)) /\ is_derive (fun x => snd (fst (on_sphere x y))) x (snd (fst dx)) /\
   is_derive (fun x => snd (on_sphere x y)) x (snd dx)) /\
  (is_derive (fun y => fst (fst (on_sphere x y))) y (fst (fst dy)) /\ is_derive (fun y => snd (fst (on_sphere x y))) y (snd (fst dy)) /\
   is_derive (fun y => snd (on_sphere x y)) y (snd dy)).
Definition cross_length (u v : R * R * R) : R :=
  let '(a, b, c) := u in let '(d, e, f) := v in sqrt ((b * f - c * e) ^ 2 + (c * d - a * f) ^ 2 + (a * e - b * d) ^ 2).
Definition surface_element (x y : R) : R := / sqrt (1 + x ^ 2 + y ^ 2) ^ 3.
(** area of the part of the sphere of radius [radius] behind the rectangle [x, x'] x [y, y'] of the face *)
Definition surface (x x' y y' radius : R) : R := radius ^ 2 * RInt (fun x => RInt (fun y => surface_element x y) y y') x x'.

(** coordinate on the face of corner number [I] of [n] (the corners are at equal angles along the edges of the face) *)
Definition coord (n : nat) (I : Z) : R := stretch n (2 * I - Z.of_nat n).

(** the values of this corner are not so small that the code replaces them by 0 *)
Definition kept (p : R * R) : Prop :=
  snd (shift_lon p) = snd p /\ (fst (shift_lon p) = fst p - PI / 18 \/ fst (shift_lon p) = fst p - PI / 18 + 2 * PI).

(** f 0 + ... + f (m - 1) *)
Fixpoint total (m : nat) (f : Z -> R) : R := match m with O => 0 | S k => total k f + f (Z.of_nat k) end.

(** ** Lemmas *)
Theorem C88_surface_element x y : exists dx dy, has_partials x y dx dy /\ cross_length dx dy = surface_element x y.
Proof.
  set (s := sqrt (1 + x ^ 2 + y ^ 2)). assert (P : 0 < 1 + x ^ 2 + y ^ 2) by (pose proof (pow2_ge_0 x); pose proof (pow2_ge_0 y); lra).
  pose proof (sqrt_lt_R0 _ P) as S. pose proof (sqrt_sqrt _ (Rlt_le _ _ P)) as Q. fold s in S, Q.
  exists ((1 + y ^ 2) / s ^ 3, - x * y / s ^ 3, - x / s ^ 3), (- x * y / s ^ 3, (1 + x ^ 2) / s ^ 3, - y / s ^ 3). split.
  - unfold has_partials, on_sphere. cbv beta zeta. cbn [fst snd].
    assert (E1 : (1 + y ^ 2) = s * s - x * x) by (rewrite Q; ring). assert (E2 : (1 + x ^ 2) = s * s - y * y) by (rewrite Q; ring).
    split; (split; [|split]); (auto_derive; [change (x * (x * 1)) with (x ^ 2); change (y * (y * 1)) with (y ^ 2); fold s; repeat split; (exact P || lra)|];
      change (x * (x * 1)) with (x ^ 2); change (y * (y * 1)) with (y ^ 2); fold s; rewrite ?E1, ?E2; field; lra).
  - unfold cross_length, surface_element. fold s.
    replace ((- x * y / s ^ 3 * (- y / s ^ 3) - - x / s ^ 3 * ((1 + x ^ 2) / s ^ 3)) ^ 2 +
             (- x / s ^ 3 * (- x * y / s ^ 3) - (1 + y ^ 2) / s ^ 3 * (- y / s ^ 3)) ^ 2 +
             ((1 + y ^ 2) / s ^ 3 * ((1 + x ^ 2) / s ^ 3) - - x * y / s ^ 3 * (- x * y / s ^ 3)) ^ 2)
      with ((1 + x ^ 2 + y ^ 2) ^ 3 / (s ^ 6 * s ^ 6)) by (field; lra).
    rewrite <- Q. replace ((s * s) ^ 3 / (s ^ 6 * s ^ 6)) with (/ s ^ 3 * / s ^ 3) by (field; lra).
    apply sqrt_square. apply Rlt_le, Rinv_0_lt_compat, pow_lt, S.
Qed.
Print Assumptions C88_surface_element.

Lemma element_root x y : surface_element x y = / (root x y * root x y * root x y).
Proof. unfold surface_element, root. f_equal. replace (1 + x ^ 2 + y ^ 2) with (1 + x * x + y * y) by ring. ring. Qed.
Lemma surface_closed x x' y y' r : surface x x' y y' r = r ^ 2 * (G x y + G x' y' - G x y' - G x' y).
Proof.
  unfold surface. f_equal. rewrite <- (is_RInt_unique _ _ _ _ (outer_integral x x' y y')).
  apply RInt_ext. intros z _. apply RInt_ext. intros u _. apply element_root.
Qed.

(** ** C72: the rectangle formula is the surface integral for every rectangle of a plane that touches the sphere (in any position [e1], [e2], [e3]) *)
Theorem C72_rectangle_surface e1 e2 e3 x x' y y' radius :
  dot e1 e1 = 1 -> dot e2 e2 = 1 -> dot e3 e3 = 1 -> dot e1 e2 = 0 -> dot e1 e3 = 0 -> dot e2 e3 = 0 -> x < x' -> y < y' ->
  let point x y := vadd (vadd (vscale x e1) (vscale y e2)) e3 in
  rectangle_area (point x y) (point x y') (point x' y') (point x' y) radius = surface x x' y y' radius.
Proof.
  intros N1 N2 N3 O12 O13 O23 X Y point.
  assert (D : forall a b c d, dot (point a b) (point c d) = dot (F a b) (F c d)).
  { intros a b c d. unfold point, F. rewrite !dot_add_l, !dot_add_r, !dot_scale_l, !dot_scale_r. rewrite (dot_comm e2 e1), (dot_comm e3 e1), (dot_comm e3 e2).
    rewrite N1, N2, N3, O12, O13, O23. cbn [dot]. ring. }
  rewrite (rect_dots _ _ _ _ (F x y) (F x y') (F x' y') (F x' y)) by apply D.
  rewrite rect_closed, surface_closed by assumption. ring.
Qed.
Print Assumptions C72_rectangle_surface.
Example C72_rectangle_surface_case : dot (0, 1, 0) (0, 1, 0) = 1 /\ dot (0, 0, 1) (0, 0, 1) = 1 /\ dot (1, 0, 0) (1, 0, 0) = 1 /\
  dot (0, 1, 0) (0, 0, 1) = 0 /\ dot (0, 1, 0) (1, 0, 0) = 0 /\ dot (0, 0, 1) (1, 0, 0) = 0 /\ - 1 < 1.
Proof. cbn [dot]. repeat split; lra. Qed.

Lemma kept_dots p q : kept p -> kept q ->
  dot (lon_lat_to_xyz (fst (shift_lon p)) (snd (shift_lon p))) (lon_lat_to_xyz (fst (shift_lon q)) (snd (shift_lon q))) =
  dot (lon_lat_to_xyz (fst p) (snd p)) (lon_lat_to_xyz (fst q) (snd q)).
Proof.
  intros (P1 & P2) (Q1 & Q2). rewrite P1, Q1, !xyz_eq. cbn [dot].
  assert (CP : cos (fst (shift_lon p)) = cos (fst p - PI / 18) /\ sin (fst (shift_lon p)) = sin (fst p - PI / 18)).
  { destruct P2 as [-> | ->]; [split; reflexivity|]. rewrite cos_2PI_period, sin_2PI_period || (replace (2 * PI) with (2 * INR 1 * PI) by (cbn; ring); rewrite cos_period, sin_period). split; reflexivity. }
  assert (CQ : cos (fst (shift_lon q)) = cos (fst q - PI / 18) /\ sin (fst (shift_lon q)) = sin (fst q - PI / 18)).
  { destruct Q2 as [-> | ->]; [split; reflexivity|]. rewrite cos_2PI_period, sin_2PI_period || (replace (2 * PI) with (2 * INR 1 * PI) by (cbn; ring); rewrite cos_period, sin_period). split; reflexivity. }
  destruct CP as [-> ->], CQ as [-> ->]. rewrite !cos_minus, !sin_minus. pose proof (sin2_cos2 (PI / 18)) as T. unfold Rsqr in T.
  set (c := cos (PI / 18)) in *. set (s := sin (PI / 18)) in *.
  transitivity (cos (snd p) * cos (snd q) * ((cos (fst p) * cos (fst q) + sin (fst p) * sin (fst q)) * (s * s + c * c)) + sin (snd p) * sin (snd q)); [ring|].
  rewrite T. ring.
Qed.
Lemma seen_scale p v : lon_lat_of p v -> exists k, 0 < k /\ v = vscale k (lon_lat_to_xyz (fst p) (snd p)).
Proof. intros ((k & K & E) & _). exists k. split; [exact K|]. rewrite xyz_eq, E. cbn. reflexivity. Qed.
Lemma face_dots n t I J I' J' : (0 < n)%nat -> (0 <= t <= 5)%Z ->
  dot (stretched n (cube_corner n t I J)) (stretched n (cube_corner n t I' J')) = dot (F (coord n I) (coord n J)) (F (coord n I') (coord n J')).
Proof.
  intros N T. rewrite !face_cube by assumption. unfold coord. rewrite !stretch_fc by exact N.
  assert (TT : t = 0%Z \/ t = 1%Z \/ t = 2%Z \/ t = 3%Z \/ t = 4%Z \/ t = 5%Z) by lia.
  destruct TT as [-> | [-> | [-> | [-> | [-> | ->]]]]]; cbn [face_xyz F dot]; ring.
Qed.
Lemma coord_mono n I J : (0 < n)%nat -> (0 <= I)%Z -> (I < J)%Z -> (J <= Z.of_nat n)%Z -> coord n I < coord n J.
Proof. intros. unfold coord. rewrite !stretch_fc by assumption. now apply fc_mono. Qed.
Lemma coord_0 n : (0 < n)%nat -> coord n 0 = - (1).
Proof. intro N. unfold coord. rewrite stretch_fc by exact N. rewrite fc_0. reflexivity. Qed.
Lemma coord_n n : (0 < n)%nat -> coord n (Z.of_nat n) = 1.
Proof. intro N. unfold coord. rewrite stretch_fc by exact N. now apply fc_n. Qed.

Lemma layout_pos n w l row col : rank_of_layout n w l row col -> (0 < n)%nat.
Proof. intros (W & E & A & B & _). nia. Qed.

(** the corners of a rank before the shift *)
Lemma corners radius n w l row col t a0 : 10 ^ 6 <= radius -> rank_of_layout n w l row col -> (0 <= t <= 5)%Z ->
  exists g, init_dgrid radius n w l l row col 3 t a0 = Some g /\ rank_corners radius n w l row col t a0 = Some (fun i j => shift_lon (g i j)) /\
  forall a b, (0 <= a <= Z.of_nat w)%Z -> (0 <= b <= Z.of_nat w)%Z ->
    lon_lat_of (g (3 + a) (3 + b))%Z (stretched n (cube_corner n t (col * Z.of_nat w + a) (row * Z.of_nat w + b))).
Proof.
  intros R0 L T. destruct (C79_points radius n w l row col 3 t a0 R0 L T) as (g & E & P). exists g. split; [exact E|].
  split; [unfold rank_corners; now rewrite E|exact P].
Qed.

(** ** C88: every cell *)
Theorem C88_cell radius n w l row col t a0 : 10 ^ 6 <= radius -> rank_of_layout n w l row col -> (0 <= t <= 5)%Z ->
  exists g area, init_dgrid radius n w l l row col 3 t a0 = Some g /\ rank_area radius n w l row col t a0 = Some area /\
  forall a b, (0 <= a < Z.of_nat w)%Z -> (0 <= b < Z.of_nat w)%Z ->
    (forall i j, (a <= i <= a + 1)%Z -> (b <= j <= b + 1)%Z -> kept (g (3 + i) (3 + j))%Z) ->
    let I := (col * Z.of_nat w + a)%Z in let J := (row * Z.of_nat w + b)%Z in
    area (3 + a)%Z (3 + b)%Z = surface (coord n I) (coord n (I + 1)) (coord n J) (coord n (J + 1)) radius /\ 0 < area (3 + a)%Z (3 + b)%Z.
Proof.
  intros R0 L T. destruct (corners radius n w l row col t a0 R0 L T) as (g & E & E' & P). pose proof (layout_pos _ _ _ _ _ L) as N.
  exists g. unfold rank_area. rewrite E'. eexists. split; [exact E|]. split; [reflexivity|].
  intros a b A B K. set (I := (col * Z.of_nat w + a)%Z). set (J := (row * Z.of_nat w + b)%Z). unfold on_corners, compute_area.
  destruct (Z.leb_spec 3 (3 + a)); [|lia]. destruct (Z.ltb_spec (3 + a) (Z.of_nat w + 7 - 4)); [|lia].
  destruct (Z.leb_spec 3 (3 + b)); [|lia]. destruct (Z.ltb_spec (3 + b) (Z.of_nat w + 7 - 4)); [|lia]. cbn [andb].
  unfold get_area, from3. cbv zeta beta.
  replace (3 + a - 3)%Z with a by ring. replace (3 + b - 3)%Z with b by ring.
  replace (a + 3)%Z with (3 + a)%Z by ring. replace (b + 3)%Z with (3 + b)%Z by ring.
  replace (a + 1 + 3)%Z with (3 + (a + 1))%Z by ring. replace (b + 1 + 3)%Z with (3 + (b + 1))%Z by ring.
  assert (I1 : (col * Z.of_nat w + (a + 1) = I + 1)%Z) by (unfold I; ring). assert (J1 : (row * Z.of_nat w + (b + 1) = J + 1)%Z) by (unfold J; ring).
  destruct (seen_scale _ _ (P a b ltac:(lia) ltac:(lia))) as (k1 & K1 & V1). destruct (seen_scale _ _ (P a (b + 1)%Z ltac:(lia) ltac:(lia))) as (k2 & K2 & V2).
  destruct (seen_scale _ _ (P (a + 1)%Z (b + 1)%Z ltac:(lia) ltac:(lia))) as (k3 & K3 & V3). destruct (seen_scale _ _ (P (a + 1)%Z b ltac:(lia) ltac:(lia))) as (k4 & K4 & V4).
  rewrite I1 in V3, V4. rewrite J1 in V2, V3. fold I in V1, V2. fold J in V1, V4.
  pose proof (K a b ltac:(lia) ltac:(lia)) as KP1. pose proof (K a (b + 1)%Z ltac:(lia) ltac:(lia)) as KP2.
  pose proof (K (a + 1)%Z (b + 1)%Z ltac:(lia) ltac:(lia)) as KP3. pose proof (K (a + 1)%Z b ltac:(lia) ltac:(lia)) as KP4.
  set (p1 := g (3 + a)%Z (3 + b)%Z) in *. set (p2 := g (3 + a)%Z (3 + (b + 1))%Z) in *. set (p3 := g (3 + (a + 1))%Z (3 + (b + 1))%Z) in *. set (p4 := g (3 + (a + 1))%Z (3 + b)%Z) in *.
  assert (Q : rectangle_area (lon_lat_to_xyz (fst (shift_lon p1)) (snd (shift_lon p1))) (lon_lat_to_xyz (fst (shift_lon p2)) (snd (shift_lon p2)))
                (lon_lat_to_xyz (fst (shift_lon p3)) (snd (shift_lon p3))) (lon_lat_to_xyz (fst (shift_lon p4)) (snd (shift_lon p4))) radius =
              (G (coord n I) (coord n J) + G (coord n (I + 1)) (coord n (J + 1)) - G (coord n I) (coord n (J + 1)) - G (coord n (I + 1)) (coord n J)) * radius ^ 2).
  { rewrite (rect_dots _ _ _ _ (lon_lat_to_xyz (fst p1) (snd p1)) (lon_lat_to_xyz (fst p2) (snd p2)) (lon_lat_to_xyz (fst p3) (snd p3)) (lon_lat_to_xyz (fst p4) (snd p4)))
      by (now apply kept_dots).
    rewrite <- (rect_scale k1 k2 k3 k4) by assumption. rewrite <- V1, <- V2, <- V3, <- V4.
    rewrite (rect_dots _ _ _ _ (F (coord n I) (coord n J)) (F (coord n I) (coord n (J + 1))) (F (coord n (I + 1)) (coord n (J + 1))) (F (coord n (I + 1)) (coord n J)))
      by (now apply face_dots).
    destruct L as (W & NW & Hr & Hc & _).
    apply rect_closed; apply coord_mono; try exact N; unfold I, J; nia. }
  rewrite Q, surface_closed. split; [ring|]. apply Rmult_lt_0_compat; [|apply pow_lt; lra].
  destruct L as (W & NW & Hr & Hc & _). apply rect_positive; apply coord_mono; try exact N; unfold I, J; nia.
Qed.
Print Assumptions C88_cell.

(** ** C88: the same cell in two layouts *)
Theorem C88_layout radius n w l row col w' l' row' col' t a0 a0' area area' a b a' b' : 10 ^ 6 <= radius ->
  rank_of_layout n w l row col -> rank_of_layout n w' l' row' col' -> (0 <= t <= 5)%Z ->
  rank_area radius n w l row col t a0 = Some area -> rank_area radius n w' l' row' col' t a0' = Some area' ->
  (0 <= a < Z.of_nat w)%Z -> (0 <= b < Z.of_nat w)%Z -> (0 <= a' < Z.of_nat w')%Z -> (0 <= b' < Z.of_nat w')%Z ->
  (col * Z.of_nat w + a = col' * Z.of_nat w' + a')%Z -> (row * Z.of_nat w + b = row' * Z.of_nat w' + b')%Z ->
  area (3 + a)%Z (3 + b)%Z = area' (3 + a')%Z (3 + b')%Z.
Proof.
  intros R0 L L' T S S' A B A' B' EI EJ. pose proof (layout_pos _ _ _ _ _ L) as N.
  destruct (corners radius n w l row col t a0 R0 L T) as (g & _ & E & P). destruct (corners radius n w' l' row' col' t a0' R0 L' T) as (g' & _ & E' & P').
  unfold rank_area in S, S'. rewrite E in S. rewrite E' in S'.
  assert (area = on_corners (compute_area radius (Z.of_nat w)) (fun i j => shift_lon (g i j))) as -> by congruence.
  assert (area' = on_corners (compute_area radius (Z.of_nat w')) (fun i j => shift_lon (g' i j))) as -> by congruence. clear S S'.
  assert (U : forall c d, (0 <= c <= 1)%Z -> (0 <= d <= 1)%Z -> g (3 + (a + c))%Z (3 + (b + d))%Z = g' (3 + (a' + c))%Z (3 + (b' + d))%Z).
  { intros c d Hc Hd. pose proof (P (a + c)%Z (b + d)%Z ltac:(lia) ltac:(lia)) as U. pose proof (P' (a' + c)%Z (b' + d)%Z ltac:(lia) ltac:(lia)) as U'.
    replace (col' * Z.of_nat w' + (a' + c))%Z with (col * Z.of_nat w + (a + c))%Z in U' by lia.
    replace (row' * Z.of_nat w' + (b' + d))%Z with (row * Z.of_nat w + (b + d))%Z in U' by lia.
    eapply lon_lat_unique; [|exact U|exact U']. now apply corner_nonzero. }
  unfold on_corners, compute_area.
  destruct (Z.leb_spec 3 (3 + a)); [|lia]. destruct (Z.ltb_spec (3 + a) (Z.of_nat w + 7 - 4)); [|lia].
  destruct (Z.leb_spec 3 (3 + b)); [|lia]. destruct (Z.ltb_spec (3 + b) (Z.of_nat w + 7 - 4)); [|lia].
  destruct (Z.leb_spec 3 (3 + a')); [|lia]. destruct (Z.ltb_spec (3 + a') (Z.of_nat w' + 7 - 4)); [|lia].
  destruct (Z.leb_spec 3 (3 + b')); [|lia]. destruct (Z.ltb_spec (3 + b') (Z.of_nat w' + 7 - 4)); [|lia]. cbn [andb].
  unfold get_area, from3. cbv zeta beta.
  assert (X0 : forall x, (3 + x - 3 + 3 = 3 + (x + 0))%Z) by (intro; ring). assert (X1 : forall x, (3 + x - 3 + 1 + 3 = 3 + (x + 1))%Z) by (intro; ring).
  rewrite !X0, !X1. now rewrite !U by lia.
Qed.
Print Assumptions C88_layout.

(** ** C88: the whole sphere *)
Lemma total_ext m f g : (forall k, (0 <= k < Z.of_nat m)%Z -> f k = g k) -> total m f = total m g.
Proof. induction m as [|m IH]; intro E; [reflexivity|]. cbn [total]. rewrite (E (Z.of_nat m)) by lia. rewrite IH; [reflexivity|]. intros k K. apply E. lia. Qed.
Lemma total_tele m (f : Z -> R) : total m (fun k => f (k + 1)%Z - f k) = f (Z.of_nat m) - f 0%Z.
Proof.
  induction m as [|m IH]; [cbn; ring|]. cbn [total]. rewrite IH. replace (Z.of_nat (S m)) with (Z.of_nat m + 1)%Z by lia. ring.
Qed.
Lemma total_scale m c f : total m (fun k => c * f k) = c * total m f.
Proof. induction m as [|m IH]; [cbn; ring|]. cbn [total]. rewrite IH. ring. Qed.
Definition block (H : Z -> Z -> R) (I J s : Z) : R := H I J + H (I + s)%Z (J + s)%Z - H I (J + s)%Z - H (I + s)%Z J.
Lemma total_blocks H m I J s :
  total m (fun a => total m (fun b => block H (I + a * s) (J + b * s) s)) = block H I J (Z.of_nat m * s).
Proof.
  set (f := fun c => H (I + c * s)%Z (J + Z.of_nat m * s)%Z - H (I + c * s)%Z J).
  rewrite (total_ext m _ (fun a => f (a + 1)%Z - f a)).
  - rewrite total_tele. unfold block, f. replace (I + 0 * s)%Z with I by ring. ring.
  - intros a _. set (h := fun d => H (I + (a + 1) * s)%Z (J + d * s)%Z - H (I + a * s)%Z (J + d * s)%Z).
    rewrite (total_ext m _ (fun b => h (b + 1)%Z - h b)).
    + rewrite total_tele. unfold f, h. replace (J + 0 * s)%Z with J by ring. ring.
    + intros b _. unfold block, h. replace (I + a * s + s)%Z with (I + (a + 1) * s)%Z by ring. replace (J + b * s + s)%Z with (J + (b + 1) * s)%Z by ring. ring.
Qed.

Theorem C88_total radius n w l a0 (area : Z -> Z -> Z -> array) : 10 ^ 6 <= radius -> rank_of_layout n w l 0 0 ->
  (forall t row col, (0 <= t <= 5)%Z -> (0 <= row < l)%Z -> (0 <= col < l)%Z -> rank_area radius n w l row col t a0 = Some (area t row col)) ->
  (forall t row col g, (0 <= t <= 5)%Z -> (0 <= row < l)%Z -> (0 <= col < l)%Z -> init_dgrid radius n w l l row col 3 t a0 = Some g ->
     forall i j, (0 <= i <= Z.of_nat w)%Z -> (0 <= j <= Z.of_nat w)%Z -> kept (g (3 + i) (3 + j))%Z) ->
  total 6 (fun t => total (Z.to_nat l) (fun col => total (Z.to_nat l) (fun row =>
    total w (fun a => total w (fun b => area t row col (3 + a)%Z (3 + b)%Z))))) = 4 * PI * radius ^ 2.
Proof.
  intros R0 L S K. pose proof (layout_pos _ _ _ _ _ L) as N. set (H := fun I J => radius ^ 2 * G (coord n I) (coord n J)).
  assert (L' : forall row col, (0 <= row < l)%Z -> (0 <= col < l)%Z -> rank_of_layout n w l row col) by (intros; destruct L as (? & ? & ? & ? & ?); repeat split; tauto).
  rewrite (total_ext 6 _ (fun _ => block H 0 0 (Z.of_nat n))).
  - cbn [total]. unfold block. rewrite Z.add_0_l. unfold H. rewrite coord_0, coord_n by exact N.
    rewrite (G_sym 1 (- (1))), !G_opp_l, (G_sym 1 (- (1))), G_opp_l, G_one. field.
  - intros t T. destruct L as (W & NW & _ & Hl & _).
    replace (Z.of_nat n) with (Z.of_nat (Z.to_nat l) * Z.of_nat w)%Z by (rewrite Z2Nat.id by lia; lia).
    rewrite <- total_blocks. apply total_ext. intros col Hc. apply total_ext. intros row Hr. rewrite Z2Nat.id in Hc, Hr by lia.
    rewrite !Z.add_0_l.
    transitivity (block H (col * Z.of_nat w) (row * Z.of_nat w) (Z.of_nat w * 1)); [|now rewrite Z.mul_1_r].
    rewrite <- total_blocks. apply total_ext. intros a A. apply total_ext. intros b B.
    destruct (C88_cell radius n w l row col t a0 R0 (L' row col Hr Hc) ltac:(lia)) as (g & ar & E & E' & Q).
    rewrite (S t row col) in E' by lia. assert (ar = area t row col) as -> by congruence.
    destruct (Q a b A B) as [-> _].
    { intros i j Hi Hj. apply (K t row col g); try lia. exact E. }
    rewrite surface_closed. unfold block, H. rewrite !Z.mul_1_r. ring.
Qed.
Print Assumptions C88_total.

(** ** which corners are kept: all whose longitude is not too close to 10 degrees *)
Lemma abs_sin_le u : Rabs (sin u) <= Rabs u.
Proof.
  assert (P : forall u, 0 <= u -> sin u <= u).
  { intros v V. destruct (Req_dec v 0) as [-> | D]; [rewrite sin_0; lra|]. apply Rlt_le, sin_lt_x. lra. }
  assert (P' : forall u, 0 <= u -> - u <= sin u).
  { intros v V. destruct (Rle_dec v PI) as [L|L]; [pose proof (sin_ge_0 v V L); lra|]. pose proof (SIN_bound v) as [B _]. pose proof PI_RGT_0. pose proof PI2_1. lra. }
  destruct (Rle_dec 0 u) as [L|L].
  - rewrite (Rabs_pos_eq u) by exact L. apply Rabs_le. split; [now apply P'|now apply P].
  - rewrite <- (Rabs_Ropp u), <- (Rabs_Ropp (sin u)), <- sin_neg. rewrite (Rabs_pos_eq (- u)) by lra. apply Rabs_le. split; [apply P'; lra|apply P; lra].
Qed.
Theorem C88_kept n t I J p x y z : (0 < n)%nat -> INR n <= 10 ^ 9 -> (0 <= t <= 5)%Z -> (0 <= I <= Z.of_nat n)%Z -> (0 <= J <= Z.of_nat n)%Z ->
  stretched n (cube_corner n t I J) = (x, y, z) -> lon_lat_of p (x, y, z) ->
  (x = 0 /\ y = 0) \/ 2 / 10 ^ 10 <= Rabs (y * cos (PI / 18) - x * sin (PI / 18)) -> kept p.
Proof.
  intros N NB T HI HJ E LL C. destruct p as [lon lat]. destruct LL as ((k & K & V) & L1 & L2 & L3). cbn [fst snd] in *.
  assert (V1 : x = k * (cos lat * cos lon)) by exact (f_equal (fun v => fst (fst v)) V).
  assert (V2 : y = k * (cos lat * sin lon)) by exact (f_equal (fun v => snd (fst v)) V).
  assert (V3 : z = k * sin lat) by exact (f_equal snd V).
  pose proof (sin2_cos2 lat) as SL. pose proof (sin2_cos2 lon) as SN. unfold Rsqr in SL, SN.
  assert (ZZ : (z = 0 \/ / (4 * INR n) <= Rabs z) /\ x * x + y * y + z * z <= 3).
  { assert (NR : 1 <= INR n) by (replace 1 with (INR 1) by reflexivity; apply le_INR; lia).
    assert (G1 : / (4 * INR n) <= 1) by (rewrite <- Rinv_1; apply Rinv_le_contravar; lra).
    assert (FZ : forall k, (0 <= k <= Z.of_nat n)%Z -> (fc n k = 0 \/ / (4 * INR n) <= Rabs (fc n k))).
    { intros m M. destruct (Z.eq_dec (2 * m) (Z.of_nat n)) as [D|D]; [left; now apply fc_mid|right; now apply fc_lower]. }
    rewrite face_cube in E by assumption. pose proof (FZ I HI) as FI. pose proof (FZ J HJ) as FJ.
    pose proof (fc_range n I N HI) as RI. pose proof (fc_range n J N HJ) as RJ. set (u := fc n I) in *. set (v := fc n J) in *.
    assert (UU : u * u <= 1) by nra. assert (VV : v * v <= 1) by nra.
    assert (TT : t = 0%Z \/ t = 1%Z \/ t = 2%Z \/ t = 3%Z \/ t = 4%Z \/ t = 5%Z) by lia.
    assert (Z1 : forall a, a = v \/ a = - v \/ a = u \/ a = - u \/ a = 1 \/ a = - (1) -> a = 0 \/ / (4 * INR n) <= Rabs a).
    { intros a [-> | [-> | [-> | [-> | [-> | ->]]]]].
      - exact FJ.
      - rewrite Rabs_Ropp. destruct FJ as [-> | H]; [left; ring|right; exact H].
      - exact FI.
      - rewrite Rabs_Ropp. destruct FI as [-> | H]; [left; ring|right; exact H].
      - right. now rewrite Rabs_R1.
      - right. now rewrite Rabs_Ropp, Rabs_R1. }
    destruct TT as [-> | [-> | [-> | [-> | [-> | ->]]]]]; cbn [face_xyz] in E;
    pose proof (f_equal (fun v => fst (fst v)) E) as EX; pose proof (f_equal (fun v => snd (fst v)) E) as EY; pose proof (f_equal snd E) as EZ;
    cbn [fst snd] in EX, EY, EZ; rewrite <- EX, <- EY, <- EZ; (split; [|nra]); apply Z1; rewrite ?Ropp_involutive; auto 8. }
  destruct ZZ as (Z0 & ZL).
  assert (KK : k * k = x * x + y * y + z * z).
  { rewrite V1, V2, V3. transitivity (k * k * (cos lat * cos lat * (sin lon * sin lon + cos lon * cos lon) + sin lat * sin lat)).
    - rewrite SN, Rmult_1_r, (Rplus_comm (cos lat * cos lat)), SL. ring.
    - ring. }
  assert (K2 : k <= 2) by nra.
  assert (NR : 0 < INR n) by (apply lt_0_INR; exact N).
  split.
  - (* latitude *)
    unfold shift_lon, flush. cbn [snd]. destruct (Rlt_dec (Rabs lat) (1 / 10 ^ 10)) as [S|S]; [|reflexivity]. symmetry.
    destruct Z0 as [Z0 | Z0].
    + assert (SZ : sin lat = 0) by (rewrite Z0 in V3; symmetry in V3; apply Rmult_integral in V3; lra). rewrite <- (asin_sin lat), SZ by lra. apply asin_0.
    + exfalso. assert (B : Rabs z <= 2 * Rabs (sin lat)) by (rewrite V3, Rabs_mult, (Rabs_pos_eq k) by lra; pose proof (Rabs_pos (sin lat)); nra).
      pose proof (abs_sin_le lat). assert (Q : / (4 * 10 ^ 9) <= / (4 * INR n)) by (apply Rinv_le_contravar; lra). lra.
  - (* longitude *)
    unfold shift_lon. cbn [fst snd]. set (d := PI / 18) in *. pose proof PI_RGT_0 as PP. pose proof PI2_1 as P2.
    assert (F : forall u, (sin u = sin (lon - d) /\ (x = 0 /\ y = 0 -> 1 <= u)) -> flush u = u).
    { intros u (SU & SP). unfold flush. destruct (Rlt_dec (Rabs u) (1 / 10 ^ 10)) as [S|S]; [exfalso|reflexivity].
      destruct C as [C | C]; [specialize (SP C); rewrite Rabs_pos_eq in S by lra; lra|].
      assert (EQ : y * cos d - x * sin d = k * cos lat * sin u) by (rewrite SU, sin_minus, V1, V2; ring).
      rewrite EQ, Rabs_mult, Rabs_mult, (Rabs_pos_eq k) in C by lra. pose proof (abs_sin_le u). pose proof (Rabs_pos (sin u)) as Q0. pose proof (Rabs_pos (cos lat)) as Q1.
      assert (CB : Rabs (cos lat) <= 1) by (apply Rabs_le; apply COS_bound).
      assert (k * Rabs (cos lat) <= 2) by nra. assert (k * Rabs (cos lat) * Rabs (sin u) <= 2 * Rabs (sin u)) by (apply Rmult_le_compat_r; lra). lra. }
    destruct (Rlt_dec (lon - d) 0) as [S|S].
    + right. rewrite F; [reflexivity|]. split; [now rewrite sin_2PI_period || (replace (2 * PI) with (2 * INR 1 * PI) by (cbn; ring); rewrite sin_period)|].
      intros (X & Y). rewrite (L3 X Y). unfold d. lra.
    + left. rewrite F; [reflexivity|]. split; [reflexivity|]. intros (X & Y). rewrite (L3 X Y) in S. unfold d in S. lra.
Qed.
Print Assumptions C88_kept.

(** a C2 grid on four ranks per tile: every corner is kept *)
Lemma ten_degrees : 1 / 6 <= sin (PI / 18) <= 1 / 4 /\ 3 / 4 <= cos (PI / 18) <= 1.
Proof.
  pose proof PI_RGT_0 as P. pose proof PI_4 as P4. set (d := PI / 18). assert (D : 0 < d < 1 / 4) by (unfold d; lra). assert (D2 : d < PI / 2) by (unfold d; lra).
  assert (S0 : 0 < sin d) by (apply sin_gt_0; lra). pose proof (sin_lt_x d ltac:(lra)) as S1.
  assert (C0 : 0 < cos d) by (apply cos_gt_0; lra). pose proof (COS_bound d) as [_ C1]. pose proof (sin2_cos2 d) as Q. unfold Rsqr in Q.
  assert (T : 1 / 2 = 3 * sin d - 4 * (sin d * sin d * sin d)).
  { rewrite <- sin_PI6. replace (PI / 6) with (2 * d + d) by (unfold d; field). rewrite sin_plus, sin_2a, cos_2a.
    transitivity (sin d * (3 * (cos d * cos d) - sin d * sin d)); [ring|]. replace (cos d * cos d) with (1 - sin d * sin d) by lra. ring. }
  assert (0 < sin d * sin d * sin d) by (repeat apply Rmult_lt_0_compat; exact S0).
  repeat split; try lra. assert (sin d * sin d <= 1 / 16) by nra. nra.
Qed.
Example C88_case : rank_of_layout 2 1 2 0 0 /\
  (forall a0 t row col g, (0 <= t <= 5)%Z -> (0 <= row < 2)%Z -> (0 <= col < 2)%Z -> init_dgrid (6371200) 2 1 2 2 row col 3 t a0 = Some g ->
     forall i j, (0 <= i <= 1)%Z -> (0 <= j <= 1)%Z -> kept (g (3 + i) (3 + j))%Z) /\
  forall a0, exists area : Z -> Z -> Z -> array, (forall t row col, (0 <= t <= 5)%Z -> (0 <= row < 2)%Z -> (0 <= col < 2)%Z ->
     rank_area (6371200) 2 1 2 row col t a0 = Some (area t row col)).
Proof.
  assert (L : forall row col, (0 <= row < 2)%Z -> (0 <= col < 2)%Z -> rank_of_layout 2 1 2 row col).
  { intros. split; [lia|]. split; [reflexivity|]. split; [lia|]. split; [lia|]. cbn [INR]. lra. }
  split; [apply L; lia|]. split.
  - intros a0 t row col g T Hr Hc E i j Hi Hj.
    destruct (corners 6371200 2 1 2 row col t a0 ltac:(lra) (L row col Hr Hc) T) as (g' & E' & _ & P).
    assert (g' = g) as -> by congruence. specialize (P i j ltac:(lia) ltac:(lia)).
    destruct (stretched 2 (cube_corner 2 t (col * Z.of_nat 1 + i) (row * Z.of_nat 1 + j))) as [[x y] z] eqn:EQ.
    eapply (C88_kept 2 t); [lia|cbn [INR]; lra|exact T| | |exact EQ|exact P|]; try (cbn; lia).
    assert (V : forall k, (0 <= k <= 2)%Z -> fc 2 k = - (1) \/ fc 2 k = 0 \/ fc 2 k = 1).
    { intros k K. assert (k = 0 \/ k = 1 \/ k = 2)%Z as [-> | [-> | ->]] by lia.
      - left. exact (fc_0 2).
      - right; left. apply fc_mid; [lia|reflexivity].
      - right; right. exact (fc_n 2 ltac:(lia)). }
    rewrite face_cube in EQ by (assumption || lia). pose proof ten_degrees as (S & C).
    pose proof (V (col * Z.of_nat 1 + i)%Z ltac:(lia)) as VI. pose proof (V (row * Z.of_nat 1 + j)%Z ltac:(lia)) as VJ.
    set (u := fc 2 (col * Z.of_nat 1 + i)) in *. set (v := fc 2 (row * Z.of_nat 1 + j)) in *.
    assert (XY : (x = -1 \/ x = 0 \/ x = 1) /\ (y = -1 \/ y = 0 \/ y = 1)).
    { assert (TT : t = 0%Z \/ t = 1%Z \/ t = 2%Z \/ t = 3%Z \/ t = 4%Z \/ t = 5%Z) by lia.
      destruct TT as [-> | [-> | [-> | [-> | [-> | ->]]]]]; cbn [face_xyz] in EQ;
      pose proof (f_equal (fun v => fst (fst v)) EQ) as EX; pose proof (f_equal (fun v => snd (fst v)) EQ) as EY; cbn [fst snd] in EX, EY; rewrite <- EX, <- EY;
      destruct VI as [VI | [VI | VI]], VJ as [VJ | [VJ | VJ]]; rewrite ?VI, ?VJ; lra. }
    destruct XY as ([-> | [-> | ->]] & [-> | [-> | ->]]); [right|right|right|right|left; split; reflexivity|right|right|right|right];
      unfold Rabs; destruct (Rcase_abs _); lra.
  - intro a0. exists (fun t row col => match rank_area 6371200 2 1 2 row col t a0 with Some a => a | None => fun _ _ => 0 end).
    intros t row col T Hr Hc. destruct (corners 6371200 2 1 2 row col t a0 ltac:(lra) (L row col Hr Hc) T) as (g & _ & E & _).
    unfold rank_area. rewrite E. reflexivity.
Qed.
