(** Lemmas about SphereModel.v *)
Require Import Reals Lra Lia Psatz.
From Verif Require Import SphereModel.
Open Scope R_scope.

(** *** Vectors *)
Ltac vec3 := repeat match goal with v : vec |- _ => destruct v as [[? ?] ?] | v : (R * R * R)%type |- _ => destruct v as [[? ?] ?] end.
Lemma triple_eq (a b c x y z : R) : a = x -> b = y -> c = z -> (a, b, c) = (x, y, z).
Proof. now intros -> -> ->. Qed.
Ltac vsolve := intros; vec3; cbn [vadd vsub vscale dot cross]; try (apply triple_eq); try ring.

Lemma dot_comm p q : dot p q = dot q p. Proof. vsolve. Qed.
Lemma dot_scale_l k p q : dot (vscale k p) q = k * dot p q. Proof. vsolve. Qed.
Lemma dot_scale_r k p q : dot p (vscale k q) = k * dot p q. Proof. vsolve. Qed.
Lemma dot_add_l p q r : dot (vadd p q) r = dot p r + dot q r. Proof. vsolve. Qed.
Lemma dot_add_r p q r : dot r (vadd p q) = dot r p + dot r q. Proof. vsolve. Qed.
Lemma dot_sub_l p q r : dot (vsub p q) r = dot p r - dot q r. Proof. vsolve. Qed.
Lemma dot_sub_r p q r : dot r (vsub p q) = dot r p - dot r q. Proof. vsolve. Qed.
Lemma scale_scale k l p : vscale k (vscale l p) = vscale (k * l) p. Proof. vsolve. Qed.
Lemma scale_1 p : vscale 1 p = p. Proof. vsolve. Qed.
Lemma cross_scale_l k p q : cross (vscale k p) q = vscale k (cross p q). Proof. vsolve. Qed.
Lemma cross_scale_r k p q : cross p (vscale k q) = vscale k (cross p q). Proof. vsolve. Qed.
Lemma cross_anti p q : cross p q = vscale (-1) (cross q p). Proof. vsolve. Qed.
Lemma cross_dot_l p q : dot p (cross p q) = 0. Proof. vsolve. Qed.
Lemma cross_dot_r p q : dot q (cross p q) = 0. Proof. vsolve. Qed.
(** Lagrange *)
Lemma lagrange p q : dot (cross p q) (cross p q) = dot p p * dot q q - dot p q * dot p q. Proof. vsolve. Qed.
Lemma cross_dots c p q : dot (cross c p) (cross c q) = dot c c * dot p q - dot c p * dot c q. Proof. vsolve. Qed.
Lemma triple_cross m p q : cross m (cross p q) = vsub (vscale (dot m q) p) (vscale (dot m p) q). Proof. vsolve. Qed.

Lemma dot_pos p : 0 <= dot p p.
Proof. vec3. cbn. nra. Qed.
Lemma dot_zero p : dot p p = 0 -> p = (0, 0, 0).
Proof. vec3. cbn. intro E. f_equal; [f_equal|]; nra. Qed.
Lemma dot_nonzero p : p <> (0, 0, 0) -> 0 < dot p p.
Proof. intro N. destruct (dot_pos p) as [H | H]; [exact H|]. contradict N. apply dot_zero. now symmetry. Qed.
Lemma cauchy p q : dot p q * dot p q <= dot p p * dot q q.
Proof. pose proof (dot_pos (cross p q)) as H. rewrite lagrange in H. lra. Qed.
Lemma cauchy_sqrt p q : Rabs (dot p q) <= sqrt (dot p p * dot q q).
Proof.
  rewrite <- sqrt_Rsqr_abs. apply sqrt_le_1_alt. unfold Rsqr. apply cauchy.
Qed.
Lemma unit_dot p q : dot p p = 1 -> dot q q = 1 -> -1 <= dot p q <= 1.
Proof. intros P Q. pose proof (cauchy p q) as H. rewrite P, Q in H. nra. Qed.
(** two unit vectors with dot product 1 are equal *)
Lemma unit_dot_1 p q : dot p p = 1 -> dot q q = 1 -> dot p q = 1 -> p = q.
Proof.
  intros P Q E. assert (Z : dot (vsub p q) (vsub p q) = 0).
  { rewrite !dot_sub_l, !dot_sub_r, (dot_comm q p), P, Q, E. ring. }
  apply dot_zero in Z. vec3. cbn in Z. injection Z as Z1 Z2 Z3. f_equal; [f_equal|]; lra.
Qed.

Lemma normalize_unit v : v <> (0, 0, 0) -> dot (normalize v) (normalize v) = 1.
Proof.
  intro N. apply dot_nonzero in N. unfold normalize. rewrite dot_scale_l, dot_scale_r.
  pose proof (sqrt_lt_R0 _ N) as S. pose proof (sqrt_sqrt _ (Rlt_le _ _ N)) as E.
  rewrite <- E at 3. field. lra.
Qed.
Lemma normalize_id v : dot v v = 1 -> normalize v = v.
Proof. intro U. unfold normalize. rewrite U, sqrt_1. replace (1 / 1) with 1 by field. apply scale_1. Qed.
Lemma normalize_scale k v : 0 < k -> v <> (0, 0, 0) -> normalize (vscale k v) = normalize v.
Proof.
  intros K N. apply dot_nonzero in N. unfold normalize. rewrite dot_scale_l, dot_scale_r, scale_scale. f_equal.
  replace (k * (k * dot v v)) with ((k * k) * dot v v) by ring.
  rewrite sqrt_mult by nra. rewrite sqrt_square by lra. pose proof (sqrt_lt_R0 _ N). field. lra.
Qed.
Lemma unit_nonzero v : dot v v = 1 -> v <> (0, 0, 0).
Proof. intros U E. rewrite E in U. cbn in U. lra. Qed.

(** *** atan2 *)
Lemma sqrt_div_sq (x y : R) : x <> 0 -> sqrt (1 + (y / x)²) = sqrt (x * x + y * y) / Rabs x.
Proof.
  intro N. assert (0 < x * x) by nra.
  replace (1 + (y / x)²) with ((x * x + y * y) / (x * x)) by (unfold Rsqr; field; auto).
  rewrite sqrt_div_alt by nra. f_equal. change (x * x) with (Rsqr x). apply sqrt_Rsqr_abs.
Qed.
Lemma atan2_spec x y : x <> 0 \/ y <> 0 ->
  sqrt (x * x + y * y) * cos (atan2 y x) = x /\ sqrt (x * x + y * y) * sin (atan2 y x) = y /\ - PI < atan2 y x <= PI.
Proof.
  intro N. pose proof PI_RGT_0 as PP.
  assert (H : 0 < sqrt (x * x + y * y)) by (apply sqrt_lt_R0; destruct N; nra).
  unfold atan2. destruct (total_order_T 0 x) as [[X | X] | X].
  - pose proof (atan_bound (y / x)). rewrite cos_atan, sin_atan, sqrt_div_sq by lra. rewrite Rabs_right by lra.
    repeat split; try lra; field; lra.
  - subst x. destruct (total_order_T 0 y) as [[Y | Y] | Y].
    + rewrite cos_PI2, sin_PI2. replace (0 * 0 + y * y) with (y * y) by ring. rewrite sqrt_square by lra. repeat split; lra.
    + subst y. destruct N; congruence.
    + rewrite cos_neg, sin_neg, cos_PI2, sin_PI2. replace (0 * 0 + y * y) with ((- y) * (- y)) by ring.
      rewrite sqrt_square by lra. repeat split; lra.
  - pose proof (atan_bound (y / x)) as B.
    assert (C : cos (atan (y / x)) = - x / sqrt (x * x + y * y)).
    { rewrite cos_atan, sqrt_div_sq by lra. rewrite Rabs_left by lra. field. lra. }
    assert (S : sin (atan (y / x)) = - y / sqrt (x * x + y * y)).
    { rewrite sin_atan, sqrt_div_sq by lra. rewrite Rabs_left by lra. field. lra. }
    destruct (Rle_dec 0 y) as [Y | Y].
    + rewrite neg_cos, neg_sin, C, S. repeat split; try lra; try (field; lra).
      assert (T : y / x <= 0). { unfold Rdiv. pose proof (Rinv_lt_0_compat x X). nra. }
      destruct (Req_dec (y / x) 0) as [E | E]; [rewrite E, atan_0; lra|].
      assert (L : y / x < 0) by lra. apply atan_increasing in L. rewrite atan_0 in L. lra.
    + replace (atan (y / x) - PI) with (- (PI - atan (y / x))) by ring.
      rewrite cos_neg, sin_neg. replace (PI - atan (y / x)) with (- (atan (y / x)) + PI) by ring.
      rewrite neg_cos, neg_sin, cos_neg, sin_neg, C, S. repeat split; try (field; lra).
      2: pose proof PI_RGT_0; lra.
      assert (T : 0 < y / x). { unfold Rdiv. pose proof (Rinv_lt_0_compat x X). nra. }
      apply atan_increasing in T. rewrite atan_0 in T. lra.
Qed.

(** two angles of (-pi, pi] with the same sine and cosine are equal *)
Lemma angle_unique a b : - PI < a <= PI -> - PI < b <= PI -> cos a = cos b -> sin a = sin b -> a = b.
Proof.
  intros A B C S.
  assert (D : cos (a - b) = 1).
  { rewrite cos_minus, C, S. pose proof (sin2_cos2 b) as T. unfold Rsqr in T. lra. }
  assert (H : sin ((a - b) / 2) = 0).
  { replace (a - b) with (2 * ((a - b) / 2)) in D by field. rewrite cos_2a_sin in D. nra. }
  destruct (Rtotal_order ((a - b) / 2) 0) as [L | [E | G]].
  - assert (0 < sin (- ((a - b) / 2))) by (apply sin_gt_0; lra). rewrite sin_neg in *. lra.
  - lra.
  - assert (0 < sin ((a - b) / 2)) by (apply sin_gt_0; lra). lra.
Qed.

Lemma wrap_spec a : - PI < a <= PI -> 0 <= wrap a < 2 * PI /\ cos (wrap a) = cos a /\ sin (wrap a) = sin a.
Proof.
  intro A. pose proof PI_RGT_0. unfold wrap. destruct (Rlt_dec a 0).
  - repeat split; try lra. + rewrite cos_plus, cos_2PI, sin_2PI. ring. + rewrite sin_plus, cos_2PI, sin_2PI. ring.
  - repeat split; lra.
Qed.
(** the while loop of xyz_to_lon_lat stops after at most one step *)
Lemma wrap_once a : - PI < a <= PI -> ~ wrap a < 0.
Proof. intro A. pose proof (wrap_spec a A). lra. Qed.

(** angles of [0, 2 pi) *)
Lemma angle_unique_2pi a b : 0 <= a < 2 * PI -> 0 <= b < 2 * PI -> cos a = cos b -> sin a = sin b -> a = b.
Proof.
  intros A B C S. pose proof PI_RGT_0.
  assert (D : cos (a - b) = 1).
  { rewrite cos_minus, C, S. pose proof (sin2_cos2 b) as T. unfold Rsqr in T. lra. }
  assert (X : sin ((a - b) / 2) = 0).
  { replace (a - b) with (2 * ((a - b) / 2)) in D by field. rewrite cos_2a_sin in D. nra. }
  destruct (Rtotal_order ((a - b) / 2) 0) as [L | [E | G]].
  - assert (0 < sin (- ((a - b) / 2))) by (apply sin_gt_0; lra). rewrite sin_neg in *. lra.
  - lra.
  - assert (0 < sin ((a - b) / 2)) by (apply sin_gt_0; lra). lra.
Qed.

(** *** Longitude and latitude *)
Lemma sphere_unit lon lat : dot (cos lat * cos lon, cos lat * sin lon, sin lat) (cos lat * cos lon, cos lat * sin lon, sin lat) = 1.
Proof.
  cbn. pose proof (sin2_cos2 lon) as A. pose proof (sin2_cos2 lat) as B. unfold Rsqr in *.
  replace (_ + _ + _) with (cos lat * cos lat * (sin lon * sin lon + cos lon * cos lon) + sin lat * sin lat) by ring.
  rewrite A. lra.
Qed.
Lemma xyz_eq lon lat : lon_lat_to_xyz lon lat = (cos lat * cos lon, cos lat * sin lon, sin lat).
Proof. apply normalize_id, sphere_unit. Qed.
Lemma xyz_unit lon lat : dot (lon_lat_to_xyz lon lat) (lon_lat_to_xyz lon lat) = 1.
Proof. rewrite xyz_eq. apply sphere_unit. Qed.

Lemma unit_z x y z : dot (x, y, z) (x, y, z) = 1 -> -1 <= z <= 1.
Proof. cbn. intro E. nra. Qed.

Lemma lonlat_spec x y z : dot (x, y, z) (x, y, z) = 1 -> 1 / 10 ^ 10 <= Rabs x + Rabs y ->
  exists lon lat, xyz_to_lon_lat (x, y, z) = (lon, lat) /\ 0 <= lon < 2 * PI /\ - (PI / 2) <= lat <= PI / 2 /\
    cos lat * cos lon = x /\ cos lat * sin lon = y /\ sin lat = z.
Proof.
  intros U N. unfold xyz_to_lon_lat. rewrite normalize_id by exact U.
  destruct (Rlt_dec (Rabs x + Rabs y) (1 / 10 ^ 10)) as [L | _]; [exfalso; lra|].
  assert (NZ : x <> 0 \/ y <> 0).
  { destruct (Req_dec x 0) as [-> | X]; [right|left; exact X]. intros ->. rewrite Rabs_R0 in N. lra. }
  destruct (atan2_spec x y NZ) as (C & S & R0).
  destruct (wrap_spec _ R0) as (W & WC & WS).
  assert (Z : -1 <= z <= 1) by (eapply unit_z; exact U).
  exists (wrap (atan2 y x)), (asin z). split; [reflexivity|]. split; [exact W|]. split; [apply asin_bound|].
  rewrite WC, WS, cos_asin, sin_asin by exact Z.
  replace (1 - z²) with (x * x + y * y) by (cbn in U; unfold Rsqr; lra). auto.
Qed.

Lemma lonlat_pole x y z : dot (x, y, z) (x, y, z) = 1 -> Rabs x + Rabs y < 1 / 10 ^ 10 ->
  xyz_to_lon_lat (x, y, z) = (0, asin z).
Proof.
  intros U N. unfold xyz_to_lon_lat. rewrite normalize_id by exact U.
  destruct (Rlt_dec (Rabs x + Rabs y) (1 / 10 ^ 10)) as [_ | L]; [|contradiction].
  unfold wrap. destruct (Rlt_dec 0 0); [lra|reflexivity].
Qed.

Lemma lonlat_normalize v : v <> (0, 0, 0) -> xyz_to_lon_lat v = xyz_to_lon_lat (normalize v).
Proof.
  intro N. unfold xyz_to_lon_lat. rewrite (normalize_id (normalize v)) by now apply normalize_unit. reflexivity.
Qed.

(** *** Great circles *)
Lemma half_angle a : sin (a / 2) ^ 2 = (1 - cos a) / 2.
Proof. replace a with (2 * (a / 2)) at 2 by field. rewrite cos_2a_sin. field. Qed.
Lemma haversine lon1 lon2 lat1 lat2 :
  sin ((lat1 - lat2) / 2) ^ 2 + cos lat1 * cos lat2 * sin ((lon1 - lon2) / 2) ^ 2 =
  (1 - dot (lon_lat_to_xyz lon1 lat1) (lon_lat_to_xyz lon2 lat2)) / 2.
Proof. rewrite !half_angle, !cos_minus, !xyz_eq. cbn. field. Qed.

Lemma beta_acos lon1 lon2 lat1 lat2 :
  great_circle_beta lon1 lon2 lat1 lat2 = acos (dot (lon_lat_to_xyz lon1 lat1) (lon_lat_to_xyz lon2 lat2)).
Proof.
  unfold great_circle_beta. rewrite haversine.
  set (d := dot _ _). assert (D : -1 <= d <= 1) by (apply unit_dot; apply xyz_unit).
  set (s := sqrt ((1 - d) / 2)).
  assert (SS : s * s = (1 - d) / 2) by (apply sqrt_sqrt; lra).
  assert (S0 : 0 <= s) by apply sqrt_pos.
  assert (S1 : s <= 1) by nra.
  assert (A0 : 0 <= asin s).
  { destruct (Req_dec s 0) as [-> | N]; [rewrite asin_0; lra|]. destruct (asin_bound s) as [L U].
    destruct (Rle_lt_dec 0 (asin s)) as [H | H]; [exact H|]. exfalso.
    assert (sin (asin s) < 0) by (apply sin_lt_0_var; pose proof PI_RGT_0; lra). rewrite sin_asin in * by lra. lra. }
  destruct (asin_bound s) as [_ AU].
  replace (asin s * 2) with (2 * asin s) by ring.
  rewrite <- (acos_cos (2 * asin s)) by (pose proof PI_RGT_0; lra).
  f_equal. rewrite cos_2a_sin, sin_asin by lra. replace (1 - 2 * s * s) with (1 - 2 * (s * s)) by ring. rewrite SS. field.
Qed.

Lemma acos_decr a b : -1 <= a <= 1 -> -1 <= b <= 1 -> a <= b -> acos b <= acos a.
Proof.
  intros A B L. destruct (acos_bound a), (acos_bound b).
  destruct (Rle_lt_dec (acos b) (acos a)) as [H' | H']; [exact H'|]. exfalso.
  assert (cos (acos b) < cos (acos a)) by (apply cos_decreasing_1; lra).
  rewrite !cos_acos in * by lra. lra.
Qed.
Lemma acos_inj a b : -1 <= a <= 1 -> -1 <= b <= 1 -> acos a = acos b -> a = b.
Proof. intros A B E. rewrite <- (cos_acos a), <- (cos_acos b), E by lra. reflexivity. Qed.

(** triangle inequality for the angle between unit vectors *)
Lemma angle_triangle p q r : dot p p = 1 -> dot q q = 1 -> dot r r = 1 ->
  acos (dot p r) <= acos (dot p q) + acos (dot q r).
Proof.
  intros P Q R1.
  pose proof (unit_dot p q P Q) as B1. pose proof (unit_dot q r Q R1) as B2. pose proof (unit_dot p r P R1) as B3.
  pose proof (acos_bound (dot p q)) as A1. pose proof (acos_bound (dot q r)) as A2. pose proof (acos_bound (dot p r)) as A3.
  destruct (Rle_lt_dec PI (acos (dot p q) + acos (dot q r))) as [H | H]; [lra|].
  set (u := vsub p (vscale (dot p q) q)). set (w := vsub r (vscale (dot q r) q)).
  assert (UU : dot u u = 1 - (dot p q)²).
  { unfold u. rewrite !dot_sub_l, !dot_sub_r, !dot_scale_l, !dot_scale_r, P, Q, (dot_comm q p). unfold Rsqr. ring. }
  assert (WW : dot w w = 1 - (dot q r)²).
  { unfold w. rewrite !dot_sub_l, !dot_sub_r, !dot_scale_l, !dot_scale_r, R1, Q, (dot_comm r q). unfold Rsqr. ring. }
  assert (UW : dot u w = dot p r - dot p q * dot q r).
  { unfold u, w. rewrite !dot_sub_l, !dot_sub_r, !dot_scale_l, !dot_scale_r, Q. ring. }
  pose proof (cauchy_sqrt u w) as C. rewrite UU, WW, UW in C.
  rewrite sqrt_mult in C by (unfold Rsqr; nra).
  assert (G : cos (acos (dot p q) + acos (dot q r)) <= dot p r).
  { rewrite cos_plus, !cos_acos, !sin_acos by lra.
    pose proof (Rle_abs (- (dot p r - dot p q * dot q r))) as RA. rewrite Rabs_Ropp in RA. lra. }
  rewrite <- (acos_cos (acos (dot p q) + acos (dot q r))) by lra.
  apply acos_decr; [apply COS_bound|exact B3|exact G].
Qed.

(** *** Midpoints *)
Lemma add_nonzero p q : dot p p = 1 -> dot q q = 1 -> dot p q <> -1 -> vadd p q <> (0, 0, 0).
Proof.
  intros P Q N E. apply N. assert (Z : dot (vadd p q) q = 0) by (rewrite E; vec3; cbn; ring).
  rewrite dot_add_l, Q in Z. lra.
Qed.
Lemma midpoint_dot p q : dot p p = 1 -> dot q q = 1 -> dot p q <> -1 ->
  dot (midpoint p q) p = sqrt ((1 + dot p q) / 2) /\ dot (midpoint p q) q = sqrt ((1 + dot p q) / 2).
Proof.
  intros P Q N. pose proof (unit_dot p q P Q) as B. unfold midpoint, normalize. rewrite !dot_scale_l.
  assert (S : dot (vadd p q) (vadd p q) = 2 * (1 + dot p q)).
  { rewrite !dot_add_l, !dot_add_r, P, Q, (dot_comm q p). ring. }
  rewrite S, !dot_add_l, P, Q, (dot_comm q p).
  assert (E : sqrt (2 * (1 + dot p q)) = 2 * sqrt ((1 + dot p q) / 2)).
  { replace (2 * (1 + dot p q)) with (2 * 2 * ((1 + dot p q) / 2)) by field. rewrite sqrt_mult by lra.
    now rewrite sqrt_square by lra. }
  rewrite E. set (h := sqrt ((1 + dot p q) / 2)).
  assert (HH : h * h = (1 + dot p q) / 2) by (apply sqrt_sqrt; lra).
  assert (H0 : 0 < h) by (apply sqrt_lt_R0; lra).
  replace (1 + dot p q) with (2 * (h * h)) by lra. replace (dot p q + 1) with (2 * (h * h)) by lra. split; field; lra.
Qed.
Lemma half_acos d : -1 <= d <= 1 -> acos (sqrt ((1 + d) / 2)) = acos d / 2.
Proof.
  intro D. destruct (acos_bound d) as [L U]. pose proof PI_RGT_0.
  rewrite <- (acos_cos (acos d / 2)) by lra. f_equal.
  assert (C : 0 <= cos (acos d / 2)) by (apply cos_ge_0; lra).
  rewrite <- (sqrt_square (cos (acos d / 2))) by exact C. f_equal.
  rewrite <- (cos_acos d) at 1 by exact D.
  replace (acos d) with (2 * (acos d / 2)) at 1 by field. rewrite cos_2a_cos. field.
Qed.
