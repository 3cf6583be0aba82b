(** Property C72: spherical angles and areas, in exact arithmetic *)
Require Import Reals Lra Psatz.
From Verif Require Import SphereModel SphereProofs SphereProps.
Open Scope R_scope.

(** *** Angles between vectors of any length *)
Definition vangle (u v : vec) : R := acos (dot u v / sqrt (dot u u * dot v v)).

Lemma len_pos u : u <> (0, 0, 0) -> 0 < sqrt (dot u u).
Proof. intro N. apply sqrt_lt_R0. now apply dot_nonzero. Qed.
Lemma len_sq u : sqrt (dot u u) * sqrt (dot u u) = dot u u.
Proof. apply sqrt_sqrt, dot_pos. Qed.
Lemma vangle_unit u v : u <> (0, 0, 0) -> v <> (0, 0, 0) -> vangle u v = acos (dot (normalize u) (normalize v)).
Proof.
  intros U V. unfold vangle, normalize. rewrite dot_scale_l, dot_scale_r, sqrt_mult by apply dot_pos.
  pose proof (len_pos u U). pose proof (len_pos v V). f_equal. field. lra.
Qed.
Lemma vangle_sym u v : vangle u v = vangle v u.
Proof. unfold vangle. now rewrite dot_comm, Rmult_comm with (r1 := dot u u). Qed.
Lemma scale_nonzero k u : k <> 0 -> u <> (0, 0, 0) -> vscale k u <> (0, 0, 0).
Proof. intros K U E. apply U. vec3. cbn in E. injection E as A B C. f_equal; [f_equal|]; nra. Qed.
Lemma vangle_scale_l k u v : 0 < k -> u <> (0, 0, 0) -> v <> (0, 0, 0) -> vangle (vscale k u) v = vangle u v.
Proof.
  intros K U V. rewrite !vangle_unit; try assumption; [|apply scale_nonzero; [lra|assumption]]. now rewrite normalize_scale.
Qed.
Lemma vangle_scale_r k u v : 0 < k -> u <> (0, 0, 0) -> v <> (0, 0, 0) -> vangle u (vscale k v) = vangle u v.
Proof. intros. rewrite vangle_sym, vangle_scale_l, vangle_sym; auto. Qed.
Lemma ratio_bound u v : u <> (0, 0, 0) -> v <> (0, 0, 0) -> -1 <= dot u v / sqrt (dot u u * dot v v) <= 1.
Proof.
  intros U V. pose proof (unit_dot _ _ (normalize_unit u U) (normalize_unit v V)) as B.
  replace (dot u v / sqrt (dot u u * dot v v)) with (dot (normalize u) (normalize v)); [exact B|].
  unfold normalize. rewrite dot_scale_l, dot_scale_r, sqrt_mult by apply dot_pos.
  pose proof (len_pos u U). pose proof (len_pos v V). field. lra.
Qed.
Lemma vangle_opp_r u v : u <> (0, 0, 0) -> v <> (0, 0, 0) -> vangle u (vscale (-1) v) = PI - vangle u v.
Proof.
  intros U V. unfold vangle. rewrite !dot_scale_r, !dot_scale_l, <- acos_opp.
  replace (dot u u * (-1 * (-1 * dot v v))) with (dot u u * dot v v) by ring. f_equal. unfold Rdiv. ring.
Qed.
Lemma vangle_opp_l u v : u <> (0, 0, 0) -> v <> (0, 0, 0) -> vangle (vscale (-1) u) v = PI - vangle u v.
Proof. intros. rewrite vangle_sym, vangle_opp_r, vangle_sym; auto. Qed.
Lemma vangle_bound u v : 0 <= vangle u v <= PI.
Proof. apply acos_bound. Qed.
Lemma vangle_self u : u <> (0, 0, 0) -> vangle u u = 0.
Proof.
  intro U. rewrite vangle_unit by assumption. rewrite normalize_unit by assumption. apply acos_1.
Qed.
Lemma vangle_triangle u v w : u <> (0, 0, 0) -> v <> (0, 0, 0) -> w <> (0, 0, 0) -> vangle u w <= vangle u v + vangle v w.
Proof. intros U V W. rewrite !vangle_unit by assumption. apply angle_triangle; now apply normalize_unit. Qed.
(** the perimeter of a spherical triangle is at most 2 pi *)
Lemma vangle_perimeter u v w : u <> (0, 0, 0) -> v <> (0, 0, 0) -> w <> (0, 0, 0) ->
  vangle u v + vangle v w + vangle w u <= 2 * PI.
Proof.
  intros U V W. assert (N : vscale (-1) v <> (0, 0, 0)) by (apply scale_nonzero; [lra|assumption]).
  pose proof (vangle_triangle u (vscale (-1) v) w U N W) as T. rewrite vangle_opp_r, vangle_opp_l in T by assumption.
  rewrite (vangle_sym w u). lra.
Qed.

Lemma vangle_cos u v : u <> (0, 0, 0) -> v <> (0, 0, 0) -> cos (vangle u v) * (sqrt (dot u u) * sqrt (dot v v)) = dot u v.
Proof.
  intros U V. unfold vangle. rewrite cos_acos by now apply ratio_bound. rewrite sqrt_mult by apply dot_pos.
  pose proof (len_pos u U). pose proof (len_pos v V). field. lra.
Qed.
Lemma vangle_sin u v : u <> (0, 0, 0) -> v <> (0, 0, 0) ->
  sin (vangle u v) * (sqrt (dot u u) * sqrt (dot v v)) = sqrt (dot (cross u v) (cross u v)).
Proof.
  intros U V. assert (S : 0 <= sin (vangle u v)) by (apply sin_ge_0; apply vangle_bound).
  pose proof (len_pos u U) as LU. pose proof (len_pos v V) as LV.
  rewrite <- (sqrt_square (sin _ * _)) by (apply Rmult_le_pos; [exact S|nra]). f_equal.
  rewrite lagrange. pose proof (vangle_cos u v U V) as C. pose proof (sin2_cos2 (vangle u v)) as T. unfold Rsqr in T.
  pose proof (len_sq u) as QU. pose proof (len_sq v) as QV.
  set (a := sqrt (dot u u)) in *. set (b := sqrt (dot v v)) in *. set (s := sin _) in *. set (c := cos _) in *.
  rewrite <- C, <- QU, <- QV.
  replace (a * a * (b * b) - c * (a * b) * (c * (a * b))) with ((a * b) * (a * b) * (1 - c * c)) by ring.
  replace (1 - c * c) with (s * s) by lra. ring.
Qed.

(** a vector between two others splits their angle *)
Lemma vangle_add u w a b : u <> (0, 0, 0) -> w <> (0, 0, 0) -> 0 <= a -> 0 <= b ->
  vadd (vscale a u) (vscale b w) <> (0, 0, 0) ->
  vangle u w = vangle u (vadd (vscale a u) (vscale b w)) + vangle (vadd (vscale a u) (vscale b w)) w.
Proof.
  intros U W A B T. set (t := vadd (vscale a u) (vscale b w)) in *.
  pose proof (len_pos u U) as LU. pose proof (len_pos w W) as LW. pose proof (len_pos t T) as LT.
  pose proof (vangle_bound u t) as B1. pose proof (vangle_bound t w) as B2.
  pose proof (vangle_cos u t U T) as C1. pose proof (vangle_cos t w T W) as C2. pose proof (vangle_cos u w U W) as C3.
  pose proof (vangle_sin u t U T) as S1. pose proof (vangle_sin t w T W) as S2.
  assert (UT : dot u t = a * dot u u + b * dot u w) by (unfold t; rewrite dot_add_r, !dot_scale_r; reflexivity).
  assert (TW : dot t w = a * dot u w + b * dot w w) by (unfold t; rewrite dot_add_l, !dot_scale_l; reflexivity).
  assert (TT : dot t t = a * a * dot u u + 2 * a * b * dot u w + b * b * dot w w).
  { unfold t. rewrite !dot_add_l, !dot_add_r, !dot_scale_l, !dot_scale_r, (dot_comm w u). ring. }
  assert (X1 : cross u t = vscale b (cross u w)).
  { unfold t. vec3. cbn. apply triple_eq; ring. }
  assert (X2 : cross t w = vscale a (cross u w)).
  { unfold t. vec3. cbn. apply triple_eq; ring. }
  set (n := sqrt (dot (cross u w) (cross u w))) in *.
  assert (NN : n * n = dot u u * dot w w - dot u w * dot u w) by (unfold n; rewrite len_sq; apply lagrange).
  assert (L : forall k v, 0 <= k -> sqrt (dot (vscale k v) (vscale k v)) = k * sqrt (dot v v)).
  { intros k v K. rewrite dot_scale_l, dot_scale_r. replace (k * (k * dot v v)) with ((k * k) * dot v v) by ring.
    rewrite sqrt_mult by (try apply dot_pos; nra). now rewrite sqrt_square. }
  rewrite X1, L in S1 by exact B. rewrite X2, L in S2 by exact A. fold n in S1, S2.
  pose proof (len_sq u) as QU. pose proof (len_sq w) as QW. pose proof (len_sq t) as QT.
  set (p := sqrt (dot u u)) in *. set (q := sqrt (dot w w)) in *. set (r := sqrt (dot t t)) in *.
  assert (CS : cos (vangle u t + vangle t w) = cos (vangle u w)).
  { apply (Rmult_eq_reg_r ((p * r) * (r * q))); [|apply Rgt_not_eq; apply Rmult_lt_0_compat; apply Rmult_lt_0_compat; assumption].
    rewrite cos_plus.
    transitivity ((cos (vangle u t) * (p * r)) * (cos (vangle t w) * (r * q)) -
                  (sin (vangle u t) * (p * r)) * (sin (vangle t w) * (r * q))); [ring|].
    rewrite C1, C2, S1, S2.
    transitivity ((cos (vangle u w) * (p * q)) * (r * r)); [|ring]. rewrite C3, QT, TT, UT, TW.
    transitivity ((a * dot u u + b * dot u w) * (a * dot u w + b * dot w w) - a * b * (n * n)); [ring|]. rewrite NN. ring. }
  assert (LE : vangle u t + vangle t w <= PI).
  { destruct (Rle_lt_dec (vangle u t + vangle t w) PI) as [H | H]; [exact H|exfalso].
    assert (D : cos (vangle u t) < cos (PI - vangle t w)) by (apply cos_decreasing_1; lra).
    rewrite Rtrigo_facts.cos_pi_minus in D.
    assert (E : (cos (vangle u t) + cos (vangle t w)) * (p * q * r) = (a * p + b * q) * (p * q + dot u w)).
    { transitivity (q * (cos (vangle u t) * (p * r)) + p * (cos (vangle t w) * (r * q))); [ring|].
      rewrite C1, C2, UT, TW, <- QU, <- QW. ring. }
    assert (CW : 0 <= p * q + dot u w).
    { pose proof (cauchy_sqrt u w) as C. rewrite sqrt_mult in C by apply dot_pos. fold p q in C.
      pose proof (Rle_abs (- dot u w)) as RA. rewrite Rabs_Ropp in RA. lra. }
    assert (P3 : 0 < p * q * r) by (apply Rmult_lt_0_compat; [apply Rmult_lt_0_compat|]; assumption).
    assert (0 <= a * p + b * q) by nra.
    assert (0 <= (a * p + b * q) * (p * q + dot u w)) by (apply Rmult_le_pos; assumption).
    assert ((cos (vangle u t) + cos (vangle t w)) * (p * q * r) < 0); [|lra].
    replace 0 with (0 * (p * q * r)) by ring. apply Rmult_lt_compat_r; lra. }
  rewrite <- (acos_cos (vangle u w)) by apply vangle_bound.
  rewrite <- (acos_cos (vangle u t + vangle t w)) by lra. now rewrite CS.
Qed.

(** *** The angles of the model *)
Lemma sa_vangle c p q : cross c p <> (0, 0, 0) -> cross c q <> (0, 0, 0) -> spherical_angle c p q = vangle (cross c p) (cross c q).
Proof.
  intros P Q. unfold spherical_angle, spherical_cos. cbv zeta.
  destruct (Req_EM_T (sqrt (dot (cross c p) (cross c p) * dot (cross c q) (cross c q))) 0) as [E | E]; [exfalso|reflexivity].
  rewrite sqrt_mult in E by apply dot_pos. pose proof (len_pos _ P). pose proof (len_pos _ Q). nra.
Qed.
Lemma sa_zero c p q : cross c p = (0, 0, 0) \/ cross c q = (0, 0, 0) -> spherical_angle c p q = 0.
Proof.
  intro Z. unfold spherical_angle, spherical_cos. cbv zeta.
  destruct (Req_EM_T (sqrt (dot (cross c p) (cross c p) * dot (cross c q) (cross c q))) 0) as [E | E]; [reflexivity|].
  exfalso. apply E. assert (D0 : dot (0, 0, 0) (0, 0, 0) = 0) by (cbn; ring).
  destruct Z as [-> | ->]; rewrite D0, ?Rmult_0_l, ?Rmult_0_r; apply sqrt_0.
Qed.
Lemma vec_eq_dec (u : vec) : u = (0, 0, 0) \/ u <> (0, 0, 0).
Proof.
  destruct u as [[a b] c]. destruct (Req_dec a 0) as [-> | A], (Req_dec b 0) as [-> | B], (Req_dec c 0) as [-> | C];
    try (now left); right; intro X; inversion X; congruence.
Qed.
Lemma sa_sym c p q : spherical_angle c p q = spherical_angle c q p.
Proof.
  destruct (vec_eq_dec (cross c p)) as [P | P]; [rewrite !sa_zero; auto|].
  destruct (vec_eq_dec (cross c q)) as [Q | Q]; [rewrite !sa_zero; auto|].
  rewrite !sa_vangle by assumption. apply vangle_sym.
Qed.

(** ** Specification *)
(** the part of [p] at right angles to [c]: the direction in which [p] is seen from the point [c] of the unit sphere *)
Definition seen_from (c p : vec) : vec :=
  let '(a, b, g) := c in let '(x, y, z) := p in
  let k := a * x + b * y + g * z in (x - k * a, y - k * b, z - k * g).
Definition sq_length (p : vec) : R := let '(x, y, z) := p in x * x + y * y + z * z.
Definition inner (p q : vec) : R := let '(a, b, c) := p in let '(x, y, z) := q in a * x + b * y + c * z.
(** determinant: the three points are not on one great circle when it is not 0 *)
Definition det (p q r : vec) : R :=
  let '(a, b, c) := p in let '(d, e, f) := q in let '(g, h, i) := r in
  a * (e * i - f * h) - b * (d * i - f * g) + c * (d * h - e * g).
(** [q] is on the shorter arc between [p] and [r] (up to its length) *)
Definition on_arc (p r q : vec) : Prop :=
  let '(a, b, c) := p in let '(d, e, f) := r in let '(g, h, i) := q in
  exists s t, 0 < s /\ 0 < t /\ g = s * a + t * d /\ h = s * b + t * e /\ i = s * c + t * f.

Lemma det_cross p q r : det p q r = dot (cross p q) r.
Proof. unfold det. vec3. cbn. ring. Qed.
Lemma det_rot p q r : det p q r = det q r p.
Proof. unfold det. vec3. ring. Qed.
Lemma det_swap p q r : det p q r = - det q p r.
Proof. unfold det. vec3. ring. Qed.
Lemma det_cross_nz p q r : det p q r <> 0 -> cross p q <> (0, 0, 0).
Proof. intros D E. apply D. rewrite det_cross, E. destruct r as [[? ?] ?]. cbn. ring. Qed.
Lemma dets p q r : det p q r <> 0 ->
  cross p q <> (0, 0, 0) /\ cross q p <> (0, 0, 0) /\ cross q r <> (0, 0, 0) /\ cross r q <> (0, 0, 0) /\
  cross p r <> (0, 0, 0) /\ cross r p <> (0, 0, 0).
Proof.
  intro D. repeat split.
  - now apply det_cross_nz in D.
  - apply (det_cross_nz q p r). rewrite det_swap. lra.
  - apply (det_cross_nz q r p). now rewrite <- det_rot.
  - apply (det_cross_nz r q p). rewrite det_swap, <- det_rot. lra.
  - apply (det_cross_nz p r q). rewrite det_swap, <- (det_rot q r p), <- det_rot. lra.
  - apply (det_cross_nz r p q). now rewrite det_rot.
Qed.
Lemma seen_cross c p q : inner c c = 1 -> dot (cross c p) (cross c q) = inner (seen_from c p) (seen_from c q).
Proof.
  intro U. rewrite cross_dots. change (dot c c) with (inner c c).
  assert (G : inner (seen_from c p) (seen_from c q) =
              dot p q - 2 * (dot c p * dot c q) + dot c p * dot c q * inner c c) by (unfold seen_from, inner; vec3; cbn; ring).
  rewrite G, U. ring.
Qed.
Lemma sq_length_zero p : sq_length p <> 0 -> p <> (0, 0, 0).
Proof. intros N ->. apply N. cbn. ring. Qed.

(** ** C72: angles *)
(** The angle at [c] is the angle in [0, pi] between the directions in which the two points are seen from [c]. *)
Theorem C72_angle c p q : sq_length c = 1 -> sq_length (seen_from c p) <> 0 -> sq_length (seen_from c q) <> 0 ->
  0 <= spherical_angle c p q <= PI /\
  cos (spherical_angle c p q) * (sqrt (sq_length (seen_from c p)) * sqrt (sq_length (seen_from c q))) =
  inner (seen_from c p) (seen_from c q) /\
  spherical_angle c q p = spherical_angle c p q.
Proof.
  intros U P Q.
  assert (SL : forall v, sq_length v = dot v v) by (intros [[? ?] ?]; reflexivity).
  assert (IL : forall v w, inner v w = dot v w) by (intros [[? ?] ?] [[? ?] ?]; reflexivity).
  assert (UC : inner c c = 1) by (rewrite IL, <- SL; exact U).
  assert (NP : cross c p <> (0, 0, 0)).
  { intro E. apply P. rewrite SL, <- IL, <- seen_cross by exact UC. rewrite E. cbn. ring. }
  assert (NQ : cross c q <> (0, 0, 0)).
  { intro E. apply Q. rewrite SL, <- IL, <- seen_cross by exact UC. rewrite E. cbn. ring. }
  rewrite (sa_sym c q p), sa_vangle by assumption. split; [apply vangle_bound|]. split; [|reflexivity].
  rewrite !SL, <- !IL, <- !seen_cross by exact UC. now apply vangle_cos.
Qed.
Print Assumptions C72_angle.

(** Only the directions of the three points matter: the code passes midpoints 0.5 * (p + q) that are not on the unit sphere. *)
Theorem C72_angle_scale c p q k l m : 0 < k -> 0 < l -> 0 < m ->
  spherical_angle (vscale k c) (vscale l p) (vscale m q) = spherical_angle c p q.
Proof.
  intros K L M.
  assert (E : forall s v, cross (vscale k c) (vscale s v) = vscale (k * s) (cross c v)) by (intros; vec3; cbn; apply triple_eq; ring).
  destruct (vec_eq_dec (cross c p)) as [P | P].
  { rewrite !sa_zero; auto. left. rewrite E, P. cbn. apply triple_eq; ring. }
  destruct (vec_eq_dec (cross c q)) as [Q | Q].
  { rewrite !sa_zero; auto. right. rewrite E, Q. cbn. apply triple_eq; ring. }
  assert (KL : 0 < k * l) by (apply Rmult_lt_0_compat; assumption).
  assert (KM : 0 < k * m) by (apply Rmult_lt_0_compat; assumption).
  rewrite !sa_vangle; try assumption; rewrite ?E; try (apply scale_nonzero; [lra|assumption]).
  rewrite vangle_scale_l, vangle_scale_r; auto. apply scale_nonzero; [lra|assumption].
Qed.
Print Assumptions C72_angle_scale.

(** ** C72: areas of triangles *)
(** The area does not depend on the order of the corners, is never negative, *)
Theorem C72_triangle_order p1 p2 p3 radius :
  triangle_area p2 p3 p1 radius = triangle_area p1 p2 p3 radius /\
  triangle_area p1 p3 p2 radius = triangle_area p1 p2 p3 radius.
Proof.
  unfold triangle_area. rewrite (sa_sym p1 p3 p2), (sa_sym p3 p2 p1), (sa_sym p2 p1 p3). split; ring.
Qed.
Print Assumptions C72_triangle_order.

Lemma triangle_excess p1 p2 p3 : det p1 p2 p3 <> 0 ->
  PI <= spherical_angle p1 p2 p3 + spherical_angle p2 p3 p1 + spherical_angle p3 p1 p2 <= 3 * PI.
Proof.
  intro D. destruct (dets _ _ _ D) as (N12 & N21 & N23 & N32 & N13 & N31).
  rewrite !sa_vangle by assumption. split.
  - rewrite (cross_anti p1 p3), (cross_anti p2 p1), (cross_anti p3 p2). rewrite !vangle_opp_r by assumption.
    pose proof (vangle_perimeter _ _ _ N12 N31 N23) as P. rewrite (vangle_sym (cross p3 p1)) in P. rewrite (vangle_sym (cross p3 p1)). lra.
  - pose proof (vangle_bound (cross p1 p2) (cross p1 p3)). pose proof (vangle_bound (cross p2 p3) (cross p2 p1)).
    pose proof (vangle_bound (cross p3 p1) (cross p3 p2)). lra.
Qed.
Theorem C72_triangle_bounds p1 p2 p3 radius : det p1 p2 p3 <> 0 ->
  0 <= triangle_area p1 p2 p3 radius <= 2 * PI * radius ^ 2.
Proof.
  intro D. pose proof (triangle_excess _ _ _ D) as [L U]. unfold triangle_area. cbv zeta.
  assert (0 <= radius ^ 2) by (apply pow2_ge_0). split; [apply Rmult_le_pos; lra|apply Rmult_le_compat_r; lra].
Qed.
Print Assumptions C72_triangle_bounds.

(** and adds up when a triangle is cut in two. *)
Theorem C72_triangle_additive p1 p2 p3 q radius : det p1 p2 p3 <> 0 -> on_arc p2 p3 q ->
  triangle_area p1 p2 p3 radius = triangle_area p1 p2 q radius + triangle_area p1 q p3 radius.
Proof.
  intros D A. destruct (dets _ _ _ D) as (N12 & N21 & N23 & N32 & N13 & N31).
  assert (exists s t, 0 < s /\ 0 < t /\ q = vadd (vscale s p2) (vscale t p3)) as (s & t & S & T & E).
  { unfold on_arc in A. vec3. destruct A as (s & t & S & T & -> & -> & ->). exists s, t. cbn. auto. }
  assert (X1 : cross p1 q = vadd (vscale s (cross p1 p2)) (vscale t (cross p1 p3))) by (subst q; vsolve).
  assert (X2 : cross p2 q = vscale t (cross p2 p3)) by (subst q; vsolve).
  assert (X3 : cross p3 q = vscale s (cross p3 p2)) by (subst q; vsolve).
  assert (X4 : cross q p2 = vscale (-1) (vscale t (cross p2 p3))) by (subst q; vsolve).
  assert (X5 : cross q p3 = vscale s (cross p2 p3)) by (subst q; vsolve).
  assert (D1 : det p1 q p3 = s * det p1 p2 p3) by (subst q; unfold det; vec3; cbn; ring).
  assert (D1' : det p1 q p3 <> 0) by (rewrite D1; apply Rmult_integral_contrapositive; split; lra).
  destruct (dets _ _ _ D1') as (N1q & Nq1 & Nq3 & N3q & _ & _).
  assert (D2 : det p1 p2 q = t * det p1 p2 p3) by (subst q; unfold det; vec3; cbn; ring).
  assert (D2' : det p1 p2 q <> 0) by (rewrite D2; apply Rmult_integral_contrapositive; split; lra).
  destruct (dets _ _ _ D2') as (_ & _ & N2q & Nq2 & _ & _).
  unfold triangle_area. cbv zeta. rewrite !sa_vangle by assumption.
  assert (H1 : vangle (cross p1 p2) (cross p1 p3) = vangle (cross p1 p2) (cross p1 q) + vangle (cross p1 q) (cross p1 p3)).
  { rewrite X1. apply vangle_add; try assumption; try lra. now rewrite <- X1. }
  assert (H2 : vangle (cross p2 q) (cross p2 p1) = vangle (cross p2 p3) (cross p2 p1)).
  { rewrite X2. apply vangle_scale_l; assumption. }
  assert (H3 : vangle (cross p3 p1) (cross p3 q) = vangle (cross p3 p1) (cross p3 p2)).
  { rewrite X3. apply vangle_scale_r; assumption. }
  assert (H4 : vangle (cross q p1) (cross q p2) + vangle (cross q p3) (cross q p1) = PI).
  { assert (TN : vscale t (cross p2 p3) <> (0, 0, 0)) by (apply scale_nonzero; [lra|assumption]).
    rewrite X4, X5, vangle_opp_r by assumption. rewrite vangle_scale_r, vangle_scale_l by assumption.
    rewrite (vangle_sym (cross q p1)). ring. }
  rewrite H1, H2, H3. replace PI with (vangle (cross q p1) (cross q p2) + vangle (cross q p3) (cross q p1)) at 1 by exact H4.
  rewrite <- H4. ring.
Qed.
Print Assumptions C72_triangle_additive.

(** An eighth of the sphere has an eighth of the area 4 pi r^2. *)
Theorem C72_octant radius : triangle_area (1, 0, 0) (0, 1, 0) (0, 0, 1) radius = 4 * PI * radius ^ 2 / 8.
Proof.
  assert (R1 : forall c p q, dot (cross c p) (cross c q) = 0 -> cross c p <> (0, 0, 0) -> cross c q <> (0, 0, 0) ->
                 spherical_angle c p q = PI / 2).
  { intros c p q Z P Q. rewrite sa_vangle by assumption. unfold vangle. rewrite Z. unfold Rdiv. rewrite Rmult_0_l. apply acos_0. }
  unfold triangle_area. cbv zeta.
  rewrite !R1; try (cbn; ring); try (cbn; intro E; inversion E; lra). field.
Qed.
Print Assumptions C72_octant.

(** ** C72: areas of cells *)
(** Clockwise or counterclockwise, from any corner *)
Theorem C72_rectangle_order p1 p2 p3 p4 radius :
  rectangle_area p2 p3 p4 p1 radius = rectangle_area p1 p2 p3 p4 radius /\
  rectangle_area p4 p3 p2 p1 radius = rectangle_area p1 p2 p3 p4 radius.
Proof.
  unfold rectangle_area. cbv zeta.
  rewrite (sa_sym p3 p4 p2), (sa_sym p4 p1 p3), (sa_sym p1 p2 p4), (sa_sym p2 p1 p3). split; ring.
Qed.
Print Assumptions C72_rectangle_order.

(** A diagonal that runs inside the cell cuts it into two triangles with the same total area: the diagonal leaves [p1] between the sides
    to [p2] and [p4], and arrives at [p3] between the sides from [p2] and [p4]. *)
Definition between (c p r q : vec) : Prop := exists s t u, 0 < s /\ 0 < t /\ q = vadd (vadd (vscale s p) (vscale t r)) (vscale u c).
Theorem C72_rectangle_triangles p1 p2 p3 p4 radius :
  det p1 p2 p3 <> 0 -> det p1 p3 p4 <> 0 -> between p1 p2 p4 p3 -> between p3 p2 p4 p1 ->
  rectangle_area p1 p2 p3 p4 radius = triangle_area p1 p2 p3 radius + triangle_area p1 p3 p4 radius /\
  0 <= rectangle_area p1 p2 p3 p4 radius.
Proof.
  intros D E (s & t & u & S & T & B1) (s' & t' & u' & S' & T' & B3).
  destruct (dets _ _ _ D) as (N12 & N21 & N23 & N32 & N13 & N31).
  destruct (dets _ _ _ E) as (_ & _ & N34 & N43 & N14 & N41).
  assert (X1 : cross p1 p3 = vadd (vscale s (cross p1 p2)) (vscale t (cross p1 p4))) by (rewrite B1; vsolve).
  assert (X3 : cross p3 p1 = vadd (vscale s' (cross p3 p2)) (vscale t' (cross p3 p4))) by (rewrite B3; vsolve).
  assert (H1 : vangle (cross p1 p2) (cross p1 p4) = vangle (cross p1 p2) (cross p1 p3) + vangle (cross p1 p3) (cross p1 p4)).
  { rewrite X1. apply vangle_add; try assumption; try lra. now rewrite <- X1. }
  assert (H3 : vangle (cross p3 p2) (cross p3 p4) = vangle (cross p3 p2) (cross p3 p1) + vangle (cross p3 p1) (cross p3 p4)).
  { rewrite X3. apply vangle_add; try assumption; try lra. now rewrite <- X3. }
  assert (G : rectangle_area p1 p2 p3 p4 radius = triangle_area p1 p2 p3 radius + triangle_area p1 p3 p4 radius).
  { unfold rectangle_area, triangle_area. cbv zeta. rewrite !sa_vangle by assumption.
    rewrite (vangle_sym (cross p1 p4)), H1, H3, (vangle_sym (cross p3 p4) (cross p3 p1)), (vangle_sym (cross p3 p1) (cross p3 p2)),
      (vangle_sym (cross p4 p3)). ring. }
  split; [exact G|]. rewrite G. pose proof (C72_triangle_bounds p1 p2 p3 radius D). pose proof (C72_triangle_bounds p1 p3 p4 radius E). lra.
Qed.
Print Assumptions C72_rectangle_triangles.

(** "This angle will always be less than Pi" is false: seen from a point between them, two points are at the angle pi. *)
Theorem C72_less_than_pi_refuted : exists c p q, sq_length c = 1 /\ sq_length p = 1 /\ sq_length q = 1 /\ spherical_angle c p q = PI.
Proof.
  exists (1, 0, 0), (0, 1, 0), (0, -1, 0). repeat split; try (cbn; ring).
  rewrite sa_vangle by (cbn; intro E; inversion E; lra).
  replace (cross (1, 0, 0) (0, -1, 0)) with (vscale (-1) (cross (1, 0, 0) (0, 1, 0))) by (cbn; apply triple_eq; ring).
  assert (N : cross (1, 0, 0) (0, 1, 0) <> (0, 0, 0)) by (cbn; intro E; inversion E; lra).
  rewrite vangle_opp_r, vangle_self by exact N. ring.
Qed.
Print Assumptions C72_less_than_pi_refuted.

(** A cell with two equal corners gets a negative area, and not the area of the triangle that it is; a triangle with two equal
    corners gets -pi r^2 and not 0. *)
Theorem C72_degenerate_cells p q radius : 0 < radius -> cross p q <> (0, 0, 0) ->
  triangle_area p p q radius = - PI * radius ^ 2 /\
  (forall r, det p q r <> 0 ->
   rectangle_area p p q r radius = triangle_area p q r radius - (PI + spherical_angle p q r) * radius ^ 2 /\
   rectangle_area p p q r radius <= 0).
Proof.
  intros R0 N. assert (Z : cross p p = (0, 0, 0)) by (vec3; cbn; apply triple_eq; ring).
  assert (N' : cross q p <> (0, 0, 0)).
  { rewrite cross_anti. apply scale_nonzero; [lra|exact N]. }
  split.
  - unfold triangle_area. cbv zeta. rewrite (sa_zero p p q), (sa_zero p q p) by auto. rewrite sa_vangle by assumption.
    rewrite vangle_self by assumption. ring.
  - intros r D. destruct (dets _ _ _ D) as (N12 & N21 & N23 & N32 & N13 & N31).
    assert (G : rectangle_area p p q r radius = triangle_area p q r radius - (PI + spherical_angle p q r) * radius ^ 2).
    { unfold rectangle_area, triangle_area. cbv zeta. rewrite (sa_zero p q p), (sa_zero p r p) by auto.
      rewrite (sa_sym q p r), (sa_sym r q p). ring. }
    split; [exact G|]. unfold rectangle_area. cbv zeta. rewrite (sa_zero p q p), (sa_zero p r p) by auto.
    rewrite !sa_vangle by assumption.
    pose proof (vangle_bound (cross q p) (cross q r)). pose proof (vangle_bound (cross r q) (cross r p)).
    assert (0 <= radius ^ 2) by apply pow2_ge_0. nra.
Qed.
Print Assumptions C72_degenerate_cells.
Theorem C72_positive_refuted : exists p q, sq_length p = 1 /\ sq_length q = 1 /\ triangle_area p p q 1 < 0.
Proof.
  exists (1, 0, 0), (0, 1, 0). split; [cbn; ring|]. split; [cbn; ring|].
  destruct (C72_degenerate_cells (1, 0, 0) (0, 1, 0) 1) as [-> _]; [lra|cbn; intro E; inversion E; lra|]. pose proof PI_RGT_0. lra.
Qed.
Print Assumptions C72_positive_refuted.

Example C72_case : det (1, 0, 0) (0, 1, 0) (0, 0, 1) <> 0 /\ on_arc (0, 1, 0) (0, 0, 1) (0, 1, 1).
Proof. cbn. split; [lra|]. exists 1, 1. repeat split; lra. Qed.
Example C72_case_angle : sq_length (1, 0, 0) = 1 /\ sq_length (seen_from (1, 0, 0) (1, 2, 0)) <> 0.
Proof. cbn. split; lra. Qed.
(** a face of the cube *)
Example C72_case_cell : let p1 := (-1, -1, 1) in let p2 := (-1, 1, 1) in let p3 := (1, 1, 1) in let p4 := (1, -1, 1) in
  det p1 p2 p3 <> 0 /\ det p1 p3 p4 <> 0 /\ between p1 p2 p4 p3 /\ between p3 p2 p4 p1.
Proof.
  cbv zeta. repeat split; try (cbn; lra).
  - exists 1, 1, (-1). repeat split; try lra. cbn. apply triple_eq; ring.
  - exists 1, 1, (-1). repeat split; try lra. cbn. apply triple_eq; ring.
Qed.
