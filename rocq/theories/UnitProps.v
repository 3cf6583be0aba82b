(** C81: the unit vectors of the grid. *)
Require Import Reals ZArith Bool List Lia Lra.
From Verif Require Import Base PartModel DecompSpec DecompProofs2 ZarrProofs SphereModel SphereProofs EdgeModel UnitModel.
Local Open Scope Z_scope.

(** ** The direction *)
Lemma leads_ok p a b : clear_direction p a b -> leads p a b (normalize (cross (cross a b) p)).
Proof.
  intros (Hp & Ha & Hb & Hab & H). set (u := cross (cross a b) p).
  assert (Hd : dot u (vsub b a) = ((1 - dot a b) * dot (vadd a b) p)%R).
  { unfold u. replace (1 - dot a b)%R with ((dot a a + dot b b) / 2 - dot a b)%R by (rewrite Ha, Hb; field).
    assert (E : (2 * dot (cross (cross a b) p) (vsub b a) = 2 * (dot a p * dot b b + dot b p * dot a a - dot a b * (dot a p + dot b p)))%R).
    { clear. vec3. cbn [vadd vsub vscale dot cross]. ring. }
    rewrite Hb, Ha, dot_add_l in *. rewrite ?Ha, ?Hb in E. lra. }
  assert (Hab1 : (dot a b < 1)%R).
  { destruct (unit_dot a b Ha Hb) as [_ [L|E]]; [exact L|]. exfalso. apply Hab. apply unit_dot_1; assumption. }
  assert (Hpos : (0 < dot u (vsub b a))%R) by (rewrite Hd; apply Rmult_lt_0_compat; [lra|exact H]).
  assert (Hu : u <> (0, 0, 0)%R).
  { intros E. rewrite E in Hpos. revert Hpos. clear. vec3. cbn [vsub dot]. lra. }
  assert (Hs : (0 < 1 / sqrt (dot u u))%R).
  { apply Rmult_lt_0_compat; [lra|]. apply Rinv_0_lt_compat, sqrt_lt_R0, dot_nonzero, Hu. }
  split; [apply normalize_unit, Hu|]. unfold normalize. rewrite !dot_scale_l. repeat split.
  - replace (dot u p) with 0%R; [ring|]. unfold u. rewrite dot_comm, cross_dot_r. reflexivity.
  - replace (dot u (cross a b)) with 0%R; [ring|]. unfold u. rewrite dot_comm, cross_dot_l. reflexivity.
  - apply Rmult_lt_0_compat; assumption.
Qed.
(** there is at most one such vector, unless p is the pole of the great circle through a and b *)
Lemma leads_unique p a b v w : cross (cross a b) p <> (0, 0, 0)%R -> leads p a b v -> leads p a b w -> v = w.
Proof.
  intros Hn (V1 & V2 & V3 & V4) (W1 & W2 & W3 & W4). set (u := cross (cross a b) p) in *.
  assert (Hu : (0 < dot u u)%R) by (apply dot_nonzero, Hn).
  (* v and w are multiples of u *)
  assert (M : forall x, dot x p = 0%R -> dot x (cross a b) = 0%R -> vscale (dot u u) x = vscale (dot x u) u).
  { intros x X1 X2. assert (E2 : cross x u = (0, 0, 0)%R).
    { unfold u. rewrite triple_cross, X1, X2. generalize (cross a b). clear. vec3. cbn. intros q. destruct q as [[? ?] ?]. apply triple_eq; ring. }
    assert (E : vsub (vscale (dot u u) x) (vscale (dot x u) u) = cross u (cross x u)) by (rewrite triple_cross, (dot_comm u x); reflexivity).
    rewrite E2 in E. revert E. generalize (dot u u), (dot x u). clear. vec3. cbn [vsub vscale cross]. intros k k2 E.
    pose proof (f_equal fst (f_equal fst E)) as E3. pose proof (f_equal snd (f_equal fst E)) as E4. pose proof (f_equal snd E) as E5. cbn in E3, E4, E5.
    apply triple_eq; lra. }
  pose proof (M v V2 V3) as Mv. pose proof (M w W2 W3) as Mw.
  assert (S : forall x, dot x x = 1%R -> vscale (dot u u) x = vscale (dot x u) u -> (dot x u * dot x u = dot u u)%R).
  { intros x X1 X. pose proof (f_equal (fun y => dot y x) X) as E. cbv beta in E. rewrite !dot_scale_l, X1, (dot_comm u x) in E. lra. }
  pose proof (S v V1 Mv) as Sv. pose proof (S w W1 Mw) as Sw.
  pose proof (f_equal (fun y => dot y (vsub b a)) Mv) as Dv. pose proof (f_equal (fun y => dot y (vsub b a)) Mw) as Dw.
  cbv beta in Dv, Dw. rewrite !dot_scale_l in Dv, Dw.
  assert (Pv : (0 < dot v u * dot u (vsub b a))%R) by (rewrite <- Dv; apply Rmult_lt_0_compat; assumption).
  assert (Pw : (0 < dot w u * dot u (vsub b a))%R) by (rewrite <- Dw; apply Rmult_lt_0_compat; assumption).
  assert (E : dot v u = dot w u).
  { destruct (Rmult_integral (dot v u - dot w u) (dot v u + dot w u)) as [E|E]; [lra|lra|].
    assert (dot v u = - dot w u)%R by lra. rewrite H in Pv. lra. }
  rewrite E, <- Mw in Mv. apply (f_equal (vscale (/ dot u u))) in Mv. rewrite !scale_scale in Mv.
  rewrite Rinv_l in Mv by lra. rewrite !scale_1 in Mv. exact Mv.
Qed.

(** ** Specification of the four pairs of vectors, over the whole tile with its halo *)
Section Spec.
  Variables cell corner : Z * Z -> vec.        (* cell centres and corners of the tile with its halo *)
  Variable n : Z.                              (* cells along an edge of the tile *)

  (** the middles of the western and southern edge of cell (I, J), and its centre *)
  Definition west_side (I J : Z) : vec := midpoint (corner (I, J)) (corner (I, J + 1)).
  Definition south_side (I J : Z) : vec := midpoint (corner (I, J)) (corner (I + 1, J)).
  Definition middle_of (I J : Z) : vec := center (corner (I, J)) (corner (I + 1, J)) (corner (I, J + 1)) (corner (I + 1, J + 1)).
  (** neighbours along x or y that are not taken across the edge of the tile: there the point itself stands in *)
  Definition before (k : Z) (p q : vec) : vec := if k =? 0 then p else q.
  Definition after (k : Z) (p q : vec) : vec := if k =? n then p else q.
  (** cells or corners of the halo beyond a corner of the tile, where no grid is; [last] the last index inside the tile *)
  Definition beyond (last k : Z) : bool := (k <? 0) || (last <? k).
  (** [v] is the direction at [p] from [a] to [b], whenever there is one *)
  Definition direction (p a b v : vec) : Prop := clear_direction p a b -> leads p a b v.
End Spec.

(** the point taken for the middle of four corners is the point of the sphere in the direction of their mean, whatever the order of the corners *)
Theorem C81_middle p q r s : let mean := vscale (1 / 4) (vadd (vadd s r) (vadd q p)) in mean <> (0, 0, 0)%R ->
  dot (center p q r s) (center p q r s) = 1%R /\ exists k, (0 < k)%R /\ vscale k (center p q r s) = mean.
Proof.
  intros mean N. set (t := vadd (vadd (vadd p q) r) s).
  assert (E : mean = vscale (1 / 4) t).
  { unfold mean, t. destruct p as [[p0 p1] p2], q as [[q0 q1] q2], r as [[r0 r1] r2], s as [[s0 s1] s2]. cbn [vadd vscale]. apply triple_eq; ring. }
  assert (Nt : t <> (0, 0, 0)%R). { intros Z. apply N. rewrite E, Z. cbn [vscale]. apply triple_eq; ring. }
  unfold center. fold t. split; [apply normalize_unit, Nt|]. pose proof (dot_nonzero t Nt) as P. exists (sqrt (dot t t) / 4)%R.
  assert (S : (0 < sqrt (dot t t))%R) by (apply sqrt_lt_R0, P). split; [lra|]. rewrite E. unfold normalize. rewrite scale_scale. f_equal. field. lra.
Qed.

(** ** Indices *)
Lemma fill_cond (L R' B T li hi lj hj : bool) : (L && ((B && (li && lj)) || (T && (li && hj)))) || (R' && ((B && (hi && lj)) || (T && (hi && hj)))) =
  ((L && li) || (R' && hi)) && ((B && lj) || (T && hj)).
Proof. destruct L, R', B, T, li, hi, lj, hj; reflexivity. Qed.
(** along one direction: [m] ranks of [w] cells, rank [s] starts at [g] *)
Lemma beyond_ok m w s e x : 0 <= s < m -> 3 <= w -> 0 <= e <= 1 -> 0 <= x < w + 6 + e ->
  ((s =? 0) && (x <? 3)) || ((s =? m - 1) && (w + 6 + e - 3 <=? x)) = beyond (m * w - 1 + e) (s * w + x - 3).
Proof.
  intros Hs Hw He Hx. unfold beyond.
  assert (A : (s =? 0) && (x <? 3) = (s * w + x - 3 <? 0)).
  { destruct (Z.eqb_spec s 0) as [->|N]; cbn [andb]; [apply eq_true_iff_eq; rewrite !Z.ltb_lt; lia|]. symmetry. apply Z.ltb_ge. nia. }
  assert (B : (s =? m - 1) && (w + 6 + e - 3 <=? x) = (m * w - 1 + e <? s * w + x - 3)).
  { destruct (Z.eqb_spec s (m - 1)) as [->|N]; cbn [andb].
    - apply eq_true_iff_eq. rewrite Z.leb_le, Z.ltb_lt. nia.
    - symmetry. apply Z.ltb_ge. assert (s * w <= (m - 2) * w) by (apply Z.mul_le_mono_nonneg_r; lia). lia. }
  rewrite A, B. reflexivity.
Qed.
Lemma first_ok m w s x : 0 <= s < m -> 3 <= w -> 0 <= x -> (s =? 0) && (x =? 2) = (s * w + x - 2 =? 0).
Proof. intros Hs Hw Hx. apply eq_true_iff_eq. rewrite andb_true_iff, !Z.eqb_eq. split; [intros [-> ->]; lia|]. intros H. assert (s = 0) by nia. subst. split; lia. Qed.
Lemma last_ok m w s x : 0 <= s < m -> 3 <= w -> x < w + 5 -> (s =? m - 1) && (x =? w + 2) = (s * w + x - 2 =? m * w).
Proof. intros Hs Hw Hx. apply eq_true_iff_eq. rewrite andb_true_iff, !Z.eqb_eq. split; [intros [-> ->]; lia|]. intros H. assert (s = m - 1). { destruct (Z.eq_dec s (m - 1)) as [|N]; [assumption|]. assert (s * w <= (m - 2) * w) by (apply Z.mul_le_mono_nonneg_r; lia). lia. } subst. split; lia. Qed.

Lemma first_at m w s x : 0 <= s < m -> 3 <= w -> 0 <= x -> s * w + x - 2 = 0 -> x = 2 /\ s * w = 0.
Proof. intros Hs Hw Hx E. pose proof (first_ok m w s x Hs Hw Hx) as F. rewrite (proj2 (Z.eqb_eq _ _) E) in F. apply andb_true_iff in F. rewrite !Z.eqb_eq in F. destruct F; subst; lia. Qed.
Lemma last_at m w s x : 0 <= s < m -> 3 <= w -> x < w + 5 -> s * w + x - 2 = m * w -> x = w + 2 /\ s * w + w = m * w /\ m * w <> 0.
Proof. intros Hs Hw Hx E. pose proof (last_ok m w s x Hs Hw Hx) as F. rewrite (proj2 (Z.eqb_eq _ _) E) in F. apply andb_true_iff in F. rewrite !Z.eqb_eq in F. destruct F; subst; nia. Qed.

Section Theorems.
  Variable big_number : R.
  Variable grid_type : Z.
  Hypothesis Sphere : grid_type < 3.
  Variables cell corner : Z * Z -> vec.
  Variables (l : layout) (rank w h n : Z).
  Hypothesis Hl : 0 < fst l <= 2 ^ 52 /\ 0 < snd l <= 2 ^ 52.
  Hypothesis Hw : 3 <= w.
  Hypothesis Hh : 3 <= h.
  Hypothesis Nx : n = snd l * w.
  Hypothesis Ny : n = fst l * h.
  Let sub := subtile_index l rank.
  Let gi := snd sub * w.
  Let gj := fst sub * h.
  (** what the rank holds: its part of the corners and of the cells, with three halo points *)
  Let D := window corner gi gj (w + 7) (h + 7).
  Let A := window cell gi gj (w + 6) (h + 6).

  Local Ltac setup := pose proof (sub_valid l Hl rank) as [Sy Sx]; fold sub in Sy, Sx.
  Local Lemma grid_ltb : (grid_type <? 3) = true. Proof. apply Z.ltb_lt, Sphere. Qed.

  Lemma direction_ok p a b p' a' b' : p' = p -> a' = a -> b' = b -> direction p a b (normalize (cross (cross a' b') p')).
  Proof. intros -> -> -> C. apply leads_ok, C. Qed.
  Local Ltac pt := unfold west_side, south_side, middle_of; repeat (f_equal; try lia).

  (** western edges of the cells *)
  Theorem C81_west :
    let '(ew1, ew2) := with_flags l rank (fun left right bottom top => calc_unit_vector_west grid_type 3 left right bottom top D A) in
    len0 ew1 = w + 5 /\ len1 ew1 = h + 6 /\ len0 ew2 = w + 5 /\ len1 ew2 = h + 6 /\
    forall a b, 0 <= a < w + 5 -> 0 <= b < h + 6 ->
      let I := gi + a - 2 in let J := gj + b - 3 in
      if beyond n I && beyond (n - 1) J then at2 ew1 a b = (0, 0, 0)%R /\ at2 ew2 a b = (0, 0, 0)%R
      else let p := west_side corner I J in
        direction p (before I p (cell (I - 1, J))) (after n I p (cell (I, J))) (at2 ew1 a b) /\
        direction p (corner (I, J)) (corner (I, J + 1)) (at2 ew2 a b).
  Proof.
    unfold with_flags, calc_unit_vector_west. rewrite grid_ltb. setup.
    unfold inner_i, fill_halo_corners, D, A, window. cbn [len0 len1 at2].
    split; [lia|]. split; [lia|]. split; [lia|]. split; [lia|]. intros a b Ha Hb. set (I := gi + a - 2). set (J := gj + b - 3).
    rewrite fill_cond. unfold on_tile_left, on_tile_right, on_tile_bottom, on_tile_top. fold sub.
    replace (w + 7 - 3) with (w + 6 + 1 - 3) by lia. replace (h + 6 - 3) with (h + 6 + 0 - 3) by lia.
    rewrite (beyond_ok (snd l) w (snd sub) 1) by lia. rewrite (beyond_ok (fst l) h (fst sub) 0) by lia. fold gi gj. rewrite <- Nx, <- Ny.
    replace (n - 1 + 1) with n by lia. replace (n - 1 + 0) with (n - 1) by lia. replace (gi + (a + 1) - 3) with I by (unfold I; lia). fold J.
    destruct (beyond n I && beyond (n - 1) J); [split; reflexivity|].
    replace ((1 <=? a + 1) && (a + 1 <? w + 7 - 1)) with true by (symmetry; apply andb_true_iff; rewrite Z.leb_le, Z.ltb_lt; lia).
    replace (a + 1 - 1) with a by lia. replace (3 - 1) with 2 by lia. replace (w + 6 - 1 - 3) with (w + 2) by lia.
    rewrite (first_ok (snd l) w), (last_ok (snd l) w) by lia. fold gi. rewrite <- Nx. fold I.
    unfold before, after. split.
    - pose proof (first_at (snd l) w (snd sub) a Sx Hw ltac:(lia)) as F0. pose proof (last_at (snd l) w (snd sub) a Sx Hw ltac:(lia)) as Fn.
      fold gi I in F0, Fn. rewrite <- Nx in Fn.
      destruct (Z.eqb_spec I n) as [En|En]; destruct (Z.eqb_spec I 0) as [E0|E0]; try lia; apply direction_ok; pt.
    - apply direction_ok; pt.
  Qed.

  (** southern edges of the cells *)
  Theorem C81_south :
    let '(es1, es2) := with_flags l rank (fun left right bottom top => calc_unit_vector_south grid_type 3 left right bottom top D A) in
    len0 es1 = w + 6 /\ len1 es1 = h + 5 /\ len0 es2 = w + 6 /\ len1 es2 = h + 5 /\
    forall a b, 0 <= a < w + 6 -> 0 <= b < h + 5 ->
      let I := gi + a - 3 in let J := gj + b - 2 in
      if beyond (n - 1) I && beyond n J then at2 es1 a b = (0, 0, 0)%R /\ at2 es2 a b = (0, 0, 0)%R
      else let p := south_side corner I J in
        direction p (corner (I, J)) (corner (I + 1, J)) (at2 es1 a b) /\
        direction p (before J p (cell (I, J - 1))) (after n J p (cell (I, J))) (at2 es2 a b).
  Proof.
    unfold with_flags, calc_unit_vector_south. rewrite grid_ltb. setup.
    unfold inner_j, fill_halo_corners, D, A, window. cbn [len0 len1 at2].
    split; [lia|]. split; [lia|]. split; [lia|]. split; [lia|]. intros a b Ha Hb. set (I := gi + a - 3). set (J := gj + b - 2).
    rewrite fill_cond. unfold on_tile_left, on_tile_right, on_tile_bottom, on_tile_top. fold sub.
    replace (h + 7 - 3) with (h + 6 + 1 - 3) by lia. replace (w + 6 - 3) with (w + 6 + 0 - 3) by lia.
    rewrite (beyond_ok (snd l) w (snd sub) 0) by lia. rewrite (beyond_ok (fst l) h (fst sub) 1) by lia. fold gi gj. rewrite <- Nx, <- Ny.
    replace (n - 1 + 1) with n by lia. replace (n - 1 + 0) with (n - 1) by lia. replace (gj + (b + 1) - 3) with J by (unfold J; lia). fold I.
    destruct (beyond (n - 1) I && beyond n J); [split; reflexivity|].
    replace ((1 <=? b + 1) && (b + 1 <? h + 7 - 1)) with true by (symmetry; apply andb_true_iff; rewrite Z.leb_le, Z.ltb_lt; lia).
    replace (b + 1 - 1) with b by lia. replace (3 - 1) with 2 by lia. replace (h + 6 - 1 - 3) with (h + 2) by lia.
    rewrite (first_ok (fst l) h), (last_ok (fst l) h) by lia. fold gj. rewrite <- Ny. fold J.
    unfold before, after. split.
    - apply direction_ok; pt.
    - pose proof (first_at (fst l) h (fst sub) b Sy Hh ltac:(lia)) as F0. pose proof (last_at (fst l) h (fst sub) b Sy Hh ltac:(lia)) as Fn.
      fold gj J in F0, Fn. rewrite <- Ny in Fn.
      destruct (Z.eqb_spec J n) as [En|En]; destruct (Z.eqb_spec J 0) as [E0|E0]; try lia; apply direction_ok; pt.
  Qed.

  Lemma direction_ok' p a b p' a' b' : p' = p -> a' = a -> b' = b -> direction p a b (normalize (cross p' (cross b' a'))).
  Proof.
    intros -> -> -> C. replace (cross p (cross b a)) with (cross (cross a b) p); [apply leads_ok, C|]. clear. vec3. cbn [cross]. apply triple_eq; ring.
  Qed.
  (** centres of the cells *)
  Theorem C81_centre :
    let '(ec1, ec2) := with_flags l rank (fun left right bottom top => get_center_vector big_number grid_type 3 left right bottom top D) in
    len0 ec1 = w + 6 /\ len1 ec1 = h + 6 /\ len0 ec2 = w + 6 /\ len1 ec2 = h + 6 /\
    forall a b, 0 <= a < w + 6 -> 0 <= b < h + 6 ->
      let I := gi + a - 3 in let J := gj + b - 3 in
      if beyond (n - 1) I && beyond (n - 1) J then at2 ec1 a b = all_of big_number /\ at2 ec2 a b = all_of big_number
      else let p := middle_of corner I J in
        direction p (west_side corner I J) (west_side corner (I + 1) J) (at2 ec1 a b) /\
        direction p (south_side corner I J) (south_side corner I (J + 1)) (at2 ec2 a b).
  Proof.
    unfold with_flags, get_center_vector. rewrite grid_ltb. setup.
    unfold fill_halo_corners, D, window. cbn [len0 len1 at2].
    split; [lia|]. split; [lia|]. split; [lia|]. split; [lia|]. intros a b Ha Hb. set (I := gi + a - 3). set (J := gj + b - 3).
    rewrite fill_cond. unfold on_tile_left, on_tile_right, on_tile_bottom, on_tile_top. fold sub.
    replace (h + 7 - 1 - 3) with (h + 6 + 0 - 3) by lia. replace (w + 7 - 1 - 3) with (w + 6 + 0 - 3) by lia.
    rewrite (beyond_ok (snd l) w (snd sub) 0) by lia. rewrite (beyond_ok (fst l) h (fst sub) 0) by lia. fold gi gj. rewrite <- Nx, <- Ny.
    replace (n - 1 + 0) with (n - 1) by lia. fold I J.
    destruct (beyond (n - 1) I && beyond (n - 1) J); [split; reflexivity|].
    split; apply direction_ok'; pt.
  Qed.

  (** corners of the cells, without the halo *)
  Theorem C81_corner :
    let '(ee1, ee2) := with_flags l rank (fun left right bottom top => calculate_xy_unit_vectors 3 left right bottom top D) in
    len0 ee1 = w + 1 /\ len1 ee1 = h + 1 /\ len0 ee2 = w + 1 /\ len1 ee2 = h + 1 /\
    forall a b, 0 <= a <= w -> 0 <= b <= h ->
      let I := gi + a in let J := gj + b in
      let p := corner (I, J) in
        direction p (before I p (corner (I - 1, J))) (after n I p (corner (I + 1, J))) (at2 ee1 a b) /\
        direction p (before J p (corner (I, J - 1))) (after n J p (corner (I, J + 1))) (at2 ee2 a b).
  Proof.
    unfold with_flags, calculate_xy_unit_vectors. setup. unfold D, window. cbn [len0 len1 at2].
    split; [lia|]. split; [lia|]. split; [lia|]. split; [lia|]. intros a b Ha Hb. set (I := gi + a). set (J := gj + b).
    unfold on_tile_left, on_tile_right, on_tile_bottom, on_tile_top. fold sub.
    pose proof (first_ok (snd l) w (snd sub) (a + 2) Sx Hw ltac:(lia)) as F. pose proof (last_ok (snd l) w (snd sub) (a + 2) Sx Hw ltac:(lia)) as F'.
    pose proof (first_at (snd l) w (snd sub) (a + 2) Sx Hw ltac:(lia)) as F0. pose proof (last_at (snd l) w (snd sub) (a + 2) Sx Hw ltac:(lia)) as Fn.
    pose proof (first_ok (fst l) h (fst sub) (b + 2) Sy Hh ltac:(lia)) as G. pose proof (last_ok (fst l) h (fst sub) (b + 2) Sy Hh ltac:(lia)) as G'.
    pose proof (first_at (fst l) h (fst sub) (b + 2) Sy Hh ltac:(lia)) as G0. pose proof (last_at (fst l) h (fst sub) (b + 2) Sy Hh ltac:(lia)) as Gn.
    fold gi in F, F', F0, Fn. fold gj in G, G', G0, Gn. rewrite <- Nx in F', Fn. rewrite <- Ny in G', Gn.
    assert (EI : gi + (a + 2) - 2 = I) by (unfold I; ring). assert (EJ : gj + (b + 2) - 2 = J) by (unfold J; ring).
    rewrite EI in F, F', F0, Fn. rewrite EJ in G, G', G0, Gn.
    replace (w + 7 - 2 * 3 - 1 ) with w by ring. replace (h + 7 - 2 * 3 - 1) with h by ring.
    replace (a + 2 =? 2) with (a =? 0) in F by (apply eq_true_iff_eq; rewrite !Z.eqb_eq; clear; lia). replace (b + 2 =? 2) with (b =? 0) in G by (apply eq_true_iff_eq; rewrite !Z.eqb_eq; clear; lia).
    replace (a + 2 =? w + 2) with (a =? w) in F' by (apply eq_true_iff_eq; rewrite !Z.eqb_eq; clear; lia). replace (b + 2 =? h + 2) with (b =? h) in G' by (apply eq_true_iff_eq; rewrite !Z.eqb_eq; clear; lia).
    rewrite F, F', G, G'. unfold before, after. split.
    - clear F F' G G' G0 Gn. destruct (Z.eqb_spec I n) as [En|En]; destruct (Z.eqb_spec I 0) as [E0|E0]; try lia; apply direction_ok; pt.
    - clear F F' G G' F0 Fn. destruct (Z.eqb_spec J n) as [En|En]; destruct (Z.eqb_spec J 0) as [E0|E0]; try lia; apply direction_ok; pt.
  Qed.
End Theorems.

(** in the theorems above the points and so the direction do not depend on the layout or the rank, only on (I, J): all ranks of all layouts
    that hold a place of the tile have the same vector there *)
Theorem C81_one_direction p a b v w : clear_direction p a b -> direction p a b v -> direction p a b w -> v = w.
Proof.
  intros C V W. specialize (V C). specialize (W C). apply (leads_unique p a b); [|assumption..].
  intros E. pose proof (leads_ok p a b C) as (H & _). rewrite E in H. unfold normalize in H. rewrite dot_scale_l, dot_scale_r in H. cbn [dot] in H. lra.
Qed.

(** C81, finding: for the flat grids (grid_type >= 3) the same functions do not give the same two axes: the x axis is (1, 0, 0) in the cells and
    (0, 1, 0) on their western edges *)
Theorem C81_flat_refuted : exists grid_type nhalo left right bottom top d a i j,
  3 <= grid_type /\ len0 a = len0 d - 1 /\ len1 a = len1 d - 1 /\ 0 <= i < len0 a - 1 /\ 0 <= j < len1 a /\
  let '(c1, c2) := get_center_vector (10 ^ 8) grid_type nhalo left right bottom top d in
  let '(w1, w2) := calc_unit_vector_west grid_type nhalo left right bottom top d a in
  at2 c1 i j = (1, 0, 0)%R /\ at2 c2 i j = (0, 1, 0)%R /\ at2 w1 i j = (0, 1, 0)%R /\ at2 w2 i j = (0, 0, 1)%R.
Proof.
  exists 4, 3, true, true, true, true, (mkArr2 13 13 (fun _ _ => (0, 0, 0)%R)), (mkArr2 12 12 (fun _ _ => (0, 0, 0)%R)), 5, 5.
  cbn [len0 len1]. repeat split; try lia.
Qed.

(** a grid with lines of longitude and latitude; all hypotheses are met *)
Definition ex_corner (k : Z * Z) : vec := lon_lat_to_xyz (IZR (fst k) / 100) (IZR (snd k) / 100).
Definition ex_cell (k : Z * Z) : vec := lon_lat_to_xyz (IZR (2 * fst k + 1) / 200) (IZR (2 * snd k + 1) / 200).
Definition all_pos (v : vec) : Prop := let '(x, y, z) := v in (0 < x /\ 0 < y /\ 0 < z)%R.
Lemma lonlat_pos lon lat : (0 < lon < 1 -> 0 < lat < 1 -> all_pos (lon_lat_to_xyz lon lat))%R.
Proof.
  intros H1 H2. rewrite xyz_eq. pose proof PI2_1 as P. cbn [all_pos]. pose proof PI_RGT_0.
  assert (0 < cos lon)%R by (apply cos_gt_0; lra). assert (0 < cos lat)%R by (apply cos_gt_0; lra).
  assert (0 < sin lon)%R by (apply sin_gt_0; lra). assert (0 < sin lat)%R by (apply sin_gt_0; lra).
  repeat split; try apply Rmult_lt_0_compat; assumption.
Qed.
Lemma pos_dot u v : all_pos u -> all_pos v -> (0 < dot u v)%R.
Proof.
  destruct u as [[a b] c], v as [[x y] z]. cbn [all_pos dot]. intros (? & ? & ?) (? & ? & ?).
  assert (0 < a * x)%R by (apply Rmult_lt_0_compat; assumption). assert (0 < b * y)%R by (apply Rmult_lt_0_compat; assumption).
  assert (0 < c * z)%R by (apply Rmult_lt_0_compat; assumption). lra.
Qed.
Lemma pos_add u v : all_pos u -> all_pos v -> all_pos (vadd u v).
Proof. destruct u as [[a b] c], v as [[x y] z]. cbn [all_pos vadd]. intros (? & ? & ?) (? & ? & ?). lra. Qed.
Lemma pos_nonzero u : all_pos u -> u <> (0, 0, 0)%R.
Proof. intros H ->. cbn in H. lra. Qed.
Lemma pos_normalize u : all_pos u -> all_pos (normalize u).
Proof.
  intros H. assert (S : (0 < 1 / sqrt (dot u u))%R).
  { apply Rmult_lt_0_compat; [lra|]. apply Rinv_0_lt_compat, sqrt_lt_R0, dot_nonzero, pos_nonzero, H. }
  unfold normalize. revert S. generalize (1 / sqrt (dot u u))%R. intros k S. destruct u as [[a b] c]. cbn [all_pos vscale] in *.
  destruct H as (? & ? & ?). repeat split; apply Rmult_lt_0_compat; assumption.
Qed.
Lemma pos_clear p a b : dot p p = 1%R -> dot a a = 1%R -> dot b b = 1%R -> a <> b -> all_pos p -> all_pos a -> all_pos b -> clear_direction p a b.
Proof. intros. unfold clear_direction. repeat split; try assumption. apply pos_dot; [apply pos_add|]; assumption. Qed.

Example C81_case :
  let l := (2, 2)%Z in
  clear_direction (west_side ex_corner 5 5) (ex_cell (4, 5)) (ex_cell (5, 5)) /\ clear_direction (west_side ex_corner 5 5) (ex_corner (5, 5)) (ex_corner (5, 6)) /\
  let '(ew1, ew2) := with_flags l 3 (fun left right bottom top => calc_unit_vector_west 0 3 left right bottom top (window ex_corner 4 4 11 11) (window ex_cell 4 4 10 10)) in
  leads (west_side ex_corner 5 5) (ex_cell (4, 5)) (ex_cell (5, 5)) (at2 ew1 3 4) /\ at2 ew2 8 8 = (0, 0, 0)%R.
Proof.
  intros l.
  assert (P1 : clear_direction (west_side ex_corner 5 5) (ex_cell (4, 5)) (ex_cell (5, 5))).
  { apply pos_clear; try apply xyz_unit.
    - apply normalize_unit, pos_nonzero, pos_add; apply lonlat_pos; cbn [fst snd]; change (5 + 1) with 6; lra.
    - unfold ex_cell. cbn [fst snd]. change (2 * 4 + 1) with 9. change (2 * 5 + 1) with 11. rewrite !xyz_eq. intros E. pose proof (f_equal (fun v => snd (fst v)) E) as E2. cbn [fst snd] in E2. pose proof PI2_1.
      apply Rmult_eq_reg_l in E2.
      + assert (sin (9 / 200) < sin (11 / 200))%R by (apply sin_increasing_1; lra). lra.
      + assert (0 < cos (11 / 200))%R by (apply cos_gt_0; lra). lra.
    - apply pos_normalize, pos_add; apply lonlat_pos; cbn [fst snd]; change (5 + 1) with 6; lra.
    - apply lonlat_pos; cbn [fst snd]; change (2 * 4 + 1) with 9; change (2 * 5 + 1) with 11; lra.
    - apply lonlat_pos; cbn [fst snd]; change (2 * 4 + 1) with 9; change (2 * 5 + 1) with 11; lra. }
  assert (P2 : clear_direction (west_side ex_corner 5 5) (ex_corner (5, 5)) (ex_corner (5, 6))).
  { apply pos_clear; try apply xyz_unit.
    - apply normalize_unit, pos_nonzero, pos_add; apply lonlat_pos; cbn [fst snd]; change (5 + 1) with 6; lra.
    - unfold ex_corner. cbn [fst snd]. rewrite !xyz_eq. intros E. pose proof (f_equal snd E) as E2. cbn [fst snd] in E2. pose proof PI2_1.
      assert (sin (5 / 100) < sin (6 / 100))%R by (apply sin_increasing_1; lra). lra.
    - apply pos_normalize, pos_add; apply lonlat_pos; cbn [fst snd]; change (5 + 1) with 6; lra.
    - apply lonlat_pos; cbn [fst snd]; change (5 + 1) with 6; lra.
    - apply lonlat_pos; cbn [fst snd]; change (5 + 1) with 6; lra. }
  split; [exact P1|]. split; [exact P2|].
  pose proof (C81_west 0 ltac:(lia) ex_cell ex_corner l 3 4 4 8 ltac:(cbn; lia) ltac:(lia) ltac:(lia) eq_refl eq_refl) as T.
  cbv zeta in T. change (snd (subtile_index l 3) * 4) with 4 in T. change (fst (subtile_index l 3) * 4) with 4 in T. change (4 + 7) with 11 in T. change (4 + 6) with 10 in T.
  destruct (with_flags l 3 _) as [ew1 ew2]. destruct T as (_ & _ & _ & _ & T). split.
  - apply (T 3 4); [lia|lia|exact P1].
  - apply (T 8 8); lia.
Qed.
Print Assumptions C81_middle.
Print Assumptions C81_west.
Print Assumptions C81_south.
Print Assumptions C81_centre.
Print Assumptions C81_corner.
Print Assumptions C81_one_direction.
Print Assumptions C81_flat_refuted.
