(** Whole vector halo updates on the cube and on the periodic tile. *)
From Verif Require Import Base PartModel PartSpec PartProofs PartGeom PartGeom2 DecompModel DecompSpec
  HaloModel HaloSpec HaloProofs HaloExchange HaloPack HaloNetSpec HaloNet HaloCube HaloNetEnd VecModel VecNet.
Open Scope Z_scope.

Lemma region_put s' D b i : same_axes (sp_dims s') D -> region s' b i = put_xy D (compute_domain s') (range_x s' b i) (range_y s' b i).
Proof. intros SA. unfold region, range_x, range_y. apply put_same; auto. Qed.

(** HaloNet.rotated_value and rotated_fits for a sender whose dimensions differ in staggering *)
Lemma rotated_value' {A} (b b' : boundary) (s s' : spec) (q : index -> A) p :
  wf_spec s -> wf_spec s' -> same_axes (sp_dims s') (sp_dims s) -> sp_origin s' = sp_origin s -> length p = length (sp_dims s) ->
  snd (rotated b' s' q) (unshift (region s (b_type b) false) p) =
  let D := sp_dims s in
  let src := turn_back ((- b_rot b') mod 4) (len (range_x s' (b_type b') true)) (len (range_y s' (b_type b') true))
               (cx D p - fst (range_x s (b_type b) false)) (cy D p - fst (range_y s (b_type b) false)) in
  q (put_xy D p (fst (range_x s' (b_type b') true) + fst src) (fst (range_y s' (b_type b') true) + snd src)).
Proof.
  intros W W' SA EO Lp. destruct (wf_lengths s W) as (P & Lo & Le & Lh), (wf_lengths s' W') as (P' & Lo' & Le' & Lh').
  pose proof (len_same _ _ SA) as LD.
  cbn zeta. set (D := sp_dims s) in *. unfold rotated, view.
  rewrite (rotate_value_same _ D) by exact SA.
  assert (Lsh : length (shape_of (region s' (b_type b') true)) = length D) by (rewrite shape_of_length, region_length by auto; lia).
  rewrite (proj2 (rotate_coords D (shape_of (region s' (b_type b') true)) _ (- b_rot b') P Lsh))
    by (rewrite unshift_length; [exact Lp|rewrite region_length by auto; exact Lp]).
  assert (Hk : 0 <= (- b_rot b') mod 4 < 4) by (apply Z.mod_pos_bound; lia).
  unfold take_slice.
  assert (U : unshift (region s (b_type b) false) p =
     put_xy D (unshift (compute_domain s) p) (cx D p - fst (range_x s (b_type b) false)) (cy D p - fst (range_y s (b_type b) false))).
  { unfold region. fold D. rewrite <- (put_cxy D P p) at 1. rewrite unshift_put. reflexivity. }
  rewrite U. set (u := cx D p - _). set (v := cy D p - _).
  assert (Lu : length (unshift (compute_domain s) p) = length D) by (rewrite unshift_length; [exact Lp|rewrite cdom_length by auto; exact Lp]).
  rewrite !(region_put s' D) by exact SA.
  assert (SX : cx D (shape_of (put_xy D (compute_domain s') (range_x s' (b_type b') true) (range_y s' (b_type b') true))) = len (range_x s' (b_type b') true)).
  { unfold shape_of. rewrite put_map. rewrite cx_put by (auto; rewrite map_length, cdom_length; auto). reflexivity. }
  assert (SY : cy D (shape_of (put_xy D (compute_domain s') (range_x s' (b_type b') true) (range_y s' (b_type b') true))) = len (range_y s' (b_type b') true)).
  { unfold shape_of. rewrite put_map. rewrite cy_put by (auto; rewrite map_length, cdom_length; auto). reflexivity. }
  assert (RS : rot_src D (shape_of (put_xy D (compute_domain s') (range_x s' (b_type b') true) (range_y s' (b_type b') true))) ((- b_rot b') mod 4) (put_xy D (unshift (compute_domain s) p) u v)
     = let src := turn_back ((- b_rot b') mod 4) (len (range_x s' (b_type b') true)) (len (range_y s' (b_type b') true)) u v in
       put_xy D (unshift (compute_domain s) p) (fst src) (snd src)).
  { unfold rot_src, turn_back. rewrite !cx_put, !cy_put, SX, SY by auto.
    destruct (mod4 _ Hk) as [->|[->|[->| ->]]]; cbn [fst snd]; rewrite ?put_xy_put; reflexivity. }
  rewrite RS. cbn zeta. rewrite shift_put. rewrite shift_back.
  - f_equal. f_equal; lia.
  - rewrite !cdom_fst by auto. congruence.
  - rewrite cdom_length; auto.
Qed.

Lemma rotated_fits' {A} (b b' : boundary) (s s' : spec) (q : index -> A) ext :
  wf_spec s -> wf_spec s' -> same_axes (sp_dims s') (sp_dims s) ->
  (forall x y, put_xy (sp_dims s) (sp_extent s) x y = put_xy (sp_dims s) ext x y) ->
  (forall x y, put_xy (sp_dims s) (sp_extent s') x y = put_xy (sp_dims s) ext x y) ->
  (let wx := len (range_x s' (b_type b') true) in let wy := len (range_y s' (b_type b') true) in
   len (range_x s (b_type b) false) = (if Z.even ((- b_rot b') mod 4) then wx else wy) /\
   len (range_y s (b_type b) false) = (if Z.even ((- b_rot b') mod 4) then wy else wx)) ->
  fst (rotated b' s' q) = shape_of (region s (b_type b) false).
Proof.
  intros W W' SA E1 E2 [Ex Ey]. destruct (wf_lengths s W) as (P & Lo & Le & Lh), (wf_lengths s' W') as (P' & Lo' & Le' & Lh').
  pose proof (len_same _ _ SA) as LD.
  assert (Lx : length ext = length (sp_dims s)).
  { specialize (E1 0 0). apply (f_equal (@length Z)) in E1. rewrite !put_xy_length in E1. lia. }
  unfold rotated. rewrite (rotate_shape_same _ (sp_dims s)) by exact SA. unfold view.
  rewrite (proj1 (rotate_coords (sp_dims s) (shape_of (region s' (b_type b') true)) _ (- b_rot b') P ltac:(rewrite shape_of_length, region_length by auto; lia))).
  rewrite !region_shape by auto. rewrite (put_same (sp_dims s') (sp_dims s)) by exact SA.
  unfold len, range_x, range_y in Ex, Ey. rewrite !range1_width in Ex, Ey.
  rewrite E1, E2. unfold rot_shape.
  destruct (Z.even ((- b_rot b') mod 4)).
  - rewrite Ex, Ey. reflexivity.
  - rewrite cx_put, cy_put by auto. rewrite put_xy_put, Ex, Ey. reflexivity.
Qed.

(** HaloNet.moved_inside for a sender whose dimensions differ in staggering *)
Lemma moved_inside' s s' D D' origin ext n xlo xhi ylo yhi xlo' xhi' ylo' yhi' b p x y :
  holds_cells s D origin ext n xlo xhi ylo yhi -> holds_cells s' D' origin ext n xlo' xhi' ylo' yhi' -> same_axes D' D ->
  n <= xhi' - xlo' -> n <= yhi' - ylo' ->
  inside (region s b false) p ->
  cx D origin <= x < cx D origin + (xhi' - xlo') + b2z (iface_x D') ->
  cy D origin <= y < cy D origin + (yhi' - ylo') + b2z (iface_y D') ->
  inside (compute_domain s') (put_xy D p x y).
Proof.
  intros H H' SA Wx' Wy' I Hx Hy. destruct (h_plane _ _ _ _ _ _ _ _ _ H) as (P & Lo & Lx & _).
  destruct (h_plane _ _ _ _ _ _ _ _ _ H') as (P' & Lo' & Lx' & _).
  destruct (holds_room _ _ _ _ _ _ _ _ _ H' Wx' Wy') as (Ex & Ey & _). pose proof (len_same _ _ SA) as LD.
  destruct H as (W & ED & EO & En & Ee & _), H' as (W' & ED' & EO' & En' & Ee' & _).
  apply inside_region in I; auto. apply inside_compute; auto. cbn zeta in *. rewrite ED, EO, En in I. rewrite ED', EO', Ex, Ey.
  destruct I as (Lp & _ & _ & I).
  rewrite !(cx_same D' D), !(cy_same D' D), !(put_same D' D) by exact SA.
  rewrite put_xy_length, put_xy_put, cx_put, cy_put by auto. split; [lia|]. split; [lia|]. split; [lia|].
  unfold compute_domain in *. rewrite EO, Ee, box_ext in I by auto. rewrite EO', Ee'. rewrite (put_same D' D) by exact SA. rewrite box_ext by auto. exact I.
Qed.

Section Pair.
  Context {A : Type}.
  Variables (n N : Z) (cut : Z -> Z) (origin ext : list Z) (h : Z).
  Hypothesis Hn : 0 < n.
  Hypothesis Hpal : palindromic n cut.
  Hypothesis C : cuts n N h cut.
  Let R := 6 * (n * n).
  Notation cells s D r := (holds_cells s D origin ext h (cut (col_of n r)) (cut (col_of n r + 1)) (cut (row_of n r)) (cut (row_of n r + 1))).

  (** one component received from one component of a neighbour: where the value comes from, and that it fits *)
  Lemma pair_source r b b' s s' D D' (q : index -> A) : 0 <= r < R -> In b (cbnds n r) -> mates (cbnds n) r b b' ->
    cells s D r -> cells s' D' (b_to b) -> same_axes D' D ->
    (iface_x D', iface_y D') = (if Z.even (b_rot b) then (iface_x D, iface_y D) else (iface_y D, iface_x D)) ->
    let k := b_rot b in
    (- b_rot b') mod 4 = k /\ 0 <= k < 4 /\
    fst (rotated b' s' q) = shape_of (region s (b_type b) false) /\
    forall p, inside (region s (b_type b) false) p ->
      exists v p', fold N (tile_of n r) (face_x N s (cut (col_of n r)) p) (face_y N s (cut (row_of n r)) p) = Some v /\
      snd (rotated b' s' q) (unshift (region s (b_type b) false) p) = q p' /\
      inside (compute_domain s') p' /\ put_xy D' p' 0 0 = put_xy D p 0 0 /\
      surface N (tile_of n (b_to b)) (face_x N s' (cut (col_of n (b_to b))) p') (face_y N s' (cut (row_of n (b_to b))) p') = v /\
      carried_ax N (tile_of n r) (face_x N s (cut (col_of n r)) p) (face_y N s (cut (row_of n r)) p) = turn_x k (ax (tile_of n (b_to b))) (ay (tile_of n (b_to b))) /\
      carried_ay N (tile_of n r) (face_x N s (cut (col_of n r)) p) (face_y N s (cut (row_of n r)) p) = turn_y k (ax (tile_of n (b_to b))) (ay (tile_of n (b_to b))).
  Proof.
    intros Hr Hb [I1 I2] S1 S2 SA St. cbn zeta.
    destruct (cube_step n 1%nat Hn ltac:(lia) r b Hr Hb) as (b0 & wx & wy & K). cbn zeta in K.
    destruct K as (Ht & J1 & J2 & Hk & Ek & Edir & Bwx & Bwy & Hch & Hrh & Sx1 & Sx2 & Sx3 & Sy1 & Sy2 & Sy3 & Ecr & Hfold).
    assert (b0 = b') by (apply (mate_eq n Hn r b); auto). subst b0.
    assert (Wd : forall i, 0 <= i < n -> h <= cut (i + 1) - cut i) by (intros; apply C; auto).
    destruct (rank_parts n r Hn Hr) as (P1 & P2 & P3 & P4). destruct (rank_parts n (b_to b) Hn Ht) as (Q1 & Q2 & Q3 & Q4).
    pose proof (Wd _ P3) as W1. pose proof (Wd _ P2) as W2. pose proof (Wd _ Q3) as W3. pose proof (Wd _ Q2) as W4.
    pose proof S1 as (Wf1 & D1 & O1 & N1 & _). pose proof S2 as (Wf2 & D2 & O2 & N2 & _).
    destruct (h_plane _ _ _ _ _ _ _ _ _ S1) as (P & Lo & Lx & Hh).
    split; [exact Ek|]. split; [exact Hk|].
    pose proof (dx_bound (b_type b)) as Bdx. pose proof (dy_bound (b_type b)) as Bdy.
    set (c := col_of n r) in *. set (i := row_of n r) in *. set (bt := b_type b) in *.
    destruct (hat n N h cut c (dx bt) Hn C P3 Bdx) as (wx' & A1 & A2 & A6 & A7 & A8 & A3 & A4 & A5).
    destruct (hat n N h cut i (dy bt) Hn C P2 Bdy) as (wy' & B1 & B2 & B6 & B7 & B8 & B3 & B4 & B5).
    assert (wx' = wx) by (clear - Sx1 Sx2 Sx3 A6 A7 A8; lia). assert (wy' = wy) by (clear - Sy1 Sy2 Sy3 B6 B7 B8; lia). subst wx' wy'. clear A1 B1 A6 A7 A8 B6 B7 B8.
    set (ch := c + dx bt - n * wx) in *. set (rh := i + dy bt - n * wy) in *.
    set (fx := b2z (iface_x D)) in *. set (fy := b2z (iface_y D)) in *.
    set (ox := cx D origin) in *. set (oy := cy D origin) in *.
    assert (Rx : forall bd int, range_x s bd int = range1 (dx bd) ox (cut (c + 1) - cut c + fx) fx h int)
      by (intros; rewrite (range_x_eq _ _ _ _ _ _ _ _ _ S1 W1 W2); reflexivity).
    assert (Ry : forall bd int, range_y s bd int = range1 (dy bd) oy (cut (i + 1) - cut i + fy) fy h int)
      by (intros; rewrite (range_y_eq _ _ _ _ _ _ _ _ _ S1 W1 W2); reflexivity).
    set (fx' := b2z (iface_x D')) in *. set (fy' := b2z (iface_y D')) in *.
    assert (Rx' : forall bd int, range_x s' bd int = range1 (dx bd) ox (cut (col_of n (b_to b) + 1) - cut (col_of n (b_to b)) + fx') fx' h int)
      by (intros; rewrite (range_x_eq _ _ _ _ _ _ _ _ _ S2 W3 W4), (cx_same D' D) by exact SA; reflexivity).
    assert (Ry' : forall bd int, range_y s' bd int = range1 (dy bd) oy (cut (row_of n (b_to b) + 1) - cut (row_of n (b_to b)) + fy') fy' h int)
      by (intros; rewrite (range_y_eq _ _ _ _ _ _ _ _ _ S2 W3 W4), (cy_same D' D) by exact SA; reflexivity).
    pose proof (fun o o' x => src_direct n N h cut (iface_x D) C fx eq_refl c (dx bt) wx o o' x P3 Bdx Hch A3 A4 A5) as DX.
    pose proof (fun o o' x => src_direct n N h cut (iface_y D) C fy eq_refl i (dy bt) wy o o' x P2 Bdy Hrh B3 B4 B5) as DY.
    pose proof (fun o o' x => src_reflect n N h cut (iface_x D) C fx eq_refl Hpal c (dx bt) wx o o' x P3 Bdx Hch A3 A4 A5) as FX.
    pose proof (fun o o' x => src_reflect n N h cut (iface_y D) C fy eq_refl Hpal i (dy bt) wy o o' x P2 Bdy Hrh B3 B4 B5) as FY.
    cbn zeta in DX, DY, FX, FY. fold ch in DX, FX. fold rh in DY, FY.
    assert (Ef : (fx', fy') = if Z.even (b_rot b) then (fx, fy) else (fy, fx)).
    { unfold fx', fy', fx, fy. destruct (Z.even (b_rot b)); injection St as -> ->; reflexivity. }
    split.
    - apply (rotated_fits' b _ _ _ _ ext); auto; [congruence|rewrite D1; apply (ext_off _ _ _ _ _ _ _ _ _ S1)| |].
      { rewrite D1. intros x y. rewrite <- !(put_same D' D) by exact SA. apply (ext_off _ _ _ _ _ _ _ _ _ S2). }
      cbn zeta. rewrite Ek. fold bt. rewrite Rx, Ry, Rx', Ry'. unfold len. rewrite !range1_width. unfold width1.
      assert (Wc : forall a, 0 <= a < n -> cut (n - 1 - a + 1) - cut (n - 1 - a) = cut (a + 1) - cut a).
      { clear - Hpal. intros a Ha. pose proof (Hpal a ltac:(lia)) as Q1. pose proof (Hpal (a + 1) ltac:(lia)) as Q2.
        replace (n - 1 - a + 1) with (n - a) by lia. replace (n - 1 - a) with (n - (a + 1)) by lia. lia. }
      assert (Hc0 : dx bt = 0 -> ch = c) by (intros E; unfold ch; rewrite E, A5 by auto; ring).
      assert (Hi0 : dy bt = 0 -> rh = i) by (intros E; unfold rh; rewrite E, B5 by auto; ring).
      destruct (mod4 (b_rot b) Hk) as [E|[E|[E|E]]]; rewrite E in *; rewrite ?seen0, ?seen1, ?seen2, ?seen3 in Edir; cbn [Z.even] in *;
      injection Edir as Edx Edy; injection Ecr as Ec Ei; injection Ef as Ef1 Ef2; rewrite Edx, Edy, Ec, Ei, Ef1, Ef2; rewrite ?Wc by assumption;
      (split;
       [destruct (Z.eqb_spec (dx bt) 0) as [Z1|Z1]; [rewrite ?Hc0 by auto|] | destruct (Z.eqb_spec (dy bt) 0) as [Z1|Z1]; [rewrite ?Hi0 by auto|]]);
      match goal with |- context [if ?e =? 0 then _ else _] => destruct (Z.eqb_spec e 0) as [Z2|Z2] end; clear - Z1 Z2; lia.
    - intros p I. destruct (region_point _ _ _ _ _ _ _ _ _ S1 bt p I) as (Lp & Px & Py).
      set (X := face_x N s (cut c) p). set (Y := face_y N s (cut i) p).
      assert (SX : side N X wx).
      { unfold X, face_x, gx. rewrite D1, O1. apply (side_fine n N h cut (iface_x D) Hh C fx eq_refl c (dx bt)); auto.
        rewrite <- Rx. exact Px. }
      assert (SY : side N Y wy).
      { unfold Y, face_y, gy. rewrite D1, O1. apply (side_fine n N h cut (iface_y D) Hh C fy eq_refl i (dy bt)); auto.
        rewrite <- Ry. exact Py. }
      assert (HN : 0 <= N) by (clear - C Hh Hn; pose proof (cuts_mono n N h cut Hh C 0 n ltac:(lia) ltac:(lia)); destruct C as (Q1 & Q2 & _); lia).
      destruct (Hfold N _ _ HN SX SY) as (Efold & Cx & Cy). eexists.
      pose proof (rotated_value' b b' s s' q p Wf1 Wf2 ltac:(congruence) ltac:(congruence) ltac:(congruence)) as RV.
      fold bt in RV. cbn zeta in RV. rewrite Ek, D1 in RV. rewrite !Rx, !Ry, Rx', Ry' in RV. rewrite Rx in Px. rewrite Ry in Py.
      eexists. split; [exact Efold|]. split; [exact RV|].
      match goal with |- inside _ (put_xy D p ?x0 ?y0) /\ _ => set (x' := x0) in *; set (y' := y0) in * end.
      assert (Key :
         ox <= x' < ox + (cut (col_of n (b_to b) + 1) - cut (col_of n (b_to b))) + fx' /\
         oy <= y' < oy + (cut (row_of n (b_to b) + 1) - cut (row_of n (b_to b))) + fy' /\
         plane_coord N (iface_x D') (cut (col_of n (b_to b)) + (x' - ox)) = fst (seen_from (b_rot b) (X - 2 * N * wx) (Y - 2 * N * wy)) /\
         plane_coord N (iface_y D') (cut (row_of n (b_to b)) + (y' - oy)) = snd (seen_from (b_rot b) (X - 2 * N * wx) (Y - 2 * N * wy))).
      { clear RV Hfold Efold Cx Cy Wf1 Wf2 S1 S2.
        assert (EX : X = 2 * (cut c + (cx D p - ox)) + 1 - fx - N).
        { unfold X, face_x, gx. rewrite D1, O1. apply coord_f. reflexivity. }
        assert (EY : Y = 2 * (cut i + (cy D p - oy)) + 1 - fy - N).
        { unfold Y, face_y, gy. rewrite D1, O1. apply coord_f. reflexivity. }
        rewrite (coord_f N (iface_x D') fx' eq_refl), (coord_f N (iface_y D') fy' eq_refl).
        clearbody fx fy fx' fy' X Y. subst x' y'.
        destruct (mod4 (b_rot b) Hk) as [E|[E|[E|E]]]; rewrite E in *; rewrite ?seen0, ?seen1, ?seen2, ?seen3 in Edir; rewrite ?seen0, ?seen1, ?seen2, ?seen3;
        cbn [Z.even] in Ef; injection Edir as Edx Edy; injection Ecr as Ec Ei; injection Ef as Ef1 Ef2; rewrite Edx, Edy, Ec, Ei, Ef1, Ef2 in *; cbn [turn_back fst snd];
        [ destruct (DX ox ox _ Px) as (L1 & L2 & L3); destruct (DY oy oy _ Py) as (M1 & M2 & M3)
        | destruct (FY oy ox _ Py) as (L1 & L2 & L3); destruct (DX ox oy _ Px) as (M1 & M2 & M3)
        | destruct (FX ox ox _ Px) as (L1 & L2 & L3); destruct (FY oy oy _ Py) as (M1 & M2 & M3)
        | destruct (DY oy ox _ Py) as (L1 & L2 & L3); destruct (FX ox oy _ Px) as (M1 & M2 & M3) ];
        rewrite ?Z.opp_involutive; (split; [exact L2|]); (split; [exact M2|]); clear - L1 M1 EX EY; lia. }
      destruct Key as (K1 & K2 & K3 & K4).
      split; [apply (moved_inside' s s' D D' _ _ _ _ _ _ _ _ _ _ _ bt p x' y' S1 S2 SA W3 W4 I); auto|].
      split; [rewrite (put_same D' D) by exact SA; apply put_xy_put|].
      split; [|auto].
      unfold face_x at 1, face_y at 1, gx, gy. rewrite D2, O2. rewrite !(cx_same D' D), !(cy_same D' D) by exact SA. rewrite cx_put, cy_put by auto.
      fold ox oy. rewrite K3, K4. reflexivity.
  Qed.
End Pair.

Section CubeVec.
  Context {A : Type}.
  Variable neg : A -> A.
  Variables (n N : Z) (cut : Z -> Z) (nf : nat).
  Variables (D : nat -> comp -> list dim) (origin ext : nat -> list Z) (h : nat -> Z).
  Variables (sp : Z -> nat -> comp -> spec) (q : Z -> nat -> comp -> index -> A) (G : nat -> vec -> vec -> index -> A).
  Hypothesis Hn : 0 < n.
  Hypothesis Hnf : (0 < nf)%nat.
  Hypothesis Hpal : palindromic n cut.
  Hypothesis Hcut : forall j, (j < nf)%nat -> cuts n N (h j) cut.
  Hypothesis Hst : forall j, (j < nf)%nat -> mirrored (D j).
  Let R := 6 * (n * n).
  Hypothesis Hsp : forall r j c, 0 <= r < R -> (j < nf)%nat ->
    holds_cells (sp r j c) (D j c) (origin j) (ext j) (h j) (cut (col_of n r)) (cut (col_of n r + 1)) (cut (row_of n r)) (cut (row_of n r + 1)).
  Let X r j c p := face_x N (sp r j c) (cut (col_of n r)) p.
  Let Y r j c p := face_y N (sp r j c) (cut (row_of n r)) p.
  Hypothesis Hq : forall r j c p, 0 <= r < R -> (j < nf)%nat -> inside (compute_domain (sp r j c)) p ->
    q r j c p = G j (surface N (tile_of n r) (X r j c p) (Y r j c p)) (tangent c (tile_of n r)) (put_xy (D j c) p 0 0).
  Hypothesis HG : forall j v d l, (j < nf)%nat -> G j v (vopp d) l = neg (G j v d l).

  Definition other (c : comp) : comp := match c with CX => CY | CY => CX end.
  (** which component of the sender becomes component c, and whether its sign changes *)
  Definition from (k : Z) (c : comp) : comp := if Z.even k then c else other c.
  Definition flips (k : Z) (c : comp) : bool := match c with CX => 2 <=? k | CY => (k =? 1) || (k =? 2) end.

  Lemma vrot_rotated (b' : boundary) s (q0 : comp -> index -> A) c : same_axes (sp_dims (s CX)) (sp_dims (s CY)) ->
    let k := (- b_rot b') mod 4 in
    let m := rotated b' (s (from k c)) (q0 (from k c)) in
    fst (vrot neg b' s q0 c) = fst m /\
    forall p, snd (vrot neg b' s q0 c) p = if flips k c then neg (snd m p) else snd m p.
  Proof.
    intros SA. cbn zeta. unfold vrot, rotate_vector, rotated.
    set (k := (- b_rot b') mod 4). assert (Hk : 0 <= k < 4) by (apply Z.mod_pos_bound; lia).
    assert (E1 : forall m : list Z * (index -> A), fst (rotate_scalar m (sp_dims (s CX)) (- b_rot b')) = fst (rotate_scalar m (sp_dims (s CY)) (- b_rot b'))) by (intros; apply rotate_shape_same; auto).
    assert (E2 : forall (m : list Z * (index -> A)) p, snd (rotate_scalar m (sp_dims (s CX)) (- b_rot b')) p = snd (rotate_scalar m (sp_dims (s CY)) (- b_rot b')) p) by (intros; apply rotate_value_same; auto).
    destruct (mod4 k Hk) as [E|[E|[E|E]]]; rewrite E; cbn [Z.eqb Pos.eqb]; destruct c; cbn [from flips other Z.even Z.leb Z.compare Pos.compare Pos.compare_cont Z.eqb Pos.eqb orb neg_arr fst snd];
    split; try (intros p); rewrite ?E1, ?E2; reflexivity.
  Qed.

  Lemma stag j k c : (j < nf)%nat -> same_axes (D j (from k c)) (D j c) /\
    (iface_x (D j (from k c)), iface_y (D j (from k c))) = if Z.even k then (iface_x (D j c), iface_y (D j c)) else (iface_y (D j c), iface_x (D j c)).
  Proof.
    intros Hj. destruct (Hst j Hj) as (SA & E1 & E2). unfold from. destruct (Z.even k); [split; reflexivity|].
    destruct c; cbn [other]; (split; [auto using same_sym|congruence]).
  Qed.

  Lemma vcube_source r b b' j c : 0 <= r < R -> In b (cbnds n r) -> mates (cbnds n) r b b' -> (j < nf)%nat ->
    fst (vrot neg b' (sp (b_to b) j) (q (b_to b) j) c) = shape_of (region (sp r j c) (b_type b) false) /\
    forall p, inside (region (sp r j c) (b_type b) false) p ->
      exists v, fold N (tile_of n r) (X r j c p) (Y r j c p) = Some v /\
      snd (vrot neg b' (sp (b_to b) j) (q (b_to b) j) c) (unshift (region (sp r j c) (b_type b) false) p)
      = G j v (carried c N (tile_of n r) (X r j c p) (Y r j c p)) (put_xy (D j c) p 0 0).
  Proof.
    intros Hr Hb M Hj.
    assert (Ht : 0 <= b_to b < R) by (destruct (cube_step n 1%nat Hn ltac:(lia) r b Hr Hb) as (? & ? & ? & ? & _); auto).
    destruct (stag j (b_rot b) c Hj) as [SA St].
    pose proof (pair_source n N cut (origin j) (ext j) (h j) Hn Hpal (Hcut j Hj) r b b' (sp r j c) (sp (b_to b) j (from (b_rot b) c)) _ _
      (q (b_to b) j (from (b_rot b) c)) Hr Hb M (Hsp r j c Hr Hj) (Hsp _ j _ Ht Hj) SA St) as K.
    cbn zeta in K. destruct K as (Ek & Hk & Fit & Val).
    pose proof (vrot_rotated b' (sp (b_to b) j) (q (b_to b) j) c) as V. cbn zeta in V. rewrite Ek in V.
    destruct V as [V1 V2]. { destruct (Hsp (b_to b) j CX Ht Hj) as (_ & -> & _), (Hsp (b_to b) j CY Ht Hj) as (_ & -> & _). apply Hst; auto. }
    split; [congruence|]. intros p I. destruct (Val p I) as (v & p' & F & E & I' & Ep & Es & Cx & Cy). exists v. split; [exact F|].
    rewrite V2, E. rewrite Hq by auto. unfold X, Y, carried. rewrite Es, Ep.
    unfold turn_x, turn_y in Cx, Cy. rewrite Z.mod_small in Cx, Cy by exact Hk.
    clear -Cx Cy HG Hj Hk.
    destruct c; rewrite ?Cx, ?Cy; destruct (mod4 _ Hk) as [K|[K|[K|K]]]; rewrite K; cbn [from flips other tangent Z.even Z.leb Z.compare Pos.compare Pos.compare_cont Z.eqb Pos.eqb orb]; rewrite <- ?HG by auto; reflexivity.
  Qed.

  Lemma vwidth r j : 0 <= r < R -> (j < nf)%nat ->
    h j <= cut (col_of n r + 1) - cut (col_of n r) /\ h j <= cut (row_of n r + 1) - cut (row_of n r).
  Proof.
    intros Hr Hj. destruct (Hcut j Hj) as (_ & _ & C1). destruct (rank_parts n r Hn Hr) as (P1 & P2 & P3 & P4). split; apply C1; lia.
  Qed.

  Lemma vcube_net : vnet_ok neg R (cbnds n) nf sp q.
  Proof.
    constructor.
    - apply (NoDup_cbnds n Hn).
    - intros r b b' Hr Hb Hb' E. apply (in_cbnds n Hn) in Hb, Hb'; auto. congruence.
    - intros r b Hr Hb. destruct (cube_step n 1%nat Hn ltac:(lia) r b Hr Hb) as (b' & wx & wy & Ht & J1 & J2 & _). split; auto. exists b'. split; auto.
    - intros r j c Hr Hj. destruct (vwidth r j Hr Hj) as [W1 W2]. pose proof (Hsp r j c Hr Hj) as S1.
      destruct (holds_room _ _ _ _ _ _ _ _ _ S1 W1 W2) as (_ & _ & Rm). destruct S1 as (W & _). auto.
    - intros r b b' j c Hr Hb M Hj. apply (vcube_source r b b' j c); auto.
  Qed.

  Lemma vvertex_fold r bt j c p : 0 <= r < R -> (j < nf)%nat -> cube_boundary (n, n) bt r = Some None ->
    inside (region (sp r j c) bt false) p -> fold N (tile_of n r) (X r j c p) (Y r j c p) = None.
  Proof.
    intros Hr Hj Hb I. pose proof (Hsp r j c Hr Hj) as S1. destruct (vwidth r j Hr Hj) as [W1 W2].
    destruct (rank_parts n r Hn Hr) as (P1 & P2 & P3 & P4).
    pose proof (cube_geometry n bt _ _ _ P1 P2 P3) as K. cbn zeta in K.
    change (tile_of n r * (n * n) + (row_of n r * n + col_of n r)) with (enc n (tile_of n r) (row_of n r) (col_of n r)) in K.
    rewrite <- P4 in K. rewrite Hb in K.
    pose proof S1 as (Wf1 & D1 & O1 & N1 & _). pose proof (Hcut j Hj) as C.
    destruct (h_plane _ _ _ _ _ _ _ _ _ S1) as (P & Lo & Lx & Hh).
    pose proof (dx_bound bt) as Bdx. pose proof (dy_bound bt) as Bdy.
    destruct (hat n N (h j) cut (col_of n r) (dx bt) Hn C P3 Bdx) as (wx & _ & _ & A6 & A7 & A8 & _).
    destruct (hat n N (h j) cut (row_of n r) (dy bt) Hn C P2 Bdy) as (wy & _ & _ & B6 & B7 & B8 & _).
    destruct (side_coarse n (col_of n r) (dx bt) wx P3 Bdx A6 A7 A8) as [Sx Bx].
    destruct (side_coarse n (row_of n r) (dy bt) wy P2 Bdy B6 B7 B8) as [Sy By].
    destruct (region_point _ _ _ _ _ _ _ _ _ S1 bt p I) as (Lp & Px & Py).
    rewrite (range_x_eq _ _ _ _ _ _ _ _ _ S1 W1 W2) in Px. rewrite (range_y_eq _ _ _ _ _ _ _ _ _ S1 W1 W2) in Py.
    assert (SX : side N (X r j c p) wx).
    { unfold X, face_x, gx. rewrite D1, O1. apply (side_fine n N (h j) cut _ Hh C _ eq_refl (col_of n r) (dx bt)); auto. }
    assert (SY : side N (Y r j c p) wy).
    { unfold Y, face_y, gy. rewrite D1, O1. apply (side_fine n N (h j) cut _ Hh C _ eq_refl (row_of n r) (dy bt)); auto. }
    assert (HN : 0 <= N) by (clear - C Hh Hn; pose proof (cuts_mono n N (h j) cut Hh C 0 n ltac:(lia) ltac:(lia)); destruct C as (Q1 & Q2 & _); lia).
    rewrite (fold_side _ _ _ _ wx wy Sx Sy Bx By) in K by (clear - Hn; lia). rewrite (fold_side _ _ _ _ wx wy SX SY Bx By HN).
    destruct (negb (wx =? 0) && negb (wy =? 0)); [reflexivity|discriminate K].
  Qed.

  (** inside the compute domain a point's own face is where it lies *)
  Lemma own_fold r j c p : 0 <= r < R -> (j < nf)%nat -> inside (compute_domain (sp r j c)) p ->
    fold N (tile_of n r) (X r j c p) (Y r j c p) = Some (surface N (tile_of n r) (X r j c p) (Y r j c p)) /\
    carried c N (tile_of n r) (X r j c p) (Y r j c p) = tangent c (tile_of n r).
  Proof.
    intros Hr Hj I. pose proof (Hsp r j c Hr Hj) as S1. destruct (vwidth r j Hr Hj) as [W1 W2].
    pose proof S1 as (Wf1 & D1 & O1 & N1 & _). pose proof (Hcut j Hj) as C.
    destruct (h_plane _ _ _ _ _ _ _ _ _ S1) as (P & Lo & Lx & Hh). destruct (rank_parts n r Hn Hr) as (P1 & P2 & P3 & P4).
    destruct (holds_room _ _ _ _ _ _ _ _ _ S1 W1 W2) as (Ex & Ey & _).
    apply inside_compute in I; auto. cbn zeta in I. rewrite D1, O1, Ex, Ey in I. destruct I as (_ & Ix & Iy & _).
    assert (HN : 0 <= N) by (clear - C Hh Hn; pose proof (cuts_mono n N (h j) cut Hh C 0 n ltac:(lia) ltac:(lia)); destruct C as (Q1 & Q2 & _); lia).
    assert (SX : side N (X r j c p) 0).
    { unfold X, face_x, gx. rewrite D1, O1. apply (side_fine n N (h j) cut _ Hh C _ eq_refl (col_of n r) 0); auto; try (clear - P3; lia).
      all: unfold range1; cbn [Z.eqb fst snd]; clear - Ix; lia. }
    assert (SY : side N (Y r j c p) 0).
    { unfold Y, face_y, gy. rewrite D1, O1. apply (side_fine n N (h j) cut _ Hh C _ eq_refl (row_of n r) 0); auto; try (clear - P2; lia).
      all: unfold range1; cbn [Z.eqb fst snd]; clear - Iy; lia. }
    split; [rewrite (fold_side _ _ _ _ 0 0 SX SY) by (auto; clear; lia); reflexivity|].
    destruct (carried_side _ (tile_of n r) _ _ 0 0 SX SY) as [Ca Cb]; try (auto; clear; lia).
    destruct c; cbn [carried tangent]; [rewrite Ca|rewrite Cb]; reflexivity.
  Qed.

  Lemma vcube_values r j c p : 0 <= r < R -> (j < nf)%nat ->
    let f := vfinal neg (cbnds n) sp q r j c in
    (near (sp r j c) p ->
       match fold N (tile_of n r) (X r j c p) (Y r j c p) with
       | Some v => f p = G j v (carried c N (tile_of n r) (X r j c p) (Y r j c p)) (put_xy (D j c) p 0 0)
       | None => f p = q r j c p
       end) /\
    (~ near (sp r j c) p -> f p = q r j c p).
  Proof.
    intros Hr Hj f. subst f. pose proof (Hsp r j c Hr Hj) as S1. destruct (vwidth r j Hr Hj) as [W1 W2].
    assert (Dec : inside (compute_domain (sp r j c)) p \/ ~ inside (compute_domain (sp r j c)) p).
    { rewrite <- in_slices_inside. destruct (in_slices _ p); auto. }
    split.
    - intros Nr. destruct Dec as [I|I].
      + rewrite vfinal_out by (intros b Hb K; apply (range_near _ _ _ _ _ _ _ _ _ S1 W1 W2) in K; tauto).
        rewrite Hq by auto. destruct (own_fold r j c p Hr Hj I) as [-> ->]. reflexivity.
      + destruct (near_ranges _ _ _ _ _ _ _ _ _ S1 W1 W2 p Nr I) as (bt & K).
        destruct (cube_total n bt r Hn Hr) as ([b|] & Eb).
        * assert (Et : b_type b = bt).
          { destruct (rank_parts n r Hn Hr) as (P1 & P2 & P3 & P4). rewrite P4 in Eb.
            pose proof (cube_geometry n bt _ _ _ P1 P2 P3) as Q. cbn zeta in Q. unfold enc in Eb. rewrite Eb in Q. tauto. }
          assert (Hb : In b (cbnds n r)) by (apply (in_cbnds n Hn); auto; rewrite Et; auto).
          destruct (v_mate _ _ _ _ _ _ vcube_net r b Hr Hb) as [Ht (b' & M)].
          rewrite (vfinal_in neg R (cbnds n) nf sp q vcube_net Hnf r j c b b') by (auto; rewrite Et; auto).
          destruct (vcube_source r b b' j c Hr Hb M Hj) as [_ Sv]. rewrite Et in *. destruct (Sv p K) as (v & -> & ->). reflexivity.
        * rewrite (vvertex_fold r bt j c p) by auto. apply vfinal_out.
          intros b Hb K'. assert (b_type b = bt).
          { destruct (v_wf _ _ _ _ _ _ vcube_net r j c Hr Hj) as [Wf Rm]. apply (wf_disjoint (sp r j c) _ _ p); auto. }
          apply (in_cbnds n Hn) in Hb; auto. congruence.
    - intros Nn. apply vfinal_out. intros b Hb K. apply (range_near _ _ _ _ _ _ _ _ _ S1 W1 W2) in K. tauto.
  Qed.

  Lemma vcube_update :
    exists T, (forall r, 0 <= r < 6 * (n * n) -> (do bs <- cube_boundaries (n, n) r; vector_transformers bs (map (fun j => sp r j CX) (seq 0 nf)) (map (fun j => sp r j CY) (seq 0 nf))) = Some (T r)) /\
    forall evs st, valid_events (6 * (n * n)) evs ->
      run (vpack neg) vunpack vector_bufsize T evs (initial (fun r => (map (fun j => q r j CX) (seq 0 nf), map (fun j => q r j CY) (seq 0 nf)))) = Some st ->
      ((exists r, 0 <= r < 6 * (n * n) /\ sy_ph st r <> Finished) ->
        exists ev st', valid_events (6 * (n * n)) [ev] /\ step (vpack neg) vunpack vector_bufsize T ev st = Some st') /\
      (forall r, 0 <= r < 6 * (n * n) -> sy_ph st r = Finished ->
         exists f, sy_q st r = (map (fun j => f j CX) (seq 0 nf), map (fun j => f j CY) (seq 0 nf)) /\ forall j c p, (j < nf)%nat ->
           (near (sp r j c) p ->
              match fold N (tile_of n r) (X r j c p) (Y r j c p) with
              | Some v => f j c p = G j v (carried c N (tile_of n r) (X r j c p) (Y r j c p)) (put_xy (D j c) p 0 0)
              | None => f j c p = q r j c p
              end) /\
           (~ near (sp r j c) p -> f j c p = q r j c p)).
  Proof.
    destruct (vnet_exchange _ _ _ _ _ _ vcube_net Hnf) as (T & ET & H). exists T. split.
    { intros r Hr. specialize (ET r Hr). unfold cbnds in ET. destruct (cube_bnds n r Hn Hr) as (bs & E & _). rewrite E in *. exact ET. }
    intros evs st V Rn. destruct (H evs st V Rn) as [H1 H2]. split; auto.
    intros r Hr Ph. exists (vfinal neg (cbnds n) sp q r). split; [apply H2; auto|]. intros j c p Hj. apply vcube_values; auto.
  Qed.
End CubeVec.

Section TorusVec.
  Context {A : Type}.
  Variable neg : A -> A.
  Variables (ny nx Nx Ny : Z) (cutx cuty : Z -> Z) (nf : nat).
  Variables (D : nat -> comp -> list dim) (origin ext : nat -> comp -> list Z) (h : nat -> Z).
  Variables (sp : Z -> nat -> comp -> spec) (q : Z -> nat -> comp -> index -> A) (G : nat -> comp -> index -> A).
  Hypothesis Hny : 3 <= ny.
  Hypothesis Hnx : 3 <= nx.
  Hypothesis Hnf : (0 < nf)%nat.
  Hypothesis Hcut : forall j, (j < nf)%nat -> cuts nx Nx (h j) cutx /\ cuts ny Ny (h j) cuty.
  Hypothesis Hsp : forall r j c, 0 <= r < ny * nx -> (j < nf)%nat ->
    holds_cells (sp r j c) (D j c) (origin j c) (ext j c) (h j) (cutx (r mod nx)) (cutx (r mod nx + 1)) (cuty (r / nx)) (cuty (r / nx + 1)).
  Hypothesis Hq : forall r j c p, 0 <= r < ny * nx -> (j < nf)%nat -> inside (compute_domain (sp r j c)) p ->
    q r j c p = on_torus (G j c) Nx Ny (sp r j c) (cutx (r mod nx)) (cuty (r / nx)) p.
  Let R := ny * nx.
  Let bnds := tile_boundaries (ny, nx).

  Lemma vtorus_net1 c : net_ok R bnds nf (fun r j => sp r j c) (fun r j => q r j c).
  Proof. eapply torus_net with (D := fun j => D j c) (origin := fun j => origin j c) (ext := fun j => ext j c); eauto. Qed.

  Lemma vrot_plain b s (q0 : comp -> index -> A) c : b_rot b = 0 -> vrot neg b s q0 c = rotated b (s c) (q0 c).
  Proof. intros E. unfold vrot, rotated, rotate_vector, rotate_scalar. rewrite E. destruct c; reflexivity. Qed.

  Lemma tile_rot r b : In b (bnds r) -> b_rot b = 0.
  Proof. intros Hb. apply in_map_iff in Hb. destruct Hb as (bt & <- & _). destruct bt; reflexivity. Qed.

  Lemma vtorus_net : vnet_ok neg R bnds nf sp q.
  Proof.
    constructor.
    - apply (n_to _ _ _ _ _ (vtorus_net1 CX)).
    - apply (n_ty _ _ _ _ _ (vtorus_net1 CX)).
    - apply (n_mate _ _ _ _ _ (vtorus_net1 CX)).
    - intros r j c. apply (n_wf _ _ _ _ _ (vtorus_net1 c)).
    - intros r b b' j c Hr Hb M Hj. rewrite vrot_plain by (apply (tile_rot (b_to b)); apply M).
      apply (n_fit _ _ _ _ _ (vtorus_net1 c)); auto.
  Qed.

  Lemma vtorus_final r j c p : 0 <= r < R -> (j < nf)%nat ->
    vfinal neg bnds sp q r j c p = final bnds (fun r j => sp r j c) (fun r j => q r j c) r j p.
  Proof.
    intros Hr Hj.
    assert (Dec : (exists b, In b (bnds r) /\ inside (region (sp r j c) (b_type b) false) p) \/
                  forall b, In b (bnds r) -> ~ inside (region (sp r j c) (b_type b) false) p).
    { generalize (bnds r). induction l as [|b l IH]; [right; intros ? []|].
      destruct IH as [(b0 & I1 & I2)|IH]; [left; exists b0; split; [right|]; auto|].
      destruct (in_slices (region (sp r j c) (b_type b) false) p) eqn:E.
      - left. exists b. split; [left; auto|]. apply in_slices_inside. auto.
      - right. intros b0 [<-|I]; auto. rewrite <- in_slices_inside. congruence. }
    destruct Dec as [(b & Hb & I)|O].
    - destruct (v_mate _ _ _ _ _ _ vtorus_net r b Hr Hb) as [Ht (b' & M)].
      rewrite (vfinal_in neg R bnds nf sp q vtorus_net Hnf r j c b b') by auto.
      rewrite (final_in R bnds nf _ _ (vtorus_net1 c) Hnf r j b b') by auto.
      rewrite vrot_plain by (apply (tile_rot (b_to b)); apply M). reflexivity.
    - rewrite vfinal_out by auto. symmetry. apply (final_out R bnds (fun r j => sp r j c) (fun r j => q r j c)); auto.
  Qed.

  Lemma vtorus_update :
    exists T, (forall r, 0 <= r < ny * nx -> vector_transformers (tile_boundaries (ny, nx) r) (map (fun j => sp r j CX) (seq 0 nf)) (map (fun j => sp r j CY) (seq 0 nf)) = Some (T r)) /\
    forall evs st, valid_events (ny * nx) evs ->
      run (vpack neg) vunpack vector_bufsize T evs (initial (fun r => (map (fun j => q r j CX) (seq 0 nf), map (fun j => q r j CY) (seq 0 nf)))) = Some st ->
      ((exists r, 0 <= r < ny * nx /\ sy_ph st r <> Finished) ->
        exists ev st', valid_events (ny * nx) [ev] /\ step (vpack neg) vunpack vector_bufsize T ev st = Some st') /\
      (forall r, 0 <= r < ny * nx -> sy_ph st r = Finished ->
         exists f, sy_q st r = (map (fun j => f j CX) (seq 0 nf), map (fun j => f j CY) (seq 0 nf)) /\ forall j c p, (j < nf)%nat ->
           (near (sp r j c) p -> f j c p = on_torus (G j c) Nx Ny (sp r j c) (cutx (r mod nx)) (cuty (r / nx)) p) /\
           (~ near (sp r j c) p -> f j c p = q r j c p)).
  Proof.
    destruct (vnet_exchange _ _ _ _ _ _ vtorus_net Hnf) as (T & ET & H). exists T. split; auto.
    intros evs st V Rn. destruct (H evs st V Rn) as [H1 H2]. split; auto.
    intros r Hr Ph. exists (vfinal neg bnds sp q r). split; [apply H2; auto|]. intros j c p Hj.
    rewrite vtorus_final by auto.
    apply (torus_values ny nx Nx Ny cutx cuty nf (fun j => D j c) (fun j => origin j c) (fun j => ext j c) h (fun r j => sp r j c) (fun r j => q r j c) (fun j => G j c)); auto.
  Qed.
End TorusVec.
