(** Properties C90 and C91: areas and lengths of the C-grid (exact arithmetic) *)
Require Import Reals Lra Lia ZArith Bool List.
From Verif Require Import Base SphereModel SphereProofs SphereProps SphereProps2 GnomModel GnomProofs GnomProps TilesProofs EdgeModel AreaProofs CgridModel CgridProofs.
Local Open Scope Z_scope.

(** ** Specification *)
(** A rank with [wx] by [wy] cells: its arrays have three halo points around and one more for the interfaces.  Corner (i, j) is the lower left
    corner of cell (i, j); the rank's corners are 3 <= i <= wx + 3, 3 <= j <= wy + 3. *)
Definition has_shape {T} (a : arr2 T) (wx wy : Z) : Prop := len0 a = wx + 7 /\ len1 a = wy + 7.
Definition at_corner (wx wy i j : Z) : Prop := 3 <= i <= wx + 3 /\ 3 <= j <= wy + 3.

Section Spec.
  Variable radius : R.
  Variables grid agrid : lonlat.
  Let D i j := xyz_of (at2 grid i j).       (* the corner (i, j) *)
  Let A i j := xyz_of (at2 agrid i j).      (* the centre of cell (i, j) *)
  (** the quadrilateral between the four cell centres around a corner *)
  Definition between_centres (i j : Z) : R := rectangle_area (A (i - 1) (j - 1)) (A (i - 1) j) (A i j) (A i (j - 1)) radius.
  (** twice the quadrilateral between two cell centres and the middles of the two sides along the edge, with the cells of column [c] / row [c] *)
  Definition twice_along_j (i c j : Z) : R := 2 * rectangle_area (half (D i (j - 1)) (D i j)) (A c (j - 1)) (A c j) (half (D i j) (D i (j + 1))) radius.
  Definition twice_along_i (j c i : Z) : R := 2 * rectangle_area (half (D (i - 1) j) (D i j)) (A (i - 1) c) (A i c) (half (D i j) (D (i + 1) j)) radius.
  (** three times the quarter of the cell at the lower left corner of the tile *)
  Definition three_quarters : R := 3 * rectangle_area (D 3 3) (half (D 3 3) (D 3 4)) (A 3 3) (half (D 3 3) (D 4 3)) radius.
End Spec.

(** the area of the cell of the C-grid around corner (i, j), by the edges of the tile it lies on; at a corner of the tile the lower edge comes
    first, then the right, the upper and the left edge *)
Definition c_area (radius : R) (grid agrid : lonlat) (wx wy : Z) (left right bottom top : bool) (i j : Z) : R :=
  if bottom && (j =? 3) then twice_along_i radius grid agrid 3 3 i
  else if right && (i =? wx + 3) then twice_along_j radius grid agrid (wx + 3) (wx + 2) j
  else if top && (j =? wy + 3) then twice_along_i radius grid agrid (wy + 3) (wy + 2) i
  else if left && (i =? 3) then twice_along_j radius grid agrid 3 3 j
  else between_centres radius agrid i j.

Lemma is_self {T} (a : arr2 T) m n : len0 a = m -> len1 a = n -> is_arr2 a m n (at2 a).
Proof. intros A B. split; [exact A|]. split; [exact B|]. reflexivity. Qed.

Ltac bnd := first [reflexivity | rewrite low_pos by lia; lia | rewrite low_neg by lia; lia | rewrite up_neg by lia; lia | rewrite up_pos by lia; lia | lia].

(** ** C90: every corner of the rank *)
Theorem C90_area_c radius grid agrid wx wy left right bottom top : has_shape grid wx wy -> has_shape agrid wx wy -> 1 <= wx -> 1 <= wy ->
  exists area, compute_area_c radius grid agrid left right bottom top = Some area /\ has_shape area wx wy /\
    (forall i j, at_corner wx wy i j -> at2 area i j = c_area radius grid agrid wx wy left right bottom top i j) /\
    (forall i j, 0 <= i < wx + 7 -> 0 <= j < wy + 7 -> ~ at_corner wx wy i j -> at2 area i j = 0%R).
Proof.
  intros (G0 & G1) (A0 & A1) WX WY. unfold compute_area_c. cbv zeta. rewrite G0, G1.
  set (z := mkArr2 (wx + 7) (wy + 7) (fun _ _ => 0%R)). assert (Z0 : is_arr2 z (wx + 7) (wy + 7) (fun _ _ => 0%R)) by (apply is_self; reflexivity).
  pose proof (is_self grid _ _ G0 G1) as IG. pose proof (is_self agrid _ _ A0 A1) as IA.
  assert (S : forall T (a : arr2 T) f, is_arr2 a (wx + 7) (wy + 7) f -> is_arr2 (sl2 a (Some 3) (Some (-3)) (Some 3) (Some (-3))) (wx + 1) (wy + 1) (fun i j => f (3 + i) (3 + j))).
  { intros T a f H. pose proof (is_sl2 a _ _ f (Some 3) (Some (-3)) (Some 3) (Some (-3)) 3 (wx + 4) 3 (wy + 4) H ltac:(bnd) ltac:(bnd) ltac:(bnd) ltac:(bnd) ltac:(lia) ltac:(lia) ltac:(lia) ltac:(lia)) as Q.
    replace (wx + 4 - 3) with (wx + 1) in Q by ring. replace (wy + 4 - 3) with (wy + 1) in Q by ring. exact Q. }
  set (a := sl2 agrid (Some 2) (Some (-3)) (Some 2) (Some (-3))).
  assert (IS : is_arr2 a (wx + 2) (wy + 2) (fun i j => at2 agrid (2 + i) (2 + j))).
  { pose proof (is_sl2 agrid _ _ _ (Some 2) (Some (-3)) (Some 2) (Some (-3)) 2 (wx + 4) 2 (wy + 4) IA ltac:(bnd) ltac:(bnd) ltac:(bnd) ltac:(bnd) ltac:(lia) ltac:(lia) ltac:(lia) ltac:(lia)) as Q.
    replace (wx + 4 - 2) with (wx + 2) in Q by ring. replace (wy + 4 - 2) with (wy + 2) in Q by ring. exact Q. }
  assert (GA : is_arr2 (get_area2 radius a) (wx + 1) (wy + 1) (fun i j => between_centres radius agrid (3 + i) (3 + j))).
  { unfold get_area2. cbv zeta. pose proof (is_map2 xyz_of _ _ _ _ IS) as M. set (x := map2 xyz_of a) in *.
    pose proof (is_sl2 x _ _ _ None (Some (-1)) None (Some (-1)) 0 (wx + 1) 0 (wy + 1) M ltac:(bnd) ltac:(bnd) ltac:(bnd) ltac:(bnd) ltac:(lia) ltac:(lia) ltac:(lia) ltac:(lia)) as LL.
    pose proof (is_sl2 x _ _ _ (Some 1) None None (Some (-1)) 1 (wx + 2) 0 (wy + 1) M ltac:(bnd) ltac:(bnd) ltac:(bnd) ltac:(bnd) ltac:(lia) ltac:(lia) ltac:(lia) ltac:(lia)) as LR.
    pose proof (is_sl2 x _ _ _ None (Some (-1)) (Some 1) None 0 (wx + 1) 1 (wy + 2) M ltac:(bnd) ltac:(bnd) ltac:(bnd) ltac:(bnd) ltac:(lia) ltac:(lia) ltac:(lia) ltac:(lia)) as UL.
    pose proof (is_sl2 x _ _ _ (Some 1) None (Some 1) None 1 (wx + 2) 1 (wy + 2) M ltac:(bnd) ltac:(bnd) ltac:(bnd) ltac:(bnd) ltac:(lia) ltac:(lia) ltac:(lia) ltac:(lia)) as UR.
    destruct LL as (L0 & L1 & LL), LR as (_ & _ & LR), UL as (_ & _ & UL), UR as (_ & _ & UR).
    split; [cbn [len0]; lia|]. split; [cbn [len1]; lia|]. intros i j I J. cbn [at2]. rewrite LL, LR, UL, UR by lia. unfold between_centres.
    replace (2 + (0 + i)) with (3 + i - 1) by ring. replace (2 + (0 + j)) with (3 + j - 1) by ring. replace (2 + (1 + i)) with (3 + i) by ring. replace (2 + (1 + j)) with (3 + j) by ring. reflexivity. }
  destruct (is_put2 z _ _ _ _ _ _ _ (Some 3) (Some (-3)) (Some 3) (Some (-3)) 3 (wx + 4) 3 (wy + 4) Z0 GA ltac:(bnd) ltac:(bnd) ltac:(bnd) ltac:(bnd) ltac:(lia) ltac:(lia) ltac:(lia) ltac:(lia) ltac:(lia) ltac:(lia)) as (a1 & -> & I1).
  cbn [bind].
  destruct (corner_area radius a _ _ _ _ left right bottom top (S _ _ _ I1) ltac:(lia) ltac:(lia)) as (fc & IC & HC).
  destruct (is_put2 a1 _ _ _ _ _ _ _ (Some 3) (Some (-3)) (Some 3) (Some (-3)) 3 (wx + 4) 3 (wy + 4) I1 IC ltac:(bnd) ltac:(bnd) ltac:(bnd) ltac:(bnd) ltac:(lia) ltac:(lia) ltac:(lia) ltac:(lia) ltac:(lia) ltac:(lia)) as (a2 & -> & I2).
  cbn [bind].
  set (dg := sl2 (map2 xyz_of grid) (Some 2) (Some (-2)) (Some 2) (Some (-2))).
  assert (ID : is_arr2 dg (wx + 1 + 2) (wy + 1 + 2) (fun i j => xyz_of (at2 grid (2 + i) (2 + j)))).
  { pose proof (is_sl2 _ _ _ _ (Some 2) (Some (-2)) (Some 2) (Some (-2)) 2 (wx + 5) 2 (wy + 5) (is_map2 xyz_of _ _ _ _ IG) ltac:(bnd) ltac:(bnd) ltac:(bnd) ltac:(bnd) ltac:(lia) ltac:(lia) ltac:(lia) ltac:(lia)) as Q.
    replace (wx + 5 - 2) with (wx + 1 + 2) in Q by ring. replace (wy + 5 - 2) with (wy + 1 + 2) in Q by ring. exact Q. }
  set (ag := sl2 (map2 xyz_of (sl2 agrid None (Some (-1)) None (Some (-1)))) (Some 2) (Some (-2)) (Some 2) (Some (-2))).
  assert (IAG : is_arr2 ag (wx + 1 + 1) (wy + 1 + 1) (fun i j => xyz_of (at2 agrid (2 + i) (2 + j)))).
  { pose proof (is_sl2 agrid _ _ _ None (Some (-1)) None (Some (-1)) 0 (wx + 6) 0 (wy + 6) IA ltac:(bnd) ltac:(bnd) ltac:(bnd) ltac:(bnd) ltac:(lia) ltac:(lia) ltac:(lia) ltac:(lia)) as Q.
    pose proof (is_sl2 _ _ _ _ (Some 2) (Some (-2)) (Some 2) (Some (-2)) 2 (wx + 4) 2 (wy + 4) (is_map2 xyz_of _ _ _ _ Q) ltac:(bnd) ltac:(bnd) ltac:(bnd) ltac:(bnd) ltac:(lia) ltac:(lia) ltac:(lia) ltac:(lia)) as Q'.
    replace (wx + 4 - 2) with (wx + 1 + 1) in Q' by ring. replace (wy + 4 - 2) with (wy + 1 + 1) in Q' by ring. exact Q'. }
  set (view := sl2 a2 (Some 3) (Some (-3)) (Some 3) (Some (-3))).
  assert (IV : is_arr2 view (wx + 1) (wy + 1) fc).
  { eapply is_ext; [exact (S _ _ _ I2)|]. intros i j I J. cbv beta.
    destruct (Z.leb_spec 3 (3 + i)); [|lia]. destruct (Z.ltb_spec (3 + i) (wx + 4)); [|lia]. destruct (Z.leb_spec 3 (3 + j)); [|lia]. destruct (Z.ltb_spec (3 + j) (wy + 4)); [|lia].
    cbn [andb]. now replace (3 + i - 3) with i by ring; replace (3 + j - 3) with j by ring. }
  unfold set_c_grid_tile_border_area.
  (* one after the other *)
  assert (W : exists v f, (if left then set_west_area radius dg ag view else Some view) = Some v /\ is_arr2 v (wx + 1) (wy + 1) f /\
            forall i j, 0 <= i < wx + 1 -> 0 <= j < wy + 1 -> f i j = if left && (i =? 0) then twice_along_j radius grid agrid 3 3 (3 + j) else fc i j).
  { destruct left; [|exists view, fc; split; [reflexivity|]; split; [exact IV|reflexivity]].
    destruct (west_area radius dg ag view _ _ _ _ _ _ ID IAG ltac:(lia) ltac:(lia) ltac:(lia) _ IV) as (v & E & V).
    eexists; eexists. split; [exact E|]. split; [exact V|]. intros i j I J. cbn [andb]. destruct (i =? 0); [|reflexivity]. unfold twice_along_j.
    replace (2 + j) with (3 + j - 1) by ring. replace (2 + (j + 1)) with (3 + j) by ring. replace (2 + (j + 2)) with (3 + j + 1) by ring. reflexivity. }
  destruct W as (v1 & f1 & -> & V1 & F1). cbn [bind].
  assert (N : exists v f, (if top then set_north_area radius dg ag v1 else Some v1) = Some v /\ is_arr2 v (wx + 1) (wy + 1) f /\
            forall i j, 0 <= i < wx + 1 -> 0 <= j < wy + 1 -> f i j = if top && (j =? wy) then twice_along_i radius grid agrid (wy + 3) (wy + 2) (3 + i) else f1 i j).
  { destruct top; [|exists v1, f1; split; [reflexivity|]; split; [exact V1|reflexivity]].
    destruct (north_area radius dg ag v1 _ _ _ _ _ _ ID IAG ltac:(lia) ltac:(lia) ltac:(lia) _ V1) as (v & E & V).
    eexists; eexists. split; [exact E|]. split; [exact V|]. intros i j I J. cbn [andb]. replace (wy + 1 - 1) with wy by ring. destruct (j =? wy); [|reflexivity]. unfold twice_along_i.
    replace (2 + i) with (3 + i - 1) by ring. replace (2 + (i + 1)) with (3 + i) by ring. replace (2 + (i + 2)) with (3 + i + 1) by ring.
    replace (2 + (wy + 1 + 2 - 2)) with (wy + 3) by ring. replace (2 + (wy + 1 + 1 - 2)) with (wy + 2) by ring. reflexivity. }
  destruct N as (v2 & f2 & -> & V2 & F2). cbn [bind].
  assert (E : exists v f, (if right then set_east_area radius dg ag v2 else Some v2) = Some v /\ is_arr2 v (wx + 1) (wy + 1) f /\
            forall i j, 0 <= i < wx + 1 -> 0 <= j < wy + 1 -> f i j = if right && (i =? wx) then twice_along_j radius grid agrid (wx + 3) (wx + 2) (3 + j) else f2 i j).
  { destruct right; [|exists v2, f2; split; [reflexivity|]; split; [exact V2|reflexivity]].
    destruct (east_area radius dg ag v2 _ _ _ _ _ _ ID IAG ltac:(lia) ltac:(lia) ltac:(lia) _ V2) as (v & E & V).
    eexists; eexists. split; [exact E|]. split; [exact V|]. intros i j I J. cbn [andb]. replace (wx + 1 - 1) with wx by ring. destruct (i =? wx); [|reflexivity]. unfold twice_along_j.
    replace (2 + j) with (3 + j - 1) by ring. replace (2 + (j + 1)) with (3 + j) by ring. replace (2 + (j + 2)) with (3 + j + 1) by ring.
    replace (2 + (wx + 1 + 2 - 2)) with (wx + 3) by ring. replace (2 + (wx + 1 + 1 - 2)) with (wx + 2) by ring. reflexivity. }
  destruct E as (v3 & f3 & -> & V3 & F3). cbn [bind].
  assert (SO : exists v f, (if bottom then set_south_area radius dg ag v3 else Some v3) = Some v /\ is_arr2 v (wx + 1) (wy + 1) f /\
            forall i j, 0 <= i < wx + 1 -> 0 <= j < wy + 1 -> f i j = if bottom && (j =? 0) then twice_along_i radius grid agrid 3 3 (3 + i) else f3 i j).
  { destruct bottom; [|exists v3, f3; split; [reflexivity|]; split; [exact V3|reflexivity]].
    destruct (south_area radius dg ag v3 _ _ _ _ _ _ ID IAG ltac:(lia) ltac:(lia) ltac:(lia) _ V3) as (v & E & V).
    eexists; eexists. split; [exact E|]. split; [exact V|]. intros i j I J. cbn [andb]. destruct (j =? 0); [|reflexivity]. unfold twice_along_i.
    replace (2 + i) with (3 + i - 1) by ring. replace (2 + (i + 1)) with (3 + i) by ring. replace (2 + (i + 2)) with (3 + i + 1) by ring. reflexivity. }
  destruct SO as (v4 & f4 & -> & V4 & F4). cbn [bind].
  destruct (is_put2 a2 _ _ _ _ _ _ _ (Some 3) (Some (-3)) (Some 3) (Some (-3)) 3 (wx + 4) 3 (wy + 4) I2 V4 ltac:(bnd) ltac:(bnd) ltac:(bnd) ltac:(bnd) ltac:(lia) ltac:(lia) ltac:(lia) ltac:(lia) ltac:(lia) ltac:(lia)) as (r & -> & R0 & R1 & R).
  exists r. split; [reflexivity|]. split; [split; assumption|]. split.
  - intros i j (I & J). rewrite R by lia. cbv beta.
    destruct (Z.leb_spec 3 i); [|lia]. destruct (Z.ltb_spec i (wx + 4)); [|lia]. destruct (Z.leb_spec 3 j); [|lia]. destruct (Z.ltb_spec j (wy + 4)); [|lia]. cbn [andb].
    rewrite F4, F3, F2, F1 by lia. unfold c_area.
    replace (3 + (i - 3)) with i by ring. replace (3 + (j - 3)) with j by ring.
    assert (EJ0 : (j - 3 =? 0) = (j =? 3)) by (destruct (Z.eqb_spec (j - 3) 0), (Z.eqb_spec j 3); lia).
    assert (EI0 : (i - 3 =? 0) = (i =? 3)) by (destruct (Z.eqb_spec (i - 3) 0), (Z.eqb_spec i 3); lia).
    assert (EJ1 : (j - 3 =? wy) = (j =? wy + 3)) by (destruct (Z.eqb_spec (j - 3) wy), (Z.eqb_spec j (wy + 3)); lia).
    assert (EI1 : (i - 3 =? wx) = (i =? wx + 3)) by (destruct (Z.eqb_spec (i - 3) wx), (Z.eqb_spec i (wx + 3)); lia).
    rewrite EJ0, EI0, EJ1, EI1.
    destruct (bottom && (j =? 3)) eqn:C1; [reflexivity|]. destruct (right && (i =? wx + 3)) eqn:C2; [reflexivity|]. destruct (top && (j =? wy + 3)) eqn:C3; [reflexivity|].
    destruct (left && (i =? 3)) eqn:C4; [reflexivity|].
    destruct (HC (i - 3) (j - 3) ltac:(lia) ltac:(lia)) as [-> | HH].
    + cbv beta. replace (3 + (i - 3)) with i by ring. replace (3 + (j - 3)) with j by ring.
      destruct (Z.leb_spec 3 i); [|lia]. destruct (Z.ltb_spec i (wx + 4)); [|lia]. destruct (Z.leb_spec 3 j); [|lia]. destruct (Z.ltb_spec j (wy + 4)); [|lia]. cbn [andb].
      now replace (3 + (i - 3)) with i by ring; replace (3 + (j - 3)) with j by ring.
    + exfalso. destruct HH as ([(Hi & ->) | (Hi & ->)] & _); cbn [andb] in *.
      * apply Z.eqb_neq in C4. lia.
      * apply Z.eqb_neq in C2. lia.
  - intros i j I J NC. rewrite R by lia. cbv beta. unfold at_corner in NC.
    assert (B : ((3 <=? i) && (i <? wx + 4) && (3 <=? j) && (j <? wy + 4)) = false).
    { destruct (Z.leb_spec 3 i), (Z.ltb_spec i (wx + 4)), (Z.leb_spec 3 j), (Z.ltb_spec j (wy + 4)); cbn [andb]; try reflexivity. exfalso. apply NC. lia. }
    rewrite B. reflexivity.
Qed.
Print Assumptions C90_area_c.

(** ** the other side of an edge *)
(** reflection in the plane with unit normal n *)
Definition reflection (n p : vec) : vec := vsub p (vscale (2 * dot p n) n).
Lemma reflection_dot n p q : dot n n = 1%R -> dot (reflection n p) (reflection n q) = dot p q.
Proof.
  intro N. destruct n as [[a b] c], p as [[x y] z], q as [[u v] w]. unfold reflection. cbn [vsub vscale dot] in *.
  set (k := (x * a + y * b + z * c)%R). set (l := (u * a + v * b + w * c)%R).
  transitivity (x * u + y * v + z * w - 2 * k * l - 2 * l * k + 4 * k * l * (a * a + b * b + c * c))%R; [unfold k, l; ring|]. rewrite N. ring.
Qed.
Lemma reflection_fix n p : dot p n = 0%R -> reflection n p = p.
Proof. intro H. unfold reflection. rewrite H. destruct p as [[x y] z], n as [[a b] c]. cbn [vsub vscale]. apply triple_eq; ring. Qed.
Lemma half_plane n p q : dot p n = 0%R -> dot q n = 0%R -> dot (half p q) n = 0%R.
Proof. intros P Q. unfold half. rewrite dot_scale_l, dot_add_l, P, Q. ring. Qed.
Lemma two_sides radius n e1 e2 a1 a2 : dot n n = 1%R -> dot e1 n = 0%R -> dot e2 n = 0%R ->
  rectangle_area e1 (reflection n a1) (reflection n a2) e2 radius = rectangle_area e1 a1 a2 e2 radius.
Proof.
  intros N E1 E2. transitivity (rectangle_area (reflection n e1) (reflection n a1) (reflection n a2) (reflection n e2) radius).
  - now rewrite (reflection_fix n e1), (reflection_fix n e2) by assumption.
  - apply rect_dots; now apply reflection_dot.
Qed.

(** Where the corners of the edge lie in a plane through the centre and the centres of the cells on the other side, in column c', are the
    reflections of those in column c, twice the one side is the sum of both sides. *)
Theorem C90_two_sides_i radius grid agrid n i c c' j : dot n n = 1%R ->
  (forall l, j - 1 <= l <= j + 1 -> dot (xyz_of (at2 grid i l)) n = 0%R) ->
  (forall l, j - 1 <= l <= j -> xyz_of (at2 agrid c' l) = reflection n (xyz_of (at2 agrid c l))) ->
  let m l := half (xyz_of (at2 grid i l)) (xyz_of (at2 grid i (l + 1))) in
  let side c := rectangle_area (m (j - 1)) (xyz_of (at2 agrid c (j - 1))) (xyz_of (at2 agrid c j)) (m j) radius in
  twice_along_j radius grid agrid i c j = (side c + side c')%R.
Proof.
  intros N P A. cbv beta zeta. rewrite !A by lia. unfold twice_along_j. replace (j - 1 + 1) with j by ring.
  rewrite two_sides; [ring|exact N|apply half_plane; apply P; lia|apply half_plane; apply P; lia].
Qed.
Print Assumptions C90_two_sides_i.
Theorem C90_two_sides_j radius grid agrid n j c c' i : dot n n = 1%R ->
  (forall l, i - 1 <= l <= i + 1 -> dot (xyz_of (at2 grid l j)) n = 0%R) ->
  (forall l, i - 1 <= l <= i -> xyz_of (at2 agrid l c') = reflection n (xyz_of (at2 agrid l c))) ->
  let m l := half (xyz_of (at2 grid l j)) (xyz_of (at2 grid (l + 1) j)) in
  let side c := rectangle_area (m (i - 1)) (xyz_of (at2 agrid (i - 1) c)) (xyz_of (at2 agrid i c)) (m i) radius in
  twice_along_i radius grid agrid j c i = (side c + side c')%R.
Proof.
  intros N P A. cbv beta zeta. rewrite !A by lia. unfold twice_along_i. replace (i - 1 + 1) with i by ring.
  rewrite two_sides; [ring|exact N|apply half_plane; apply P; lia|apply half_plane; apply P; lia].
Qed.
Print Assumptions C90_two_sides_j.

(** ** the corners of the tiles: the documented rule (three times the part in one tile) is not what the code does *)
(** A cube with one cell per tile: corner (3, 3) is a corner of the cube, (2, 3), (4, 3) and (3, 4) are the three next to it; cell (3, 3) is
    centred on the x axis and cell (2, 3), of the neighbouring tile, on the y axis. *)
Definition cube_grid : lonlat := mkArr2 8 8 (fun i j =>
  if (i =? 3) && (j =? 3) then (PI / 4, alpha)%R else if (i =? 2) && (j =? 3) then (3 * (PI / 4), alpha)%R
  else if (i =? 4) && (j =? 3) then (- (PI / 4), alpha)%R else (PI / 4, - alpha)%R).
Definition cube_agrid : lonlat := mkArr2 8 8 (fun i _ => if i =? 2 then (PI / 2, 0)%R else (0, 0)%R).
Lemma cube_33 : xyz_of (at2 cube_grid 3 3) = (third, third, third).
Proof.
  unfold xyz_of. cbn [cube_grid at2 Z.eqb Pos.eqb andb fst snd]. rewrite xyz_eq, cos_alpha, sin_alpha, cos_PI4, sin_PI4. destruct sqrt2' as [P Q].
  apply triple_eq; [field; lra|field; lra|reflexivity].
Qed.
Lemma cube_23 : xyz_of (at2 cube_grid 2 3) = (- third, third, third)%R.
Proof.
  unfold xyz_of. cbn [cube_grid at2 Z.eqb Pos.eqb andb fst snd]. rewrite xyz_eq, cos_alpha, sin_alpha, cos_3PI4, sin_3PI4. destruct sqrt2' as [P Q].
  apply triple_eq; [field; lra|field; lra|reflexivity].
Qed.
Lemma cube_43 : xyz_of (at2 cube_grid 4 3) = (third, - third, third)%R.
Proof.
  unfold xyz_of. cbn [cube_grid at2 Z.eqb Pos.eqb andb fst snd]. rewrite xyz_eq, cos_alpha, sin_alpha, cos_neg, sin_neg, cos_PI4, sin_PI4. destruct sqrt2' as [P Q].
  apply triple_eq; [field; lra|field; lra|reflexivity].
Qed.
Lemma cube_34 : xyz_of (at2 cube_grid 3 4) = (third, third, - third)%R.
Proof.
  unfold xyz_of. cbn [cube_grid at2 Z.eqb Pos.eqb andb fst snd]. rewrite xyz_eq, cos_neg, sin_neg, cos_alpha, sin_alpha, cos_PI4, sin_PI4. destruct sqrt2' as [P Q].
  apply triple_eq; [field; lra|field; lra|reflexivity].
Qed.
Lemma cube_a33 : xyz_of (at2 cube_agrid 3 3) = (1, 0, 0)%R.
Proof. unfold xyz_of. cbn [cube_agrid at2 Z.eqb Pos.eqb andb fst snd]. rewrite xyz_eq, cos_0, sin_0. apply triple_eq; ring. Qed.
Lemma cube_a23 : xyz_of (at2 cube_agrid 2 3) = (0, 1, 0)%R.
Proof. unfold xyz_of. cbn [cube_agrid at2 Z.eqb Pos.eqb andb fst snd]. rewrite xyz_eq, cos_0, sin_0, cos_PI2, sin_PI2. apply triple_eq; ring. Qed.

Lemma cube_twice : twice_along_i 1 cube_grid cube_agrid 3 3 3 = (4 * alpha)%R.
Proof.
  unfold twice_along_i. cbn [Z.sub Z.add Z.opp Z.pos_sub Pos.pred_double Pos.add Pos.succ]. rewrite cube_23, cube_33, cube_43, cube_a23, cube_a33. unfold half. cbn [vscale vadd].
  destruct third_pos as [T0 T1]. destruct sqrt2' as [P Q].
  transitivity (2 * rectangle_area (F (-1) (- sqrt 2)) (F (-1) 0) (F 1 0) (F 1 (- sqrt 2)) 1)%R.
  - f_equal. rewrite <- (rect_scale (sqrt 2 / third) (sqrt 2) (sqrt 2) (sqrt 2 / third)); [|apply Rdiv_lt_0_compat; lra|lra|lra|apply Rdiv_lt_0_compat; lra].
    assert (S : forall a b c, vscale (sqrt 2 / third) (a * third, b * third, c * third)%R = (sqrt 2 * a, sqrt 2 * b, sqrt 2 * c)%R) by (intros; cbn [vscale]; apply triple_eq; field; lra).
    replace (1 / 2 * (- third + third), 1 / 2 * (third + third), 1 / 2 * (third + third))%R with (0 * third, 1 * third, 1 * third)%R by (apply triple_eq; field).
    replace (1 / 2 * (third + third), 1 / 2 * (third + - third), 1 / 2 * (third + third))%R with (1 * third, 0 * third, 1 * third)%R by (apply triple_eq; field).
    rewrite !S. cbn [vscale]. unfold F. apply rect_dots; cbn [dot]; nra.
  - rewrite rect_closed by lra. rewrite !(G_sym _ 0). replace (G 0 (-1)) with 0%R by (unfold G; rewrite Rmult_0_l; unfold Rdiv; rewrite Rmult_0_l, asin_0; reflexivity).
    replace (G 0 1) with 0%R by (unfold G; rewrite Rmult_0_l; unfold Rdiv; rewrite Rmult_0_l, asin_0; reflexivity).
    replace (-1)%R with (- (1))%R by reflexivity. rewrite G_opp_l, (G_sym 1 (- sqrt 2)), G_opp_l. replace (G (sqrt 2) 1) with alpha; [ring|].
    unfold G, alpha. f_equal. rewrite Q. replace ((1 + 2) * (1 + 1 * 1))%R with (3 * 2)%R by ring. rewrite sqrt_mult by lra. unfold third. destruct sqrt3. field. lra.
Qed.
Lemma cube_three : three_quarters 1 cube_grid cube_agrid = (PI / 2)%R.
Proof.
  unfold three_quarters. rewrite cube_33, cube_34, cube_43, cube_a33. unfold half. cbn [vscale vadd].
  destruct third_pos as [T0 T1].
  transitivity (3 * rectangle_area (F (-1) (-1)) (F (-1) 0) (F 0 0) (F 0 (-1)) 1)%R.
  - f_equal. rewrite <- (rect_scale (/ third) (/ third) 1 (/ third)); [|apply Rinv_0_lt_compat; lra|apply Rinv_0_lt_compat; lra|lra|apply Rinv_0_lt_compat; lra].
    assert (S : forall a b c, vscale (/ third) (a * third, b * third, c * third)%R = (a, b, c)%R) by (intros; cbn [vscale]; apply triple_eq; field; lra).
    replace (third, third, third) with (1 * third, 1 * third, 1 * third)%R by (apply triple_eq; ring).
    replace (1 / 2 * (1 * third + 1 * third), 1 / 2 * (1 * third + 1 * third), 1 / 2 * (1 * third + - (1 * third)))%R with (1 * third, 1 * third, 0 * third)%R by (apply triple_eq; field).
    replace (1 / 2 * (third + third), 1 / 2 * (third + third), 1 / 2 * (third + - third))%R with (1 * third, 1 * third, 0 * third)%R by (apply triple_eq; field).
    replace (1 / 2 * (third + third), 1 / 2 * (third + - third), 1 / 2 * (third + third))%R with (1 * third, 0 * third, 1 * third)%R by (apply triple_eq; field).
    rewrite !S. cbn [vscale]. unfold F. apply rect_dots; cbn [dot]; ring.
  - rewrite rect_closed by lra. assert (G0 : forall y, G 0 y = 0%R) by (intro; unfold G; rewrite Rmult_0_l; unfold Rdiv; rewrite Rmult_0_l, asin_0; reflexivity).
    rewrite !G0, (G_sym _ 0), G0. replace (-1)%R with (- (1))%R by reflexivity. rewrite G_opp_l, (G_sym 1 (- (1))), G_opp_l, G_one. field.
Qed.
Theorem C90_corner_refuted : exists radius grid agrid area, (0 < radius)%R /\ has_shape grid 1 1 /\ has_shape agrid 1 1 /\
  compute_area_c radius grid agrid true true true true = Some area /\ (at2 area 3 3 > three_quarters radius grid agrid)%R.
Proof.
  exists 1%R, cube_grid, cube_agrid.
  destruct (C90_area_c 1 cube_grid cube_agrid 1 1 true true true true) as (area & E & _ & V & _); [split; reflexivity|split; reflexivity|lia|lia|].
  exists area. split; [lra|]. split; [split; reflexivity|]. split; [split; reflexivity|]. split; [exact E|].
  rewrite V by (split; lia). unfold c_area. cbn [Z.eqb Pos.eqb andb]. rewrite cube_twice, cube_three. pose proof alpha_size. pose proof PI_4. lra.
Qed.
Print Assumptions C90_corner_refuted.

Example C90_case : has_shape cube_grid 1 1 /\ has_shape cube_agrid 1 1 /\ at_corner 1 1 3 4 /\
  (let n := (sqrt 2 / 2, - (sqrt 2 / 2), 0)%R in dot n n = 1%R /\ (forall l, 2 <= l <= 4 -> dot (xyz_of (at2 cube_grid 3 l)) n = 0%R) /\
    forall l, 2 <= l <= 3 -> xyz_of (at2 cube_agrid 2 l) = reflection n (xyz_of (at2 cube_agrid 3 l))).
Proof.
  split; [split; reflexivity|]. split; [split; reflexivity|]. split; [split; lia|]. cbv zeta. destruct sqrt2' as [P Q]. split; [cbn [dot]; nra|]. split.
  - intros l L. assert (D : l = 2 \/ l = 3 \/ l = 4) by lia. destruct D as [-> | [-> | ->]]; [change (at2 cube_grid 3 2) with (at2 cube_grid 3 4); rewrite cube_34|rewrite cube_33|rewrite cube_34]; cbn [dot]; ring.
  - intros l L. change (at2 cube_agrid 2 l) with (at2 cube_agrid 2 3). change (at2 cube_agrid 3 l) with (at2 cube_agrid 3 3). rewrite cube_a23, cube_a33. unfold reflection. cbn [vsub vscale dot]. apply triple_eq; nra.
Qed.
