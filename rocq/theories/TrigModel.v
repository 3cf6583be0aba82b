(** Model of the cosines and sines of the grid angles: ndsl/grid/geometry.py, calculate_supergrid_cos_sin 148-235, calculate_trig_uv 311-412,
    supergrid_corner_fix 415-456 with the rotations 459-496, calculate_divg_del6 499-569 and spherical_cos of gnomonic.py 691-699, over the
    real numbers, for a halo of three points (the code raises at line 222 for any other width on a rank in a north-west corner) and grid_type < 3.

    The arrays cos_sg and sin_sg have the shape of the cells, [n0] by [n1], and a third index 0..8 for the points of the supergrid; they are
    functions of three indices.  Assignments to slices become conditional functions, in the order of the code.  A corner of an array in
    numpy's negative indices, -3:, is n0 - 3 <= i.  Not modelled: rounding, NaN for points that coincide. *)
Require Import Reals ZArith Bool.
From Verif Require Import SphereModel EdgeModel PartModel WindModel UnitModel.
Local Open Scope Z_scope.

(** gnomonic.py 691-699 *)
Definition scos (p_center p2 p3 : vec) : R :=
  let p := cross p_center p2 in let q := cross p_center p3 in (dot p q / sqrt (dot p p * dot q q))%R.

Definition sg := Z -> Z -> Z -> R.

Section Rank.
  Variables (big_number tiny_number : R).
  Variables (left right bottom top : bool).
  Variables (n0 n1 : Z).
  Definition low (k : Z) : bool := (0 <=? k) && (k <? 3).
  Definition high (n k : Z) : bool := (n - 3 <=? k) && (k <? n).

  (** ** 148-206: [d] the corners, [a] the cells, [ec1], [ec2] the unit vectors of the cells *)
  Definition raw_cos (d a ec1 ec2 : Z -> Z -> vec) (i j k : Z) : R :=
    let sw := d i j in let se := d (i + 1) j in let nw := d i (j + 1) in let ne := d (i + 1) (j + 1) in
    match k with
    | 0 => scos (midpoint sw nw) (a i j) nw
    | 1 => scos (midpoint sw se) se (a i j)
    | 2 => scos (midpoint se ne) (a i j) se
    | 3 => scos (midpoint nw ne) nw (a i j)
    | 4 => dot (ec1 i j) (ec2 i j)
    | 5 => scos sw se nw
    | 6 => (-1 * scos se sw ne)%R
    | 7 => scos ne se nw
    | _ => (-1 * scos nw sw ne)%R
    end.
  (** 208 *)
  Definition snap (c : R) : R := if Rlt_dec (Rabs (1 - c)) (1 / 10 ^ 15) then 1%R else c.
  (** 210-213, on the cosine after 208 *)
  Definition sine (c : R) : R :=
    let s := (1 - c ^ 2)%R in
    let s := if Rlt_dec s 0 then 0%R else s in
    let s := sqrt s in
    if Rlt_dec 1 s then 1%R else s.
  (** one assignment: the entries (i, j, k) with [c i j] take the value [v i j] *)
  Definition put (k : Z) (c : Z -> Z -> bool) (v : Z -> Z -> R) (s : sg) : sg := fun i j k' => if (k' =? k) && c i j then v i j else s i j k'.
  Definition when (b : bool) (f : sg -> sg) (s : sg) : sg := if b then f s else s.
  (** 215-229 *)
  Definition adjust (s : sg) : sg :=
    let s := when (left && bottom) (fun s =>
      let s := put 2 (fun i j => (i =? 2) && low j) (fun i j => s j 3 1) s in
      put 3 (fun i j => low i && (j =? 2)) (fun i j => s 3 i 0) s) s in
    let s := when (left && top) (fun s =>
      let s := put 2 (fun i j => (i =? 2) && high n1 j) (fun i j => s (2 - (j - (n1 - 3))) (n1 - 4) 3) s in
      put 1 (fun i j => low i && (j =? n1 - 3)) (fun i j => s 3 (n1 - 5 + i) 0) s) s in
    let s := when (right && bottom) (fun s =>
      let s := put 0 (fun i j => (i =? n0 - 3) && low j) (fun i j => s (n0 - 1 - j) 3 1) s in
      put 3 (fun i j => high n0 i && (j =? 2)) (fun i j => s (n0 - 4) (2 - (i - (n0 - 3))) 2) s) s in
    when (right && top) (fun s =>
      let s := put 0 (fun i j => (i =? n0 - 3) && high n1 j) (fun i j => s (n0 - 3 + (j - (n1 - 3))) (n1 - 4) 3) s in
      put 1 (fun i j => high n0 i && (j =? n1 - 3)) (fun i j => s (n0 - 4) (n1 - 3 + (i - (n0 - 3))) 2) s) s.
  (** 148-235: (cos_sg, sin_sg) *)
  Definition calculate_supergrid_cos_sin (d a ec1 ec2 : Z -> Z -> vec) : sg * sg :=
    let cos_sg i j k := snap (raw_cos d a ec1 ec2 i j k) in
    (cos_sg, adjust (fun i j k => sine (cos_sg i j k))).

  (** ** 892-908 _fill_halo_corners on one layer of cells *)
  Definition fill_corners (v : R) (k : Z) (s : sg) : sg :=
    put k (fun i j => (left && ((bottom && (low i && low j)) || (top && (low i && high n1 j)))) ||
                      (right && ((bottom && (high n0 i && low j)) || (top && (high n0 i && high n1 j))))) (fun _ _ => v) s.

  (** ** 311-412.  Fields on western edges (cosa_u, ...) have one row more than the cells, fields on southern edges one column more, fields on
      corners both. *)
  Record trig := mkTrig { cosa : field; sina : field; cosa_u : field; cosa_v : field; cosa_s : field; sina_u : field; sina_v : field;
    rsin_u : field; rsin_v : field; rsina : field; rsin2 : field; cos_sg_after : sg }.
  Definition half_sum (x y : R) : R := (0.5 * (x + y))%R.
  Definition at_least_tiny (x : R) : R := if Rlt_dec x tiny_number then tiny_number else x.
  (** numpy.sign *)
  Definition sign (x : R) : R := if Rlt_dec x 0 then (-1)%R else if Rlt_dec 0 x then 1%R else 0%R.
  (** 374-376 and the like *)
  Definition limit (x : R) : R := if Rlt_dec (Rabs x) tiny_number then (tiny_number * sign x)%R else x.
  Definition calculate_trig_uv (cos_sg sin_sg : sg) : trig :=
    let m0 := n0 + 1 in let m1 := n1 + 1 in
    let inner i j := (3 <=? i) && (i <? m0 - 3) && (3 <=? j) && (j <? m1 - 3) in
    let cosa i j := if inner i j then half_sum (cos_sg (i - 1) (j - 1) 7) (cos_sg i j 5) else big_number in
    let sina i j := if inner i j then half_sum (sin_sg (i - 1) (j - 1) 7) (sin_sg i j 5) else big_number in
    let in_u i := (1 <=? i) && (i <? m0 - 1) in
    let in_v j := (1 <=? j) && (j <? m1 - 1) in
    let cosa_u i j := if in_u i then half_sum (cos_sg (i - 1) j 2) (cos_sg i j 0) else big_number in
    let sina_u i j := if in_u i then half_sum (sin_sg (i - 1) j 2) (sin_sg i j 0) else big_number in
    let rsin_u i j := if in_u i then (1 / at_least_tiny (sina_u i j ^ 2))%R else big_number in
    let cosa_v i j := if in_v j then half_sum (cos_sg i (j - 1) 3) (cos_sg i j 1) else big_number in
    let sina_v i j := if in_v j then half_sum (sin_sg i (j - 1) 3) (sin_sg i j 1) else big_number in
    let rsin_v i j := if in_v j then (1 / at_least_tiny (sina_v i j ^ 2))%R else big_number in
    let rsin2 i j := (1 / at_least_tiny (sin_sg i j 4%Z ^ 2))%R in
    (* 358, 364: cosa_s is a view of cos_sg *)
    let cos_sg := fill_corners big_number 4 cos_sg in
    let cosa_s i j := cos_sg i j 4 in
    (* 366-368; entry (i, j) of rsina belongs to corner (i + 3, j + 3) *)
    let rsina i j := (1 / at_least_tiny (sina (i + 3)%Z (j + 3)%Z ^ 2))%R in
    (* 370-398: the limits are views of sina_u and sina_v *)
    let rsina i j := if left && (i =? 0) then big_number else rsina i j in
    let sina_u i j := if left && (i =? 3) then limit (sina_u i j) else sina_u i j in
    let rsin_u i j := if left && (i =? 3) then (1 / sina_u i j)%R else rsin_u i j in
    let rsina i j := if right && (i =? m0 - 6 - 1) then big_number else rsina i j in
    let sina_u i j := if right && (i =? m0 - 4) then limit (sina_u i j) else sina_u i j in
    let rsin_u i j := if right && (i =? m0 - 4) then (1 / sina_u i j)%R else rsin_u i j in
    let rsina i j := if bottom && (j =? 0) then big_number else rsina i j in
    let sina_v i j := if bottom && (j =? 3) then limit (sina_v i j) else sina_v i j in
    let rsin_v i j := if bottom && (j =? 3) then (1 / sina_v i j)%R else rsin_v i j in
    let rsina i j := if top && (j =? m1 - 6 - 1) then big_number else rsina i j in
    let sina_v i j := if top && (j =? m1 - 4) then limit (sina_v i j) else sina_v i j in
    let rsin_v i j := if top && (j =? m1 - 4) then (1 / sina_v i j)%R else rsin_v i j in
    mkTrig cosa sina cosa_u cosa_v cosa_s sina_u sina_v rsin_u rsin_v rsina rsin2 cos_sg.

  (** ** 415-496: one of the two arrays.  [flip_x], [flip_y]: the array seen from the right, from the top ([::-1]) *)
  Definition flipped (flip_x flip_y : bool) (i j : Z) : Z * Z := (if flip_x then n0 - 1 - i else i, if flip_y then n1 - 1 - j else j).
  (** 459-464: sg_field_out[2, :3] = sg_field_in[:3, 3] and sg_field_out[:3, 2] = sg_field_in[3, :3] *)
  Definition rotate_counterclockwise (fx fy : bool) (k_in k_out : Z) (s : sg) : sg :=
    put k_out (fun i j => let '(x, y) := flipped fx fy i j in (x =? 2) && low y)
      (fun i j => let '(x, y) := flipped fx fy i j in let '(i', j') := flipped fx fy y 3 in s i' j' k_in) s.
  Definition rotate_clockwise (fx fy : bool) (k_in k_out : Z) (s : sg) : sg :=
    put k_out (fun i j => let '(x, y) := flipped fx fy i j in low x && (y =? 2))
      (fun i j => let '(x, y) := flipped fx fy i j in let '(i', j') := flipped fx fy 3 x in s i' j' k_in) s.
  (** 911-931 _fill_single_halo_corner, all layers *)
  Definition fill_single (fx fy : bool) (v : R) (s : sg) : sg :=
    fun i j k => let '(x, y) := flipped fx fy i j in if low x && low y then v else s i j k.
  Definition corner_fix (v : R) (s : sg) : sg :=
    let s := when (left && bottom) (fun s => rotate_clockwise false false 0 3 (rotate_counterclockwise false false 1 2 (fill_single false false v s))) s in
    let s := when (left && top) (fun s => rotate_counterclockwise false true 3 2 (rotate_clockwise false true 0 1 (fill_single false true v s))) s in
    let s := when (right && bottom) (fun s => rotate_clockwise true false 2 3 (rotate_counterclockwise true false 1 0 (fill_single true false v s))) s in
    when (right && top) (fun s => rotate_clockwise true true 2 1 (rotate_counterclockwise true true 3 0 (fill_single true true v s))) s.
  Definition supergrid_corner_fix (cos_sg sin_sg : sg) : sg * sg := (corner_fix big_number cos_sg, corner_fix tiny_number sin_sg).

  (** generation.py:2556-2592 *)
  Definition cell_trigonometry (d a ec1 ec2 : Z -> Z -> vec) : trig * (sg * sg) :=
    let '(cos_sg, sin_sg) := calculate_supergrid_cos_sin d a ec1 ec2 in
    let t := calculate_trig_uv cos_sg sin_sg in
    (t, supergrid_corner_fix (cos_sg_after t) sin_sg).

  (** ** 499-569: (divg_u, divg_v, del6_u, del6_v); called (generation.py:3015-3070) with the arrays after supergrid_corner_fix.  The halo
      exchange that follows (3072-3080) is not modelled, nor the rounding of sin_sg to the model's precision. *)
  Definition calculate_divg_del6 (sin_sg : sg) (sina_u sina_v dx dy dxc dyc : field) : field * field * field * field :=
    let m0 := n0 + 1 in let m1 := n1 + 1 in
    let divg_u i j := (sina_v i j * dyc i j / dx i j)%R in
    let del6_u i j := (sina_v i j * dx i j / dyc i j)%R in
    let divg_v i j := (sina_u i j * dxc i j / dy i j)%R in
    let del6_v i j := (sina_u i j * dy i j / dxc i j)%R in
    let divg_u i j := if bottom && (j =? 3) then (0.5 * (sin_sg i 3%Z 1%Z + sin_sg i 2%Z 3%Z) * dyc i 3%Z / dx i 3%Z)%R else divg_u i j in
    let del6_u i j := if bottom && (j =? 3) then (0.5 * (sin_sg i 3%Z 1%Z + sin_sg i 2%Z 3%Z) * dx i 3%Z / dyc i 3%Z)%R else del6_u i j in
    let divg_u i j := if top && (j =? m1 - 4) then (0.5 * (sin_sg i (n1 - 3)%Z 1%Z + sin_sg i (n1 - 4)%Z 3%Z) * dyc i (m1 - 4)%Z / dx i (m1 - 4)%Z)%R else divg_u i j in
    let del6_u i j := if top && (j =? m1 - 4) then (0.5 * (sin_sg i (n1 - 3)%Z 1%Z + sin_sg i (n1 - 4)%Z 3%Z) * dx i (m1 - 4)%Z / dyc i (m1 - 4)%Z)%R else del6_u i j in
    let divg_v i j := if left && (i =? 3) then (0.5 * (sin_sg 3%Z j 0%Z + sin_sg 2%Z j 2%Z) * dxc 3%Z j / dy 3%Z j)%R else divg_v i j in
    let del6_v i j := if left && (i =? 3) then (0.5 * (sin_sg 3%Z j 0%Z + sin_sg 2%Z j 2%Z) * dy 3%Z j / dxc 3%Z j)%R else del6_v i j in
    let divg_v i j := if right && (i =? m0 - 4) then (0.5 * (sin_sg (n0 - 3)%Z j 0%Z + sin_sg (n0 - 4)%Z j 2%Z) * dxc (m0 - 4)%Z j / dy (m0 - 4)%Z j)%R else divg_v i j in
    let del6_v i j := if right && (i =? m0 - 4) then (0.5 * (sin_sg (n0 - 3)%Z j 0%Z + sin_sg (n0 - 4)%Z j 2%Z) * dy (m0 - 4)%Z j / dxc (m0 - 4)%Z j)%R else del6_v i j in
    (divg_u, divg_v, del6_u, del6_v).
End Rank.

(** ** Specification *)
(** the points of the supergrid of one cell, and the points between which its x direction (from west to east) and its y direction (from south
    to north) lead, for all but the centre:
      9---4---8
      |       |
      1   5   3
      |       |
      6---2---7 *)
Definition sg_point (sw se nw ne middle : vec) (k : Z) : vec :=
  match k with 1 => midpoint sw nw | 2 => midpoint sw se | 3 => midpoint se ne | 4 => midpoint nw ne | 5 => middle | 6 => sw | 7 => se | 8 => ne | _ => nw end.
Definition sg_x (sw se nw ne middle : vec) (k : Z) : vec * vec :=
  match k with
  | 1 => (midpoint sw nw, middle) | 3 => (middle, midpoint se ne)
  | 2 => (midpoint sw se, se) | 4 => (nw, midpoint nw ne)
  | 6 | 7 => (sw, se)
  | _ => (nw, ne)
  end.
Definition sg_y (sw se nw ne middle : vec) (k : Z) : vec * vec :=
  match k with
  | 1 => (midpoint sw nw, nw) | 3 => (se, midpoint se ne)
  | 2 => (midpoint sw se, middle) | 4 => (middle, midpoint nw ne)
  | 6 | 9 => (sw, nw)
  | _ => (se, ne)
  end.
(** the corners of a tile of n cells: [right], [top] say which; cells at distance d beyond it (0 the nearest), the last cells inside, the side
    of a cell beyond that faces the tile and the side of a cell inside that faces out, as numbers of the supergrid minus one *)
Definition outside_at (n : Z) (high : bool) (d : Z) : Z := if high then n + d else -1 - d.
Definition inside_at (n : Z) (high : bool) : Z := if high then n - 1 else 0.
Definition inward_x (right : bool) : Z := if right then 0 else 2.
Definition inward_y (top : bool) : Z := if top then 1 else 3.
Definition outward_x (right : bool) : Z := if right then 2 else 0.
Definition outward_y (top : bool) : Z := if top then 3 else 1.
