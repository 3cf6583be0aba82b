(** Model of the unit vectors of the grid: ndsl/grid/geometry.py, get_center_vector 15-61, calc_unit_vector_west 64-104,
    calc_unit_vector_south 107-145, calculate_xy_unit_vectors 266-308 and _fill_halo_corners 892-908, over the real numbers.

    Arrays of points are [arr2] of EdgeModel.v (two lengths and a function of the indices); entries are vectors of space, so the last
    dimension is not an index.  The arrays of cells have one row and one column less than the array of corners (the code raises
    otherwise).  Not modelled: rounding, NaN for the zero vector. *)
Require Import Reals ZArith Bool.
From Verif Require Import SphereModel EdgeModel PartModel.
Local Open Scope Z_scope.

(** 892-908; [v] fills the corners of the halo of the tile *)
Definition fill_halo_corners {T} (a : arr2 T) (v : T) (nhalo : Z) (left right bottom top : bool) : arr2 T :=
  mkArr2 (len0 a) (len1 a) (fun i j =>
    let low_i := i <? nhalo in let high_i := len0 a - nhalo <=? i in
    let low_j := j <? nhalo in let high_j := len1 a - nhalo <=? j in
    if (left && ((bottom && (low_i && low_j)) || (top && (low_i && high_j)))) ||
       (right && ((bottom && (high_i && low_j)) || (top && (high_i && high_j)))) then v else at2 a i j).
(** a[1:-1, :] and a[:, 1:-1] *)
Definition inner_i {T} (a : arr2 T) : arr2 T := mkArr2 (len0 a - 2) (len1 a) (fun i j => at2 a (i + 1) j).
Definition inner_j {T} (a : arr2 T) : arr2 T := mkArr2 (len0 a) (len1 a - 2) (fun i j => at2 a i (j + 1)).

Definition all_of (x : R) : vec := (x, x, x).

Section Rank.
  Variable big_number : R.
  Variables (grid_type nhalo : Z) (left right bottom top : bool).

  (** 15-61 *)
  Definition get_center_vector (d : arr2 vec) : arr2 vec * arr2 vec :=
    let shape (f : Z -> Z -> vec) := mkArr2 (len0 d - 1) (len1 d - 1) f in
    if grid_type <? 3 then
      let center_points i j := center (at2 d i j) (at2 d (i + 1) j) (at2 d i (j + 1)) (at2 d (i + 1) (j + 1)) in
      let p3 i j := cross (midpoint (at2 d (i + 1) j) (at2 d (i + 1) (j + 1))) (midpoint (at2 d i j) (at2 d i (j + 1))) in
      let vector1 := shape (fun i j => normalize (cross (center_points i j) (p3 i j))) in
      let p3 i j := cross (midpoint (at2 d i (j + 1)) (at2 d (i + 1) (j + 1))) (midpoint (at2 d i j) (at2 d (i + 1) j)) in
      let vector2 := shape (fun i j => normalize (cross (center_points i j) (p3 i j))) in
      (fill_halo_corners vector1 (all_of big_number) nhalo left right bottom top, fill_halo_corners vector2 (all_of big_number) nhalo left right bottom top)
    else (shape (fun _ _ => (1, 0, 0)%R), shape (fun _ _ => (0, 1, 0)%R)).

  (** 64-104; [d] the corners, [a] the cells *)
  Definition calc_unit_vector_west (d a : arr2 vec) : arr2 vec * arr2 vec :=
    let shape (f : Z -> Z -> vec) := mkArr2 (len0 d) (len1 a) f in
    if grid_type <? 3 then
      let pp i j := midpoint (at2 d (i + 1) j) (at2 d (i + 1) (j + 1)) in
      let p2 i j := cross (at2 a i j) (at2 a (i + 1) j) in
      let p2 i j := if left && (i =? nhalo - 1) then cross (pp (nhalo - 1) j) (at2 a nhalo j) else p2 i j in
      let p2 i j := if right && (i =? len0 a - 1 - nhalo) then cross (at2 a (len0 a - nhalo - 1) j) (pp (len0 d - 2 - nhalo) j) else p2 i j in
      let inside i := (1 <=? i) && (i <? len0 d - 1) in
      let ew1 := shape (fun i j => if inside i then normalize (cross (p2 (i - 1) j) (pp (i - 1) j)) else all_of 0) in
      let p1 i j := cross (at2 d (i + 1) j) (at2 d (i + 1) (j + 1)) in
      let ew2 := shape (fun i j => if inside i then normalize (cross (p1 (i - 1) j) (pp (i - 1) j)) else all_of 0) in
      (inner_i (fill_halo_corners ew1 (all_of 0) nhalo left right bottom top), inner_i (fill_halo_corners ew2 (all_of 0) nhalo left right bottom top))
    else (inner_i (shape (fun _ _ => (0, 1, 0)%R)), inner_i (shape (fun _ _ => (0, 0, 1)%R))).

  (** 107-145 *)
  Definition calc_unit_vector_south (d a : arr2 vec) : arr2 vec * arr2 vec :=
    let shape (f : Z -> Z -> vec) := mkArr2 (len0 a) (len1 d) f in
    if grid_type <? 3 then
      let pp i j := midpoint (at2 d i (j + 1)) (at2 d (i + 1) (j + 1)) in
      let p2 i j := cross (at2 a i j) (at2 a i (j + 1)) in
      let p2 i j := if bottom && (j =? nhalo - 1) then cross (pp i (nhalo - 1)) (at2 a i nhalo) else p2 i j in
      let p2 i j := if top && (j =? len1 a - 1 - nhalo) then cross (at2 a i (len1 a - nhalo - 1)) (pp i (len1 d - 2 - nhalo)) else p2 i j in
      let inside j := (1 <=? j) && (j <? len1 d - 1) in
      let es2 := shape (fun i j => if inside j then normalize (cross (p2 i (j - 1)) (pp i (j - 1))) else all_of 0) in
      let p1 i j := cross (at2 d i (j + 1)) (at2 d (i + 1) (j + 1)) in
      let es1 := shape (fun i j => if inside j then normalize (cross (p1 i (j - 1)) (pp i (j - 1))) else all_of 0) in
      (inner_j (fill_halo_corners es1 (all_of 0) nhalo left right bottom top), inner_j (fill_halo_corners es2 (all_of 0) nhalo left right bottom top))
    else (inner_j (shape (fun _ _ => (0, 1, 0)%R)), inner_j (shape (fun _ _ => (0, 0, 1)%R))).

  (** 266-308; entry (i, j) of the result belongs to corner (nhalo + i, nhalo + j) *)
  Definition calculate_xy_unit_vectors (d : arr2 vec) : arr2 vec * arr2 vec :=
    let ni := len0 d - 2 * nhalo in let nj := len1 d - 2 * nhalo in
    let at_ i j := at2 d (nhalo + i) (nhalo + j) in
    let cross_vect_x i j := cross (at_ (i - 1) j) (at_ (i + 1) j) in
    let cross_vect_x i j := if left && (i =? 0) then cross (at2 d nhalo (nhalo + j)) (at2 d (nhalo + 1) (nhalo + j)) else cross_vect_x i j in
    let cross_vect_x i j := if right && (i =? ni - 1) then cross (at2 d (len0 d - nhalo - 2) (nhalo + j)) (at2 d (len0 d - nhalo - 1) (nhalo + j)) else cross_vect_x i j in
    let cross_vect_y i j := cross (at_ i (j - 1)) (at_ i (j + 1)) in
    let cross_vect_y i j := if bottom && (j =? 0) then cross (at2 d (nhalo + i) nhalo) (at2 d (nhalo + i) (nhalo + 1)) else cross_vect_y i j in
    let cross_vect_y i j := if top && (j =? nj - 1) then cross (at2 d (nhalo + i) (len1 d - nhalo - 2)) (at2 d (nhalo + i) (len1 d - nhalo - 1)) else cross_vect_y i j in
    (mkArr2 ni nj (fun i j => normalize (cross (cross_vect_x i j) (at_ i j))), mkArr2 ni nj (fun i j => normalize (cross (cross_vect_y i j) (at_ i j)))).
End Rank.

(** the flags of a rank (partitioner.py on_tile_left, ...) *)
Definition with_flags {X} (l : layout) (rank : Z) (f : bool -> bool -> bool -> bool -> X) : X :=
  f (on_tile_left l rank) (on_tile_right l rank) (on_tile_bottom l rank) (on_tile_top l rank).

(** ** Specification *)
(** v is the unit vector that, at the point p of the sphere, leads along the great circle through a and b, from a towards b *)
Definition leads (p a b v : vec) : Prop :=
  (dot v v = 1 /\ dot v p = 0 /\ dot v (cross a b) = 0 /\ 0 < dot v (vsub b a))%R.
(** points a and b, not the same, seen from p in the same half of the sphere *)
Definition clear_direction (p a b : vec) : Prop :=
  (dot p p = 1 /\ dot a a = 1 /\ dot b b = 1 /\ a <> b /\ 0 < dot (vadd a b) p)%R.
