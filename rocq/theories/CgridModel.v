(** Model of the metric terms of the C-grid: ndsl/grid/gnomonic.py:389-513 (areas at tile corners and edges), 547-588 (lengths at tile edges),
    ndsl/grid/generation.py:2019-2092 (_compute_dxdy_center_cube_sphere, before the halo update) and 2147-2181 (_compute_area_c_cube_sphere,
    before the halo update), over the real numbers.

    Arrays are two lengths and a function (EdgeModel); a third axis of length 2 or 3 is part of the value.  An assignment to a view of an
    array returns the changed view, and the caller puts it back.  Not modelled: the corner helpers that are not called (514-545), rounding,
    the halo updates, the changes of sign and the corner fills that follow. *)
Require Import Reals ZArith Bool List.
From Verif Require Import Base SphereModel EdgeModel.
Local Open Scope Z_scope.

(** ** numpy (language, not NDSL) *)
(** a[lo0:hi0, lo1:hi1] *)
Definition sl2 {T} (a : arr2 T) (lo0 hi0 lo1 hi1 : option Z) : arr2 T :=
  let s0 := lower (len0 a) lo0 in let s1 := lower (len1 a) lo1 in
  mkArr2 (Z.max 0 (upper (len0 a) hi0 - s0)) (Z.max 0 (upper (len1 a) hi1 - s1)) (fun i j => at2 a (s0 + i) (s1 + j)).
(** a[lo0:hi0, lo1:hi1] = v; None = ValueError (the lengths differ; arrays of length one, which would be repeated, do not occur) *)
Definition put2 {T} (a : arr2 T) (lo0 hi0 lo1 hi1 : option Z) (v : arr2 T) : option (arr2 T) :=
  let s0 := lower (len0 a) lo0 in let s1 := lower (len1 a) lo1 in
  let m0 := Z.max 0 (upper (len0 a) hi0 - s0) in let m1 := Z.max 0 (upper (len1 a) hi1 - s1) in
  if (len0 v =? m0) && (len1 v =? m1) then
    Some (mkArr2 (len0 a) (len1 a) (fun i j => if (s0 <=? i) && (i <? s0 + m0) && (s1 <=? j) && (j <? s1 + m1) then at2 v (i - s0) (j - s1) else at2 a i j))
  else None.
(** a[i, j], a[i, j] = x, a[i, :] = v *)
Definition pos (n i : Z) : Z := if i <? 0 then i + n else i.
Definition get2 {T} (a : arr2 T) (i j : Z) : T := at2 a (pos (len0 a) i) (pos (len1 a) j).
Definition set2 {T} (a : arr2 T) (i j : Z) (x : T) : arr2 T :=
  mkArr2 (len0 a) (len1 a) (fun i' j' => if (i' =? pos (len0 a) i) && (j' =? pos (len1 a) j) then x else at2 a i' j').
Definition set_row {T} (a : arr2 T) (i : Z) (v : arr T) : option (arr2 T) :=
  if len v =? len1 a then Some (mkArr2 (len0 a) (len1 a) (fun i' j' => if i' =? pos (len0 a) i then at1 v j' else at2 a i' j')) else None.
Definition map2 {S T} (f : S -> T) (a : arr2 S) : arr2 T := mkArr2 (len0 a) (len1 a) (fun i j => f (at2 a i j)).
Definition zip4 {T U} (f : T -> T -> T -> T -> U) (a b c d : arr T) : option (arr U) :=
  if (len a =? len b) && (len b =? len c) && (len c =? len d) then Some (mkArr (len a) (fun k => f (at1 a k) (at1 b k) (at1 c k) (at1 d k))) else None.

Definition xyz_of (p : R * R) : vec := lon_lat_to_xyz (fst p) (snd p).
Definition lonlat := arr2 (R * R).

Section Cgrid.
  Variable radius : R.

  (** gnomonic.py:374-386 get_area *)
  Definition get_area2 (g : lonlat) : arr2 R :=
    let xyz := map2 xyz_of g in
    let lower_left := sl2 xyz None (Some (-1)) None (Some (-1)) in
    let lower_right := sl2 xyz (Some 1) None None (Some (-1)) in
    let upper_left := sl2 xyz None (Some (-1)) (Some 1) None in
    let upper_right := sl2 xyz (Some 1) None (Some 1) None in
    mkArr2 (len0 lower_left) (len1 lower_left)
      (fun i j => rectangle_area (at2 lower_left i j) (at2 upper_left i j) (at2 upper_right i j) (at2 lower_right i j) radius).

  (** gnomonic.py:389-419 set_corner_area_to_triangle_area *)
  Definition set_corner_area_to_triangle_area (g : lonlat) (area : arr2 R) (left right bottom top : bool) : arr2 R :=
    let xyz := map2 xyz_of g in
    let lower_left := sl2 xyz None (Some (-1)) None (Some (-1)) in
    let lower_right := sl2 xyz (Some 1) None None (Some (-1)) in
    let upper_left := sl2 xyz None (Some (-1)) (Some 1) None in
    let upper_right := sl2 xyz (Some 1) None (Some 1) None in
    let area := if left && bottom then set2 area 0 0 (triangle_area (get2 upper_left 0 0) (get2 upper_right 0 0) (get2 lower_right 0 0) radius) else area in
    let area := if right && bottom then set2 area (-1) 0 (triangle_area (get2 upper_right (-1) 0) (get2 upper_left (-1) 0) (get2 lower_left (-1) 0) radius) else area in
    let area := if right && top then set2 area (-1) (-1) (triangle_area (get2 lower_right (-1) (-1)) (get2 lower_left (-1) (-1)) (get2 upper_left (-1) (-1)) radius) else area in
    if left && top then set2 area 0 (-1) (triangle_area (get2 lower_left 0 (-1)) (get2 lower_right 0 (-1)) (get2 upper_right 0 (-1)) radius) else area.

  (** gnomonic.py:480-490 _set_c_grid_west_edge_area; 493-512 the others.  The views that are handed on are turned back. *)
  Definition set_west_area (dg ag : arr2 vec) (area : arr2 R) : option (arr2 R) :=
    do y_center <- zip (fun p q => vscale (1 / 2) (vadd p q)) (sl (row dg 1) None (Some (-1))) (sl (row dg 1) (Some 1) None);
    do v <- zip4 (fun a b c d => (2 * rectangle_area a b c d radius)%R) (sl y_center None (Some (-1))) (sl (row ag 1) None (Some (-1))) (sl (row ag 1) (Some 1) None) (sl y_center (Some 1) None);
    set_row area 0 v.
  Definition set_east_area (dg ag : arr2 vec) (area : arr2 R) : option (arr2 R) :=
    do v <- set_west_area (flip_i dg) (flip_i ag) (flip_i area); Some (flip_i v).
  Definition set_south_area (dg ag : arr2 vec) (area : arr2 R) : option (arr2 R) :=
    do v <- set_west_area (transpose dg) (transpose ag) (transpose area); Some (transpose v).
  Definition set_north_area (dg ag : arr2 vec) (area : arr2 R) : option (arr2 R) :=
    do v <- set_south_area (flip_j dg) (flip_j ag) (flip_j area); Some (flip_j v).
  (** gnomonic.py:421-477 set_c_grid_tile_border_area *)
  Definition set_c_grid_tile_border_area (dg ag : arr2 vec) (area : arr2 R) (left right bottom top : bool) : option (arr2 R) :=
    do area <- (if left then set_west_area dg ag area else Some area);
    do area <- (if top then set_north_area dg ag area else Some area);
    do area <- (if right then set_east_area dg ag area else Some area);
    if bottom then set_south_area dg ag area else Some area.

  (** generation.py:2147-2180: [grid] and [agrid] are _grid_64 and _agrid_64, both with all their points *)
  Definition compute_area_c (grid agrid : lonlat) (left right bottom top : bool) : option (arr2 R) :=
    let area := mkArr2 (len0 grid) (len1 grid) (fun _ _ => 0%R) in
    let a := sl2 agrid (Some 2) (Some (-3)) (Some 2) (Some (-3)) in
    do area <- put2 area (Some 3) (Some (-3)) (Some 3) (Some (-3)) (get_area2 a);
    do area <- put2 area (Some 3) (Some (-3)) (Some 3) (Some (-3))
      (set_corner_area_to_triangle_area a (sl2 area (Some 3) (Some (-3)) (Some 3) (Some (-3))) left right bottom top);
    let dgrid_xyz := map2 xyz_of grid in
    let agrid_xyz := map2 xyz_of (sl2 agrid None (Some (-1)) None (Some (-1))) in
    do v <- set_c_grid_tile_border_area (sl2 dgrid_xyz (Some 2) (Some (-2)) (Some 2) (Some (-2))) (sl2 agrid_xyz (Some 2) (Some (-2)) (Some 2) (Some (-2)))
              (sl2 area (Some 3) (Some (-3)) (Some 3) (Some (-3))) left right bottom top;
    put2 area (Some 3) (Some (-3)) (Some 3) (Some (-3)) v.

  (** gnomonic.py:342-361 along axis 0; along axis 1 the arrays are transposed before and after *)
  Definition distance_axis0 (g : lonlat) : arr2 R :=
    mkArr2 (Z.max 0 (len0 g - 1)) (len1 g) (fun i j => great_circle_distance (fst (at2 g i j)) (fst (at2 g (i + 1) j)) (snd (at2 g i j)) (snd (at2 g (i + 1) j)) radius).
  Definition distance_axis1 (g : lonlat) : arr2 R := transpose (distance_axis0 (transpose g)).

  (** gnomonic.py:547-588 *)
  Definition set_west_dxc (dg ag : arr2 vec) (dxc : arr2 R) : option (arr2 R) :=
    do tile_edge_point <- zip (fun p q => vscale (1 / 2) (vadd p q)) (sl (row dg 0) (Some 1) None) (sl (row dg 0) None (Some (-1)));
    do v <- zip (fun p q => (2 * great_circle_distance_xyz p q radius)%R) tile_edge_point (row ag 0);
    set_row dxc 0 v.
  Definition set_east_dxc (dg ag : arr2 vec) (dxc : arr2 R) : option (arr2 R) :=
    do v <- set_west_dxc (flip_i dg) (flip_i ag) (flip_i dxc); Some (flip_i v).
  Definition set_north_dyc (dg ag : arr2 vec) (dyc : arr2 R) : option (arr2 R) :=
    do v <- set_east_dxc (transpose dg) (transpose ag) (transpose dyc); Some (transpose v).
  Definition set_south_dyc (dg ag : arr2 vec) (dyc : arr2 R) : option (arr2 R) :=
    do v <- set_west_dxc (transpose dg) (transpose ag) (transpose dyc); Some (transpose v).
  Definition set_tile_border_dxc (dg ag : arr2 vec) (dxc : arr2 R) (left right : bool) : option (arr2 R) :=
    do dxc <- (if left then set_west_dxc dg ag dxc else Some dxc);
    if right then set_east_dxc dg ag dxc else Some dxc.
  Definition set_tile_border_dyc (dg ag : arr2 vec) (dyc : arr2 R) (bottom top : bool) : option (arr2 R) :=
    do dyc <- (if top then set_north_dyc dg ag dyc else Some dyc);
    if bottom then set_south_dyc dg ag dyc else Some dyc.

  (** one line of a two-dimensional array as an array of one line, for assignments along the axes *)
  Definition one_row {T} (a : arr T) : arr2 T := mkArr2 1 (len a) (fun _ j => at1 a j).

  (** generation.py:2019-2071 *)
  Definition compute_dxc (grid agrid : lonlat) (left right : bool) : option (arr2 R) :=
    let dxc := mkArr2 (len0 grid) (len1 grid) (fun _ _ => 0%R) in
    let a := sl2 agrid None (Some (-1)) None (Some (-1)) in
    let tmp := distance_axis0 a in
    do dxc <- put2 dxc (Some 1) (Some (-1)) None (Some (-1)) tmp;
    do dxc <- put2 dxc (Some 0) (Some 1) None (Some (-1)) (one_row (row tmp 0));
    do dxc <- put2 dxc (Some (-1)) None None (Some (-1)) (one_row (row tmp (-1)));
    let agrid_xyz := map2 xyz_of a in
    do v <- set_tile_border_dxc (sl2 (map2 xyz_of grid) (Some 3) (Some (-3)) (Some 3) (Some (-3))) (sl2 agrid_xyz (Some 3) (Some (-3)) (Some 3) (Some (-3)))
              (sl2 dxc (Some 3) (Some (-3)) (Some 3) (Some (-4))) left right;
    put2 dxc (Some 3) (Some (-3)) (Some 3) (Some (-4)) v.
  Definition compute_dyc (grid agrid : lonlat) (bottom top : bool) : option (arr2 R) :=
    let dyc := mkArr2 (len0 grid) (len1 grid) (fun _ _ => 0%R) in
    let a := sl2 agrid None (Some (-1)) None (Some (-1)) in
    let tmp := distance_axis1 a in
    do dyc <- put2 dyc None (Some (-1)) (Some 1) (Some (-1)) tmp;
    do dyc <- put2 dyc None (Some (-1)) (Some 0) (Some 1) (transpose (one_row (row (transpose tmp) 0)));
    do dyc <- put2 dyc None (Some (-1)) (Some (-1)) None (transpose (one_row (row (transpose tmp) (-1))));
    let agrid_xyz := map2 xyz_of a in
    do v <- set_tile_border_dyc (sl2 (map2 xyz_of grid) (Some 3) (Some (-3)) (Some 3) (Some (-3))) (sl2 agrid_xyz (Some 3) (Some (-3)) (Some 3) (Some (-3)))
              (sl2 dyc (Some 3) (Some (-4)) (Some 3) (Some (-3))) bottom top;
    put2 dyc (Some 3) (Some (-4)) (Some 3) (Some (-3)) v.
End Cgrid.

(** generation.py:3443-3454 _reduce_global_area_minmaxes, on the arrays of all ranks; [pick] is min or max, and [first] the first of the
    values (numpy's min of an array without elements raises: None) *)
Fixpoint reduce (pick : R -> R -> R) (first : R) (l : list R) : R := match l with nil => first | cons x l => reduce pick (pick first x) l end.
Definition np_reduce (pick : R -> R -> R) (a : arr2 R) : option R :=
  match flat_map (fun i => map (fun j => at2 a i j) (zrange 0 (len1 a))) (zrange 0 (len0 a)) with nil => None | cons x l => Some (reduce pick x l) end.
Definition minmax_window (a : arr2 R) : arr2 R := sl2 a (Some 3) (Some (-4)) (Some 3) (Some (-4)).
Fixpoint on_ranks (l : list (option R)) : option (list R) :=
  match l with nil => Some nil | cons x l => do y <- x; do r <- on_ranks l; Some (cons y r) end.
Definition reduce_global (pick : R -> R -> R) (ranks : list (arr2 R)) : option R :=
  do values <- on_ranks (map (fun a => np_reduce pick (minmax_window a)) ranks);
  match values with nil => None | cons x l => Some (reduce pick x l) end.
