(** Model of the areas of the cells and of the lengths of their sides (ndsl/grid/gnomonic.py:342-386, ndsl/grid/generation.py:1874-1922 and
    2118-2135), over the real numbers, for the corners that MetricTerms._init_dgrid gives (TilesModel).

    Arrays are functions of the two horizontal indices.  Not modelled: the halo updates, the change of sign of negative lengths and the corner
    fill that follow (C12, C41; they leave the points read here alone), the cast to the model's float type, rounding. *)
Require Import Reals ZArith Bool.
From Verif Require Import SphereModel GnomModel MirrorModel TilesModel.
Open Scope R_scope.

Definition array := Z -> Z -> R.

(** ** gnomonic.py:342-365 great_circle_distance_along_axis on two-dimensional arrays; [axis] is 0 or 1.  The transpositions put the axis first
    and back again. *)
Definition distance_along_axis (lon lat : array) (radius : R) (axis : nat) : array :=
  let swap (a : array) : array := match axis with O => a | _ => fun i j => a j i end in
  let lon := swap lon in
  let lat := swap lat in
  swap (fun i j => great_circle_distance (lon i j) (lon (i + 1)%Z j) (lat i j) (lat (i + 1)%Z j) radius).

(** ** gnomonic.py:374-386 get_area: the views lower_left, ... are the points at the indices of the cell plus 0 or 1 *)
Definition get_area (lon lat : array) (radius : R) : array :=
  let xyz i j := lon_lat_to_xyz (lon i j) (lat i j) in
  let lower_left i j := xyz i j in
  let lower_right i j := xyz (i + 1)%Z j in
  let upper_left i j := xyz i (j + 1)%Z in
  let upper_right i j := xyz (i + 1)%Z (j + 1)%Z in
  fun i j => rectangle_area (lower_left i j) (upper_left i j) (upper_right i j) (lower_right i j) radius.

(** a[3:] of an array *)
Definition from3 (a : array) : array := fun i j => a (i + 3)%Z (j + 3)%Z.

(** ** generation.py:2118-2135 _compute_area_cube_sphere before the halo update; the arrays have w + 7 points along each axis *)
Definition compute_area (radius : R) (w : Z) (lon lat : array) : array :=
  let m := (w + 7)%Z in
  let values := get_area (from3 lon) (from3 lat) radius in
  fun i j => if ((3 <=? i) && (i <? m - 4) && (3 <=? j) && (j <? m - 4))%Z%bool then values (i - 3)%Z (j - 3)%Z else - (1 * 10 ^ 8).

(** ** generation.py:1874-1901 _compute_dxdy_cube_sphere before the vector halo update: zeros around the view of the compute domain, which has
    w by w + 1 points for dx and w + 1 by w for dy *)
Definition compute_dx (radius : R) (w : Z) (lon lat : array) : array :=
  let values := distance_along_axis (from3 lon) (from3 lat) radius 0 in
  fun i j => if ((3 <=? i) && (i <? 3 + w) && (3 <=? j) && (j <? 3 + w + 1))%Z%bool then values (i - 3)%Z (j - 3)%Z else 0.
Definition compute_dy (radius : R) (w : Z) (lon lat : array) : array :=
  let values := distance_along_axis (from3 lon) (from3 lat) radius 1 in
  fun i j => if ((3 <=? i) && (i <? 3 + w + 1) && (3 <=? j) && (j <? 3 + w))%Z%bool then values (i - 3)%Z (j - 3)%Z else 0.

(** ** generation.py:1706-1843 _init_dgrid (without the halo update): the corners of a rank after the shift of the longitudes; a halo of three
    points, and arrays that held [a0] before *)
Definition rank_corners (radius : R) (n w : nat) (l row col t : Z) (a0 : Z -> Z -> R * R) : option (Z -> Z -> R * R) :=
  match init_dgrid radius n w l l row col 3 t a0 with Some g => Some (fun i j => shift_lon (g i j)) | None => None end.
Definition on_corners {A} (f : array -> array -> A) (g : Z -> Z -> R * R) : A := f (fun i j => fst (g i j)) (fun i j => snd (g i j)).
Definition rank_area (radius : R) (n w : nat) (l row col t : Z) (a0 : Z -> Z -> R * R) : option array :=
  match rank_corners radius n w l row col t a0 with Some g => Some (on_corners (compute_area radius (Z.of_nat w)) g) | None => None end.
Definition rank_dx (radius : R) (n w : nat) (l row col t : Z) (a0 : Z -> Z -> R * R) : option array :=
  match rank_corners radius n w l row col t a0 with Some g => Some (on_corners (compute_dx radius (Z.of_nat w)) g) | None => None end.
Definition rank_dy (radius : R) (n w : nat) (l row col t : Z) (a0 : Z -> Z -> R * R) : option array :=
  match rank_corners radius n w l row col t a0 with Some g => Some (on_corners (compute_dy radius (Z.of_nat w)) g) | None => None end.
