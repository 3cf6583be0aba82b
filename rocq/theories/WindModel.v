(** Model of the conversion of winds from the cubed grid to longitude and latitude, over the real numbers: ndsl/grid/geometry.py,
    unit_vector_lonlat 872-889, calculate_grid_z 572-577, calculate_grid_a 580-585 and the sine at the cell centre of
    calculate_supergrid_cos_sin (213-220); ndsl/stencils/c2l_ord.py, c2l_ord2 62-103, ord4_transform 106-152 and mock_exchange 27-57.

    All arrays are taken point by point (numpy and the stencils work entry by entry).  The vertical index is left out: the stencils do
    the same in every layer.  Not modelled: rounding, the casts between precisions. *)
Require Import Reals ZArith Bool.
From Verif Require Import SphereModel.
Local Open Scope Z_scope.

(** geometry.py 872-889 *)
Definition unit_lon (lon lat : R) : vec := (- sin lon, cos lon, 0)%R.
Definition unit_lat (lon lat : R) : vec := (- sin lat * cos lon, - sin lat * sin lon, cos lat)%R.

(** 213-220 at the cell centre: cos_sg is the product of the unit vectors of the cell *)
Definition sine_of_cosine (c : R) : R :=
  let c := if Rlt_dec (Rabs (1 - c)) (1 / 10 ^ 15) then 1%R else c in
  let s := (1 - c ^ 2)%R in
  let s := if Rlt_dec s 0 then 0%R else s in
  let s := sqrt s in
  if Rlt_dec 1 s then 1%R else s.

(** 572-577: (z11, z12, z21, z22) *)
Definition calculate_grid_z (ec1 ec2 vlon vlat : vec) : R * R * R * R := (dot ec1 vlon, dot ec1 vlat, dot ec2 vlon, dot ec2 vlat).
(** 580-585 *)
Definition calculate_grid_a (z : R * R * R * R) (sin_sg5 : R) : R * R * R * R :=
  let '(z11, z12, z21, z22) := z in (0.5 * z22 / sin_sg5, -0.5 * z12 / sin_sg5, -0.5 * z21 / sin_sg5, 0.5 * z11 / sin_sg5)%R.
(** generation.py 3202-3306, one cell *)
Definition grid_a_of (ec1 ec2 : vec) (lon lat : R) : R * R * R * R :=
  calculate_grid_a (calculate_grid_z ec1 ec2 (unit_lon lon lat) (unit_lat lon lat)) (sine_of_cosine (dot ec1 ec2)).

(** ** The stencils *)
Definition field := Z -> Z -> R.
(** c2l_ord.py 22-25 *)
Definition A1 : R := 0.5625.
Definition A2 : R := -0.0625.
Definition C1 : R := 1.125.
Definition C2 : R := -0.125.
Definition a_times (a : R * R * R * R) (x y : R) : R * R := let '(a11, a12, a21, a22) := a in (a11 * x + a12 * y, a21 * x + a22 * y)%R.

Section Stencils.
  Variable grid_type : Z.
  Variables u v dx dy : field.
  Variable a : Z -> Z -> R * R * R * R.
  Local Open Scope R_scope.
  (** 90-103 *)
  Definition c2l_ord2 (i j : Z) : R * R :=
    if (grid_type <? 4)%Z then
      let wu i j := u i j * dx i j in
      let wv i j := v i j * dy i j in
      let u1 := 2.0 * (wu i j + wu i (j + 1)%Z) / (dx i j + dx i (j + 1)%Z) in
      let v1 := 2.0 * (wv i j + wv (i + 1)%Z j) / (dy i j + dy (i + 1)%Z j) in
      a_times (a i j) u1 v1
    else (0.5 * (u i j + u i (j + 1)%Z), 0.5 * (v i j + v (i + 1)%Z j)).
  (** 131-152; the four externals are positions of the tile edges, a region is the cells at such a position *)
  Definition ord4_transform (i_start i_end j_start j_end : Z) (i j : Z) : R * R :=
    if (grid_type <? 4)%Z then
      let utmp := C2 * (u i (j - 1)%Z + u i (j + 2)%Z) + C1 * (u i j + u i (j + 1)%Z) in
      let vtmp := C2 * (v (i - 1)%Z j + v (i + 2)%Z j) + C1 * (v i j + v (i + 1)%Z j) in
      let south_north := ((j =? j_start)%Z || (j =? j_end)%Z)%bool in
      let vtmp := if south_north then 2.0 * ((v i j * dy i j) + (v (i + 1)%Z j * dy (i + 1)%Z j)) / (dy i j + dy (i + 1)%Z j) else vtmp in
      let utmp := if south_north then 2.0 * (u i j * dx i j + u i (j + 1)%Z * dx i (j + 1)%Z) / (dx i j + dx i (j + 1)%Z) else utmp in
      let west_east := ((i =? i_start)%Z || (i =? i_end)%Z)%bool in
      let utmp := if west_east then 2.0 * ((u i j * dx i j) + (u i (j + 1)%Z * dx i (j + 1)%Z)) / (dx i j + dx i (j + 1)%Z) else utmp in
      let vtmp := if west_east then 2.0 * ((v i j * dy i j) + (v (i + 1)%Z j * dy (i + 1)%Z j)) / (dy i j + dy (i + 1)%Z j) else vtmp in
      a_times (a i j) utmp vtmp
    else (A2 * (u i (j - 1)%Z + u i (j + 2)%Z) + A1 * (u i j + u i (j + 1)%Z), A2 * (v (i - 1)%Z j + v (i + 2)%Z j) + A1 * (v i j + v (i + 1)%Z j)).
End Stencils.

(** ** 27-57 mock_exchange: one slice assignment after another; the target [i0:i1, j0:j1] takes the values at the given shift *)
Definition assign {T} (q : Z -> Z -> T) (i0 i1 j0 j1 di dj : Z) : Z -> Z -> T :=
  fun i j => if (i0 <=? i) && (i <? i1) && (j0 <=? j) && (j <? j1) then q (i + di) (j + dj) else q i j.
(** [m0], [m1]: the sizes of the array *)
Definition mock_exchange {T} (q : Z -> Z -> T) (m0 m1 isc iec isd ied jsc jec jsd jed : Z) : Z -> Z -> T :=
  let nhalo := isc - isd in
  let q := assign q isd isc 0 m1 (iec - nhalo + 1 - isd) 0 in
  let q := assign q (iec + 1) (ied + 1) 0 m1 (isc - (iec + 1)) 0 in
  let q := assign q 0 m0 jsd jsc 0 (jec - nhalo + 1 - jsd) in
  let q := assign q 0 m0 (jec + 1) (jed + 1) 0 (jsc - (jec + 1)) in
  let q := assign q isd isc jsd jsc (iec - nhalo + 1 - isd) (jec - nhalo + 1 - jsd) in
  let q := assign q isd isc (jec + 1) (jed + 1) (iec - nhalo + 1 - isd) (jsc - (jec + 1)) in
  let q := assign q (iec + 1) (ied + 1) jsd jsc (isc - (iec + 1)) (jec - nhalo + 1 - jsd) in
  assign q (iec + 1) (ied + 1) (jec + 1) (jed + 1) (isc - (iec + 1)) (jsc - (jec + 1)).
