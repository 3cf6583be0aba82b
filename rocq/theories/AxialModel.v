(** Model of the factors of the correction of axial angular momentum, over the real numbers: ndsl/grid/geometry.py 238-263 (calculate_l2c_vu) and generation.py 2923-2944
    (_calculate_latlon_momentum_correction_cube_sphere), on the functions of SphereModel.v.

    The arrays of longitude and latitude have [m0] by [m1] points, those of the result as many.  Not modelled: rounding, the casts between precisions. *)
Require Import Reals ZArith Bool.
From Verif Require Import SphereModel.

(** geometry.py 241-250 and 252-261, one edge: from (lon1, lat1) to (lon2, lat2) *)
Definition l2c (p1 p2 : R * R) : R :=
  let '(lon1, lat1) := p1 in let '(lon2, lat2) := p2 in
  let '(lon, lat) := lon_lat_midpoint lon1 lon2 lat1 lat2 in
  (cos lat * dot (unit_vector_direction lon1 lat1 lon2 lat2) (lon_vect lon lat))%R.

(** Python slices: the first index and the number of entries of [start:stop] in an axis of m, stop negative or not *)
Local Open Scope Z_scope.
Definition bound (m s : Z) : Z := if s <? 0 then Z.max 0 (m + s) else Z.min m s.
Definition slice_length (m start stop : Z) : Z := Z.max 0 (bound m stop - bound m start).
(** numpy: operands of different shapes, neither of one entry *)
Definition compatible (n n' : Z) : bool := (n =? n') || (n =? 1) || (n' =? 1).

Section Grid.
Context (dgrid : Z -> Z -> R * R) (m0 m1 nhalo : Z).
(** geometry.py 241-250 with generation.py 2936-2939; None = ValueError of numpy *)
Definition l2c_v : option (Z -> Z -> R) :=
  let n := slice_length m0 nhalo (- nhalo) in
  let k1 := slice_length m1 nhalo (- nhalo - 1) in
  let k2 := slice_length m1 (nhalo + 1) (- nhalo) in
  if negb (compatible k1 k2) then None
  else Some (fun i j => if (nhalo <=? i) && (i <? nhalo + n) && (nhalo <=? j) && (j <? nhalo + k1) then l2c (dgrid i j) (dgrid i (nhalo + 1 + (j - nhalo))) else 0%R).
(** 252-261 *)
Definition l2c_u : option (Z -> Z -> R) :=
  let k1 := slice_length m0 nhalo (- nhalo - 1) in
  let k2 := slice_length m0 (nhalo + 1) (- nhalo) in
  let n := slice_length m1 nhalo (- nhalo) in
  if negb (compatible k1 k2) then None
  else Some (fun i j => if (nhalo <=? i) && (i <? nhalo + k1) && (nhalo <=? j) && (j <? nhalo + n) then l2c (dgrid i j) (dgrid (nhalo + 1 + (i - nhalo)) j) else 0%R).
End Grid.
