(** Model of the Grid of the translate tests: ndsl/stencils/testing/grid.py, _make 55-85, __init__ 107-158, the conversions of
    indices 194-226, horizontal_starts_from_shape 433-446 and grid_indexing 464-473.  Left out: the fields, the slice
    dictionaries.  int((npx - 1) / layout[0]) is modelled by the integer quotient, the same for sizes below 2^53. *)
From Verif Require Import Base PartModel.

Definition halo : Z := 3.    (* N_HALO_DEFAULT, constants.py *)
(** the first (is, js, isd, jsd) and last (ie, je, ied, jed) indices *)
Record indices := mkIdx { is_ : Z; ie : Z; js : Z; je : Z; isd : Z; ied : Z; jsd : Z; jed : Z }.
(** 127-128 *)
Definition width_x (npx : Z) (l : layout) : Z := (npx - 1) / fst l.
Definition width_y (npy : Z) (l : layout) : Z := (npy - 1) / snd l.
(** 194-207 global_to_local_x, global_to_local_y *)
Definition to_local_x (npx : Z) (l : layout) (rank i : Z) : Z := i - snd (subtile_index l rank) * width_x npx l.
Definition to_local_y (npy : Z) (l : layout) (rank j : Z) : Z := j - fst (subtile_index l rank) * width_y npy l.
(** 214-226 local_to_global_indices *)
Definition to_global_x (npx : Z) (l : layout) (rank i : Z) : Z := i + snd (subtile_index l rank) * width_x npx l.
Definition to_global_y (npy : Z) (l : layout) (rank j : Z) : Z := j + fst (subtile_index l rank) * width_y npy l.
(** 73-84: the indices given to __init__ by _make, from_namelist *)
Definition make_indices (npx npy : Z) (l : layout) : indices :=
  let nx := (npx - 1) / fst l in
  let ny := (npy - 1) / snd l in
  mkIdx halo (nx + halo - 1) halo (ny + halo - 1) 0 (nx + 2 * halo - 1) 0 (ny + 2 * halo - 1).
(** 129-134: indices as attributes; [local] is the argument local_indices *)
Definition set_indices (npx npy : Z) (l : layout) (rank : Z) (local : bool) (x : indices) : indices :=
  if local then x else
  let fx := to_local_x npx l rank in
  let fy := to_local_y npy l rank in
  mkIdx (fx (is_ x)) (fx (ie x)) (fy (js x)) (fy (je x)) (fx (isd x)) (fx (ied x)) (fy (jsd x)) (fy (jed x)).
(** 140-147 global_is, ... *)
Definition globals (npx npy : Z) (l : layout) (rank : Z) (x : indices) : indices :=
  let fx := to_global_x npx l rank in
  let fy := to_global_y npy l rank in
  mkIdx (fx (is_ x)) (fx (ie x)) (fy (js x)) (fy (je x)) (fx (isd x)) (fx (ied x)) (fy (jsd x)) (fy (jed x)).
(** 148-151 *)
Definition west_edge (npx npy : Z) (l : layout) (rank : Z) (x : indices) : bool := is_ (globals npx npy l rank x) =? halo.
Definition east_edge (npx npy : Z) (l : layout) (rank : Z) (x : indices) : bool := ie (globals npx npy l rank x) =? npx + halo - 2.
Definition south_edge (npx npy : Z) (l : layout) (rank : Z) (x : indices) : bool := js (globals npx npy l rank x) =? halo.
Definition north_edge (npx npy : Z) (l : layout) (rank : Z) (x : indices) : bool := je (globals npx npy l rank x) =? npy + halo - 2.

(** ** Specification: the grid of a rank owns the cell (i, j) of the tile, both counted from 0: the indices of the grid start with three halo points *)
Definition owns (npx npy : Z) (l : layout) (rank i j : Z) : Prop :=
  let g := globals npx npy l rank (make_indices npx npy l) in
  is_ g <= i + 3 <= ie g /\ js g <= j + 3 <= je g.
