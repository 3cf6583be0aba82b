(** Model of SubtileGridSizer.from_namelist, ndsl/initialization/subtile_grid_sizer.py 81-127, on top of from_tile_params (26-79) of GridModel.v.

    A namelist is a dictionary of numbers, pairs (layouts) and groups; other values are not modelled.  A partitioner is its layout and its edge_interior_ratio (partitioner.py 128-142,
    ratio 1.0 by default).  Ranks and sizes are unbounded integers, the floating-point arithmetic of the partitioner is that of DecompModel.v. *)
From Coq Require Import QArith.
From Verif Require Import Base Dict PartModel DecompModel HaloModel GridModel.
Open Scope Z_scope.

Inductive entry := Int (z : Z) | Pair (l : layout) | Group (d : dict entry).
(** namelist[key] where a number or a pair is needed; None = an exception *)
Definition number (d : dict entry) (k : string) : option Z := match get d k with Some (Int z) => Some z | _ => None end.
Definition pair (d : dict entry) (k : string) : option layout := match get d k with Some (Pair l) => Some l | _ => None end.
(** 100-117: layout, nx_tile, ny_tile and nz; None = KeyError or TypeError *)
Definition read (nml : dict entry) : option (layout * (Z * Z * Z)) :=
  match get nml "fv_core_nml" with
  | Some (Group d) => do l <- pair d "layout"; do npx <- number d "npx"; do npy <- number d "npy"; do npz <- number d "npz"; Some (l, (npx - 1, npy - 1, npz))
  | Some _ => None
  | None => match get nml "nx_tile" with
            | Some _ => do l <- pair nml "layout"; do nx <- number nml "nx_tile"; do ny <- number nml "nx_tile"; do n <- number nml "nz"; Some (l, (nx, ny, n))
            | None => None
            end
  end.
(** 56-57 *)
Definition partitioner (given : option (layout * Q)) (l : layout) : layout * Q := match given with Some p => p | None => (l, 1%Q) end.
(** 81-127; constants.py 71: N_HALO_DEFAULT = 3 *)
Definition from_namelist (rnd : Q -> Q) (nml : dict entry) (given : option (layout * Q)) (rank : Z) (fort : bool) : option sizer :=
  do p <- read nml;
  let '(l, (nx_tile, ny_tile, nz)) := p in
  let '(l', ratio) := partitioner given l in
  from_tile_params rnd ratio nx_tile ny_tile nz 3 l' rank [] fort.

(** Specification.  What a namelist says: fv_core_nml counts the interfaces of a tile, the other format the cells of a square tile. *)
Definition describes (nml : dict entry) (l : layout) (nx_tile ny_tile nz : Z) : Prop :=
  (exists d, get nml "fv_core_nml" = Some (Group d) /\ get d "layout" = Some (Pair l) /\
     get d "npx" = Some (Int (nx_tile + 1)) /\ get d "npy" = Some (Int (ny_tile + 1)) /\ get d "npz" = Some (Int nz)) \/
  (get nml "fv_core_nml" = None /\ get nml "layout" = Some (Pair l) /\ get nml "nx_tile" = Some (Int nx_tile) /\ ny_tile = nx_tile /\ get nml "nz" = Some (Int nz)).
(** the points of the whole tile along a dimension: cells, or one more interfaces *)
Definition points (nx_tile ny_tile nz : Z) (d : sdim) : Z :=
  match d with
  | H AI i => nx_tile + (if i then 1 else 0)
  | H AJ i => ny_tile + (if i then 1 else 0)
  | H AV i => nz + (if i then 1 else 0)
  | Data _ => 0
  end.
(** a spatial dimension *)
Definition is_spatial (d : sdim) : Prop := exists a i, d = H a i.
