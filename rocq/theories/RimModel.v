(** The grid indexing a rank makes from its sizer and its communicator (ndsl/dsl/stencil.py 673-689). *)
From Coq Require Import QArith.
From Verif Require Import Base PartModel DecompModel GridModel.
Open Scope Z_scope.

(** stencil.py:673-689 from_sizer_and_communicator: the domain is the sizer's extent of [I, J, K], the four flags are
    those of the tile's partitioner (layout [l]) for [comm.rank]; k_start keeps its default 0 (646, 664).  None = an
    exception of get_extent (never raised for the three spatial dimensions). *)
Definition from_sizer_and_communicator (s : sizer) (l : layout) (rank : Z) : option grid :=
  do e <- get_extent s [H AI false; H AJ false; H AV false];
  match e with
  | [i; j; k] =>
      Some (mkGrid i j k (n_halo s) 0 (on_tile_bottom l rank) (on_tile_top l rank) (on_tile_left l rank) (on_tile_right l rank))
  | _ => None
  end.

(** stencil.py:792-835: the points named i_start and i_end (j_start and j_end) by the stencils run on a window
    [origin], [domain] of that axis; the flags tested at 795, 800 and 809, 814 are those of the axis. *)
Definition edge_points (g : grid) (a : axis) (origin domain : Z) : point * point :=
  let '(start, _, stop, _) :=
    match a with
    | AJ => axis_offsets g AJ (south g) (north g) origin domain
    | _ => axis_offsets g a (west g) (east g) origin domain
    end in (start, stop).

(** ** specification *)

(** The cell of the tile at storage index [c] of a rank whose block starts at cell [first] of the tile, the storage
    having [halo] points before the block. *)
Definition tile_cell (first halo c : Z) : Z := first + (c - halo).

(** Among the [own] cells of the rank and its halo, the point [p] of a stencil run on the window [origin], [domain]
    selects exactly the storage index of the tile's cell [cell]: that one if it is there, and none otherwise. *)
Definition selects (origin domain own first halo : Z) (p : point) (cell : Z) : Prop :=
  forall c, 0 <= c < own + 2 * halo -> (c = place origin domain p <-> tile_cell first halo c = cell).
