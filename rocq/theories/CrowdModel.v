(** Model of the halo updates of a periodic tile: ndsl/comm/communicator.py 686-762 (the checks of TileCommunicator in front of start_halo_update, start_vector_halo_update and
    start_synchronize_vector_interfaces), 621-630 (boundaries), on the neighbours of PartModel.v and the messages of AskModel.v.  get_scalar_halo_updater and get_vector_halo_updater
    (582-615) are those of the base class, without a check of the layout.

    [sync] is what Communicator.start_synchronize_vector_interfaces (549-580) does; it is C17.  The number of ranks of the communicator is that of the layout. *)
From Coq Require Import ZArith List Bool.
From Verif Require Import Base PartModel AskModel.
Import ListNotations.
Open Scope Z_scope.

(** constants.py 68-70 BOUNDARY_TYPES, communicator.py 621-630: the ranks at the other side, in this order *)
Definition BOUNDARY_TYPES : list btype := [NORTH; SOUTH; WEST; EAST; NORTHWEST; NORTHEAST; SOUTHWEST; SOUTHEAST].
Definition others (l : layout) (rank : Z) : list Z := map (fun bt => b_to (tile_boundary l bt rank)) BOUNDARY_TYPES.

(** 698-703, 725-730, 755-760 *)
Definition guarded {M} (l : layout) (go : list M * (list (Z * list nat) + refusal)) : list M * (list (Z * list nat) + refusal) :=
  if (fst l <? 3) || (snd l <? 3) then ([], inr NotImplementedError) else go.
(** 686-705 *)
Definition tile_start_halo_update (l : layout) (rank : Z) (q : list (nat * nat)) (n : nat) := guarded l (start_halo_update (others l rank) q n).
(** 707-732 *)
Definition tile_start_vector_halo_update (l : layout) (rank : Z) (x y : list (nat * nat)) (n : nat) := guarded l (start_vector_halo_update (others l rank) x y n).
(** 734-762 *)
Definition tile_start_synchronize (l : layout) (sync : list Z * (list (Z * list nat) + refusal)) := guarded l sync.
(** 582-615 *)
Definition tile_get_scalar (l : layout) (rank : Z) (s : list spec) := get_scalar (others l rank) s.
Definition tile_get_vector (l : layout) (rank : Z) (sx sy : list spec) := get_vector (others l rank) sx sy.

(** Specification.  Ranks are numbered row by row, the tile is periodic: the rank [dj] rows above and [di] columns to the right of [rank]. *)
Definition at_offset (ny nx rank dj di : Z) : Z := ((rank / nx + dj) mod ny) * nx + (rank mod nx + di) mod nx.
(** the eight directions *)
Definition around : list (Z * Z) := [(1, 0); (-1, 0); (0, -1); (0, 1); (1, -1); (1, 1); (-1, -1); (-1, 1)].
Definition surrounding (ny nx rank : Z) : list Z := map (fun d => at_offset ny nx rank (fst d) (snd d)) around.
