(** Model of scatter and gather on the cubed sphere: ndsl/comm/communicator.py 162-219 (scatter), 252-306 (gather), 828-868 (the receiving quantities of CubedSphereCommunicator), with
    ndsl/comm/partitioner.py 607-673 (global_extent, subtile_extent and subtile_slice of CubedSpherePartitioner), on top of DecompModel.v.

    A global quantity is a function of index tuples whose first entry is the tile; coordinates are those of the view.  MPI: the Scatter delivers block [rank] of the buffer to [rank], the Gather
    collects the blocks; every rank sends a quantity of the root's extent.  Buffers, dtypes and the devices are left out; numpy's broadcasting of extents 1 as in DecompModel.v. *)
From Coq Require Import QArith.
From Verif Require Import Base PartModel DecompModel.
Open Scope Z_scope.

Section Globe.
Context {A : Type} (rnd : Q -> Q) (l : layout) (ratio : Q).
(** entries of the first axis of the storage from the origin on: bounds.py 147-166 adds the origin to a single index and does not look at the extent *)
Context (stored : Z).

(** 198-208: the part of the quantity for a rank, None = NotImplementedError or ValueError of the partitioner, IndexError of a missing tile, or ValueError of the assignment *)
Definition block (dims : list dim) (extent shape : list Z) (g : index -> A) (rank : Z) : option (index -> A) :=
  do part <- cube_subtile_slice rnd l ratio rank dims extent true;
  let '(t, sl) := part in
  if (t <? stored) && list_eqb (shape_of sl) shape then Some (take_slice (fun p => g (t :: p)) sl) else None.
(** 162-219: what each rank has then (the default is never used); None = the root raises and the others wait *)
Definition cube_scatter (dims : list dim) (extent : list Z) (g : index -> A) : option (Z -> index -> A) :=
  do shape <- subtile_extent rnd l ratio dims extent 0;
  if forallb (fun rank => match block dims extent shape g rank with Some _ => true | None => false end) (zrange 0 (cube_ranks l))
  then Some (fun rank => match block dims extent shape g rank with Some b => b | None => g end)
  else None.

(** partitioner.py 607-618 and communicator.py 828-848: dimensions and extent of the gathered quantity *)
Definition gathered_dims (dims : list dim) : list dim := TILE :: dims.
Definition gathered_extent (dims : list dim) (shape : list Z) : list Z := 6 :: global_extent l dims shape.
(** 288-294: recv_quantity.view[(t,) + sl] = b *)
Definition put_tile (g : index -> A) (t : Z) (sl : list (Z * Z)) (b : index -> A) : index -> A :=
  fun p => match p with t' :: p' => if (t' =? t) && in_slices sl p' then b (unshift sl p') else g p | [] => g p end.
(** 285-294; [dims] and [extent] are those of the receiving quantity, [shape] the extent of the quantities sent *)
Fixpoint cube_gather_loop (ranks : list Z) (dims : list dim) (extent shape : list Z) (buf : Z -> index -> A) (g : index -> A) : option (index -> A) :=
  match ranks with
  | [] => Some g
  | r :: ranks =>
      do part <- cube_subtile_slice rnd l ratio r dims extent true;
      let '(t, sl) := part in
      if (t <? stored) && list_eqb (shape_of sl) shape
      then cube_gather_loop ranks dims extent shape buf (put_tile g t sl (buf r))
      else None
  end.
Definition cube_gather (dims : list dim) (extent shape : list Z) (buf : Z -> index -> A) (g : index -> A) : option (index -> A) :=
  cube_gather_loop (zrange 0 (cube_ranks l)) dims extent shape buf g.
End Globe.
