(** Model of rank topology: ndsl/comm/partitioner.py (boundaries).
    Ranks and layouts are unbounded integers, Python's // and % are Z.div and Z.modulo (floor).
    [functools.lru_cache]/[copy.copy] around the boundary functions are not modelled: the functions are pure
    and return a fresh object for every caller. *)
From Verif Require Import Base.

(** constants.py:59-68 boundary types (INTERIOR is never produced by a partitioner). *)
Inductive btype := WEST | EAST | NORTH | SOUTH | NORTHWEST | NORTHEAST | SOUTHWEST | SOUTHEAST.

(** comm/boundary.py:35-44, 90-117 SimpleBoundary: the four data fields. *)
Record boundary := mkB { b_type : btype; b_from : Z; b_to : Z; b_rot : Z }.

(** layout = (y, x) number of ranks; partitioner.py:46-58 *)
Definition layout := (Z * Z)%type.

(** partitioner.py:160-161 TilePartitioner.total_ranks *)
Definition tile_ranks (l : layout) : Z := fst l * snd l.

(** partitioner.py:745-751 subtile_index *)
Definition subtile_index_of (rank ranks_per_tile : Z) (l : layout) : Z * Z :=
  let within := rank mod ranks_per_tile in (within / snd l, within mod snd l).

(** partitioner.py:152-157 TilePartitioner.subtile_index *)
Definition subtile_index (l : layout) (rank : Z) : Z * Z := subtile_index_of rank (tile_ranks l) l.

(** partitioner.py:676-689 and 236-246 *)
Definition on_tile_left (l : layout) (rank : Z) : bool := snd (subtile_index l rank) =? 0.
Definition on_tile_right (l : layout) (rank : Z) : bool := snd (subtile_index l rank) =? snd l - 1.
Definition on_tile_top (l : layout) (rank : Z) : bool := fst (subtile_index l rank) =? fst l - 1.
Definition on_tile_bottom (l : layout) (rank : Z) : bool := fst (subtile_index l rank) =? 0.

(** partitioner.py:280-290 TilePartitioner._left_edge *)
Definition tile_left_edge (l : layout) (rank : Z) : boundary :=
  mkB WEST rank (if on_tile_left l rank then rank + snd l - 1 else rank - 1) 0.

(** partitioner.py:292-302 TilePartitioner._right_edge *)
Definition tile_right_edge (l : layout) (rank : Z) : boundary :=
  mkB EAST rank (if on_tile_right l rank then rank - snd l + 1 else rank + 1) 0.

(** partitioner.py:304-314 TilePartitioner._top_edge *)
Definition tile_top_edge (l : layout) (rank : Z) : boundary :=
  mkB NORTH rank (if on_tile_top l rank then rank - (fst l - 1) * snd l else rank + snd l) 0.

(** partitioner.py:316-326 TilePartitioner._bottom_edge *)
Definition tile_bottom_edge (l : layout) (rank : Z) : boundary :=
  mkB SOUTH rank (if on_tile_bottom l rank then rank + (fst l - 1) * snd l else rank - snd l) 0.

(** partitioner.py:351-365 _get_corner *)
Definition get_corner (bt : btype) (rank : Z) (e1 e2 : Z -> boundary) : boundary :=
  let edge_1 := e1 rank in
  let edge_2 := e2 (b_to edge_1) in
  mkB bt rank (b_to edge_2) (b_rot edge_1 + b_rot edge_2).

(** partitioner.py:248-278, 328-342 TilePartitioner.boundary *)
Definition tile_boundary (l : layout) (bt : btype) (rank : Z) : boundary :=
  match bt with
  | WEST => tile_left_edge l rank
  | EAST => tile_right_edge l rank
  | NORTH => tile_top_edge l rank
  | SOUTH => tile_bottom_edge l rank
  | NORTHWEST => get_corner NORTHWEST rank (tile_left_edge l) (tile_top_edge l)
  | NORTHEAST => get_corner NORTHEAST rank (tile_right_edge l) (tile_top_edge l)
  | SOUTHWEST => get_corner SOUTHWEST rank (tile_left_edge l) (tile_bottom_edge l)
  | SOUTHEAST => get_corner SOUTHEAST rank (tile_right_edge l) (tile_bottom_edge l)
  end.

(** np.arange(total).reshape(layout)[i, j] *)
Definition rank_array (l : layout) (i j : Z) : Z := i * snd l + j.

(** All index pairs of an (n0, n1) array, row-major, the order used by np.where. *)
Definition positions (n0 n1 : Z) : list (Z * Z) :=
  flat_map (fun i => map (fun j => (i, j)) (zrange 0 n1)) (zrange 0 n0).

(** rank_array[np.where(transformed == rank)][0]  (partitioner.py:704, 742).
    [shape], [val]: the transformed array.  None = IndexError (no match, or a match outside rank_array). *)
Definition where_lookup (l : layout) (shape : Z * Z) (val : Z -> Z -> Z) (rank : Z) : option Z :=
  match find (fun p => val (fst p) (snd p) =? rank) (positions (fst shape) (snd shape)) with
  | Some (i, j) => if (i <? fst l) && (j <? snd l) then Some (rank_array l i j) else None
  | None => None
  end.

(** partitioner.py:692-707 rotate_subtile_rank.  np.rot90(m)[i, j] = m[j, n1 - 1 - i], shape (n1, n0). *)
Definition rotate_subtile_rank (l : layout) (rank nrot : Z) : option Z :=
  if nrot =? 0 then Some rank
  else if nrot =? 1 then
    where_lookup l (snd l, fst l) (fun i j => rank_array l j (snd l - 1 - i)) rank
  else None.

(** partitioner.py:717-721, 731-742 fliplr_subtile_rank.  np.fliplr(m)[i, j] = m[i, n1 - 1 - j]. *)
Definition fliplr_subtile_rank (l : layout) (rank : Z) : option Z :=
  where_lookup l l (fun i j => rank_array l i (snd l - 1 - j)) rank.

(** partitioner.py:710-714 transpose_subtile_rank *)
Definition transpose_subtile_rank (l : layout) (rank : Z) : option Z :=
  where_lookup l (snd l, fst l) (fun i j => rank_array l j i) rank.

(** partitioner.py:724-728 flipud_subtile_rank *)
Definition flipud_subtile_rank (l : layout) (rank : Z) : option Z :=
  where_lookup l l (fun i j => rank_array l (fst l - 1 - i) j) rank.

(** partitioner.py:401-403 CubedSpherePartitioner.total_ranks *)
Definition cube_ranks (l : layout) : Z := 6 * tile_ranks l.

(** partitioner.py:36-43, 392-394 tile_index (the ValueError branch is unreachable: total = 6 * tile). *)
Definition get_tile_index (rank total : Z) : option Z :=
  if negb (total mod 6 =? 0) then None else Some (rank / (total / 6)).
Definition tile_index (l : layout) (rank : Z) : Z := rank / (cube_ranks l / 6).

(** partitioner.py:396-398 tile_root_rank *)
Definition tile_root_rank (l : layout) (rank : Z) : Z := tile_ranks l * (rank / tile_ranks l).

(** partitioner.py:754-755 is_even *)
Definition is_even (v : Z) : bool := v mod 2 =? 0.

(** partitioner.py:388-390 _ensure_square_layout *)
Definition square_layout (l : layout) : bool := fst l =? snd l.

(** self.tile.fliplr_rank(self.tile.rotate_rank(tile_rank, 1)) used by every rotated edge *)
Definition flip_rotate (l : layout) (tile_rank : Z) : option Z :=
  do r1 <- rotate_subtile_rank l tile_rank 1; fliplr_subtile_rank l r1.

Definition with_to (b : boundary) (to : Z) : boundary := mkB (b_type b) (b_from b) to (b_rot b).

(** partitioner.py:438-460 CubedSpherePartitioner._left_edge *)
Definition cube_left_edge (l : layout) (rank : Z) : option boundary :=
  let T := tile_ranks l in
  if negb (square_layout l) then None else
  if on_tile_left l rank then
    if is_even (tile_index l rank) then
      do t <- flip_rotate l (rank mod T);
      Some (mkB WEST rank (tile_root_rank l (rank - 2 * T) + t) 1)
    else let b := tile_left_edge l rank in Some (with_to b (b_to b - T))
  else Some (tile_left_edge l rank).

(** partitioner.py:462-482 CubedSpherePartitioner._right_edge *)
Definition cube_right_edge (l : layout) (rank : Z) : option boundary :=
  let T := tile_ranks l in
  if negb (square_layout l) then None else
  if on_tile_right l rank then
    if negb (is_even (tile_index l rank)) then
      do t <- flip_rotate l (rank mod T);
      Some (mkB EAST rank (tile_root_rank l (rank + 2 * T) + t) 1)
    else let b := tile_right_edge l rank in Some (with_to b (b_to b + T))
  else Some (tile_right_edge l rank).

(** partitioner.py:484-504 CubedSpherePartitioner._top_edge *)
Definition cube_top_edge (l : layout) (rank : Z) : option boundary :=
  let T := tile_ranks l in
  if negb (square_layout l) then None else
  if on_tile_top l rank then
    if is_even (tile_index l rank) then
      do t <- flip_rotate l (rank mod T);
      Some (mkB NORTH rank ((tile_index l rank + 2) * T + t) 3)
    else let b := tile_top_edge l rank in Some (with_to b (b_to b + T))
  else Some (tile_top_edge l rank).

(** partitioner.py:506-522 CubedSpherePartitioner._bottom_edge *)
Definition cube_bottom_edge (l : layout) (rank : Z) : option boundary :=
  let T := tile_ranks l in
  if negb (square_layout l) then None else
  if on_tile_bottom l rank && negb (is_even (tile_index l rank)) then
    do t <- flip_rotate l (rank mod T);
    Some (mkB SOUTH rank ((tile_index l rank - 2) * T + t) 3)
  else
    let b := tile_bottom_edge l rank in
    Some (if on_tile_bottom l rank then with_to b (b_to b - T) else b).

(** partitioner.py:590-605 CubedSpherePartitioner._get_corner (intermediate rank is not reduced mod total) *)
Definition cube_get_corner (bt : btype) (rank : Z) (e1 e2 : Z -> option boundary) : option boundary :=
  do edge_1 <- e1 rank;
  do edge_2 <- e2 (b_to edge_1);
  Some (mkB bt rank (b_to edge_2) (b_rot edge_1 + b_rot edge_2)).

(** partitioner.py:524-588 corners: outer None = raises, inner None = "no boundary". *)
Definition cube_top_left (l : layout) (rank : Z) : option (option boundary) :=
  if on_tile_top l rank && on_tile_left l rank then Some None
  else
    let second := if is_even (tile_index l rank) && on_tile_left l rank then cube_left_edge l else cube_top_edge l in
    do b <- cube_get_corner NORTHWEST rank (cube_left_edge l) second; Some (Some b).

Definition cube_top_right (l : layout) (rank : Z) : option (option boundary) :=
  if on_tile_top l rank && on_tile_right l rank then Some None
  else
    let second := if is_even (tile_index l rank) && on_tile_top l rank then cube_bottom_edge l else cube_right_edge l in
    do b <- cube_get_corner NORTHEAST rank (cube_top_edge l) second; Some (Some b).

Definition cube_bottom_left (l : layout) (rank : Z) : option (option boundary) :=
  if on_tile_bottom l rank && on_tile_left l rank then Some None
  else
    let second := if negb (is_even (tile_index l rank)) && on_tile_bottom l rank then cube_top_edge l else cube_left_edge l in
    do b <- cube_get_corner SOUTHWEST rank (cube_bottom_edge l) second; Some (Some b).

Definition cube_bottom_right (l : layout) (rank : Z) : option (option boundary) :=
  if on_tile_bottom l rank && on_tile_right l rank then Some None
  else
    let second := if negb (is_even (tile_index l rank)) && on_tile_bottom l rank then cube_bottom_edge l else cube_right_edge l in
    do b <- cube_get_corner SOUTHEAST rank (cube_bottom_edge l) second; Some (Some b).

(** partitioner.py:420-436 CubedSpherePartitioner._cached_boundary *)
Definition cube_boundary (l : layout) (bt : btype) (rank : Z) : option (option boundary) :=
  let some (o : option boundary) : option (option boundary) := do b <- o; Some (Some b) in
  do ob <-
    match bt with
    | WEST => some (cube_left_edge l rank)
    | EAST => some (cube_right_edge l rank)
    | NORTH => some (cube_top_edge l rank)
    | SOUTH => some (cube_bottom_edge l rank)
    | NORTHWEST => cube_top_left l rank
    | NORTHEAST => cube_top_right l rank
    | SOUTHWEST => cube_bottom_left l rank
    | SOUTHEAST => cube_bottom_right l rank
    end;
  match ob with
  | None => Some None
  | Some b => Some (Some (with_to b (b_to b mod cube_ranks l)))
  end.
