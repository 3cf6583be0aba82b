(** Property theorems C05-C09: domain decomposition.  Model: DecompModel.v.  Specification: DecompSpec.v.
    [rnd] is an arbitrary rounding function that is exact on integers and half-integers up to 2^52. *)
From Verif Require Import Base PartModel DecompModel DecompSpec DecompProofs2 DecompProofs3.
From Coq Require Import QArith.
Open Scope Z_scope.

(** C05.  If the decomposition is accepted, every point of the tile lies in the slice of exactly one rank. *)
Theorem C05_subtiles_partition_tile : forall rnd, float_like rnd ->
  forall l, 0 < fst l <= 2 ^ 52 /\ 0 < snd l <= 2 ^ 52 ->
  forall ratio dims extent sl0 p,
  plane_field dims extent -> in_extent extent p ->
  subtile_slice rnd l ratio 0 dims extent false = Some sl0 ->
  exists! rank, 0 <= rank < tile_ranks l /\
    exists sl, subtile_slice rnd l ratio rank dims extent false = Some sl /\ inside sl p.
Proof. exact partition. Qed.
Print Assumptions C05_subtiles_partition_tile.

(** C05 on the cubed sphere: every point of every tile lies in the slice of exactly one of the 6 ny nx ranks. *)
Theorem C05_subtiles_partition_cube : forall rnd, float_like rnd ->
  forall l, 0 < fst l <= 2 ^ 52 /\ 0 < snd l <= 2 ^ 52 ->
  forall ratio dims extent e0 sl0 t p,
  plane_field dims extent -> 0 <= t < 6 -> in_extent extent p ->
  cube_subtile_slice rnd l ratio 0 (TILE :: dims) (e0 :: extent) false = Some sl0 ->
  exists! rank, 0 <= rank < cube_ranks l /\
    exists sl, cube_subtile_slice rnd l ratio rank (TILE :: dims) (e0 :: extent) false = Some (t, sl) /\ inside sl p.
Proof. exact cube_partition. Qed.
Print Assumptions C05_subtiles_partition_cube.

Example C05_case : float_like (fun q => q) /\ plane_field [Dim AV true; Dim AJ false; Dim AI true] [5; 7; 9] /\
  map (fun r => subtile_slice (fun q => q) (3, 2) 1 r [Dim AV true; Dim AJ false; Dim AI true] [5; 7; 9] false) [0; 3; 5]
  = [Some [(0, 5); (0, 2); (0, 4)]; Some [(0, 5); (2, 5); (4, 9)]; Some [(0, 5); (5, 7); (4, 9)]].
Proof.
  split; [intros q z E _; exact E|]. split.
  - repeat split; try reflexivity; [intros [H|[H|[H|[]]]]; discriminate H|].
    repeat constructor; cbn; discriminate.
  - vm_compute. reflexivity.
Qed.

(** C06.  With overlap, along any dimension: positions 0 and last touch the tile's ends; ranks next to each other share
    exactly one index when the dimension is staggered and none otherwise; ranks further apart share nothing;
    non-horizontal dimensions are not divided. *)
Theorem C06_overlap_is_the_interface_line : forall rnd, float_like rnd ->
  forall l, 0 < fst l <= 2 ^ 52 /\ 0 < snd l <= 2 ^ 52 ->
  forall ratio dims extent r1 r2 sl1 sl2 m a iface D s1 s2,
  no_tile dims -> Forall2 size_ok dims extent ->
  0 <= r1 < tile_ranks l -> 0 <= r2 < tile_ranks l ->
  subtile_slice rnd l ratio r1 dims extent true = Some sl1 ->
  subtile_slice rnd l ratio r2 dims extent true = Some sl2 ->
  nth_error dims m = Some (Dim a iface) -> nth_error extent m = Some D ->
  nth_error sl1 m = Some s1 -> nth_error sl2 m = Some s2 ->
  if is_horizontal a then
    let k1 := by_dim a (subtile_index l r1) 0 in
    let k2 := by_dim a (subtile_index l r2) 0 in
    fst s1 <= snd s1 /\
    (k1 = 0 -> fst s1 = 0) /\ (k1 = by_dim a l 1 - 1 -> snd s1 = D) /\
    (k1 = k2 -> s1 = s2) /\
    (k2 = k1 + 1 -> snd s1 = fst s2 + (if iface then 1 else 0)) /\
    (k1 + 1 < k2 -> snd s1 <= fst s2)
  else s1 = (0, D) /\ s2 = (0, D).
Proof. exact overlap_slices. Qed.
Print Assumptions C06_overlap_is_the_interface_line.

(** C06.  Together the overlapping slices cover the tile. *)
Theorem C06_overlapping_slices_cover : forall rnd, float_like rnd ->
  forall l, 0 < fst l <= 2 ^ 52 /\ 0 < snd l <= 2 ^ 52 ->
  forall ratio dims extent sl0 p,
  plane_field dims extent -> in_extent extent p ->
  subtile_slice rnd l ratio 0 dims extent true = Some sl0 ->
  exists rank sl, 0 <= rank < tile_ranks l /\
    subtile_slice rnd l ratio rank dims extent true = Some sl /\ inside sl p.
Proof. exact coverage. Qed.
Print Assumptions C06_overlapping_slices_cover.

Example C06_case :
  map (fun r => subtile_slice (fun q => q) (3, 2) 1 r [Dim AJ true; Dim AI false] [8; 8] true) [0; 2; 4]
  = [Some [(0, 3); (0, 4)]; Some [(2, 6); (0, 4)]; Some [(5, 8); (0, 4)]].
Proof. vm_compute. reflexivity. Qed.

(** C07.  An evenly divisible tile with ratio one is accepted and every rank gets extent / layout cells, at the
    position its subtile index says. *)
Theorem C07_even_tiles_accepted : forall rnd, float_like rnd ->
  forall l, 0 < fst l <= 2 ^ 52 /\ 0 < snd l <= 2 ^ 52 ->
  forall ratio dims extent qs rank,
  (ratio == 1)%Q -> 0 <= rank < tile_ranks l ->
  Forall2 size_ok dims extent -> Forall2 (fun de q => even_dim l (fst de) (snd de) q) (combine dims extent) qs ->
  exists sl, subtile_slice rnd l ratio rank dims extent true = Some sl /\
    forall m a iface q s, nth_error dims m = Some (Dim a iface) -> nth_error qs m = Some q -> nth_error sl m = Some s ->
      let k := by_dim a (subtile_index l rank) 0 in
      s = (k * q, (k + 1) * q + if iface then 1 else 0).
Proof. exact even_accepted. Qed.
Print Assumptions C07_even_tiles_accepted.

(** C07.  An odd number of cells on an even number of ranks is always rejected. *)
Theorem C07_odd_cells_on_even_ranks_rejected : forall rnd l ratio dims extent rank overlap m a iface D,
  no_tile dims -> length dims = length extent ->
  nth_error dims m = Some (Dim a iface) -> nth_error extent m = Some D ->
  by_dim a l 1 mod 2 = 0 -> (D - if iface then 1 else 0) mod 2 <> 0 ->
  subtile_slice rnd l ratio rank dims extent overlap = None.
Proof. exact odd_rejected. Qed.
Print Assumptions C07_odd_cells_on_even_ranks_rejected.

(** C07.  In any accepted decomposition two ranks that are both at an edge, or both interior, along a dimension get the
    same number of points. *)
Theorem C07_edge_sizes_equal_interior_sizes_equal : forall rnd, float_like rnd ->
  forall l, 0 < fst l <= 2 ^ 52 /\ 0 < snd l <= 2 ^ 52 ->
  forall ratio dims extent r1 r2 sl1 sl2 m a iface s1 s2,
  no_tile dims -> Forall2 size_ok dims extent ->
  0 <= r1 < tile_ranks l -> 0 <= r2 < tile_ranks l ->
  subtile_slice rnd l ratio r1 dims extent true = Some sl1 ->
  subtile_slice rnd l ratio r2 dims extent true = Some sl2 ->
  nth_error dims m = Some (Dim a iface) ->
  nth_error sl1 m = Some s1 -> nth_error sl2 m = Some s2 ->
  let at_edge r := let k := by_dim a (subtile_index l r) 0 in k = 0 \/ k = by_dim a l 1 - 1 in
  (is_horizontal a = true -> (at_edge r1 <-> at_edge r2)) -> snd s1 - fst s1 = snd s2 - fst s2.
Proof. exact slice_sizes. Qed.
Print Assumptions C07_edge_sizes_equal_interior_sizes_equal.

Example C07_case : even_dim (4, 3) (Dim AJ true) 21 5 /\ even_dim (4, 3) (Dim AI false) 12 4 /\
  subtile_slice (fun q => q) (4, 3) 1 7 [Dim AJ true; Dim AI false] [21; 12] true = Some [(10, 16); (4, 8)].
Proof. repeat split; try (vm_compute; reflexivity); discriminate. Qed.

(** C08.  Evenly divided tiles: the global extent computed from any one rank's extent is the tile extent.  Missing:
    accepted uneven decompositions, for which the claim is false (next theorem). *)
Theorem C08_rank_metadata_reconstructs_tile_partial : forall rnd, float_like rnd ->
  forall l, 0 < fst l <= 2 ^ 52 /\ 0 < snd l <= 2 ^ 52 ->
  forall ratio dims extent qs rank ext,
  (ratio == 1)%Q -> 0 <= rank < tile_ranks l ->
  Forall2 size_ok dims extent -> Forall2 (fun de q => even_dim l (fst de) (snd de) q) (combine dims extent) qs ->
  subtile_extent rnd l ratio dims extent rank = Some ext -> global_extent l dims ext = extent.
Proof. exact even_global_extent. Qed.
Print Assumptions C08_rank_metadata_reconstructs_tile_partial.

(** C08 fails for an uneven decomposition, whatever the rounding. *)
Theorem C08_uneven_tile_metadata_refuted : forall rnd, float_like rnd ->
  exists l ratio dims extent ext,
    plane_field dims extent /\ subtile_extent rnd l ratio dims extent 0 = Some ext /\ global_extent l dims ext <> extent.
Proof. exact uneven_refutes. Qed.
Print Assumptions C08_uneven_tile_metadata_refuted.

Example C08_case : subtile_extent (fun q => q) (4, 3) 1 [Dim AJ true; Dim AI false] [21; 12] 7 = Some [6; 4] /\
  global_extent (4, 3) [Dim AJ true; Dim AI false] [6; 4] = [21; 12].
Proof. split; vm_compute; reflexivity. Qed.

(** C09.  If scatter succeeds on every rank, gathering what the ranks received restores the field (whatever was in the
    receiving array before), and the global extent gather computes is the original one. *)
Theorem C09_gather_undoes_scatter : forall rnd, float_like rnd ->
  forall l, 0 < fst l <= 2 ^ 52 /\ 0 < snd l <= 2 ^ 52 ->
  forall ratio (A : Type) dims extent (g g0 : index -> A) (loc : Z -> index -> A),
  plane_field dims extent ->
  (forall rank, 0 <= rank < tile_ranks l -> scatter rnd l ratio dims extent g rank = Some (loc rank)) ->
  exists shape g',
    subtile_extent rnd l ratio dims extent 0 = Some shape /\
    global_extent l dims shape = extent /\
    gather rnd l ratio dims (global_extent l dims shape) shape loc g0 = Some g' /\
    forall p, in_extent extent p -> g' p = g p.
Proof. exact @scatter_gather. Qed.
Print Assumptions C09_gather_undoes_scatter.

(** C09.  In between, each rank holds exactly its region. *)
Theorem C09_each_rank_gets_its_region : forall rnd l ratio (A : Type) dims extent (g : index -> A) rank loc sl p,
  scatter rnd l ratio dims extent g rank = Some loc ->
  subtile_slice rnd l ratio rank dims extent true = Some sl -> inside sl p -> loc (unshift sl p) = g p.
Proof. exact @scatter_region. Qed.
Print Assumptions C09_each_rank_gets_its_region.

(** C09.  Scatter does succeed on every rank of an evenly divided tile. *)
Theorem C09_scatter_accepts_even_tiles : forall rnd, float_like rnd ->
  forall l, 0 < fst l <= 2 ^ 52 /\ 0 < snd l <= 2 ^ 52 ->
  forall ratio (A : Type) dims extent qs rank (g : index -> A),
  (ratio == 1)%Q -> 0 <= rank < tile_ranks l ->
  Forall2 size_ok dims extent -> Forall2 (fun de q => even_dim l (fst de) (snd de) q) (combine dims extent) qs ->
  exists loc, scatter rnd l ratio dims extent g rank = Some loc.
Proof. exact @even_scatter. Qed.
Print Assumptions C09_scatter_accepts_even_tiles.

Example C09_case :
  let g := fun p => match p with [y; x] => 10 * y + x | _ => 0 end in
  (match scatter (fun q => q) (2, 2) 1 [Dim AJ false; Dim AI true] [4; 5] g 3 with
   | Some loc => map loc [[0; 0]; [1; 2]] | None => [] end) = [22; 34].
Proof. vm_compute. reflexivity. Qed.
