(** Property theorems C01-C04: rank topology.  Model: PartModel.v.  Specification: PartSpec.v. *)
From Verif Require Import Base PartModel PartSpec PartGeom2.

(** C01.  On a periodic tile the neighbour in direction [bt] is the rank one step that way on the (wrapping) layout
    grid, is a valid rank, needs no rotation, and names the first rank as its opposite neighbour. *)
Theorem C01_tile_neighbours_mutual : forall ny nx bt rank,
  0 < ny -> 0 < nx -> 0 <= rank < ny * nx ->
  let b := tile_boundary (ny, nx) bt rank in
  b_from b = rank /\ b_rot b = 0 /\ 0 <= b_to b < ny * nx /\
  b_to b / nx = (rank / nx + dy bt) mod ny /\ b_to b mod nx = (rank mod nx + dx bt) mod nx /\
  b_to (tile_boundary (ny, nx) (opposite bt) (b_to b)) = rank.
Proof. exact tile_neighbours. Qed.
Print Assumptions C01_tile_neighbours_mutual.

Example C01_case : b_to (tile_boundary (3, 4) NORTHWEST 8) = 3 /\ b_to (tile_boundary (3, 4) SOUTHEAST 3) = 8.
Proof. split; vm_compute; reflexivity. Qed.

(** C02.  On a cubed sphere with n x n ranks per tile every rank has a neighbour across each of its four edges; that
    neighbour is valid and lists the first rank across one of its own edges, with the inverse rotation, and that edge
    is the one facing back (the reversed direction seen in the neighbour's axes). *)
Theorem C02_cube_edge_neighbours_mutual : forall n bt rank,
  0 < n -> 0 <= rank < 6 * (n * n) -> is_edge bt = true ->
  exists b bt' b', cube_boundary (n, n) bt rank = Some (Some b) /\
    0 <= b_to b < 6 * (n * n) /\
    is_edge bt' = true /\ cube_boundary (n, n) bt' (b_to b) = Some (Some b') /\
    b_to b' = rank /\ b_rot b' = (4 - b_rot b) mod 4 /\
    (dx bt', dy bt') = seen_from (b_rot b) (- dx bt) (- dy bt).
Proof. exact cube_edge_mutual. Qed.
Print Assumptions C02_cube_edge_neighbours_mutual.

(** C02/C03.  All eight directions agree with the gluing of six squares into a cube: the reported rank is the subtile
    found by walking one subtile in that direction over the surface of the cube, and the reported rotation is the
    quarter-turn between the two sets of axes.  Nothing is reported exactly when the walk leaves through a vertex. *)
Theorem C02_cube_neighbours_are_geometric : forall n bt t r c,
  0 <= t < 6 -> 0 <= r < n -> 0 <= c < n ->
  let x := centre n c + 2 * dx bt in
  let y := centre n r + 2 * dy bt in
  match cube_boundary (n, n) bt (t * (n * n) + (r * n + c)) with
  | None => False
  | Some None => fold n t x y = None
  | Some (Some b) =>
      b_type b = bt /\ b_from b = t * (n * n) + (r * n + c) /\
      exists t' r' c', b_to b = t' * (n * n) + (r' * n + c') /\ is_neighbour n t x y t' r' c' (b_rot b)
  end.
Proof. exact cube_geometry. Qed.
Print Assumptions C02_cube_neighbours_are_geometric.

(** ... and the geometric description singles out one subtile and one rotation. *)
Theorem C02_geometric_neighbour_unique : forall n t x y t1 r1 c1 k1 t2 r2 c2 k2,
  is_neighbour n t x y t1 r1 c1 k1 -> is_neighbour n t x y t2 r2 c2 k2 ->
  t1 = t2 /\ r1 = r2 /\ c1 = c2 /\ k1 = k2.
Proof. exact is_neighbour_unique. Qed.
Print Assumptions C02_geometric_neighbour_unique.

Example C02_case : cube_boundary (2, 2) WEST 0 = Some (Some (mkB WEST 0 19 1)) /\
                   cube_boundary (2, 2) NORTH 19 = Some (Some (mkB NORTH 19 0 3)).
Proof. split; vm_compute; reflexivity. Qed.

(** C03.  A diagonal neighbour is missing exactly at the tile corner in that direction ... *)
Theorem C03_corner_missing_iff_tile_corner : forall n bt t r c,
  0 <= t < 6 -> 0 <= r < n -> 0 <= c < n -> is_edge bt = false ->
  (cube_boundary (n, n) bt (t * (n * n) + (r * n + c)) = Some None
   <-> (r = if dy bt =? 1 then n - 1 else 0) /\ (c = if dx bt =? 1 then n - 1 else 0)).
Proof. exact corner_iff. Qed.
Print Assumptions C03_corner_missing_iff_tile_corner.

(** ... is otherwise mutual with the inverse rotation ... *)
Theorem C03_corner_neighbours_mutual : forall n bt rank b,
  0 < n -> 0 <= rank < 6 * (n * n) -> is_edge bt = false -> cube_boundary (n, n) bt rank = Some (Some b) ->
  0 <= b_to b < 6 * (n * n) /\
  exists bt' b', is_edge bt' = false /\ cube_boundary (n, n) bt' (b_to b) = Some (Some b') /\
    b_to b' = rank /\ b_rot b' = (4 - b_rot b) mod 4 /\
    (dx bt', dy bt') = seen_from (b_rot b) (- dx bt) (- dy bt).
Proof. exact cube_corner_mutual. Qed.
Print Assumptions C03_corner_neighbours_mutual.

(** ... and both two-edge walks (first [bt1] then [bt2], the second step taken in the axes of the rank reached) arrive
    at it with the same total rotation. *)
Theorem C03_corner_walks_agree : forall n bt bt1 bt2 rank b b1 bt2' b2,
  0 < n -> 0 <= rank < 6 * (n * n) ->
  is_edge bt = false -> is_edge bt1 = true -> is_edge bt2 = true ->
  dx bt1 + dx bt2 = dx bt -> dy bt1 + dy bt2 = dy bt ->
  cube_boundary (n, n) bt rank = Some (Some b) ->
  cube_boundary (n, n) bt1 rank = Some (Some b1) ->
  (dx bt2', dy bt2') = seen_from (b_rot b1) (dx bt2) (dy bt2) ->
  cube_boundary (n, n) bt2' (b_to b1) = Some (Some b2) ->
  b_to b2 = b_to b /\ b_rot b = (b_rot b1 + b_rot b2) mod 4.
Proof. exact cube_walk. Qed.
Print Assumptions C03_corner_walks_agree.

Example C03_case : cube_boundary (2, 2) NORTHWEST 0 = Some (Some (mkB NORTHWEST 0 18 1)) /\
  cube_boundary (2, 2) WEST 0 = Some (Some (mkB WEST 0 19 1)) /\
  (dx WEST, dy WEST) = seen_from 1 (dx NORTH) (dy NORTH) /\
  cube_boundary (2, 2) WEST 19 = Some (Some (mkB WEST 19 18 0)) /\
  cube_boundary (2, 2) NORTHWEST 2 = Some None.
Proof. repeat split; vm_compute; reflexivity. Qed.

(** C04.  Distinct directions lead to distinct ranks, none of them the rank itself: always on the cube ... *)
Theorem C04_cube_neighbours_distinct : forall n rank bt1 bt2 b1,
  0 < n -> 0 <= rank < 6 * (n * n) -> cube_boundary (n, n) bt1 rank = Some (Some b1) ->
  b_to b1 <> rank /\
  (bt1 <> bt2 -> forall b2, cube_boundary (n, n) bt2 rank = Some (Some b2) -> b_to b1 <> b_to b2).
Proof. exact cube_distinct. Qed.
Print Assumptions C04_cube_neighbours_distinct.

(** ... on a periodic tile when both layout dimensions are at least 3 ... *)
Theorem C04_tile_neighbours_distinct : forall ny nx rank bt1 bt2,
  3 <= ny -> 3 <= nx -> 0 <= rank < ny * nx ->
  b_to (tile_boundary (ny, nx) bt1 rank) <> rank /\
  (bt1 <> bt2 -> b_to (tile_boundary (ny, nx) bt1 rank) <> b_to (tile_boundary (ny, nx) bt2 rank)).
Proof. exact tile_distinct. Qed.
Print Assumptions C04_tile_neighbours_distinct.

(** ... and on no smaller layout: there every rank has two directions with the same neighbour. *)
Theorem C04_tile_small_layout_ambiguous : forall ny nx,
  0 < ny -> 0 < nx -> ~ (3 <= ny /\ 3 <= nx) ->
  forall rank, 0 <= rank < ny * nx ->
  exists bt1 bt2, bt1 <> bt2 /\ b_to (tile_boundary (ny, nx) bt1 rank) = b_to (tile_boundary (ny, nx) bt2 rank).
Proof. exact tile_not_distinct. Qed.
Print Assumptions C04_tile_small_layout_ambiguous.

Example C04_case : map (fun bt => b_to (tile_boundary (3, 3) bt 4))
    [WEST; EAST; NORTH; SOUTH; NORTHWEST; NORTHEAST; SOUTHWEST; SOUTHEAST] = [3; 5; 7; 1; 6; 8; 0; 2].
Proof. vm_compute. reflexivity. Qed.
