(** Property theorems C11, C12, C13: whole scalar halo updates.  Model: HaloModel.v.  Specification: HaloSpec.v,
    HaloNetSpec.v, PartSpec.v (geometry of the cube).

    [run … T evs (initial q) = Some st]: from contents q, the events evs of all the ranks' start() and wait() calls and
    message arrivals, in that order, lead to st; T is what the HaloUpdater of each rank was built with. *)
From Verif Require Import Base PartModel PartSpec DecompModel DecompSpec HaloModel HaloSpec HaloNetSpec HaloNetEnd.
Open Scope Z_scope.

(** C11 on a periodic tile: any number of fields, each with its own dimensions, staggering and halo depth; any cuts of
    the tile into pieces at least as wide as the halo. *)
Theorem C11_buffer_sizes_match_on_tile : forall (A : Type) ny nx Nx Ny cutx cuty nf D origin ext h sp (q : Z -> nat -> index -> A),
  3 <= ny -> 3 <= nx -> (0 < nf)%nat ->
  (forall j, (j < nf)%nat -> cuts nx Nx (h j) cutx /\ cuts ny Ny (h j) cuty) ->
  (forall r j, 0 <= r < ny * nx -> (j < nf)%nat ->
    holds_cells (sp r j) (D j) (origin j) (ext j) (h j) (cutx (r mod nx)) (cutx (r mod nx + 1)) (cuty (r / nx)) (cuty (r / nx + 1))) ->
  exists T,
    (forall r, 0 <= r < ny * nx -> scalar_transformers (tile_boundaries (ny, nx) r) (map (sp r) (seq 0 nf)) [] = Some (T r)) /\
    sizes_match (ny * nx) T (fun r => map (q r) (seq 0 nf)).
Proof. intros A ny nx Nx Ny cutx cuty nf D origin ext h sp q H1 H2 H3 H4 H5. exact (torus_sizes ny nx Nx Ny cutx cuty nf D origin ext h sp H1 H2 H3 H4 H5 q). Qed.
Print Assumptions C11_buffer_sizes_match_on_tile.

(** C11 on the cube, for fields staggered equally in x and y (cell centres or corners). *)
Theorem C11_buffer_sizes_match_on_cube : forall (A : Type) n N cut nf D origin ext h sp (q : Z -> nat -> index -> A),
  0 < n -> (0 < nf)%nat -> palindromic n cut ->
  (forall j, (j < nf)%nat -> cuts n N (h j) cut) ->
  (forall j, (j < nf)%nat -> iface_x (D j) = iface_y (D j)) ->
  (forall r j, 0 <= r < 6 * (n * n) -> (j < nf)%nat ->
    holds_cells (sp r j) (D j) (origin j) (ext j) (h j) (cut (col_of n r)) (cut (col_of n r + 1)) (cut (row_of n r)) (cut (row_of n r + 1))) ->
  exists T,
    (forall r, 0 <= r < 6 * (n * n) -> (do bs <- cube_boundaries (n, n) r; scalar_transformers bs (map (sp r) (seq 0 nf)) []) = Some (T r)) /\
    sizes_match (6 * (n * n)) T (fun r => map (q r) (seq 0 nf)).
Proof. intros A n N cut nf D origin ext h sp q H1 H2 H3 H4 H5 H6. exact (cube_sizes n N cut nf D origin ext h sp H1 H2 H3 H4 H5 H6 q). Qed.
Print Assumptions C11_buffer_sizes_match_on_cube.

(** A field staggered in x only, updated as a scalar on the cube: the updater is built without an error, but a rank
    receives fewer values than it expects. *)
Definition edge_field (N : Z) (r : Z) (j : nat) : spec :=
  mkSpec [Dim AJ false; Dim AI true] [1; 1] [N; N + 1] [N + 3; N + 3] 1.
Theorem C11_mixed_staggering_refuted : exists N T,
  (forall r j, 0 <= r < 6 -> (j < 1)%nat ->
    holds_cells (edge_field N r j) [Dim AJ false; Dim AI true] [1; 1] [0; 0] 1 0 N 0 N) /\
  (forall r, 0 <= r < 6 -> (do bs <- cube_boundaries (1, 1) r; scalar_transformers bs (map (edge_field N r) (seq 0 1)) []) = Some (T r)) /\
  exists r s expected sent m, In (s, expected) (T r) /\ In (r, sent) (T s) /\
    pack_scalar sent [fun _ : index => 0] = Some m /\ Z.of_nat (length m) < scalar_bufsize expected.
Proof.
  exists 4, (fun r => match (do bs <- cube_boundaries (1, 1) r; scalar_transformers bs (map (edge_field 4 r) (seq 0 1)) []) with Some t => t | None => [] end).
  split; [|split].
  - intros r j _ _. repeat split; cbn; try lia. repeat constructor; cbn; lia.
  - intros r Hr. assert (C : r = 0 \/ r = 1 \/ r = 2 \/ r = 3 \/ r = 4 \/ r = 5) by lia.
    destruct C as [->|[->|[->|[->|[->| ->]]]]]; vm_compute; reflexivity.
  - exists 0, 2. do 3 eexists. repeat split.
    + vm_compute. left. reflexivity.
    + vm_compute. right. right. left. reflexivity.
    + vm_compute. reflexivity.
    + vm_compute. reflexivity.
Qed.
Print Assumptions C11_mixed_staggering_refuted.

(** C12.  Periodic tile of ny x nx ranks, any data: if the ranks' compute domains hold the global fields G, then the
    updater can be built, no reachable state is stuck or raises until every rank has finished, and a rank that has
    finished holds the periodic global field at every point within h points of its compute domain (edges and corners)
    and its old data everywhere else. *)
Theorem C12_tile_halo_update : forall (A : Type) ny nx Nx Ny cutx cuty nf D origin ext h sp (q : Z -> nat -> index -> A) (G : nat -> index -> A),
  3 <= ny -> 3 <= nx -> (0 < nf)%nat ->
  (forall j, (j < nf)%nat -> cuts nx Nx (h j) cutx /\ cuts ny Ny (h j) cuty) ->
  (forall r j, 0 <= r < ny * nx -> (j < nf)%nat ->
    holds_cells (sp r j) (D j) (origin j) (ext j) (h j) (cutx (r mod nx)) (cutx (r mod nx + 1)) (cuty (r / nx)) (cuty (r / nx + 1))) ->
  (forall r j p, 0 <= r < ny * nx -> (j < nf)%nat -> inside (compute_domain (sp r j)) p ->
    q r j p = on_torus (G j) Nx Ny (sp r j) (cutx (r mod nx)) (cuty (r / nx)) p) ->
  exists T,
    (forall r, 0 <= r < ny * nx -> scalar_transformers (tile_boundaries (ny, nx) r) (map (sp r) (seq 0 nf)) [] = Some (T r)) /\
    forall evs st, valid_events (ny * nx) evs ->
      run pack_scalar unpack_scalar scalar_bufsize T evs (initial (fun r => map (q r) (seq 0 nf))) = Some st ->
      ((exists r, 0 <= r < ny * nx /\ sy_ph st r <> Finished) ->
        exists ev st', valid_events (ny * nx) [ev] /\ step pack_scalar unpack_scalar scalar_bufsize T ev st = Some st') /\
      (forall r, 0 <= r < ny * nx -> sy_ph st r = Finished ->
         exists f, sy_q st r = map f (seq 0 nf) /\ forall j p, (j < nf)%nat ->
           (near (sp r j) p -> f j p = on_torus (G j) Nx Ny (sp r j) (cutx (r mod nx)) (cuty (r / nx)) p) /\
           (~ near (sp r j) p -> f j p = q r j p)).
Proof.
  intros A ny nx Nx Ny cutx cuty nf D origin ext h sp q G H1 H2 H3 H4 H5 H6.
  exact (torus_update ny nx Nx Ny cutx cuty nf D origin ext h sp H1 H2 H3 H4 H5 q G H6).
Qed.
Print Assumptions C12_tile_halo_update.

(** 3 x 3 ranks of 2 x 2 cells with halo 1: rank 0 ends with the periodic field all around, rank 4 too. *)
Definition case_spec (_ : Z) (_ : nat) : spec := mkSpec [Dim AJ false; Dim AI false] [1; 1] [2; 2] [4; 5] 1.
Lemma case_holds r j a a' b b' : a' - a = 2 -> b' - b = 2 ->
  holds_cells (case_spec r j) [Dim AJ false; Dim AI false] [1; 1] [0; 0] 1 a a' b b'.
Proof.
  intros E1 E2. unfold holds_cells. rewrite E1, E2. repeat split; cbn; try lia. repeat constructor; cbn; lia.
Qed.
Definition case_q (r : Z) (_ : nat) (p : index) : Z :=
  if in_slices (compute_domain (case_spec r 0)) p then 10 * (nth 0 p 0 - 1 + 2 * (r / 3)) + (nth 1 p 0 - 1 + 2 * (r mod 3)) else -7.
Example C12_case :
  (forall r j, 0 <= r < 3 * 3 -> (j < 1)%nat ->
    holds_cells (case_spec r j) [Dim AJ false; Dim AI false] [1; 1] [0; 0] 1 (2 * (r mod 3)) (2 * (r mod 3 + 1)) (2 * (r / 3)) (2 * (r / 3 + 1))) /\
  cuts 3 6 1 (fun i => 2 * i) /\
  let T := fun r => match scalar_transformers (tile_boundaries (3, 3) r) (map (case_spec r) (seq 0 1)) [] with Some t => t | None => [] end in
  match run pack_scalar unpack_scalar scalar_bufsize T (full_schedule 9 T) (initial (fun r => map (case_q r) (seq 0 1))) with
  | Some st => (map (sy_ph st) (zrange 0 9) = repeat Finished 9) /\
      map (fun f => map f (indices [4; 5])) (sy_q st 0) = [[55; 50; 51; 52; -7; 5; 0; 1; 2; -7; 15; 10; 11; 12; -7; 25; 20; 21; 22; -7]] /\
      map (fun f => map f (indices [4; 5])) (sy_q st 8) = [[33; 34; 35; 30; -7; 43; 44; 45; 40; -7; 53; 54; 55; 50; -7; 3; 4; 5; 0; -7]]
  | None => False
  end.
Proof.
  split; [|split].
  - intros r j _ _. apply case_holds; lia.
  - repeat split; lia.
  - vm_compute. repeat split.
Qed.

(** C13.  The cube of 6 faces with n x n ranks each (any n >= 1), each face N cells wide, cut symmetrically into pieces at
    least as wide as the halo.  The compute domains hold a field G given on the cube's surface in 3-space (half-width N;
    cell centres at odd, corners at even distances).  Then nothing gets stuck or raises, and a rank that has finished
    holds, at every point within h of its compute domain, the field at that point of its own face's plane folded around
    the edge it lies beyond; at points beyond a vertex and everywhere else, its old data. *)
Theorem C13_cube_halo_update : forall (A : Type) n N cut nf D origin ext h sp (q : Z -> nat -> index -> A) (G : nat -> vec -> index -> A),
  0 < n -> (0 < nf)%nat -> palindromic n cut ->
  (forall j, (j < nf)%nat -> cuts n N (h j) cut) ->
  (forall j, (j < nf)%nat -> iface_x (D j) = iface_y (D j)) ->
  (forall r j, 0 <= r < 6 * (n * n) -> (j < nf)%nat ->
    holds_cells (sp r j) (D j) (origin j) (ext j) (h j) (cut (col_of n r)) (cut (col_of n r + 1)) (cut (row_of n r)) (cut (row_of n r + 1))) ->
  (forall r j p, 0 <= r < 6 * (n * n) -> (j < nf)%nat -> inside (compute_domain (sp r j)) p ->
    q r j p = G j (surface N (tile_of n r) (face_x N (sp r j) (cut (col_of n r)) p) (face_y N (sp r j) (cut (row_of n r)) p)) (put_xy (D j) p 0 0)) ->
  exists T,
    (forall r, 0 <= r < 6 * (n * n) -> (do bs <- cube_boundaries (n, n) r; scalar_transformers bs (map (sp r) (seq 0 nf)) []) = Some (T r)) /\
    forall evs st, valid_events (6 * (n * n)) evs ->
      run pack_scalar unpack_scalar scalar_bufsize T evs (initial (fun r => map (q r) (seq 0 nf))) = Some st ->
      ((exists r, 0 <= r < 6 * (n * n) /\ sy_ph st r <> Finished) ->
        exists ev st', valid_events (6 * (n * n)) [ev] /\ step pack_scalar unpack_scalar scalar_bufsize T ev st = Some st') /\
      (forall r, 0 <= r < 6 * (n * n) -> sy_ph st r = Finished ->
         exists f, sy_q st r = map f (seq 0 nf) /\ forall j p, (j < nf)%nat ->
           (near (sp r j) p ->
              match fold N (tile_of n r) (face_x N (sp r j) (cut (col_of n r)) p) (face_y N (sp r j) (cut (row_of n r)) p) with
              | Some v => f j p = G j v (put_xy (D j) p 0 0)
              | None => f j p = q r j p
              end) /\
           (~ near (sp r j) p -> f j p = q r j p)).
Proof.
  intros A n N cut nf D origin ext h sp q G H1 H2 H3 H4 H5 H6 H7.
  exact (cube_update n N cut nf D origin ext h sp H1 H2 H3 H4 H5 H6 q G H7).
Qed.
Print Assumptions C13_cube_halo_update.

(** One rank per face, 2 x 2 cells, halo 1; G (x, y, z) = 100 x + 10 y + z.  Rank 0 ends with the fields of faces 2 (north),
    5 (south), 4 (west) and 1 (east) around it, corners untouched. *)
Definition cube_case_q (r : Z) (_ : nat) (p : index) : Z :=
  if in_slices (compute_domain (case_spec r 0)) p then
    let '(x, y, z) := surface 2 r (2 * (nth 1 p 0 - 1) + 1 - 2) (2 * (nth 0 p 0 - 1) + 1 - 2) in 100 * x + 10 * y + z
  else -7.
Example C13_case :
  (forall r j, 0 <= r < 6 * (1 * 1) -> (j < 1)%nat ->
    holds_cells (case_spec r j) [Dim AJ false; Dim AI false] [1; 1] [0; 0] 1 (2 * col_of 1 r) (2 * (col_of 1 r + 1)) (2 * row_of 1 r) (2 * (row_of 1 r + 1))) /\
  cuts 1 2 1 (fun i => 2 * i) /\ palindromic 1 (fun i => 2 * i) /\
  let T := fun r => match (do bs <- cube_boundaries (1, 1) r; scalar_transformers bs (map (case_spec r) (seq 0 1)) []) with Some t => t | None => [] end in
  match run pack_scalar unpack_scalar scalar_bufsize T (full_schedule 6 T) (initial (fun r => map (cube_case_q r) (seq 0 1))) with
  | Some st => (map (sy_ph st) (zrange 0 6) = repeat Finished 6) /\
      map (fun f => map f (indices [4; 5])) (sy_q st 0) =
        [[-7; 88; 108; -7; -7; 79; 189; 209; 119; -7; 81; 191; 211; 121; -7; -7; 92; 112; -7; -7]]
  | None => False
  end.
Proof.
  split; [|split; [|split]].
  - intros r j _ _. apply case_holds; lia.
  - repeat split; lia.
  - intros i Hi. lia.
  - vm_compute. repeat split.
Qed.
