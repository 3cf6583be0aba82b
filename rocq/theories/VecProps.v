(** Property theorems C60: whole vector halo updates.  Model: HaloModel.v, VecModel.v.  Specification: VecModel.v (components,
    staggering), HaloSpec.v, HaloNetSpec.v, PartSpec.v (geometry of the cube).

    [run … T evs (initial q) = Some st]: from contents q, the events evs of all the ranks' start() and wait() calls and message
    arrivals, in that order, lead to st; T is what the vector HaloUpdater of each rank was built with. *)
From Verif Require Import Base PartModel PartSpec DecompModel DecompSpec HaloModel HaloSpec HaloNetSpec VecModel VecCube.
Open Scope Z_scope.

(** On the cube of 6 faces with n x n ranks each, face width N cut symmetrically into pieces at least as wide as the halo.  Vector
    field j is given on the cube's surface in 3-space: [G j v d l] is its component at place v in direction d (level l), and the
    component in the opposite direction is the negative.  Each rank's compute domains hold the components along its own face's x
    and y axes.  Then nothing gets stuck or raises, and a rank that has finished holds, at every point within h of its compute
    domain, the component of the field at that point of its face's plane folded around the edge it lies beyond, in the direction
    of its own axis carried around that edge; at points beyond a vertex and everywhere else, its old data.  The staggering of the
    components must be exchanged by a quarter turn (A, B, C, D grids). *)
Theorem C60_vector_halo_update_on_cube : forall (A : Type) (neg : A -> A) n N cut nf D origin ext h sp
    (q : Z -> nat -> comp -> index -> A) (G : nat -> vec -> vec -> index -> A),
  0 < n -> (0 < nf)%nat -> palindromic n cut ->
  (forall j, (j < nf)%nat -> cuts n N (h j) cut) ->
  (forall j, (j < nf)%nat -> mirrored (D j)) ->
  (forall r j c, 0 <= r < 6 * (n * n) -> (j < nf)%nat ->
    holds_cells (sp r j c) (D j c) (origin j) (ext j) (h j) (cut (col_of n r)) (cut (col_of n r + 1)) (cut (row_of n r)) (cut (row_of n r + 1))) ->
  (forall r j c p, 0 <= r < 6 * (n * n) -> (j < nf)%nat -> inside (compute_domain (sp r j c)) p ->
    q r j c p = G j (surface N (tile_of n r) (face_x N (sp r j c) (cut (col_of n r)) p) (face_y N (sp r j c) (cut (row_of n r)) p))
                    (tangent c (tile_of n r)) (put_xy (D j c) p 0 0)) ->
  (forall j v d l, (j < nf)%nat -> G j v (vopp d) l = neg (G j v d l)) ->
  exists T,
    (forall r, 0 <= r < 6 * (n * n) ->
      (do bs <- cube_boundaries (n, n) r;
       vector_transformers bs (map (fun j => sp r j CX) (seq 0 nf)) (map (fun j => sp r j CY) (seq 0 nf))) = Some (T r)) /\
    forall evs st, valid_events (6 * (n * n)) evs ->
      run (vpack neg) vunpack vector_bufsize T evs
        (initial (fun r => (map (fun j => q r j CX) (seq 0 nf), map (fun j => q r j CY) (seq 0 nf)))) = Some st ->
      ((exists r, 0 <= r < 6 * (n * n) /\ sy_ph st r <> Finished) ->
        exists ev st', valid_events (6 * (n * n)) [ev] /\ step (vpack neg) vunpack vector_bufsize T ev st = Some st') /\
      (forall r, 0 <= r < 6 * (n * n) -> sy_ph st r = Finished ->
         exists f, sy_q st r = (map (fun j => f j CX) (seq 0 nf), map (fun j => f j CY) (seq 0 nf)) /\
         forall j c p, (j < nf)%nat ->
           let t := tile_of n r in
           let x := face_x N (sp r j c) (cut (col_of n r)) p in
           let y := face_y N (sp r j c) (cut (row_of n r)) p in
           (near (sp r j c) p ->
              match fold N t x y with
              | Some v => f j c p = G j v (carried c N t x y) (put_xy (D j c) p 0 0)
              | None => f j c p = q r j c p
              end) /\
           (~ near (sp r j c) p -> f j c p = q r j c p)).
Proof.
  intros A neg n N cut nf D origin ext h sp q G H1 H2 H3 H4 H5 H6 H7 H8.
  exact (vcube_update neg n N cut nf D origin ext h sp q G H1 H2 H3 H4 H5 H6 H7 H8).
Qed.
Print Assumptions C60_vector_halo_update_on_cube.

(** One rank per face, 2 x 2 cells, halo 1; the field at (x, y, z) is the vector (10 y + 1, 100 + z, 1000 + 3 x).  The x component is on cell
    edges along x (staggered in y), the y component on edges along y: a D grid. *)
Definition case_G (_ : nat) (v d : vec) (_ : index) : Z := let '(x, y, z) := v in dot d (10 * y + 1, 100 + z, 1000 + 3 * x).
Definition case_D (_ : nat) (c : comp) : list dim :=
  match c with CX => [Dim AJ true; Dim AI false] | CY => [Dim AJ false; Dim AI true] end.
Definition case_vspec (_ : Z) (j : nat) (c : comp) : spec :=
  match c with CX => mkSpec (case_D j CX) [1; 1] [3; 2] [5; 5] 1 | CY => mkSpec (case_D j CY) [1; 1] [2; 3] [5; 5] 1 end.
Definition case_vq (r : Z) (j : nat) (c : comp) (p : index) : Z :=
  if in_slices (compute_domain (case_vspec r j c)) p then
    case_G j (surface 2 r (face_x 2 (case_vspec r j c) 0 p) (face_y 2 (case_vspec r j c) 0 p)) (tangent c r) []
  else -7777.
Lemma case_vholds r j c a a' b b' : a' - a = 2 -> b' - b = 2 ->
  holds_cells (case_vspec r j c) (case_D j c) [1; 1] [0; 0] 1 a a' b b'.
Proof.
  intros E1 E2. unfold holds_cells. rewrite E1, E2. destruct c; (repeat split; cbn; try lia; repeat constructor; cbn; lia).
Qed.
(** what the theorem promises at a point *)
Definition case_expected (r : Z) (c : comp) (p : index) : Z :=
  let x := face_x 2 (case_vspec r 0 c) 0 p in let y := face_y 2 (case_vspec r 0 c) 0 p in
  match fold 2 r x y with Some v => case_G 0 v (carried c 2 r x y) [] | None => -7777 end.
Example C60_case :
  (forall r j c, 0 <= r < 6 * (1 * 1) -> (j < 1)%nat ->
    holds_cells (case_vspec r j c) (case_D j c) [1; 1] [0; 0] 1 (2 * col_of 1 r) (2 * (col_of 1 r + 1)) (2 * row_of 1 r) (2 * (row_of 1 r + 1))) /\
  cuts 1 2 1 (fun i => 2 * i) /\ palindromic 1 (fun i => 2 * i) /\ mirrored (case_D 0) /\
  (forall j v d l, case_G j v (vopp d) l = - case_G j v d l) /\
  let T := fun r => match (do bs <- cube_boundaries (1, 1) r; vector_transformers bs [case_vspec r 0 CX] [case_vspec r 0 CY]) with Some t => t | None => [] end in
  match run (vpack Z.opp) vunpack vector_bufsize T (vector_schedule 6 T) (initial (fun r => ([case_vq r 0 CX], [case_vq r 0 CY]))) with
  | Some st => map (sy_ph st) (zrange 0 6) = repeat Finished 6 /\
      map (fun f => map f (indices [5; 4])) (fst (sy_q st 0)) =
        [[-7777; 98; 98; -7777; -19; 98; 98; -21; -19; 100; 100; -21; -19; 102; 102; -21; -7777; 102; 102; -7777]] /\
      map (fun r => (map (fun f => map f (indices [5; 4])) (fst (sy_q st r)), map (fun f => map f (indices [4; 5])) (snd (sy_q st r)))) (zrange 0 6) =
      map (fun r => ([map (case_expected r CX) (indices [5; 4])], [map (case_expected r CY) (indices [4; 5])])) (zrange 0 6)
  | None => False
  end.
Proof.
  split; [|split; [|split; [|split; [|split]]]].
  - intros r j c _ _. apply case_vholds; lia.
  - repeat split; lia.
  - intros i Hi. lia.
  - repeat split.
  - intros j [[x y] z] [[d1 d2] d3] l. unfold case_G, dot, vopp, vscale. ring.
  - vm_compute. repeat split.
Qed.

(** On a periodic tile: any staggering of the components; each component is updated like a scalar. *)
Theorem C60_vector_halo_update_on_tile : forall (A : Type) (neg : A -> A) ny nx Nx Ny cutx cuty nf D origin ext h sp
    (q : Z -> nat -> comp -> index -> A) (G : nat -> comp -> index -> A),
  3 <= ny -> 3 <= nx -> (0 < nf)%nat ->
  (forall j, (j < nf)%nat -> cuts nx Nx (h j) cutx /\ cuts ny Ny (h j) cuty) ->
  (forall r j c, 0 <= r < ny * nx -> (j < nf)%nat ->
    holds_cells (sp r j c) (D j c) (origin j c) (ext j c) (h j) (cutx (r mod nx)) (cutx (r mod nx + 1)) (cuty (r / nx)) (cuty (r / nx + 1))) ->
  (forall r j c p, 0 <= r < ny * nx -> (j < nf)%nat -> inside (compute_domain (sp r j c)) p ->
    q r j c p = on_torus (G j c) Nx Ny (sp r j c) (cutx (r mod nx)) (cuty (r / nx)) p) ->
  exists T,
    (forall r, 0 <= r < ny * nx ->
      vector_transformers (tile_boundaries (ny, nx) r) (map (fun j => sp r j CX) (seq 0 nf)) (map (fun j => sp r j CY) (seq 0 nf)) = Some (T r)) /\
    forall evs st, valid_events (ny * nx) evs ->
      run (vpack neg) vunpack vector_bufsize T evs
        (initial (fun r => (map (fun j => q r j CX) (seq 0 nf), map (fun j => q r j CY) (seq 0 nf)))) = Some st ->
      ((exists r, 0 <= r < ny * nx /\ sy_ph st r <> Finished) ->
        exists ev st', valid_events (ny * nx) [ev] /\ step (vpack neg) vunpack vector_bufsize T ev st = Some st') /\
      (forall r, 0 <= r < ny * nx -> sy_ph st r = Finished ->
         exists f, sy_q st r = (map (fun j => f j CX) (seq 0 nf), map (fun j => f j CY) (seq 0 nf)) /\
         forall j c p, (j < nf)%nat ->
           (near (sp r j c) p -> f j c p = on_torus (G j c) Nx Ny (sp r j c) (cutx (r mod nx)) (cuty (r / nx)) p) /\
           (~ near (sp r j c) p -> f j c p = q r j c p)).
Proof.
  intros A neg ny nx Nx Ny cutx cuty nf D origin ext h sp q G H1 H2 H3 H4 H5 H6.
  exact (vtorus_update neg ny nx Nx Ny cutx cuty nf D origin ext h sp q G H1 H2 H3 H4 H5 H6).
Qed.
Print Assumptions C60_vector_halo_update_on_tile.

(** 3 x 3 ranks of 2 x 2 cells, halo 1, D grid; negation must not be applied. *)
Definition tile_vq (r : Z) (j : nat) (c : comp) (p : index) : Z :=
  if in_slices (compute_domain (case_vspec r j c)) p then
    (match c with CX => 100 | CY => 200 end) + 10 * ((nth 0 p 0 - 1 + 2 * (r / 3)) mod 6) + (nth 1 p 0 - 1 + 2 * (r mod 3)) mod 6
  else -7777.
Example C60_tile_case :
  (forall r j c, 0 <= r < 3 * 3 -> (j < 1)%nat ->
    holds_cells (case_vspec r j c) (case_D j c) [1; 1] [0; 0] 1 (2 * (r mod 3)) (2 * (r mod 3 + 1)) (2 * (r / 3)) (2 * (r / 3 + 1))) /\
  cuts 3 6 1 (fun i => 2 * i) /\
  let T := fun r => match vector_transformers (tile_boundaries (3, 3) r) [case_vspec r 0 CX] [case_vspec r 0 CY] with Some t => t | None => [] end in
  match run (vpack Z.opp) vunpack vector_bufsize T (vector_schedule 9 T) (initial (fun r => ([tile_vq r 0 CX], [tile_vq r 0 CY]))) with
  | Some st => map (sy_ph st) (zrange 0 9) = repeat Finished 9 /\
      map (fun f => map f (indices [5; 4])) (fst (sy_q st 0)) =
        [[155; 150; 151; 152; 105; 100; 101; 102; 115; 110; 111; 112; 125; 120; 121; 122; 135; 130; 131; 132]] /\
      map (fun f => map f (indices [4; 5])) (snd (sy_q st 8)) =
        [[233; 234; 235; 230; 231; 243; 244; 245; 240; 241; 253; 254; 255; 250; 251; 203; 204; 205; 200; 201]]
  | None => False
  end.
Proof.
  split; [|split].
  - intros r j c _ _. apply case_vholds; lia.
  - repeat split; lia.
  - vm_compute. repeat split.
Qed.
