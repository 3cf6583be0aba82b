(** Model of the gnomonic grid: local_gnomonic_ed of ndsl/grid/gnomonic.py:22-153 (one rank's part of a tile) and global_gnomonic_ed with the
    last step of gnomonic_grid of ndsl/grid/global_setup.py:28-87 (a whole tile), over the real numbers (see SphereModel.v for what that
    leaves out).

    An array is a function of its indices.  [set c v a] is the array [a] after the entries selected by [c] have been assigned from [v];
    the successive assignments of the code are written in the same order. *)
Require Import Reals ZArith Bool Arith.
From Verif Require Import SphereModel.
Open Scope R_scope.

Definition grid (T : Type) := nat -> nat -> T.
Definition set {T} (c : nat -> nat -> bool) (v : grid T) (a : grid T) : grid T := fun i j => if c i j then v i j else a i j.
Definition line (T : Type) := nat -> T.
Definition set1 {T} (c : nat -> bool) (v : line T) (a : line T) : line T := fun i => if c i then v i else a i.

(** components of the first dimension of pp *)
Definition px (p : vec) : R := fst (fst p).
Definition py (p : vec) : R := snd (fst p).
Definition pz (p : vec) : R := snd p.

(** ** gnomonic.py:42-44: 3**-0.5, alpha and dely; [n] is tile_im *)
Definition third : R := / sqrt 3.
Definition alpha : R := asin third.
Definition dely (n : nat) : R := 2 * (alpha / INR n).
(** ** gnomonic.py:22-23 lat_tile_east_west_edge *)
Definition edge_lat (n : nat) (k : Z) : R := - alpha + dely n * IZR k.

(** ** gnomonic.py:95-103: a point of the sphere and its projection to the plane of the face (the first coordinate is kept) *)
Definition to_face (p : vec) : vec := let '(x, y, z) := p in (x, - y * third / x, - z * third / x).

(** ** gnomonic.py:26-153.  [ni] by [nj] is the shape of lon and of lat (lines 6-19 compare them); [gi], [gj] are global_is - halo and
    global_js - halo.  The result is None when _check_shapes raises, else the pair of arrays lon and lat. *)
Definition local_gnomonic_ed (n ni nj : nat) (west east south north : bool) (gi gj : Z) : option (grid (R * R)) :=
  if negb (Nat.eqb ni nj) then None else
  let im := (ni - 1)%nat in
  let lon_west := 75 / 100 * PI in
  let lon_east := 125 / 100 * PI in
  let lat_south := edge_lat n 0 in
  let lat_north := edge_lat n (Z.of_nat n) in
  let start_i := if west then 1%nat else 0%nat in
  let end_i := if east then im else (im + 1)%nat in
  let start_j := if south then 1%nat else 0%nat in
  (* lines 63-70 *)
  let lat_west_tile_edge (j : nat) := edge_lat n (gj + Z.of_nat j) in
  let lat_west_tile_edge_mirror (j : nat) := edge_lat n (gi + Z.of_nat j) in
  (* lines 72-90; arrays of longitude and latitude together *)
  let south0 : line (R * R) := fun _ => (0, 0) in
  let south1 := if east then set1 (fun i => Nat.eqb i im) (fun _ => (lon_east, edge_lat n gj)) south0 else south0 in
  let south2 := set1 (fun i => Nat.leb start_i i && Nat.ltb i end_i)
                  (fun i => mirror_latlon lon_west lat_south lon_east lat_north lon_west (lat_west_tile_edge_mirror i)) south1 in
  (* lines 94-105 *)
  let pp_west0 : line vec := fun j => to_face (lon_lat_to_xyz lon_west (lat_west_tile_edge j)) in
  let pp0 : grid vec := fun _ _ => (0, 0, 0) in
  let pp1 := if west then set (fun i _ => Nat.eqb i 0) (fun _ j => pp_west0 j) pp0 else pp0 in
  (* lines 107-119 *)
  let pp_south0 : line vec := fun i => to_face (lon_lat_to_xyz (fst (south2 i)) (snd (south2 i))) in
  let pp2 := if south then set (fun _ j => Nat.eqb j 0) (fun i _ => pp_south0 i) pp1 else pp1 in
  (* lines 121-139 *)
  let sw_xyz := lon_lat_to_xyz lon_west lat_south in
  let pp3 := if south && west then set (fun i j => Nat.eqb i 0 && Nat.eqb j 0) (fun _ _ => sw_xyz) pp2 else pp2 in
  let pp_west1 := if south then set1 (fun j => Nat.eqb j 0) (fun _ => sw_xyz) pp_west0 else pp_west0 in
  let pp_south1 := if west then set1 (fun i => Nat.eqb i 0) (fun _ => sw_xyz) pp_south0 else pp_south0 in
  let pp_south2 := if east then set1 (fun i => Nat.eqb i im) (fun _ => lon_lat_to_xyz lon_east lat_south) pp_south1 else pp_south1 in
  let pp_west2 := if north then set1 (fun j => Nat.eqb j im) (fun _ => lon_lat_to_xyz lon_west lat_north) pp_west1 else pp_west1 in
  let pp4 := if north && east then set (fun i j => Nat.eqb i im && Nat.eqb j im) (fun _ _ => lon_lat_to_xyz lon_east lat_north) pp3 else pp3 in
  (* lines 141-146 *)
  let pp5 : grid vec := fun i j => (- third, py (pp4 i j), pz (pp4 i j)) in
  let pp6 := set (fun i j => Nat.leb start_j j && Nat.leb start_i i)
               (fun i j => (px (pp5 i j), py (pp_south2 i), pz (pp_west2 j))) pp5 in
  (* lines 148-153 *)
  Some (fun i j => (fst (xyz_to_lon_lat (pp6 i j)) - PI, snd (xyz_to_lon_lat (pp6 i j)))).

(** ** global_setup.py:42-87 global_gnomonic_ed and 35-37 the shift of gnomonic_grid, for a tile of [n] by [n] cells *)
Definition global_gnomonic (n ni nj : nat) : option (grid (R * R)) :=
  if negb (Nat.eqb ni nj) then None else
  let im := (ni - 1)%nat in
  (* lines 48-52 *)
  let ll0 : grid (R * R) := fun _ _ => (0, 0) in
  let ll1 := set (fun i _ => Nat.eqb i 0) (fun _ j => (75 / 100 * PI, edge_lat n (Z.of_nat j))) ll0 in
  let ll2 := set (fun i _ => Nat.eqb i im) (fun _ j => (125 / 100 * PI, edge_lat n (Z.of_nat j))) ll1 in
  (* lines 55-60; the entries read have first index 0 or im, so none of them is assigned by this loop *)
  let mirrored i := mirror_latlon (fst (ll2 0%nat 0%nat)) (snd (ll2 0%nat 0%nat)) (fst (ll2 im im)) (snd (ll2 im im))
                      (fst (ll2 0%nat i)) (snd (ll2 0%nat i)) in
  let inner i := Nat.leb 1 i && Nat.ltb i im in
  let ll3 := set (fun i j => inner i && Nat.eqb j 0) (fun i _ => mirrored i) ll2 in
  let ll4 := set (fun i j => inner i && Nat.eqb j im) (fun i _ => (fst (ll3 i 0%nat), - snd (ll3 i 0%nat))) ll3 in
  let xyz i j := lon_lat_to_xyz (fst (ll4 i j)) (snd (ll4 i j)) in
  (* lines 63-66 *)
  let pp0 : grid vec := fun _ _ => (0, 0, 0) in
  let pp1 := set (fun i j => (Nat.eqb i 0 || Nat.eqb i im) && (Nat.eqb j 0 || Nat.eqb j im)) xyz pp0 in
  (* lines 69-79 *)
  let pp2 := set (fun i j => Nat.eqb i 0 && inner j) (fun i j => to_face (xyz i j)) pp1 in
  let pp3 := set (fun i j => inner i && Nat.eqb j 0) (fun i j => to_face (xyz i j)) pp2 in
  (* lines 81-86 *)
  let pp4 : grid vec := fun i j => (- third, py (pp3 i j), pz (pp3 i j)) in
  let pp5 := set (fun i j => Nat.leb 1 j && Nat.leb 1 i)
               (fun i j => (px (pp4 i j), py (pp4 i 0%nat), pz (pp4 0%nat j))) pp4 in
  (* line 87 and 37 *)
  Some (fun i j => (fst (xyz_to_lon_lat (pp5 i j)) - PI, snd (xyz_to_lon_lat (pp5 i j)))).
