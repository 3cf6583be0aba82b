(** Model of the interpolation factors on tile edges: ndsl/grid/geometry.py:588-639 (edge_factors), 642-698 (set_west_edge_factor and its
    three mirrored forms), 701-787 (efactor_a2c_v), 790-869 (calculate_west_edge_vectors and its mirrored forms).

    Points are any type with a midpoint and a distance (lon_lat_midpoint and great_circle_distance_lon_lat are modelled in SphereModel.v);
    numbers are the reals.  Arrays are a length (or two) and a function of non-negative indices; slices, assignment to slices and
    broadcasting of arrays of length one follow numpy.  None = ValueError.  Left out: a division 0/0, which gives NaN in the code. *)
Require Import Reals ZArith Bool List.
From Verif Require Import Base PartModel DecompModel.
From Coq Require Import QArith.
Import ListNotations.
Local Open Scope Z_scope.

(** ** numpy (language, not NDSL) *)
Record arr (T : Type) := mkArr { len : Z; at1 : Z -> T }.
Arguments mkArr {T}. Arguments len {T}. Arguments at1 {T}.
Record arr2 (T : Type) := mkArr2 { len0 : Z; len1 : Z; at2 : Z -> Z -> T }.
Arguments mkArr2 {T}. Arguments len0 {T}. Arguments len1 {T}. Arguments at2 {T}.

Definition clip (n i : Z) : Z := if i <? 0 then Z.max 0 (i + n) else Z.min i n.
(** bounds of a[lo:hi]; None = bound not given *)
Definition lower (n : Z) (lo : option Z) : Z := match lo with Some i => clip n i | None => 0 end.
Definition upper (n : Z) (hi : option Z) : Z := match hi with Some i => clip n i | None => n end.
Definition sl {T} (a : arr T) (lo hi : option Z) : arr T :=
  mkArr (Z.max 0 (upper (len a) hi - lower (len a) lo)) (fun k => at1 a (lower (len a) lo + k)).
(** a[lo:hi] = v *)
Definition set_sl {T} (a : arr T) (lo hi : option Z) (v : arr T) : option (arr T) :=
  let s := lower (len a) lo in
  let m := Z.max 0 (upper (len a) hi - s) in
  if (len v =? m) || (len v =? 1) then
    Some (mkArr (len a) (fun k => if (s <=? k) && (k <? s + m) then at1 v (if len v =? m then k - s else 0) else at1 a k))
  else None.
(** a[i] = x *)
Definition set1 {T} (a : arr T) (i : Z) (x : T) : arr T :=
  let i := if i <? 0 then i + len a else i in mkArr (len a) (fun k => if k =? i then x else at1 a k).
Definition get1 {T} (a : arr T) (i : Z) : T := at1 a (if i <? 0 then i + len a else i).
(** element by element *)
Definition zip {S T U} (f : S -> T -> U) (a : arr S) (b : arr T) : option (arr U) :=
  if len a =? len b then Some (mkArr (len a) (fun k => f (at1 a k) (at1 b k)))
  else if len a =? 1 then Some (mkArr (len b) (fun k => f (at1 a 0) (at1 b k)))
  else if len b =? 1 then Some (mkArr (len a) (fun k => f (at1 a k) (at1 b 0)))
  else None.
(** a[i, :], a[::-1, :], a[:, ::-1], a.transpose([1, 0, 2]) *)
Definition row {T} (a : arr2 T) (i : Z) : arr T := mkArr (len1 a) (at2 a (if i <? 0 then i + len0 a else i)).
Definition flip_i {T} (a : arr2 T) : arr2 T := mkArr2 (len0 a) (len1 a) (fun i j => at2 a (len0 a - 1 - i) j).
Definition flip_j {T} (a : arr2 T) : arr2 T := mkArr2 (len0 a) (len1 a) (fun i j => at2 a i (len1 a - 1 - j)).
Definition transpose {T} (a : arr2 T) : arr2 T := mkArr2 (len1 a) (len0 a) (fun i j => at2 a j i).
Definition full {T} (n : Z) (x : T) : arr T := mkArr n (fun _ => x).

Section Edges.
  Context {P : Type}.
  Variable mid : P -> P -> P.          (* lon_lat_midpoint *)
  Variable dist : P -> P -> R.         (* great_circle_distance_lon_lat *)
  Variable big_number : R.

  (** geometry.py:642-668 *)
  Definition set_west_edge_factor (grid agrid : arr2 P) (nhalo jstart jend : Z) : option (arr R) :=
    do py <- zip mid (sl (row agrid (nhalo - 1)) (Some (jstart - 1)) (Some jend)) (sl (row agrid nhalo) (Some (jstart - 1)) (Some jend));
    do d1 <- zip dist (sl py None (Some (-1))) (sl (row grid nhalo) (Some jstart) (Some jend));
    do d2 <- zip dist (sl py (Some 1) None) (sl (row grid nhalo) (Some jstart) (Some jend));
    zip (fun a b => (b / (a + b))%R) d1 d2.
  (** 671-698 *)
  Definition set_east_edge_factor grid agrid := set_west_edge_factor (flip_i grid) (flip_i agrid).
  Definition set_south_edge_factor grid agrid := set_west_edge_factor (transpose grid) (transpose agrid).
  Definition set_north_edge_factor grid agrid := set_west_edge_factor (transpose (flip_j grid)) (transpose (flip_j agrid)).

  (** one edge of 605-637: an array of big numbers, filled if the rank is on the edge *)
  Definition edge (on : bool) (range : Z) (nhalo start stop : Z) (f : Z -> Z -> option (arr R)) : option (arr R) :=
    if on then do v <- f start stop; set_sl (full range big_number) (Some (start - nhalo)) (Some (stop - nhalo)) v
    else Some (full range big_number).
  (** 588-639, for grid_type < 3; [npx], [npy] from global_extent and [sx], [sy] from subtile_slice (without overlap) *)
  Definition edge_factors (grid agrid : arr2 P) (nhalo npx npy : Z) (sx sy : Z * Z) (left right bottom top : bool)
    : option (arr R * arr R * arr R * arr R) :=
    let i_range := len0 grid - 2 * nhalo in let j_range := len1 grid - 2 * nhalo in
    let global_is := nhalo + fst sx in let global_js := nhalo + fst sy in
    let global_ie := nhalo + snd sx - 1 in let global_je := nhalo + snd sy - 1 in
    let jstart := Z.max 4 global_js - global_js + nhalo in
    let jend := Z.min (npy + nhalo - 1) (global_je + 2) - global_js + nhalo in
    let istart := Z.max 4 global_is - global_is + nhalo in
    let iend := Z.min (npx + nhalo - 1) (global_ie + 2) - global_is + nhalo in
    do w <- edge left j_range nhalo jstart jend (set_west_edge_factor grid agrid nhalo);
    do e <- edge right j_range nhalo jstart jend (set_east_edge_factor grid agrid nhalo);
    do s <- edge bottom i_range nhalo istart iend (set_south_edge_factor grid agrid nhalo);
    do n <- edge top i_range nhalo istart iend (set_north_edge_factor grid agrid nhalo);
    Some (w, e, s, n).

  (** 790-846 *)
  Definition calculate_west_edge_vectors (grid agrid : arr2 P) (jm2 nhalo : Z) : option (arr R) :=
    let d2 := full (len0 agrid - 2 * nhalo + 2) 0%R in
    let d1 := full (len0 agrid - 2 * nhalo + 2) 0%R in
    do py <- zip mid (sl (row agrid (nhalo - 1)) (Some (nhalo - 2)) (Some (- nhalo + 2))) (sl (row agrid nhalo) (Some (nhalo - 2)) (Some (- nhalo + 2)));
    do p2 <- zip mid (sl (row grid nhalo) (Some (nhalo - 2)) (Some (- nhalo + 1))) (sl (row grid nhalo) (Some (nhalo - 1)) (Some (- nhalo + 2)));
    do a <- zip dist (sl py (Some 1) (Some (jm2 + 2))) (sl p2 (Some 1) (Some (jm2 + 2)));
    do d1 <- set_sl d1 None (Some (jm2 + 1)) a;
    do a <- zip dist (sl py (Some 2) (Some (jm2 + 3))) (sl p2 (Some 1) (Some (jm2 + 2)));
    do d2 <- set_sl d2 None (Some (jm2 + 1)) a;
    do a <- zip dist (sl py (Some (jm2 + 2)) (Some (-1))) (sl p2 (Some (jm2 + 2)) (Some (-1)));
    do d1 <- set_sl d1 (Some (jm2 + 1)) None a;
    do a <- zip dist (sl py (Some (jm2 + 1)) (Some (-2))) (sl p2 (Some (jm2 + 2)) (Some (-1)));
    do d2 <- set_sl d2 (Some (jm2 + 1)) None a;
    zip (fun a b => (a / (b + a))%R) d1 d2.
  (** 849-869 *)
  Definition calculate_east_edge_vectors grid agrid := calculate_west_edge_vectors (flip_i grid) (flip_i agrid).
  Definition calculate_south_edge_vectors grid agrid := calculate_west_edge_vectors (transpose grid) (transpose agrid).
  Definition calculate_north_edge_vectors grid agrid := calculate_west_edge_vectors (transpose (flip_j grid)) (transpose (flip_j agrid)).

  (** 728-747: im2 (or jm2) from the length of the axis, the rank's first corner and the number of corners *)
  Definition half_index (n_cells nhalo npx start : Z) : Z :=
    let global_is := nhalo + start in
    let i_midpoint := (npx - 1) / 2 in                                              (* int((npx - 1) / 2), npx odd *)
    let i_indices := map (fun k => k + global_is - nhalo) (zrange 0 (n_cells - nhalo + 1)) in
    let i_selection := filter (fun i => i <=? nhalo + i_midpoint) i_indices in
    let im2 := match i_selection with [] => 0 | i :: r => fold_left Z.max r i - global_is end in
    let im2 := if Z.of_nat (length i_selection) =? Z.of_nat (length i_indices) then Z.of_nat (length i_selection) - nhalo else im2 in
    Z.max im2 (-1).

  (** one edge of 749-785 *)
  Definition edge_vect (on first last : bool) (range nhalo : Z) (v : option (arr R)) : option (arr R) :=
    let e := full range big_number in
    if on then
      do v <- v;
      do e <- set_sl e (Some 2) (Some (-2)) v;
      let e := if first then set1 e (nhalo - 1) (get1 e nhalo) else e in
      Some (if last then set1 e (- nhalo) (get1 e (- nhalo - 1)) else e)
    else Some e.
  (** 701-787, for grid_type < 3 *)
  Definition efactor_a2c_v (grid agrid : arr2 P) (nhalo npx npy : Z) (sx sy : Z * Z) (left right bottom top : bool)
    : option (arr R * arr R * arr R * arr R) :=
    if negb (npx =? npy) then None
    else if npx mod 2 =? 0 then None
    else
      let im2 := half_index (len0 agrid) nhalo npx (fst sx) in
      let jm2 := half_index (len1 agrid) nhalo npy (fst sy) in
      do w <- edge_vect left bottom top (len1 grid - 1) nhalo (calculate_west_edge_vectors grid agrid jm2 nhalo);
      do e <- edge_vect right bottom top (len1 grid - 1) nhalo (calculate_east_edge_vectors grid agrid jm2 nhalo);
      do s <- edge_vect bottom left right (len0 grid - 1) nhalo (calculate_south_edge_vectors grid agrid im2 nhalo);
      do n <- edge_vect top left right (len0 grid - 1) nhalo (calculate_north_edge_vectors grid agrid im2 nhalo);
      Some (w, e, s, n).
End Edges.

(** geometry.py:609-612 and 717-720, 622, 626, 630, 634: what both functions take from the partitioner.  The grid's extent is its compute
    domain; the third axis (longitude and latitude) is not split. *)
Definition from_partitioner {P X} (rnd : Q -> Q) (l : layout) (rank : Z) (grid : arr2 P) (nhalo : Z)
    (f : Z -> Z -> Z * Z -> Z * Z -> bool -> bool -> bool -> bool -> option X) : option X :=
  let dims := [Dim AI true; Dim AJ true] in
  match global_extent l dims [len0 grid - 2 * nhalo; len1 grid - 2 * nhalo] with
  | [npx; npy] =>
      do slices <- subtile_slice rnd l 1 rank dims [npx; npy] false;
      match slices with
      | [sx; sy] => f npx npy sx sy (on_tile_left l rank) (on_tile_right l rank) (on_tile_bottom l rank) (on_tile_top l rank)
      | _ => None
      end
  | _ => None
  end.
(** 588-639 *)
Definition rank_edge_factors {P} rnd mid dist big l rank (grid agrid : arr2 P) nhalo :=
  from_partitioner rnd l rank grid nhalo (edge_factors mid dist big grid agrid nhalo).
(** 701-787 *)
Definition rank_efactor_a2c_v {P} rnd mid dist big l rank (grid agrid : arr2 P) nhalo :=
  from_partitioner rnd l rank grid nhalo (efactor_a2c_v mid dist big grid agrid nhalo).

(** ** Specification *)
(** A tile of n by n cells, numbered from 0; corner (i, j) is the south-west corner of cell (i, j).  Arrays with halo have negative indices
    and indices beyond n. *)
Inductive side := West | East | South | North.
(** cells outside and inside the edge at position k along it, and the corner of the edge at position k *)
Definition outside (n : Z) (s : side) (k : Z) : Z * Z := match s with West => (-1, k) | East => (n, k) | South => (k, -1) | North => (k, n) end.
Definition inside (n : Z) (s : side) (k : Z) : Z * Z := match s with West => (0, k) | East => (n - 1, k) | South => (k, 0) | North => (k, n - 1) end.
Definition on_edge (n : Z) (s : side) (k : Z) : Z * Z := match s with West => (0, k) | East => (n, k) | South => (k, 0) | North => (k, n) end.
(** the arrays of a rank whose cells start at (gi, gj), with three halo points, are windows of the tile's *)
Definition window {T} (tile : Z * Z -> T) (gi gj sizex sizey : Z) : arr2 T := mkArr2 sizex sizey (fun i j => tile (gi + i - 3, gj + j - 3)).
