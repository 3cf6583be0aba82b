(** Model of the domain decomposition: ndsl/comm/partitioner.py (subtile slices) and the data movement of
    Communicator.scatter / gather (ndsl/comm/communicator.py).

    Dimension names are modelled by what the code tests about them: is it the tile dimension, which horizontal axis it
    is on, is it an interface (staggered) dimension.  Floating point: every float operation is "exact rational result,
    then [rnd]" for an arbitrary rounding function [rnd]; integers are unbounded. *)
From Verif Require Import Base PartModel.
From Coq Require Import QArith.
Open Scope Z_scope.

(** constants.py:41-56: J_DIMS, I_DIMS, everything else (K_DIMS, data dims). *)
Inductive axis := AJ | AI | AV.
Inductive dim := TILE | Dim (a : axis) (iface : bool).

Definition is_horizontal (a : axis) : bool := match a with AV => false | _ => true end.

(** utils.py:34-49 list_by_dims, for one dimension *)
Definition by_dim {T} (a : axis) (l : T * T) (other : T) : T :=
  match a with AJ => fst l | AI => snd l | AV => other end.

Section Float.
  Variable rnd : Q -> Q.
  Definition fdiv (a b : Q) : Q := rnd (a / b).
  Definition fadd (a b : Q) : Q := rnd (a + b).

  (** Python int(x) on a float: truncation toward zero. *)
  Definition py_int (x : Q) : Z := Z.quot (Qnum x) (Z.pos (Qden x)).

  (** Python round(x): nearest integer, ties to even. *)
  Definition py_round (x : Q) : Z :=
    let n := Qnum x in let d := Z.pos (Qden x) in
    let f := n / d in
    let r := 2 * (n - f * d) in
    if r <? d then f else if d <? r then f + 1 else if Z.even f then f else f + 1.

  (** partitioner.py:898-899: range(1, int((dim_extent - subtile_count + 2) / 2) + 1) *)
  Definition edge_top (D c : Z) : Z := py_int (fdiv (inject_Z (D - c + 2)) 2) + 1.

  (** partitioner.py:901-915: the reordering loop of _valid_edge_tile_sizes *)
  Fixpoint valid_sizes_loop (fuel : nat) (top start offset factor : Z) (acc : list Z) : list Z :=
    match fuel with
    | O => acc
    | S fuel' =>
        let index := start + factor * offset in
        let acc' :=
          if (1 <=? index) && (index <? top) && negb (existsb (Z.eqb index) acc) then acc ++ [index] else acc in
        if index =? 1 then valid_sizes_loop fuel' top start 0 1 acc'
        else valid_sizes_loop fuel' top start (offset + 1) factor acc'
    end.

  (** partitioner.py:888-915 _valid_edge_tile_sizes *)
  Definition valid_edge_tile_sizes (D c start : Z) : list Z :=
    let top := edge_top D c in
    valid_sizes_loop (S (Z.to_nat (top - 1))) top start 0 (-1) [].

  (** partitioner.py:933-936 starting edge size.  Division by a zero float is not modelled (Q gives 0). *)
  Definition start_edge (D c : Z) (ratio : Q) : Z :=
    py_round (fdiv (inject_Z D) (fadd 2 (fdiv (inject_Z (c - 2)) ratio))).

  (** partitioner.py:943-954: int(edge_size / dim_edge_interior_ratio) *)
  Definition interior_size (D c edge : Z) : Z :=
    let ratio := fdiv (inject_Z edge) (fdiv (inject_Z (D - 2 * edge)) (inject_Z (c - 2))) in
    py_int (fdiv (inject_Z edge) ratio).

  (** partitioner.py:949-956 acceptance test *)
  Definition edge_ok (D c edge : Z) : bool := edge * 2 + (c - 2) * interior_size D c edge =? D.

  (** partitioner.py:923-971, one dimension: (interior extent, edge extent); None = ValueError *)
  Definition subtile_extents (D0 : Z) (a : axis) (iface : bool) (l : layout) (ratio : Q) : option (Z * Z) :=
    let c := by_dim a l 1 in
    let D := if iface then D0 - 1 else D0 in
    if (c mod 2 =? 0) && negb (D mod 2 =? 0) then None
    else if (3 <=? c) && is_horizontal a then
      match find (edge_ok D c) (valid_edge_tile_sizes D c (start_edge D c ratio)) with
      | Some e => Some (interior_size D c e, e)
      | None => None
      end
    else let s := py_int (fdiv (inject_Z D) (inject_Z c)) in Some (s, s).

  (** partitioner.py:839-846: the accumulation loop, [i] from 0 up to the rank's index *)
  Fixpoint bounds_loop (todo : nat) (i n inner edge start stop : Z) : Z * Z :=
    match todo with
    | O => (start, stop)
    | S todo' =>
        if i =? 0 then bounds_loop todo' (i + 1) n inner edge start (stop + edge)
        else if i =? n - 1 then bounds_loop todo' (i + 1) n inner edge stop (stop + edge)
        else bounds_loop todo' (i + 1) n inner edge stop (stop + inner)
    end.

  (** partitioner.py:828-855, one dimension *)
  Definition dim_slice (inner edge : Z) (a : axis) (iface : bool) (l : layout) (sub : Z * Z) (overlap : bool) : Z * Z :=
    if is_horizontal a then
      let index := by_dim a sub 0 in
      let n := by_dim a l 1 in
      let '(start, stop) := bounds_loop (Z.to_nat (index + 1)) 0 n inner edge 0 0 in
      (start, if iface && (overlap || (index =? n - 1)) then stop + 1 else stop)
    else (0, if iface then inner + 1 else inner).

  (** partitioner.py:810-865 _rank_slice_from_tile_metadata_cached (the tile dimension is dropped); 997 subtile_slice *)
  Fixpoint rank_slice (dims : list dim) (extent : list Z) (l : layout) (sub : Z * Z) (ratio : Q) (overlap : bool)
    : option (list (Z * Z)) :=
    match dims, extent with
    | TILE :: dims', _ :: extent' => rank_slice dims' extent' l sub ratio overlap
    | Dim a iface :: dims', D :: extent' =>
        do ie <- subtile_extents D a iface l ratio;
        do rest <- rank_slice dims' extent' l sub ratio overlap;
        Some (dim_slice (fst ie) (snd ie) a iface l sub overlap :: rest)
    | _, _ => Some []
    end.

  (** partitioner.py:202-235 TilePartitioner.subtile_slice *)
  Definition subtile_slice (l : layout) (ratio : Q) (rank : Z) (dims : list dim) (extent : list Z) (overlap : bool)
    : option (list (Z * Z)) := rank_slice dims extent l (subtile_index l rank) ratio overlap.

  (** partitioner.py:637-673 CubedSpherePartitioner.subtile_slice: tile number, then the slices within the tile.
      None = NotImplementedError or ValueError. *)
  Definition cube_subtile_slice (l : layout) (ratio : Q) (rank : Z) (dims : list dim) (extent : list Z) (overlap : bool)
    : option (Z * list (Z * Z)) :=
    match dims, extent with
    | TILE :: dims', _ :: extent' =>
        do sl <- subtile_slice l ratio rank dims' extent' overlap; Some (tile_index l rank, sl)
    | _, _ => None
    end.

  (** partitioner.py:178-200 TilePartitioner.subtile_extent *)
  Definition subtile_extent (l : layout) (ratio : Q) (dims : list dim) (extent : list Z) (rank : Z) : option (list Z) :=
    do sl <- subtile_slice l ratio rank dims extent true;
    Some (map (fun s => snd s - fst s) sl).

  (** partitioner.py:758-788, 983-994 and 163-176 global_extent.  The partitioner's own ratio is not passed on, so the
      default ratio 1.0 is used; the factor is an exact integer. *)
  Definition global_extent1 (a : axis) (iface : bool) (l : layout) (ext : Z) : Z :=
    let add := if iface then -1 else 0 in (ext + add) * by_dim a l 1 - add.
  Fixpoint global_extent (l : layout) (dims : list dim) (extent : list Z) : list Z :=
    match dims, extent with
    | TILE :: dims', e :: extent' => e :: global_extent l dims' extent'
    | Dim a iface :: dims', e :: extent' => global_extent1 a iface l e :: global_extent l dims' extent'
    | _, _ => []
    end.

  (** ** scatter / gather.  An array is a function from index tuples; [view] coordinates (origin already removed). *)
  Definition index := list Z.
  Definition in_slices (sl : list (Z * Z)) (p : index) : bool :=
    (Nat.eqb (length sl) (length p)) &&
    forallb (fun sx => (fst (fst sx) <=? snd sx) && (snd sx <? snd (fst sx))) (combine sl p).
  Definition shift (sl : list (Z * Z)) (p : index) : index := map (fun sx => snd sx + fst (fst sx)) (combine sl p).
  Definition unshift (sl : list (Z * Z)) (p : index) : index := map (fun sx => snd sx - fst (fst sx)) (combine sl p).

  (** a[slices] : numpy basic slicing *)
  Definition take_slice {A} (g : index -> A) (sl : list (Z * Z)) : index -> A := fun p => g (shift sl p).
  (** a[slices] = b, for b of the shape of the slice *)
  Definition put_slice {A} (g : index -> A) (sl : list (Z * Z)) (b : index -> A) : index -> A :=
    fun p => if in_slices sl p then b (unshift sl p) else g p.

  Definition shape_of (sl : list (Z * Z)) : list Z := map (fun s => snd s - fst s) sl.
  Definition list_eqb (a b : list Z) : bool := if list_eq_dec Z.eq_dec a b then true else false.

  (** communicator.py:162-219 scatter as seen by [rank]: the root's send buffer has the root's subtile shape, so a rank
      whose subtile has another shape makes the assignment raise (None).  Simplified: numpy would instead broadcast
      when the odd extent is 1.  The MPI Scatter itself delivers block [rank] of the buffer to [rank]. *)
  Definition scatter {A} (l : layout) (ratio : Q) (dims : list dim) (extent : list Z) (g : index -> A) (rank : Z)
    : option (index -> A) :=
    do root <- subtile_extent l ratio dims extent 0;
    do sl <- subtile_slice l ratio rank dims extent true;
    if list_eqb (shape_of sl) root then Some (take_slice g sl) else None.

  (** communicator.py:262-292 gather on the root: blocks are written in rank order into the global array, whose extent
      is [recv_extent].  [shape] is the root's own extent, to which every destination slice must be equal. *)
  Fixpoint gather_loop {A} (ranks : list Z) (l : layout) (ratio : Q) (dims : list dim) (recv_extent shape : list Z)
      (buf : Z -> index -> A) (g : index -> A) : option (index -> A) :=
    match ranks with
    | [] => Some g
    | r :: ranks' =>
        do sl <- subtile_slice l ratio r dims recv_extent true;
        if list_eqb (shape_of sl) shape
        then gather_loop ranks' l ratio dims recv_extent shape buf (put_slice g sl (buf r))
        else None
    end.
  Definition gather {A} (l : layout) (ratio : Q) (dims : list dim) (recv_extent shape : list Z)
      (buf : Z -> index -> A) (g0 : index -> A) : option (index -> A) :=
    gather_loop (zrange 0 (tile_ranks l)) l ratio dims recv_extent shape buf g0.
End Float.
