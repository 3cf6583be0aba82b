(** Specification vocabulary for the decomposition, independent of the model's algorithms. *)
From Verif Require Import Base PartModel DecompModel.
From Coq Require Import QArith.
Open Scope Z_scope.

(** What is assumed of floating-point rounding: integers and half-integers up to 2^52 are represented exactly.  True
    of IEEE binary64 (and of no rounding at all). *)
Definition float_like (rnd : Q -> Q) : Prop :=
  forall q z, q == (z # 2) -> Z.abs z <= 2 ^ 53 -> rnd q == (z # 2).

(** A point lies in a tuple of half-open index ranges. *)
Definition inside (sl : list (Z * Z)) (p : list Z) : Prop := Forall2 (fun s x => fst s <= x < snd s) sl p.
(** A point lies in an array of the given extent. *)
Definition in_extent (extent p : list Z) : Prop := Forall2 (fun e x => 0 <= x < e) extent p.

(** Number of dimensions on an axis. *)
Definition on_axis (a : axis) (d : dim) : bool :=
  match d, a with Dim AJ _, AJ | Dim AI _, AI | Dim AV _, AV => true | _, _ => false end.
Definition count_axis (a : axis) (dims : list dim) : nat := length (filter (on_axis a) dims).

(** Horizontal field dimensions: exactly one along y, exactly one along x, none is the tile dimension, and the
    extents are array sizes (at least one cell; below 2^52). *)
Definition no_tile (dims : list dim) : Prop := ~ In TILE dims.
Definition size_ok (d : dim) (e : Z) : Prop :=
  match d with TILE => True | Dim _ iface => (if iface then 1 else 0) <= e <= 2 ^ 52 end.
Definition plane_field (dims : list dim) (extent : list Z) : Prop :=
  no_tile dims /\ count_axis AJ dims = 1%nat /\ count_axis AI dims = 1%nat /\ Forall2 size_ok dims extent.

(** The dimension has q whole cells per rank: extent = ranks along it * q, plus one line if staggered. *)
Definition even_dim (l : layout) (d : dim) (e q : Z) : Prop :=
  match d with TILE => False | Dim a iface => 1 <= q /\ e = by_dim a l 1 * q + (if iface then 1 else 0) end.
