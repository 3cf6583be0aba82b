(** Model of ndsl/quantity/bounds.py (view indexing) and of the part of ndsl/comm/_boundary_utils.py it uses, together with
    Python slices and numpy basic indexing.

    An index tuple selects, per axis of the array, a list of addresses along that axis.  Left out: zero-dimensional
    quantities (33-39, 137-143), indices that are neither integers, slices nor None, and the sizes of the result. *)
From Verif Require Import Base PartModel DecompModel HaloModel.

Inductive entry := Int (z : Z) | Slice (start stop step : option Z) | NewAxis.

(** ** Python and numpy *)

(** slice(start, stop, step).indices(n); None = ValueError (step 0) *)
Definition slice_indices (n : Z) (start stop step : option Z) : option (Z * Z * Z) :=
  let k := match step with Some k => k | None => 1 end in
  if k =? 0 then None
  else
    let lower := if k <? 0 then -1 else 0 in
    let upper := if k <? 0 then n - 1 else n in
    let bound x := if x <? 0 then Z.max (x + n) lower else Z.min x upper in
    let a := match start with Some x => bound x | None => if k <? 0 then upper else lower end in
    let b := match stop with Some x => bound x | None => if k <? 0 then lower else upper end in
    Some (a, b, k).

(** range(a, b, k) *)
Definition py_range (a b k : Z) : list Z :=
  let count := if k <? 0 then (a - b - k - 1) / (- k) else (b - a + k - 1) / k in
  map (fun i => a + Z.of_nat i * k) (seq 0 (Z.to_nat count)).

(** one axis of length n; None = IndexError or ValueError *)
Definition resolve1 (n : Z) (e : entry) : option (list Z) :=
  match e with
  | Int z => let z' := if z <? 0 then z + n else z in if (0 <=? z') && (z' <? n) then Some [z'] else None
  | Slice a b k => do t <- slice_indices n a b k; let '(a', b', k') := t in Some (py_range a' b' k')
  | NewAxis => None
  end.

(** array[idx]: the addresses selected along each axis; None entries (numpy.newaxis) use up no axis *)
Fixpoint resolve (shape : list Z) (idx : list entry) : option (list (list Z)) :=
  match idx with
  | [] => Some (map (fun n => zrange 0 n) shape)
  | NewAxis :: idx' => resolve shape idx'
  | e :: idx' =>
      match shape with
      | [] => None
      | n :: shape' => do l <- resolve1 n e; do r <- resolve shape' idx'; Some (l :: r)
      end
  end.

(** ** q.view *)

(** bounds.py:201-208 *)
Definition shift_index (v : option Z) (shift extent : Z) : option Z :=
  match v with
  | None => None
  | Some v => let w := v + shift in Some (if w <? 0 then extent + w else w)
  end.
(** _boundary_utils.py:22-31 *)
Definition or_default (v : option Z) (d : Z) : option Z := match v with Some x => Some x | None => Some d end.

(** bounds.py:158-167, one entry (195-198 _shift_slice) *)
Definition compute_entry (o ext : Z) (e : entry) : entry :=
  match e with
  | Slice a b k => Slice (or_default (shift_index a o ext) o) (or_default (shift_index b o ext) (o + ext)) k
  | NewAxis => NewAxis
  | Int z => Int (z + o)
  end.
Fixpoint compute_entries (idx : list entry) (origin extent : list Z) : list entry :=    (* zip *)
  match idx, origin, extent with
  | e :: idx', o :: origin', x :: extent' => compute_entry o x e :: compute_entries idx' origin' extent'
  | _, _, _ => []
  end.
(** bounds.py:191-192 _fill_index *)
Definition fill (idx : list entry) (n : nat) : list entry := idx ++ repeat (Slice None None None) (n - length idx).
(** bounds.py:148-168 _get_compute_index; None = IndexError *)
Definition compute_index (shape origin extent : list Z) (idx : list entry) : option (list entry) :=
  if (length shape <? length idx)%nat then None
  else Some (compute_entries (fill idx (length shape)) origin extent).

(** q.view[idx] *)
Definition view (shape origin extent : list Z) (idx : list entry) : option (list (list Z)) :=
  do i <- compute_index shape origin extent idx; resolve shape i.

(** ** corner views *)
Inductive corner := NW | NE | SW | SE | INTERIOR.
Definition corner_btype (c : corner) : btype :=
  match c with NW => NORTHWEST | NE => NORTHEAST | SW => SOUTHWEST | SE => SOUTHEAST | INTERIOR => NORTHWEST end.

(** _boundary_utils.py:58-71 _get_offset *)
Definition get_offset (c : corner) (d : dim) (o ext : Z) : Z * Z :=
  match c with
  | INTERIOR => (o, o + ext)
  | _ =>
      match at_start (corner_btype c) d with
      | Some false => (o + ext, o + ext)
      | _ => (o, o)
      end
  end.
(** _boundary_utils.py:34-55 _shift_boundary_slice; None + integer raises TypeError *)
Definition corner_entry (c : corner) (d : dim) (o ext : Z) (e : entry) : option entry :=
  let '(so, eo) := get_offset c d o ext in
  match e with
  | Slice a b k =>
      let a' := match a with Some a => Some (a + so) | None => None end in
      let b' := match b with Some b => Some (b + eo) | None => None end in
      Some (Slice (or_default a' o) (or_default b' (o + ext)) k)
  | Int z => Some (Int (z + so))
  | NewAxis => None
  end.
(** _boundary_utils.py:7-19 shift_boundary_slice_tuple *)
Fixpoint corner_entries (c : corner) (dims : list dim) (idx : list entry) (origin extent : list Z) : option (list entry) :=
  match dims, idx, origin, extent with
  | d :: dims', e :: idx', o :: origin', x :: extent' =>
      do e' <- corner_entry c d o x e; do r <- corner_entries c dims' idx' origin' extent'; Some (e' :: r)
  | _, _, _, _ => Some []
  end.
(** bounds.py:29-58 BoundaryArrayView *)
Definition corner_view (c : corner) (dims : list dim) (shape origin extent : list Z) (idx : list entry) : option (list (list Z)) :=
  if (length dims <? length idx)%nat then None
  else do i <- corner_entries c dims (fill idx (length dims)) origin extent; resolve shape i.

(** ** specification *)

(** View coordinates are counted from the origin: the stored points are -o .. s-o-1, the compute domain is 0 .. ext-1.
    What an entry selects, in view coordinates; [ra], [rb]: reference points of a slice's start and stop. *)
Definition selected (o ext s ra rb : Z) (e : entry) : list Z :=
  match e with
  | Int z => [ra + z]
  | Slice a b k =>
      let a := match a with Some a => ra + a | None => 0 end in
      let b := match b with Some b => rb + b | None => ext end in
      let k := match k with Some k => k | None => 1 end in
      filter (fun i => (a <=? i) && (i <? b) && ((i - a) mod k =? 0)) (zrange (- o) (s - o))
  | NewAxis => []
  end.
(** entries that stay inside the storage and step forward *)
Definition inside (o ext s ra rb : Z) (e : entry) : Prop :=
  match e with
  | Int z => - o <= ra + z < s - o
  | Slice a b k =>
      match a with Some a => - o <= ra + a | None => True end /\
      match b with Some b => - o <= rb + b | None => True end /\
      match k with Some k => 0 < k | None => True end
  | NewAxis => False
  end.
(** the corner's reference point, in view coordinates *)
Definition corner_ref (c : corner) (d : dim) (ext : Z) : Z :=
  match c, d with
  | (NE | SE), Dim AI _ => ext
  | (NE | NW), Dim AJ _ => ext
  | _, _ => 0
  end.
Definition corner_stop (c : corner) (d : dim) (ext : Z) : Z := match c with INTERIOR => ext | _ => corner_ref c d ext end.

(** a quantity's memory layout: one axis *)
Record ax := mkAx { a_dim : dim; a_origin : Z; a_extent : Z; a_shape : Z }.
Definition ax_ok (a : ax) : Prop := 0 <= a_origin a /\ 0 <= a_extent a /\ a_origin a + a_extent a <= a_shape a.
