(** Model of reductions over all ranks: ndsl/comm/communicator.py 101-152 (all_reduce, all_reduce_per_element,
    all_reduce_per_element_in_place), ndsl/comm/mpi.py 82-93, ndsl/quantity/metadata.py 51-58 (duplicate_metadata),
    ndsl/quantity/quantity.py 68-146 (construction), 268-274 (view, field), 353-355 (item assignment), 495-506.

    All ranks call the same function at the same time; the inputs and outputs are lists with one entry for each rank.  mpi4py is not part
    of the repository.  What is assumed of it: allreduce (lower case) combines the ranks' objects, in the order of the ranks, with the
    Python operators: x + y, x * y, and for MAX "y if y > x else x", so that the truth of an array of comparisons is asked for; Allreduce
    combines the memories of contiguous buffers, position by position.  Left out: the logical, bitwise, location and null operators, GPU
    arrays, arrays that are not contiguous, and rounding (the operators are parameters). *)
From Coq Require Import QArith.
From Verif Require Import Base Dict AllocModel.
Open Scope Z_scope.

Inductive rop := SUM | PROD | MAX | MIN.    (* comm_abc.py 10-26 *)

(** ** arrays in memory *)
(** the indices of an array in the order of the memory, row by row *)
Fixpoint rows (ns : list Z) : list (list Z) :=
  match ns with [] => [[]] | n :: ns' => flat_map (fun i => map (cons i) (rows ns')) (zrange 0 n) end.
(** the same for the order of C and the order of Fortran *)
Definition in_memory (fortran : bool) (ns : list Z) : list (list Z) := if fortran then map (@rev Z) (rows (rev ns)) else rows ns.
Definition size (ns : list Z) : Z := fold_right Z.mul 1 ns.
Fixpoint row_offset (ns idx : list Z) : Z :=
  match ns, idx with _ :: ns', i :: idx' => i * size ns' + row_offset ns' idx' | _, _ => 0 end.
Definition offset (fortran : bool) (ns idx : list Z) : Z := if fortran then row_offset (rev ns) (rev idx) else row_offset ns idx.

Section Values.
Context {A : Type}.
Variables (add mul : A -> A -> A) (ltb : A -> A -> bool) (cast : dtype -> A -> A) (none : A) (Float : dtype).

(** a contiguous array *)
Record array := Array { shape : list Z; fortran : bool; elt : list Z -> A; dt : dtype }.
Definition memory (a : array) : list A := map (elt a) (in_memory (fortran a) (shape a)).
Definition with_memory (a : array) (m : list A) : array :=
  Array (shape a) (fortran a) (fun idx => nth (Z.to_nat (offset (fortran a) (shape a) idx)) m none) (dt a).

(** ** quantities: metadata.py 19-36 without data_type; the view keeps its own dims, origin and extent (quantity.py 144-146) *)
Record meta := Meta { origin : list Z; extent : list Z; n_halo : Z; dims : list string; units : string; m_dt : dtype; backend : string }.
Record quantity := Quantity { data : array; metadata : meta; v_dims : list string; v_origin : list Z; v_extent : list Z }.
(** 268-274 the element at [idx] of the compute domain; the view of C25 restricted to one element *)
Definition field (q : quantity) (idx : list Z) : A := elt (data q) (map (fun '(o, i) => o + i) (combine (v_origin q) idx)).

(** quantity.py 64-146; None = ValueError.  Simplified: the copy to the layout of the backend keeps elements, dtype and shape *)
Definition make (layout : string -> bool) (a : array) (ds : list string) (u : string) (o e : list Z) (b : string) (allow : bool) (halo : Z) : option quantity :=
  if negb allow && is_float (dt a) && negb (dtype_eqb (dt a) Float) then None
  else if ((length ds =? length (shape a)) && (length o =? length (shape a)) && (length e =? length (shape a)))%nat%bool
  then Some (Quantity (Array (shape a) (layout b) (elt a) (dt a)) (Meta o e halo ds u (dt a) b) ds o e)
  else None.

Definition apply (op : rop) (x y : A) : A :=
  match op with SUM => add x y | PROD => mul x y | MAX => if ltb x y then y else x | MIN => if ltb y x then y else x end.
(** the values of the ranks, combined in the order of the ranks *)
Definition reduce (op : rop) (l : list A) : A := match l with [] => none | x :: l' => fold_left (apply op) l' x end.

Fixpoint list_eqb (a b : list Z) : bool :=
  match a, b with [], [] => true | x :: a', y :: b' => (x =? y) && list_eqb a' b' | _, _ => false end.
(** the Python operators on two arrays; None = an exception.  Simplified: arrays that numpy would broadcast are refused *)
Definition combine_arrays (op : rop) (x y : array) : option array :=
  if negb (list_eqb (shape x) (shape y)) then None
  else match op with
  | SUM | PROD => Some (Array (shape x) (fortran x) (fun i => apply op (elt x i) (elt y i)) (dt x))
  | MAX => if size (shape x) =? 1 then Some (if ltb (elt x (repeat 0 (length (shape x)))) (elt y (repeat 0 (length (shape x)))) then y else x) else None
  | MIN => if size (shape x) =? 1 then Some (if ltb (elt y (repeat 0 (length (shape x)))) (elt x (repeat 0 (length (shape x)))) then y else x) else None
  end.
(** mpi.py 82-85 *)
Definition allreduce (op : rop) (l : list array) : option array :=
  match l with [] => None | x :: l' => fold_left (fun acc y => do a <- acc; combine_arrays op a y) l' (Some x) end.

(** communicator.py 101-134 on one rank: [l] are the inputs of all ranks, [q] is this rank's; None = an exception *)
Definition duplicate_metadata (m copy : meta) : meta :=    (* metadata.py 51-58: all but n_halo *)
  Meta (origin m) (extent m) (n_halo copy) (dims m) (units m) (m_dt m) (backend m).
Definition all_reduce (layout : string -> bool) (op : rop) (l : list quantity) (q : quantity) (out : option quantity) : option quantity :=
  do r <- allreduce op (map data l);
  match out with
  | None => make layout r (dims (metadata q)) (units (metadata q)) (origin (metadata q)) (extent (metadata q)) (backend (metadata q)) false 0
  | Some o =>
      if negb (list_eqb (shape (data o)) (shape (data q))) then None
      else Some (Quantity (Array (shape (data o)) (fortran (data o)) (fun i => cast (dt (data o)) (elt r i)) (dt (data o)))
                   (duplicate_metadata (metadata q) (metadata o)) (v_dims o) (v_origin o) (v_extent o))
  end.

(** mpi.py 87-93: the memories, position by position; None = an error of MPI's for buffers of different types or lengths *)
Definition Allreduce (op : rop) (l : list array) (recv : array) : option array :=
  if forallb (fun a => dtype_eqb (dt a) (dt recv) && (length (memory a) =? length (memory recv))%nat) l
  then Some (with_memory recv (map (fun n => reduce op (map (fun a => nth n (memory a) none) l)) (seq 0 (length (memory recv)))))
  else None.
(** communicator.py 136-142 and 144-152 on one rank: the output after the call *)
Definition all_reduce_per_element (op : rop) (l : list quantity) (out : quantity) : option quantity :=
  do a <- Allreduce op (map data l) (data out);
  Some (Quantity a (metadata out) (v_dims out) (v_origin out) (v_extent out)).
Definition all_reduce_per_element_in_place (op : rop) (l : list quantity) (q : quantity) : option quantity := all_reduce_per_element op l q.
End Values.
Arguments array : clear implicits.
Arguments quantity : clear implicits.

(** ** specification *)
(** a quantity as the constructor makes it: the view addresses the domain of the metadata *)
Definition sound {A} (q : quantity A) : Prop :=
  v_dims q = dims (metadata q) /\ v_origin q = origin (metadata q) /\ v_extent q = extent (metadata q) /\ m_dt (metadata q) = dt (data q) /\
  length (dims (metadata q)) = length (shape (data q)) /\ length (origin (metadata q)) = length (shape (data q)) /\ length (extent (metadata q)) = length (shape (data q)).
(** the same metadata but for the number of halo points *)
Definition same_meta (m m' : meta) : Prop :=
  origin m' = origin m /\ extent m' = extent m /\ dims m' = dims m /\ units m' = units m /\ m_dt m' = m_dt m /\ backend m' = backend m.
(** an index of an array *)
Definition index_of_array {A} (a : array A) (idx : list Z) : Prop := Forall2 (fun n i => 0 <= i < n) (shape a) idx.
(** an array whose every element is the ranks' elements of the same index, combined in the order of the ranks *)
Definition reduction {A} (f : A -> A -> A) (l : list (array A)) (r : list Z -> A) (idx : list Z) : Prop :=
  exists x rest, map (fun a => elt a idx) l = x :: rest /\ r idx = fold_left f rest x.
(** what an operator does with two values *)
Definition of_two {A} (add mul : A -> A -> A) (ltb : A -> A -> bool) (op : rop) (x y : A) : A :=
  match op, ltb x y, ltb y x with SUM, _, _ => add x y | PROD, _, _ => mul x y | MAX, b, _ => if b then y else x | MIN, _, b => if b then y else x end.
