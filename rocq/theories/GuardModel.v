(** Model of the guard on the Locals of a LocalState: ndsl/internal/python_extensions.py 6-43 (find_first_NDSLRuntime_caller, find_all_NDSLRuntime_callers), ndsl/quantity/state.py 602-627 (__post_init__,
    _check_only_locals), 629-651 (make_locals), 653-719 (make_as_state), 721-752 (__getattribute__).

    The call stack is the list of its frames, the innermost first; of a frame only the local variable "self" matters.  A class is the tree of its fields.  Simplified: what the allocation puts into the
    fields is MakeModel.v (C100) and left out; frames of the allocation itself hold no runtime as self (they are methods of the state classes). *)
From Coq Require Import List Bool String Arith.
From Verif Require Import Base Dict.
Import ListNotations.
Local Open Scope list_scope.
Local Open Scope nat_scope.

(** the variable self of a frame: none, a runtime (an object of a class derived from NDSLRuntime), anything else *)
Inductive frame := NoSelf | Runtime (i : nat) | OtherSelf.
(** python_extensions.py 6-21 *)
Fixpoint find_first (stack : list frame) : option nat :=
  match stack with [] => None | Runtime i :: _ => Some i | _ :: s => find_first s end.
(** 24-43 *)
Fixpoint find_all (stack : list frame) : list nat :=
  match stack with [] => [] | Runtime i :: s => i :: find_all s | _ :: s => find_all s end.

(** a declared class: its fields are Locals, Quantities, optional Quantities or further dataclasses; [guarded] = derived from LocalState *)
Inductive shape := SLocal | SQuantity | SOptional | SState (guarded : bool) (fields : list (string * shape)).
(** an object; [parent] = _parent_runtime, None = no such attribute *)
Inductive node := NLocal | NQuantity | NState (guarded : bool) (parent : option nat) (fields : list (string * node)).
(** state.py 602-609: __post_init__ finds the frames of the state classes first; None = RuntimeError *)
Definition post_init (stack : list frame) : option nat := find_first (OtherSelf :: OtherSelf :: stack).
(** 629-651 with 614-627: None = TypeError (a Quantity) or RuntimeError (outside of any runtime) *)
Fixpoint make_locals (stack : list frame) (c : shape) : option node :=
  match c with
  | SLocal => Some NLocal
  | SQuantity => None
  | SOptional => Some NQuantity   (* 620: only Quantity itself is looked for *)
  | SState g fs =>
      do l <- (fix go fs := match fs with [] => Some [] | (n, x) :: r => do y <- make_locals stack x; do ys <- go r; Some ((n, y) :: ys) end) fs;
      if g then do r <- post_init stack; Some (NState true (Some r) l) else Some (NState false None l)
  end.
(** 653-719: all Locals become Quantities, __post_init__ does nothing; None = TypeError *)
Fixpoint make_as_state (c : shape) : option node :=
  match c with
  | SLocal | SOptional => Some NQuantity
  | SQuantity => None
  | SState g fs => do l <- (fix go fs := match fs with [] => Some [] | (n, x) :: r => do y <- make_as_state x; do ys <- go r; Some ((n, y) :: ys) end) fs; Some (NState g None l)
  end.
(** 721-752: reading the attribute [n] of an object; the frame of __getattribute__ itself has the state as self *)
Inductive result := Got (x : node) | Refused (* RuntimeError *) | Missing (* AttributeError *).
Definition getattribute (stack : list frame) (x : node) (n : string) : result :=
  match x with
  | NState g parent fs =>
      match get fs n with
      | None => Missing
      | Some NLocal =>
          if g then
            match parent with
            | None => Missing
            | Some r => match find_all (OtherSelf :: stack) with [] => Refused | l => if existsb (Nat.eqb r) l then Got NLocal else Refused end
            end
          else Got NLocal
      | Some v => Got v
      end
  | _ => Missing
  end.
(** state.a.b.c *)
Fixpoint read (stack : list frame) (x : node) (path : list string) : result :=
  match path with [] => Got x | n :: p => match getattribute stack x n with Got v => read stack v p | e => e end end.

(** ** specification *)
(** a path of names to a Local in a class, and whether the class that holds it is a LocalState *)
Inductive local_at : shape -> list string -> bool -> Prop :=
| local_here g fs n : get fs n = Some SLocal -> local_at (SState g fs) [n] g
| local_below g fs n g' fs' p h : get fs n = Some (SState g' fs') -> local_at (SState g' fs') p h -> local_at (SState g fs) (n :: p) h.
(** a Quantity is declared in a class or in one nested in it, at any depth *)
Inductive quantity_in : shape -> Prop :=
| quantity_here g fs n : In (n, SQuantity) fs -> quantity_in (SState g fs)
| quantity_below g fs n c : In (n, c) fs -> quantity_in c -> quantity_in (SState g fs).
(** the innermost runtime at work is [r] *)
Definition innermost (stack : list frame) (r : nat) : Prop := exists inner outer, stack = inner ++ Runtime r :: outer /\ forall i, ~ In (Runtime i) inner.
