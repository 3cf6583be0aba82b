(** Model of the cleaning of schedule trees: ndsl/dsl/dace/stree/optimizations/clean_tree.py 8-66 (CleanUpScheduleTree) and of
    tree_common_op.py 6-33 (swap_node_position_in_tree), 47-53 (list_index).

    A tree has boundaries between states, other leaves and scopes.  DaCe, which is not part of this repository, compares nodes with == by value: [same] stands for it.  Its visitor calls the method
    named after the class of a node, and for the classes without one (other scopes and leaves) visits the children and keeps them. *)
From Coq Require Import List Bool Arith.
Import ListNotations.
Local Open Scope nat_scope.

Inductive scope := Root | While | For | Map | If | Elif | Else | OtherScope (n : nat).
Inductive node := Boundary (id : nat) | Leaf (id : nat) | Scope (k : scope) (id : nat) (children : list node).

Section Clean.
Context (same : node -> node -> bool).
Definition is_boundary (n : node) : bool := match n with Boundary _ => true | _ => false end.
(** Python: list.remove(x), for children with what else is known about them *)
Fixpoint remove {T} (x : node) (l : list (node * T)) : list (node * T) :=
  match l with [] => [] | y :: l' => if same (fst y) x then l' else y :: remove x l' end.
(** 17-25: the children that are left and the number of those removed *)
Definition remove_state_boundaries_from_children {T} (children : list (node * T)) : list (node * T) * nat :=
  let to_remove := filter is_boundary (map fst children) in
  (fold_left (fun l b => remove b l) to_remove children, length to_remove).
(** has the class a method: 27, 35, 43, 51, 58 *)
Definition has_method (k : scope) : bool := match k with Root | While | For | Map | If => true | _ => false end.
(** 27-66: the node and the number of removed nodes.  The visits of the children come after the removal; here their results are kept next to them *)
Fixpoint visit (n : node) : node * nat :=
  match n with
  | Scope k id children =>
      let visited := map (fun c => (c, visit c)) children in
      let '(rest, removed) := if has_method k then remove_state_boundaries_from_children visited else (visited, 0) in
      (Scope k id (map (fun x => fst (snd x)) rest), removed + fold_right (fun x s => snd (snd x) + s) 0 rest)
  | _ => (n, 0)
  end.
End Clean.

(** Specification. *)
(** a scope with its children, anywhere in a tree *)
Inductive within : scope -> list node -> node -> Prop :=
| within_here k id l : within k l (Scope k id l)
| within_below k l c id k' l' : In c l' -> within k l c -> within k l (Scope k' id l').
(** a tree without any boundary *)
Fixpoint erase (n : node) : list node :=
  match n with Boundary _ => [] | Leaf i => [Leaf i] | Scope k i l => [Scope k i (flat_map erase l)] end.
(** the scopes that are cleaned *)
Definition cleaned (k : scope) : Prop := In k [Root; While; For; Map; If].
(** boundaries in scopes of some kinds *)
Fixpoint boundaries (p : scope -> bool) (n : node) : nat :=
  match n with
  | Scope k _ l => (if p k then length (filter is_boundary l) else 0) + list_sum (map (boundaries p) l)
  | _ => 0
  end.

(** tree_common_op.py 6-33.  The nodes of a tree are in memory: for each its children and its parent *)
Record cell := Cell { children : list nat; parent : option nat }.
Definition heap : Type := nat -> cell.
Definition set (h : heap) (n : nat) (c : cell) : heap := fun m => if Nat.eqb m n then c else h m.
(** 47-53, with [insert] at that place: in front of the first occurrence *)
Fixpoint insert_before (x y : nat) (l : list nat) : list nat := match l with [] => [] | z :: l' => if Nat.eqb z x then y :: l else z :: insert_before x y l' end.
(** Python's list.remove: the first element that is the same object or equal by value *)
Fixpoint remove_value (eqv : nat -> nat -> bool) (x : nat) (l : list nat) : list nat := match l with [] => [] | z :: l' => if Nat.eqb z x || eqv z x then l' else z :: remove_value eqv x l' end.
Definition adopt (p : nat) (h : heap) (c : nat) : heap := set h c (Cell (children (h c)) (Some p)).
(** eqv h = equality by value of the nodes in memory; the top node has a parent *)
Definition swap_node_position_in_tree (eqv : heap -> nat -> nat -> bool) (top child up : nat) (h : heap) : heap :=
  let h1 := set h top (Cell (children (h child)) (parent (h top))) in
  let h2 := set h1 child (Cell [top] (parent (h child))) in
  let h3 := set h2 up (Cell (insert_before top child (children (h2 up))) (parent (h2 up))) in
  let h4 := set h3 top (Cell (children (h3 top)) (Some child)) in
  let h5 := set h4 child (Cell (children (h4 child)) (Some up)) in
  let h6 := set h5 up (Cell (remove_value (eqv h5) top (children (h5 up))) (parent (h5 up))) in
  let h7 := fold_left (adopt top) (children (h6 top)) h6 in
  fold_left (adopt child) (children (h7 child)) h7.

(** Specification: every child knows its parent *)
Definition aligned (h : heap) : Prop := forall p c, In c (children (h p)) -> parent (h c) = Some p.
