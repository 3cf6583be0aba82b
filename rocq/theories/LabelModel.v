(** Model of the labels around orchestrated programs: ndsl/dsl/dace/labeler.py 34-68 (set_label).

    A program is the graph of its states: a state is its number, edges carry conditions and assignments of type D; None = the edges without them that are added here.  The three operations
    add_state_before, add_state_after and the list of nodes (taken before the loop) are those of DaCe, which is not part of this repository. *)
From Coq Require Import String List Lia PeanoNat.
Import ListNotations.
Local Open Scope nat_scope.

Section Label.
Context {D : Type}.
(** a state of the program, or one with a label *)
Inductive kind := Code | Enter (name : string) | Exit (name : string).
Definition edge : Type := nat * nat * option D.
Definition src (e : edge) : nat := fst (fst e).
Definition dst (e : edge) : nat := snd (fst e).
Definition data (e : edge) : option D := snd e.
Record graph := Graph { nodes : list kind; edges : list edge }.

Definition in_edges (g : graph) (s : nat) : list edge := filter (fun e => Nat.eqb (dst e) s) (edges g).
Definition out_edges (g : graph) (s : nat) : list edge := filter (fun e => Nat.eqb (src e) s) (edges g).
(** DaCe: the edges into s lead into the new state, which leads to s *)
Definition add_state_before (g : graph) (s : nat) (k : kind) : graph * nat :=
  let new := length (nodes g) in
  (Graph (nodes g ++ [k]) (map (fun e => if Nat.eqb (dst e) s then (src e, new, data e) else e) (edges g) ++ [(new, s, None)]), new).
(** DaCe: the edges out of s lead out of the new state, which comes after s *)
Definition add_state_after (g : graph) (s : nat) (k : kind) : graph * nat :=
  let new := length (nodes g) in
  (Graph (nodes g ++ [k]) (map (fun e => if Nat.eqb (src e) s then (new, dst e, data e) else e) (edges g) ++ [(s, new, None)]), new).
Definition is_nil {T} (l : list T) : bool := match l with [] => true | _ => false end.

(** 49-62: the graph and the variable [state] *)
Definition enter (qualname : string) (is_top : bool) (g : graph) (state : nat) : graph * nat :=
  if is_nil (in_edges g state) then
    if is_top then add_state_after g state (Enter qualname) else add_state_before g state (Enter qualname)
  else (g, state).
(** 63-68 *)
Definition leave (qualname : string) (gs : graph * nat) : graph :=
  let '(g, state) := gs in
  if is_nil (out_edges g state) then fst (add_state_after g state (Exit qualname)) else g.
(** 48-68 *)
Definition label_state (qualname : string) (is_top : bool) (g : graph) (state : nat) : graph := leave qualname (enter qualname is_top g state).
(** 34-68; compiled = the program is a CompiledSDFG *)
Definition set_label (compiled : bool) (qualname : string) (is_top : bool) (g : graph) : graph :=
  if compiled then g else fold_left (label_state qualname is_top) (seq 0 (length (nodes g))) g.

(** Specification. *)
Definition well_formed (g : graph) : Prop := forall e, In e (edges g) -> src e < length (nodes g) /\ dst e < length (nodes g).
Definition no_way_in (g : graph) (s : nat) : Prop := forall e, In e (edges g) -> dst e <> s.
Definition no_way_out (g : graph) (s : nat) : Prop := forall e, In e (edges g) -> src e <> s.
(** what a run shows: conditions and assignments, and the states of the program; labels and the edges added with them do nothing *)
Definition show_data (d : option D) : list (D + nat) := match d with Some x => [inl x] | None => [] end.
Definition show_state (n s : nat) : list (D + nat) := if s <? n then [inr s] else [].
(** a run from a state to another, of a program with n states of its own *)
Inductive run (n : nat) (g : graph) : nat -> list (D + nat) -> nat -> Prop :=
| run_end s : run n g s [] s
| run_step s t d l u : In (s, t, d) (edges g) -> run n g t l u -> run n g s (show_data d ++ show_state n t ++ l) u.
End Label.
Arguments graph : clear implicits.
