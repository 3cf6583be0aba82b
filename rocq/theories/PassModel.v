(** Model of the passes of CartesianAxisMerge over a whole schedule tree: ndsl/dsl/dace/stree/optimizations/axis_merge.py 56-99 (guards), 162-164, 169-249, 324-467 (PUSH_IFSCOPE_DOWNWARD
    is False, line 22, so 251-322 is never called) and tree_common_op.py 6-34 (the swap).

    What a merge does to memory is modelled in MergeModel.v (C42, C43); here it is where the nodes go.  [ok] is no_data_dependencies_on_cartesian_axis, an arbitrary decision; renaming of
    symbols (384-391) does not move nodes and is left out.  The code works on a list of siblings at the place of a node, found with "is": here the list starts at that node, what
    precedes it is never touched.  list.remove (246, and tree_common_op.py 28) is taken to remove that node, not an equal one.  Ranges are constants.
    A guard asks for the index of the map that was merged; [runs] puts all maps over the axis around a node, usually one, at the same index. *)
From Coq Require Import ZArith Arith Bool.
From Verif Require Import Base MergeModel.
Import ListNotations.
Local Open Scope nat_scope.

Inductive tree :=
| Tasklet (id : nat) (callback : bool)                         (* callback: reads __pystate *)
| Other (id : nat)                                             (* any other node without children *)
| Axis (on : bool) (r : range) (kids : list tree)              (* a map; on: over the axis of the pass *)
| For (id : nat) (on : bool) (kids : list tree)                (* a for loop; on: over the axis *)
| Scope (id : nat) (kids : list tree)                          (* if, else, while, ... *)
| Guard (r : range) (kids : list tree).                        (* the if of a merge, 68-79: the index is in the range *)
Definition is_axis (t : tree) : bool := match t with Axis _ _ _ => true | _ => false end.
Definition kids_of (t : tree) : list tree := match t with Axis _ _ k | For _ _ k | Scope _ k | Guard _ k => k | _ => [] end.

(** 81-99 *)
Fixpoint guarded (merged orig : range) (t : tree) : tree :=
  match t with
  | Axis on r kids => if forallb is_axis kids then Axis on r (map (guarded merged orig) kids) else if range_eqb merged orig then t else Axis on r [Guard orig kids]
  | _ => t
  end.
(** 346-382 *)
Definition join (r : range) (kids : list tree) (r2 : range) (kids2 : list tree) : tree :=
  let m := merged_range r r2 in Axis true m (kids_of (guarded m r (Axis true r kids)) ++ kids_of (guarded m r2 (Axis true r2 kids2))).

Section Pass.
Context (ok : tree -> tree -> bool).
(** 169-249, 324-396: _merge_node on the first of the siblings; the siblings afterwards and how often it merged.  None = out of fuel.
    398-415 and 332-333: the siblings one after the other. *)
Fixpoint step (f : nat) (l : list tree) : option (list tree * nat) :=
  match f with
  | O => None
  | S f =>
      match l with
      | [] => Some ([], 0)
      | Axis on r kids :: rest =>
          match on, rest with
          | true, next :: rest' =>
              match next with
              | Axis true r2 kids2 => if ok (Axis on r kids) next then Some (join r kids r2 kids2 :: rest', 1) else Some (l, 0)
              | _ => Some (l, 0)
              end
          | _, _ => do x <- loop f kids; Some (Axis on r (fst x) :: rest, snd x)
          end
      | For id on kids :: rest =>
          match on, kids with
          | false, [Axis true r k] => do x <- loop f k; Some (Axis true r [For id on (fst x)] :: rest, S (snd x))
          | _, _ => do x <- loop f kids; Some (For id on (fst x) :: rest, snd x)
          end
      | Tasklet id cb :: rest =>
          if cb then Some (l, 0)
          else match rest with
               | [] => Some (l, 0)
               | _ => do x <- step f rest;
                      match fst x with
                      | Axis on r kids :: rest2 => do y <- step f (Axis on r (Tasklet id cb :: kids) :: rest2); Some (fst y, snd x + snd y)
                      | rest1 => Some (Tasklet id cb :: rest1, snd x)
                      end
               end
      | Scope id kids :: rest => do x <- loop f kids; Some (Scope id (fst x) :: rest, snd x)
      | Guard r kids :: rest => do x <- loop f kids; Some (Guard r (fst x) :: rest, snd x)
      | Other _ :: _ => Some (l, 0)
      end
  end
with loop (f : nat) (l : list tree) : option (list tree * nat) :=
  match f with
  | O => None
  | S f =>
      match l with
      | [] => Some ([], 0)
      | _ => do x <- step f l;
             match fst x with
             | [] => Some ([], snd x)
             | t :: rest => do y <- loop f rest; Some (t :: fst y, snd x + snd y)
             end
      end
  end.
(** 417-463: passes until one merges nothing, which is undone *)
Fixpoint run (f passes : nat) (l : list tree) : option (list tree) :=
  match passes with
  | O => None
  | S p => do x <- loop f l; if Nat.eqb (snd x) 0 then Some l else run f p (fst x)
  end.
(** 162-167: eager is stored and printed, nothing else reads it *)
Definition transform (eager : bool) (f passes : nat) (l : list tree) : option (list tree) := run f passes l.
End Pass.

(** Specification: the nodes without children, in order, each with the loops and scopes (not the maps and the guards of the pass) around it *)
Fixpoint leaves (around : list nat) (t : tree) : list (nat * list nat) :=
  match t with
  | Tasklet id _ | Other id => [(id, around)]
  | Axis _ _ kids | Guard _ kids => flat_map (leaves around) kids
  | For id _ kids | Scope id kids => flat_map (leaves (around ++ [id])) kids
  end.
(** callbacks and other nodes, with the number of maps around them *)
Fixpoint fixed (depth : nat) (t : tree) : list (nat * nat) :=
  match t with
  | Tasklet id cb => if cb then [(id, depth)] else []
  | Other id => [(id, depth)]
  | Axis _ _ kids => flat_map (fixed (S depth)) kids
  | Guard _ kids | For _ _ kids | Scope _ kids => flat_map (fixed depth) kids
  end.
(** the same nodes with what is around them: first all loops, scopes and maps but those over the axis, then all but the loops that are not over the axis *)
Inductive level := Here | Elsewhere (r : range) | Loop (id : nat) | In (id : nat).
Fixpoint nested (c : list level * list level) (t : tree) : list (nat * (list level * list level)) :=
  let both x := (fst c ++ [x], snd c ++ [x]) in
  match t with
  | Tasklet id cb => if cb then [(id, c)] else []
  | Other id => [(id, c)]
  | Axis true _ kids => flat_map (nested (fst c, snd c ++ [Here])) kids
  | Axis false r kids => flat_map (nested (both (Elsewhere r))) kids
  | For id false kids => flat_map (nested (fst c ++ [Loop id], snd c)) kids
  | For id true kids => flat_map (nested (both (Loop id))) kids
  | Scope id kids => flat_map (nested (both (In id))) kids
  | Guard _ kids => flat_map (nested c) kids
  end.
(** the points of a range (of positive step), and for each node without children: the number of maps over the axis around it, and whether it runs when all of these are at the index k *)
Definition point (r : range) (k : Z) : bool := ((r_lo r <=? k) && (k <=? r_hi r) && ((k - r_lo r) mod r_step r =? 0))%Z.
Fixpoint runs (k : Z) (c : nat * bool) (t : tree) : list (nat * (nat * bool)) :=
  match t with
  | Tasklet id _ | Other id => [(id, c)]
  | Axis true r kids => flat_map (runs k (S (fst c), snd c && point r k)) kids
  | Guard r kids => flat_map (runs k (fst c, snd c && point r k)) kids
  | Axis false _ kids | For _ _ kids | Scope _ kids => flat_map (runs k c) kids
  end.
(** the nodes of a tree, itself included *)
Fixpoint nodes (t : tree) : list tree := t :: match t with Axis _ _ k | For _ _ k | Scope _ k | Guard _ k => flat_map nodes k | _ => [] end.
(** the number of maps *)
Fixpoint maps (t : tree) : nat := match t with Axis _ _ kids => S (list_sum (map maps kids)) | For _ _ kids | Scope _ kids | Guard _ kids => list_sum (map maps kids) | _ => 0 end.
