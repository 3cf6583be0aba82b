(** Model of the other checks on pairs of loops: ndsl/dsl/dace/stree/optimizations/memlet_helpers.py:55-91 (no_data_dependencies)
    and 133-149 (has_dynamic_memlets).  The trees are those of MergeModel.

    Simplified: as in MergeModel; the printed messages are left out; whether a memlet is dynamic is any function of the memlet. *)
From Verif Require Import Base MergeModel.

(** 73-83, one read after another; None: IndexError of [read.subset[2]] *)
Fixpoint k_reads (data : string) (k : idx) (reads : list memlet) : option bool :=
  match reads with
  | [] => Some true
  | r :: rest =>
      if String.eqb data (m_data r) then
        match nth_error (m_sub r) 2 with
        | None => None
        | Some (b, _) => if idx_eqb k b then k_reads data k rest else Some false
        end
      else k_reads data k rest
  end.
(** 55-91; None: IndexError *)
Fixpoint check (restrict_check_to_k : bool) (writes reads : list memlet) : option bool :=
  match writes with
  | [] => Some true                                                                     (* 91 *)
  | w :: rest =>
      if restrict_check_to_k then
        if (List.length (m_sub w) <? 3)%nat then check restrict_check_to_k rest reads        (* 68-70 *)
        else match nth_error (m_sub w) 2 with
             | None => None
             | Some (k, _) => match k_reads (m_data w) k reads with                     (* 72-83 *)
                              | Some true => check restrict_check_to_k rest reads
                              | other => other
                              end
             end
      else if existsb (fun r => String.eqb (m_data w) (m_data r)) reads then Some false (* 86-90 *)
      else check restrict_check_to_k rest reads
  end.
Definition no_data_dependencies (first second : node) (restrict_check_to_k : bool) : option bool :=
  check restrict_check_to_k (writes_of first) (reads_of second).                        (* 60-63 *)
(** 133-149 *)
Definition has_dynamic_memlets (dynamic : memlet -> bool) (first second : node) : bool :=
  existsb dynamic (reads_of first ++ writes_of first ++ reads_of second ++ writes_of second).

(** ** specification: the tasklets of a tree, and the data they use *)
Inductive within (t : task) : node -> Prop :=
| w_here : within t (Task t)
| w_map : forall s r n cs, In n cs -> within t n -> within t (Map s r cs)
| w_if : forall c n cs, In n cs -> within t n -> within t (If c cs).
Definition writes (n : node) (d : string) : Prop := exists t m, within t n /\ In m (t_out t) /\ m_data m = d.
Definition reads (n : node) (d : string) : Prop := exists t m, within t n /\ In m (t_in t) /\ m_data m = d.
