(** Model of the checks inserted into orchestrated programs: ndsl/dsl/dace/sdfg_debug_passes.py 14-73 (_filter_all_maps), 76-174 (_check_node) and
    the passes 177-321.

    A program is a list of states (those of all nested programs); a state is a graph.  A node is its number; of the nodes that are not accesses to an array only the exits of maps
    without a parent map are told apart.  The entry, tasklet and exit of an inserted map are one node [Check].  Simplified: the copy of the access node is added to the
    state even if no edge leads from it; symbolic bounds are numbers.  DaCe is not part of this repository: get_last_view_node of an array that is no
    view is the node itself, as its documentation says. *)
From Coq Require Import String Ascii.
From Verif Require Import Base.
Local Open Scope list_scope.

Definition range : Type := Z * Z * Z.
Record check := NewCheck { k_array : string; k_code : string; k_comment : string; k_assert : bool; k_ranges : list range }.
Inductive kind := Access (name : string) | TopExit | Other | Check (c : check).
(** the edge with its memlet: is the first memlet of its path dynamic, and the subset *)
Record edge := Edge { src : nat; dst : nat; dynamic : bool; subset : list range }.
Inductive storage := GPU_Global | GPU_Shared | Elsewhere.
Record array := Array { a_view : bool; a_storage : storage; a_rank : nat }.
Record state := State { nodes : list kind; edges : list edge; arrays : string -> array }.

(** Python's: sub in s *)
Fixpoint contains (sub s : string) : bool := String.prefix sub s || match s with EmptyString => false | String _ s' => contains sub s' end.

(** 55-68 for one edge out of an exit: the access node to be checked *)
Definition keep (whitelist blacklist : list string) (skip_dynamic : bool) (st : state) (e : edge) : bool :=
  match nth_error (nodes st) (dst e) with
  | Some (Access name) =>
      negb (a_view (arrays st name))
      && negb (forallb (fun v => negb (contains v name)) whitelist)
      && negb (existsb (fun v => contains v name) blacklist)
      && negb (skip_dynamic && dynamic e)
  | _ => false
  end.
(** 43-73, the part of one state: the node and the edge *)
Definition filter_all_maps (whitelist blacklist : list string) (skip_dynamic : bool) (st : state) : list (nat * edge) :=
  flat_map (fun i => match nth_error (nodes st) i with
                     | Some TopExit => map (fun e => (dst e, e)) (filter (fun e => Nat.eqb (src e) i && keep whitelist blacklist skip_dynamic st e) (edges st))
                     | _ => []
                     end) (seq 0 (List.length (nodes st))).

(** 111-113 *)
Definition move (n new : nat) (e : edge) : edge := if Nat.eqb (src e) n then Edge new (dst e) (dynamic e) (subset e) else e.
(** 108-174 *)
Definition check_node (code comment : string) (assert_out : bool) (array_range : option (list range)) (st : state) (ne : nat * edge) : state :=
  let '(n, e) := ne in
  match nth_error (nodes st) n with
  | Some (Access name) =>
      let new := List.length (nodes st) in
      let moved := map (move n new) (edges st) in
      let a := arrays st name in
      match a_storage a with
      | Elsewhere => State (nodes st ++ [Access name]) moved (arrays st)
      | _ =>
          let ranges := firstn (a_rank a) (match array_range with Some (x :: l) => x :: l | _ => subset e end) in
          State (nodes st ++ [Access name; Check (NewCheck name code comment assert_out ranges)]) (moved ++ [Edge n (S new) false []; Edge (S new) new false []]) (arrays st)
      end
  | _ => st
  end.
(** the loops of the passes, e.g. 213-229 *)
Definition add_checks (whitelist blacklist : list string) (skip_dynamic : bool) (code comment : string) (assert_out : bool) (array_range : option (list range)) (st : state) : state :=
  fold_left (check_node code comment assert_out array_range) (filter_all_maps whitelist blacklist skip_dynamic st) st.

(** 177-203 *)
Definition trace_all_outputs_at_index (i j k : Z) : list state -> list state := map (add_checks [] [] true "" "tracking" false (Some [(i, i, 1); (j, j, 1); (k, k, 1)])).
(** 208-229 *)
Definition negative_delp_checker : list state -> list state := map (add_checks ["delp"%string] [] false "_inp < 0" "delp* is negative" true None).
(** 234-265 *)
Definition tracers : list string := ["qvapor"; "qliquid"; "qrain"; "qice"; "qsnow"; "qgraupel"; "qo3mr"; "qsgs_tke"; "qcld"]%string.
Definition negative_qtracers_checker : list state -> list state := map (add_checks tracers [] false "_inp < -1e-8" "tracer is negative" true None).
(** 270-303; None = RuntimeError *)
Definition sdfg_nan_checker (i j k : option range) (p : list state) : option (list state) :=
  match i, j, k with
  | None, None, None => Some (map (add_checks [] ["diss_estd"%string] true "_inp != _inp" "NaN found" true None) p)
  | Some i, Some j, Some k => Some (map (add_checks [] ["diss_estd"%string] true "_inp != _inp" "NaN found" true (Some [i; j; k])) p)
  | _, _, _ => None
  end.
(** 308-321 *)
Definition sdfg_execution_progress : list state -> list state := map (add_checks [] [] true "" "Progress" false (Some [(0, 0, 1); (0, 0, 1); (0, 0, 1)])).
