(** Model of what the ranks of a job do together in a ZarrMonitor: ndsl/monitor/zarr_monitor.py 55-119 (store, store_constant), 154-233 (_ZarrVariableWriter), 276-309
    (_ZarrConstantWriter), 318-374 (_ZarrTimeWriter).  Where in the array a rank writes is C38; here an array has one place for each rank and time index.

    The ranks run on their own and meet in broadcasts from rank 0 (sync_array, 173-174) and barriers (367).  MPI pairs the collective calls of the ranks in the order in which they
    are made.  Only rank 0 creates arrays (155-157), which fails if the store has one of that name already, and only rank 0 writes and encodes the time (364-365), which fails for
    another calendar.  Left out: resizing, units and order of dimensions (checked by each rank for itself; C38), GPU arrays, the encoding of the time in seconds. *)
From Coq Require Import ZArith List Bool String.
From Verif Require Import Base Dict.
Import ListNotations.
Local Open Scope list_scope.

Section Fleet.
Context {V C : Type} (calendar : V -> C) (same_calendar : C -> C -> bool).
(** what one rank does: receive (on rank 0: send) the array of the writer of that name, write a value at a time index with that writer, barrier *)
Inductive op := Bcast (n : string) | Write (n : string) (i : nat) (v : V) | Barrier.
(** the monitor of one rank: _writers with i_time (array is None as long as i_time is 0), _encoding_calendar, _constants; on rank 0 the names of the arrays in the store *)
Record monitor := Monitor { writers : option (dict nat); encoding : option C; constants : list string; group : list string }.
Definition mem (n : string) (l : list string) : bool := existsb (String.eqb n) l.
Definition is_time (n : string) : bool := String.eqb n "time".
Definition with_writers (m : monitor) (ws : dict nat) := Monitor (Some ws) (encoding m) (constants m) (group m).
Definition with_group (m : monitor) (n : string) := Monitor (writers m) (encoding m) (constants m) (n :: group m).
Definition with_encoding (m : monitor) (c : C) := Monitor (writers m) (Some c) (constants m) (group m).
Definition with_constant (m : monitor) (n : string) := Monitor (writers m) (encoding m) (n :: constants m) (group m).

(** 154-171: None = ContainsArrayError *)
Definition init_zarr (root : bool) (m : monitor) (n : string) : option (monitor * list op) :=
  if root then if mem n (group m) then None else Some (with_group m n, [Bcast n]) else Some (m, [Bcast n]).
(** 198-233: the operations, and the monitor afterwards or None = an exception after the operations *)
Definition append (root : bool) (m : monitor) (n : string) (i : nat) (v : V) : list op * option monitor :=
  match i with
  | O => match init_zarr root m n with None => ([], None) | Some (m', e) => (e ++ [Bcast n; Write n i v], Some m') end
  | S _ => ([Bcast n; Write n i v], Some m)
  end.
(** 349-353 *)
Definition encode_time (m : monitor) (v : V) : bool := match encoding m with Some c => same_calendar (calendar v) c | None => false end.
(** 364-367 *)
Definition write_time (root : bool) (m : monitor) (n : string) (i : nat) (v : V) : list op * option monitor :=
  if root then if encode_time m v then ([Write n i v; Barrier], Some m) else ([], None) else ([Barrier], Some m).
(** 355-367 *)
Definition append_time (root : bool) (m : monitor) (n : string) (i : nat) (v : V) : list op * option monitor :=
  match i with
  | O => match init_zarr root m n with
         | None => ([], None)
         | Some (m', e) => let '(o, r) := write_time root (with_encoding m' (calendar v)) n i v in (e ++ Bcast n :: o, r)
         end
  | S _ => let '(o, r) := write_time root m n i v in (Bcast n :: o, r)
  end.
(** sorted(state.items(), key=lambda x: x[0]) (103) *)
Fixpoint insert (x : string * V) (l : dict V) : dict V := match l with [] => [x] | y :: l' => if String.leb (fst x) (fst y) then x :: l else y :: insert x l' end.
Definition sorted (s : dict V) : dict V := fold_right insert [] s.
(** 103-104 *)
Fixpoint append_all (root : bool) (m : monitor) (items : dict V) : list op * option monitor :=
  match items with
  | [] => ([], Some m)
  | (n, v) :: items =>
      match writers m with
      | None => ([], None)
      | Some ws =>
          match get ws n with
          | None => ([], None)
          | Some i =>
              let '(o, r) := (if is_time n then append_time else append) root m n i v in
              match r with
              | None => (o, None)
              | Some m' => let '(o', r') := append_all root (with_writers m' (put ws n (S i))) items in (o ++ o', r')
              end
          end
      end
  end.
(** 55-70 *)
Definition init_writers (s : dict V) : dict nat := map (fun n => (n, O)) (filter (fun n => negb (is_time n)) (keys s)) ++ [("time"%string, O)].
(** 72-84 *)
Definition check_writers (ws : dict nat) (s : dict V) : bool := forallb (fun n => mem n (keys ws)) (keys s) && forallb (fun n => mem n (keys s)) (keys ws).
(** 86-104 *)
Definition store (root : bool) (m : monitor) (s : dict V) : list op * option monitor :=
  match writers m with
  | None => append_all root (with_writers m (init_writers s)) (sorted s)
  | Some ws => if check_writers ws s then append_all root m (sorted s) else ([], None)
  end.
(** 106-119, with 283-309 *)
Fixpoint store_constant (root : bool) (m : monitor) (s : dict V) : list op * option monitor :=
  match s with
  | [] => ([], Some m)
  | (n, v) :: s =>
      if mem n (constants m) then ([], None)
      else let '(o, r) := append root m n O v in
           match r with None => (o, None) | Some m' => let '(o', r') := store_constant root (with_constant m' n) s in (o ++ o', r') end
  end.
(** the calls a rank makes one after the other, up to the first exception *)
Inductive call := Store (s : dict V) | StoreConstant (s : dict V).
Definition one (root : bool) (m : monitor) (c : call) : list op * option monitor := match c with Store s => store root m s | StoreConstant s => store_constant root m s end.
Fixpoint calls (root : bool) (m : monitor) (cs : list call) : list op * option monitor :=
  match cs with [] => ([], Some m) | c :: cs => let '(o, r) := one root m c in match r with None => (o, None) | Some m' => let '(o', r') := calls root m' cs in (o ++ o', r') end end.
(** 45-53: [store] are the arrays already there (mode "a"; empty for the default mode "w") *)
Definition new_monitor (store : list string) : monitor := Monitor None None [] store.

(** MPI: the collective calls of rank 0, and what another rank does beside them.  A value written is written in the array received last with that writer.
    [Stuck]: the rank waits in a collective call that rank 0 never makes, or in another one than rank 0 does. *)
Inductive collective := Sent (n : string) | Met.
Definition collectives (os : list op) : list collective := flat_map (fun o => match o with Bcast n => [Sent n] | Write _ _ _ => [] | Barrier => [Met] end) os.
Inductive outcome := Done (left : list collective) | Stuck.
Fixpoint beside (table : string -> string) (os : list op) (cs : list collective) : list (string * nat * V) * outcome :=
  match os with
  | [] => ([], Done cs)
  | Write n i v :: os => let '(w, r) := beside table os cs in ((table n, i, v) :: w, r)
  | Bcast n :: os => match cs with Sent a :: cs => beside (fun x => if String.eqb x n then a else table x) os cs | _ => ([], Stuck) end
  | Barrier :: os => match cs with Met :: cs => beside table os cs | _ => ([], Stuck) end
  end.
(** what rank 0 does and what another rank does *)
Definition root_run (st : list string) (cs : list call) : list (string * nat * V) * bool :=
  let '(o, r) := calls true (new_monitor st) cs in
  (flat_map (fun o => match o with Write n i v => [(n, i, v)] | _ => [] end) o, match r with Some _ => true | None => false end).
(** the other rank: what it writes, whether it gets through, whether it raises *)
Definition other_run (st : list string) (root_calls cs : list call) : list (string * nat * V) * outcome * bool :=
  let '(o0, _) := calls true (new_monitor st) root_calls in
  let '(o, r) := calls false (new_monitor []) cs in
  (beside (fun x => x) o (collectives o0), match r with Some _ => true | None => false end).
End Fleet.
Arguments call : clear implicits.
Arguments op : clear implicits.
Arguments monitor : clear implicits.
