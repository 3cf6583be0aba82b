(** Model of ndsl/monitor/netcdf_monitor.py: NetCDFMonitor (store, cleanup) and _ChunkedNetCDFWriter on the root rank of a tile.

    A stored state is the dictionary the root rank has after gather_state (communicator.py:303-340).  Left out: the gathering itself (DecompModel.v has
    gather), the conversion of values to the transfer precision, the transposition to the dimension order of the first state in the chunk (C19/C23), units and the
    content of attributes, store_constant (ConstModel.v), and that xarray may refuse to write a list of times containing None. *)
From Verif Require Import Base Dict.
Open Scope nat_scope.

Section Netcdf.
  Context {V : Type}.
  Local Notation state := (dict V).
  (** the content of one file: times, and for each variable its values along the time dimension (netcdf_monitor.py:78-85) *)
  Record file := mkFile { file_times : list (option V); file_vars : dict (list V) }.

  (** netcdf_monitor.py:47-54.  A _TimeChunkedVariable (16-41) is the list of the values in its first _i_time slots. *)
  Record writer := mkWriter { i_time : nat; chunked : option (dict (list V)); times : list (option V) }.
  (** NetCDFMonitor (109-134) with its writer and the files of its tile, by chunk index *)
  Record monitor := mkMonitor { expected : option (list string); wr : writer; files : nat -> option file }.
  Definition new_monitor : monitor := mkMonitor None (mkWriter 0 None []) (fun _ => None).

  Variable C : nat.   (* time_chunk_size *)

  (** netcdf_monitor.py:66-67 with 25-30: the variables appended to so far and whether it raised (KeyError: a name the chunk does not have;
      IndexError: all C slots used) *)
  Fixpoint append_vars (s : state) (ch : dict (list V)) : dict (list V) * bool :=
    match s with
    | [] => (ch, false)
    | (n, v) :: s' =>
        match get ch n with
        | None => (ch, true)
        | Some l => if length l <? C then append_vars s' (put ch n (l ++ [v])) else (ch, true)
        end
    end.
  (** netcdf_monitor.py:61-64: one array per variable, the first slot filled; raises if there are no slots *)
  Definition first_vars (s : state) : dict (list V) * bool :=
    (map (fun nv => (fst nv, [snd nv])) s, (C =? 0) && negb (length s =? 0)).

  (** netcdf_monitor.py:74-99 *)
  Definition flush (w : writer) (fs : nat -> option file) : writer * (nat -> option file) :=
    (mkWriter (i_time w) None [],
     match chunked w with
     | None => fs
     | Some ch => fun k => if k =? i_time w / C then Some (mkFile (times w) ch) else fs k
     end).

  (** netcdf_monitor.py:56-72; the flag: it raised *)
  Definition append (w : writer) (fs : nat -> option file) (s : state) : writer * (nat -> option file) * bool :=
    let time := get s "time" in
    let s' := del s "time" in
    let '(ch, r) := match chunked w with None => first_vars s' | Some ch => append_vars s' ch end in
    if r then (match chunked w with None => w | Some _ => mkWriter (i_time w) (Some ch) (times w) end, fs, true)
    else if C =? 0 then (mkWriter (i_time w) (Some ch) (times w ++ [time]), fs, true)    (* 69: modulo by zero *)
    else
      let w1 := mkWriter (i_time w) (Some ch) (times w ++ [time]) in
      let '(w2, fs2) := if (i_time w + 1) mod C =? 0 then flush w1 fs else (w1, fs) in
      (mkWriter (i_time w2 + 1) (chunked w2) (times w2), fs2, false).

  Definition subset (a b : list string) : bool := forallb (fun x => if in_dec string_dec x b then true else false) a.
  Definition same_set (a b : list string) : bool := subset a b && subset b a.

  Inductive op := Store (s : state) | Cleanup.
  Definition exec (m : monitor) (o : op) : monitor * bool :=
    match o with
    | Store s =>                                                     (* 159-172 *)
        match expected m with
        | Some e => if same_set e (keys s)
                    then let '(w, fs, r) := append (wr m) (files m) s in (mkMonitor (Some e) w fs, r)
                    else (m, true)                                   (* ValueError *)
        | None => let '(w, fs, r) := append (wr m) (files m) s in (mkMonitor (Some (keys s)) w fs, r)
        end
    | Cleanup => let '(w, fs) := flush (wr m) (files m) in (mkMonitor (expected m) w fs, false)     (* 207-208 *)
    end.
  (** the history of calls, most recent first, each with whether it raised *)
  Fixpoint exec_all (os : list op) (m : monitor) (h : list (op * bool)) : monitor * list (op * bool) :=
    match os with [] => (m, h) | o :: os' => let '(m', r) := exec m o in exec_all os' m' ((o, r) :: h) end.

  (** ** Specification, in terms of the history only *)
  (** the states accepted by store, oldest first *)
  Fixpoint stored (h : list (op * bool)) : list state :=
    match h with
    | [] => []
    | (Store s, false) :: h' => stored h' ++ [s]
    | _ :: h' => stored h'
    end.
  (** for every cleanup, how many states had been stored before it *)
  Fixpoint cleanups (h : list (op * bool)) : list nat :=
    match h with
    | [] => []
    | (Cleanup, _) :: h' => length (stored h') :: cleanups h'
    | _ :: h' => cleanups h'
    end.
  (** State number [i] is overwritten when there was a cleanup after it, another state was stored after that cleanup, and that state belongs to the
      same chunk of C.  [c] is the number of states stored before the cleanup, so also the number of the first state after it. *)
  Definition overwritten (n : nat) (cs : list nat) (i : nat) : bool :=
    existsb (fun c => (i <? c) && (c <? n) && (c / C =? i / C)) cs.
  (** the numbers of the states in chunk [k] which are not overwritten, in order *)
  Definition survivors (n : nat) (cs : list nat) (k : nat) : list nat :=
    filter (fun i => (i <? n) && negb (overwritten n cs i)) (seq (k * C) C).
  (** [f] holds exactly the given states: one entry per state of their times and of every variable *)
  Definition holds (f : option file) (ss : list state) : Prop :=
    match f with
    | None => ss = []
    | Some f => ss <> [] /\ file_times f = map (fun s => get s "time") ss /\
        forall n, match get (file_vars f) n with
                  | Some l => n <> "time"%string /\ map Some l = map (fun s => get s n) ss
                  | None => n = "time"%string \/ Forall (fun s => get s n = None) ss
                  end
    end.
  (** states by their numbers *)
  Definition pick (ss : list state) (is : list nat) : list state := map (fun i => nth i ss []) is.
  (** names of the variables of two states are the same *)
  Definition same_keys (s s' : state) : Prop := forall n, In n (keys s) <-> In n (keys s').
  (** the call raises exactly when it stores a state with other names than the first accepted one *)
  Definition raises_when (h : list (op * bool)) : Prop :=
    forall pre o r post, h = pre ++ (o, r) :: post ->
      (r = true <-> exists s s0, o = Store s /\ nth_error (stored post) 0 = Some s0 /\ ~ same_keys s0 s).
End Netcdf.
Arguments mkFile {V}. Arguments mkWriter {V}. Arguments mkMonitor {V}.
