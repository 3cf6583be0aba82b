(** Model of ndsl/performance/collector.py (PerformanceCollector 58-153) and ndsl/performance/report.py
    (collect_keys_from_data 61-69, gather_timing_data 72-99 on the local rank, gather_hit_counts 109-116), on top of
    TimerModel.v.  Left out: the experiment description, the JSON file, the git hash, the gathering of the other ranks' timings and SYPD. *)
From Verif Require Import Base Dict TimerModel.

Section Perf.
  Context {T : Type}.
  Variables (minus plus : T -> T -> T).

  Record collector := mkCollector {
    step_timer : timer (T := T);          (* timestep_timer *)
    total_timer : timer (T := T);
    times_per_step : list (dict T);
    hits_per_step : list (dict Z) }.
  (** collector.py:59-65 *)
  Definition new_collector : collector := mkCollector (new_timer true) (new_timer true) [] [].

  Inductive op :=
  | StepTimer (e : event (T := T))        (* a call on collector.timestep_timer *)
  | TotalTimer (e : event (T := T))       (* a call on collector.total_timer *)
  | Collect | Clear.

  (** one call: the state afterwards and whether it raised *)
  Definition exec (c : collector) (o : op) : collector * bool :=
    match o with
    | StepTimer e => let '(t, r) := call minus plus (step_timer c) e in (mkCollector t (total_timer c) (times_per_step c) (hits_per_step c), r)
    | TotalTimer e => let '(t, r) := call minus plus (total_timer c) e in (mkCollector (step_timer c) t (times_per_step c) (hits_per_step c), r)
    | Collect =>                                                                      (* 71-78 *)
        let t := step_timer c in
        (mkCollector (fst (call minus plus t Reset)) (total_timer c) (times_per_step c ++ [acc t]) (hits_per_step c ++ [hit t]), false)
    | Clear => (mkCollector (step_timer c) (total_timer c) [] [], false)              (* 67-69 *)
    end.
  (** the history of calls made, most recent first, each with whether it raised *)
  Fixpoint exec_all (os : list op) (c : collector) (h : list (op * bool)) : collector * list (op * bool) :=
    match os with [] => (c, h) | o :: os' => let '(c', r) := exec c o in exec_all os' c' ((o, r) :: h) end.

  (** report.py:61-69; sorting is left out: it only orders the entries of the report, which is written with sorted keys *)
  Definition collect_keys (times : list (dict T)) : list string := nodup string_dec (flat_map keys times).
  (** collector.py:88-97, report.py:79-95 on one rank: a TimeReport (hits = 0, times) for each name *)
  Definition timing_info (times : list (dict T)) : dict (Z * list T) :=
    map (fun k => (k, (0%Z, flat_map (fun d => match get d k with Some t => [t] | None => [] end) times))) (collect_keys times).
  (** report.py:113-115, one entry; None = KeyError *)
  Definition add_hit (info : option (dict (Z * list T))) (entry : string * Z) : option (dict (Z * list T)) :=
    do info <- info;
    match get info (fst entry) with
    | None => None
    | Some (n, ts) => Some (put info (fst entry) ((n + snd entry)%Z, ts))
    end.
  (** report.py:109-116 *)
  Definition gather_hits (hits : list (dict Z)) (info : dict (Z * list T)) : option (dict (Z * list T)) :=
    fold_left (fun info d => fold_left add_hit d info) hits (Some info).
  (** collector.py:85-86, 141-142: while {} in hits_per_step: hits_per_step.remove({}) *)
  Definition remove_empty (hits : list (dict Z)) : list (dict Z) := filter (fun d => match d with [] => false | _ => true end) hits.
  (** collector.py:80-105 write_out_rank_0: the report (dictionary of TimeReports) and the collector afterwards *)
  Definition write_rank_0 (c : collector) : option (dict (Z * list T)) * collector :=
    let hits := remove_empty (hits_per_step c) in
    (gather_hits hits (timing_info (times_per_step c)), mkCollector (step_timer c) (total_timer c) (times_per_step c) hits).
  (** collector.py:116-153 write_out_performance: appends the total timer's entries first *)
  Definition write_all (c : collector) : option (dict (Z * list T)) * collector :=
    write_rank_0 (mkCollector (step_timer c) (total_timer c) (times_per_step c ++ [acc (total_timer c)]) (hits_per_step c ++ [hit (total_timer c)])).

  (** ** specification, in terms of the history alone *)
  (** the calls made on the step timer (a collection resets it), on the total timer *)
  Fixpoint step_calls (h : list (op * bool)) : list (event (T := T) * bool) :=
    match h with
    | [] => []
    | (StepTimer e, r) :: h' => (e, r) :: step_calls h'
    | (Collect, _) :: h' => (Reset, false) :: step_calls h'
    | _ :: h' => step_calls h'
    end.
  Fixpoint total_calls (h : list (op * bool)) : list (event (T := T) * bool) :=
    match h with
    | [] => []
    | (TotalTimer e, r) :: h' => (e, r) :: total_calls h'
    | _ :: h' => total_calls h'
    end.
  (** for each collection since the last clear, oldest first: the timed intervals of [n] it collects (those completed since
      the previous collection or reset) *)
  Fixpoint collected (h : list (op * bool)) (n : string) : list (list T) :=
    match h with
    | [] => []
    | (Collect, _) :: h' => collected h' n ++ [intervals minus true (step_calls h') n]
    | (Clear, _) :: _ => []
    | _ :: h' => collected h' n
    end.
  (** the report entry of a name timed during the given steps: number of intervals, total of each step it occurred in; no
      entry if it occurred in none *)
  Definition entry_of (steps : list (list T)) : option (Z * list T) :=
    match flat_map (fun l => match total plus l with Some t => [t] | None => [] end) steps with
    | [] => None
    | ts => Some (Z.of_nat (length (concat steps)), ts)
    end.
End Perf.
