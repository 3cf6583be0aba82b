(** Model of ndsl/performance/report.py: collect_keys_from_data 61-69, gather_timing_data 72-99 run by all the ranks together,
    and get_sypd 119-132.  Left out: the JSON file, the hit counts (PerfModel.v), and the rounding of floating point numbers. *)
From Verif Require Import Dict Base.
From Coq Require Import QArith.
Open Scope list_scope.

(** ** The code *)
(** list(set(keys)).sort(), report.py:63-68, by insertion: a name already there is not inserted again *)
Fixpoint insert (x : string) (l : list string) : list string :=
  match l with
  | [] => [x]
  | y :: l' => match String.compare x y with Lt => x :: l | Eq => l | Gt => y :: insert x l' end
  end.

Section Ranks.
  Context {T : Type}.
  (** times_per_step of one rank: one dictionary per step *)
  Definition steps := list (dict T).

  (** report.py:61-69 collect_keys_from_data *)
  Definition sorted_keys (times : steps) : list string :=
    fold_left (fun ks d => fold_left (fun ks kv => insert (fst kv) ks) d ks) times [].
  (** report.py:84-87: the list [data] for one timer *)
  Definition samples (times : steps) (name : string) : list T :=
    fold_left (fun data d => match get d name with Some t => data ++ [t] | None => data end) times [].
  (** the buffers a rank passes to its successive calls of comm.Gather (83-93) *)
  Definition sends (times : steps) : list (list T) := map (samples times) (sorted_keys times).

  (** One comm.Gather(sendbuf, recvbuf, root=0) executed by all ranks: the receive buffer of the root has one row of length
      [n] per rank (line 92).  A contribution of another length is an error (MPI_ERR_TRUNCATE, or a mismatched count), as is
      a rank that makes no such call. *)
  Definition gather_call (n : nat) (contributions : list (option (list T))) : option (list (list T)) :=
    fold_right (fun c rows => do c <- c; do rows <- rows; if (List.length c =? n)%nat then Some (c :: rows) else None) (Some []) contributions.
  (** the calls made by the root for its keys, the k-th of which is matched with the k-th call of every other rank *)
  Fixpoint gather_keys (own : steps) (ranks : list steps) (keys : list string) (k : nat) : option (dict (list (list T))) :=
    match keys with
    | [] => Some []
    | name :: keys' =>
        do rows <- gather_call (List.length (samples own name)) (map (fun times => nth_error (sends times) k) ranks);
        do rest <- gather_keys own ranks keys' (S k);
        Some ((name, rows) :: rest)
    end.
  (** report.py:72-99, what the rank [root] is returned (times only; hits = 0 everywhere).  [ranks] are the times_per_step of
      ranks 0, 1, ...  None = the call fails or never returns.  The receive buffer belongs to the rank [root] (79, 91) while
      the gather is always rooted at rank 0 (93): for another root rank 0 has no buffer to receive in, which raises. *)
  Definition gather_timing (ranks : list steps) (root : nat) : option (dict (list (list T))) :=
    match nth_error ranks root with
    | None => None
    | Some own =>
        match root, sorted_keys own with
        | _, [] => if forallb (fun times => match sorted_keys times with [] => true | _ => false end) ranks then Some [] else None
        | O, keys => if forallb (fun times => (List.length (sends times) =? List.length keys)%nat) ranks then gather_keys own ranks keys 0 else None
        | S _, _ => None
        end
    end.
End Ranks.
Arguments steps : clear implicits.

(** report.py:119-132 on the dictionary gather_timing_data returns, in exact arithmetic; the times are lists of lists, so
    line 125 is executed: np.mean(sum(times, [])) *)
Definition sypd (info : dict (list (list Q))) (dt_atmos : Q) : Q :=
  match get info "mainloop"%string with
  | Some times =>
      let l := concat times in
      let mainloop := (fold_left Qplus l 0 / inject_Z (Z.of_nat (List.length l)))%Q in
      (1 / 365 * (dt_atmos / mainloop))%Q
  | None => (-999)%Q
  end.

(** ** Specification *)
(** the values recorded under a name, one for each step in which it was recorded, in the order of the steps *)
Definition recorded {T} (times : list (dict T)) (name : string) : list T :=
  flat_map (fun d => match get d name with Some t => [t] | None => [] end) times.
(** the report of a name: for every rank in order, what it recorded; no entry if nothing was recorded *)
Definition report_of {T} (ranks : list (list (dict T))) (name : string) : option (list (list T)) :=
  if existsb (fun times => match recorded times name with [] => false | _ => true end) ranks then Some (map (fun times => recorded times name) ranks) else None.
(** every rank records the same names, each the same number of times *)
Definition same_counts {T} (ranks : list (list (dict T))) : Prop :=
  forall a b name, In a ranks -> In b ranks -> List.length (recorded a name) = List.length (recorded b name).
