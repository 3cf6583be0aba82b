(** Model of ndsl/checkpointer/snapshots.py (SnapshotCheckpointer and _Snapshots, all of it) and of the call counting of
    ndsl/checkpointer/validation.py (ValidationCheckpointer 64-144).  Left out: the NetCDF file, the transfer from the GPU, the
    comparison itself and the clipping of the arrays (ThreshModel.v, UtilModel.v), reading the reference file. *)
From Verif Require Import Dict Base.
Open Scope list_scope.

(** ** Snapshots *)
Section Snap.
  Context {V S : Type}.
  (** arrays have a shape; np.concatenate (19) wants equal shapes *)
  Variable shape : V -> S.
  Variable shape_eqb : S -> S -> bool.

  (** the program around the checkpointer holds its arrays in numbered places *)
  Definition heap := Z -> V.
  Inductive op :=
  | Write (p : Z) (v : V)                                    (* the program overwrites an array *)
  | Checkpoint (savepoint : string) (kwargs : dict Z).       (* checkpointer(savepoint, name=array, ...) *)

  Record snapshots := mkSnap { savepoints : dict (list string); arrays : dict (list V) }.
  (** dict[k].append(x) on a defaultdict(list), 28-33, 41-42 *)
  Definition append {X} (d : dict (list X)) (k : string) (x : X) : dict (list X) :=
    put d k ((match get d k with Some l => l | None => [] end) ++ [x]).
  (** 35-42 *)
  Definition store (s : snapshots) (savepoint name : string) (v : V) : snapshots :=
    mkSnap (append (savepoints s) name savepoint) (append (arrays s) name v).
  (** 66-69: np.copy takes the value of the array now *)
  Definition exec (hs : heap * snapshots) (o : op) : heap * snapshots :=
    let '(h, s) := hs in
    match o with
    | Write p v => (fun q => if q =? p then v else h q, s)
    | Checkpoint sp kwargs => (h, fold_left (fun s kv => store s sp (fst kv) (h (snd kv))) kwargs s)
    end.
  Definition run (h : heap) (os : list op) : heap * snapshots := fold_left exec os (h, mkSnap [] []).

  (** variables of the dataset: dimension name of the first axis and contents *)
  Inductive dvar := Names (dim : string) (l : list string) | Data (dim : string) (l : list V).
  (** 19: None = ValueError of np.concatenate *)
  Definition concatenate (l : list V) : option (list V) :=
    match l with [] => None | v :: l' => if forallb (fun w => shape_eqb (shape v) (shape w)) l' then Some l else None end.
  (** 44-53 *)
  Definition dataset (s : snapshots) : option (dict dvar) :=
    fold_left (fun acc kv =>
      do d <- acc;
      let '(name, sps) := (kv : string * list string) in
      do data <- concatenate (match get (arrays s) name with Some l => l | None => [] end);
      Some (put (put d (name ++ "_savepoints")%string (Names ("sp_" ++ name)%string sps)) name (Data ("sp_" ++ name)%string data)))
      (savepoints s) (Some []).

  (** *** specification *)
  (** the values of a variable passed to the checkpointer, each with the name of the savepoint, in order; [h] is the memory at
      the start *)
  Fixpoint history (h : heap) (os : list op) (name : string) : list (string * V) :=
    match os with
    | [] => []
    | Write p v :: os' => history (fun q => if q =? p then v else h q) os' name
    | Checkpoint sp kwargs :: os' => (match get kwargs name with Some p => [(sp, h p)] | None => [] end) ++ history h os' name
    end.
End Snap.
Arguments op : clear implicits.
Arguments dvar : clear implicits.
Arguments snapshots : clear implicits.

(** ** Validation *)
Section Validation.
  Context {V : Type}.
  (** the reference file of a savepoint: for each variable, and each call, the verdict on an array (validation.py:121-143).
      None: no such variable in the file *)
  Variable accepts : string -> string -> option (nat -> V -> bool).
  (** number of calls the thresholds of a savepoint are for; None: the savepoint has none *)
  Variable n_thresholds : string -> option nat.

  Inductive vop := Trial | Check (savepoint : string) (kwargs : dict V).
  (** 100-143, without the counter: None = raises *)
  Definition verdict (sp : string) (kwargs : dict V) (i : nat) : bool :=
    match n_thresholds sp with
    | Some n => (i <? n)%nat && forallb (fun kv => match accepts sp (fst kv) with Some f => f i (snd kv) | None => false end) kwargs
    | None => false
    end.
  Definition counter (n_calls : dict nat) (sp : string) : nat := match get n_calls sp with Some n => n | None => 0%nat end.
  (** 88-98 and 100-144; the flag tells whether the call passed.  The counter is advanced at the end (144) only. *)
  Definition vexec (n_calls : dict nat) (o : vop) : dict nat * bool :=
    match o with
    | Trial => ([], true)
    | Check sp kwargs =>
        let i := counter n_calls sp in
        if verdict sp kwargs i then (put n_calls sp (i + 1)%nat, true) else (put n_calls sp i, false)
    end.
  Fixpoint vrun (n_calls : dict nat) (os : list vop) : list bool :=
    match os with [] => [] | o :: os' => let '(n, b) := vexec n_calls o in b :: vrun n os' end.

  (** *** specification *)
  (** how many calls at a savepoint were made since the last start of a trial; [os] most recent first *)
  Fixpoint calls_before (os : list vop) (sp : string) : nat :=
    match os with
    | [] => 0
    | Trial :: _ => 0
    | Check sp' _ :: os' => (if String.eqb sp sp' then 1 else 0) + calls_before os' sp
    end.
End Validation.
Arguments vop : clear implicits.
