(** Model of ndsl/checkpointer/thresholds.py: Threshold.merge (23-33) and ThresholdCalibrationCheckpointer (50-151), and of the acceptance test of
    ndsl/checkpointer/validation.py (123-143).

    Arrays are lists of rationals (exact arithmetic, no NaN or infinity); all arrays recorded for one variable have the same length, so broadcasting is left
    out.  The three tables _minimums, _maximums, _abs_sums always have the same keys and are modelled as one table of triples; np.minimum(inf, a),
    np.maximum(-inf, a) and 0.0 + |a| for the first array of an entry are written out. *)
From Verif Require Import Base Dict.
From Coq Require Import QArith Qabs.
Open Scope nat_scope.

Definition array := list Q.
Definition qmax2 (a b : Q) : Q := if Qle_bool a b then b else a.
Definition qmin2 (a b : Q) : Q := if Qle_bool a b then a else b.
Definition zip (f : Q -> Q -> Q) (a b : array) : array := map (fun xy => f (fst xy) (snd xy)) (combine a b).
(** np.max of a nonempty array *)
Definition qmax (a : array) : Q := match a with [] => 0%Q | x :: a' => fold_left qmax2 a' x end.

(** thresholds.py:18-21 *)
Record threshold := mkT { relative : Q; absolute : Q }.
(** thresholds.py:23-33 *)
Definition merge (s o : threshold) : threshold := mkT (qmax2 (relative s) (relative o)) (qmax2 (absolute s) (absolute o)).

Record entry := mkE { e_min : array; e_max : array; e_abs : array }.
Record checkpointer := mkC { table : dict (list (dict entry)); n_calls : dict nat; n_trials : nat }.
(** thresholds.py:59-78; the factor is a parameter below *)
Definition new_checkpointer : checkpointer := mkC [] [] 0.

(** thresholds.py:97-105, one variable *)
Definition record (d : dict entry) (kv : string * array) : dict entry :=
  let '(k, a) := kv in
  put d k (match get d k with
           | None => mkE a a (map Qabs a)
           | Some e => mkE (zip qmin2 (e_min e) a) (zip qmax2 (e_max e) a) (zip Qplus (e_abs e) (map Qabs a))
           end).
Fixpoint set_nth {A} (i : nat) (x : A) (l : list A) : list A :=
  match l, i with [], _ => [] | _ :: l', O => x :: l' | y :: l', S i' => y :: set_nth i' x l' end.
Definition dget {A} (d : dict A) (k : string) (default : A) : A := match get d k with Some x => x | None => default end.

Inductive op := Begin | End | Call (sp : string) (kwargs : dict array).
Definition exec (c : checkpointer) (o : op) : checkpointer :=
  match o with
  | Begin => mkC (table c) (map (fun kn => (fst kn, 0)) (n_calls c)) (n_trials c)                  (* 120-121 *)
  | End => mkC (table c) (n_calls c) (n_trials c + 1)                                             (* 123 *)
  | Call sp kw =>                                                                                 (* 80-107 *)
      let i := dget (n_calls c) sp 0 in
      let rows := dget (table c) sp [] in
      let rows1 := if length rows <? i + 1 then rows ++ [[]] else rows in
      mkC (put (table c) sp (set_nth i (fold_left record kw (nth i rows1 [])) rows1)) (put (n_calls c) sp (i + 1)) (n_trials c)
  end.
Definition exec_all (os : list op) : checkpointer := fold_left exec os new_checkpointer.

(** thresholds.py:137-150, one entry *)
Definition threshold_of (factor : Q) (trials : nat) (e : entry) : threshold :=
  let spread := zip Qminus (e_max e) (e_min e) in
  let mean := map (fun x => x / inject_Z (Z.of_nat trials))%Q (e_abs e) in
  let nonzero := filter (fun sm => negb (Qeq_bool (snd sm) 0)) (combine spread mean) in      (* 0/0 = nan, ignored by nanmax *)
  mkT (if forallb (fun m => Qeq_bool m 0) mean then 0%Q else (factor * qmax (map (fun sm => fst sm / snd sm) nonzero))%Q)
      (factor * qmax spread)%Q.
(** thresholds.py:125-151; None = InsufficientTrialsError *)
Definition thresholds (factor : Q) (c : checkpointer) : option (dict (list (dict threshold))) :=
  if n_trials c <? 2 then None
  else Some (map (fun kr => (fst kr, map (fun i => map (fun ke => (fst ke, threshold_of factor (n_trials c) (snd ke))) (nth i (snd kr) []))
                                         (seq 0 (dget (n_calls c) (fst kr) 0)))) (table c)).

(** validation.py:123-143: output against expected, for thresholds that are numbers *)
Definition validates (t : threshold) (output expected : array) : Prop :=
  forall p, p < length expected ->
    let o := nth p output 0%Q in let x := nth p expected 0%Q in
    ((~ x == 0)%Q -> (Qabs (o - x) <= relative t * Qabs x)%Q) /\ (Qabs (o - x) <= absolute t)%Q.

(** ** Specification: functions of the calls made, most recent first *)
(** completed trials *)
Definition trials (h : list op) : nat := length (filter (fun o => match o with End => true | _ => false end) h).
(** calls of a savepoint since the last trial began *)
Fixpoint since (h : list op) (sp : string) : nat :=
  match h with
  | [] => 0
  | Begin :: _ => 0
  | End :: h' => since h' sp
  | Call sp' _ :: h' => (if (sp' =? sp)%string then 1 else 0) + since h' sp
  end.
(** the arrays recorded for variable [v] by the calls number [i] of savepoint [sp] in their trial *)
Fixpoint recorded (h : list op) (sp : string) (i : nat) (v : string) : list array :=
  match h with
  | [] => []
  | Call sp' kw :: h' => (if (sp' =? sp)%string && (since h' sp =? i) then match get kw v with Some a => [a] | None => [] end else []) ++ recorded h' sp i v
  | _ :: h' => recorded h' sp i v
  end.
(** mean over the trials of the magnitude at position [p] *)
Definition mean_abs (n : nat) (rs : list array) (p : nat) : Q :=
  (fold_right Qplus 0 (map (fun a => Qabs (nth p a 0)) rs) / inject_Z (Z.of_nat n))%Q.
(** [x] is the largest of the numbers satisfying [P] *)
Definition largest (P : Q -> Prop) (x : Q) : Prop := (exists y, P y /\ (x == y)%Q) /\ forall y, P y -> (y <= x)%Q.
(** a position and two recorded arrays, and how far apart they are there *)
Definition difference (rs : list array) (x : Q) : Prop :=
  exists a b p, In a rs /\ In b rs /\ p < length a /\ x = Qabs (nth p a 0 - nth p b 0)%Q.
Definition rel_difference (n : nat) (rs : list array) (x : Q) : Prop :=
  exists a b p, In a rs /\ In b rs /\ p < length a /\ (~ mean_abs n rs p == 0)%Q /\ x = (Qabs (nth p a 0 - nth p b 0) / mean_abs n rs p)%Q.
