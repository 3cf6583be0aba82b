(** Model of the reports of the comparison metrics: ndsl/testing/comparison.py 116-181 (LegacyMetric.report) and 257-276, 328-424 (MultiModalFloatMetric), on top of MetricModel.v.

    The arrays are flat lists of floating-point numbers in the order of numpy (row-major); an index is the position in this list.  Reports are modelled before they are formatted as text.
    Left out: booleans (their reports subtract and format numpy booleans, which raises), the file the report is written in, the number of different errors (159).
    np.argsort is not stable by default: the order it gives is a parameter. *)
From Verif Require Import Base MetricModel.
From Coq Require Import Permutation Sorted.
Import ListNotations.
Local Open Scope nat_scope.
Local Open Scope list_scope.

(** np.logical_not(success).nonzero() *)
Fixpoint nonzero (n : nat) (l : list bool) : list nat := match l with [] => [] | b :: l' => if b then n :: nonzero (S n) l' else nonzero (S n) l' end.
Definition failing (success : list bool) : list nat := nonzero 0 (map negb success).
Fixpoint any (l : list bool) : bool := match l with [] => false | b :: l' => b || any l' end.
Definition count (l : list bool) : nat := length (nonzero 0 l).

Section Reports.
Context (rnd : Q -> Q).
(** ** LegacyMetric *)
(** 76-85 *)
Definition metric (c r : fl) : fl := fabs (fdiv rnd (fsub rnd c r) (if feq0 r then Num 1 else r)).
Record failure := Failure { f_at : nat; f_computed : fl; f_reference : fl; f_absolute : fl; f_metric : fl }.
Record summary := Summary { failed : nat; of_ : nat; worst : failure; failures : list failure }.
(** [None] = no differences *)
Inductive outcome := Raised | Reported (s : option summary).
(** 139-157: the worst failure of a list, None = the local variables were never assigned *)
Definition update_worst (w : fl * option failure) (f : failure) : fl * option failure :=
  if isnan (f_metric f) || flt (fabs (fst w)) (fabs (f_metric f)) then (f_metric f, Some f) else w.
(** 122-181; arrays of one element are squeezed to no dimension (30-31), where nonzero (126) or the indexing by its result (127) raises *)
Definition legacy_report (eps : Q) (near_zero : option Q) (computed reference : list fl) : outcome :=
  let success := map (fun p => legacy_success rnd eps near_zero (fst p) (snd p)) (combine computed reference) in
  if forallb (fun b => b) success then Reported None
  else if Nat.eqb (length success) 1 then Raised
  else let details := map (fun i => let c := nth i computed NaN in let r := nth i reference NaN in Failure i c r (fabs (fsub rnd c r)) (metric c r)) (failing success) in
       match snd (fold_left update_worst details (Num 0, None)) with
       | Some w => Reported (Some (Summary (length details) (length success) w details))
       | None => Raised
       end.

(** ** MultiModalFloatMetric *)
Context (spacing : Q -> Q).
(** 282-299 *)
Definition largest (c r : fl) : fl := fmax (fabs c) (fabs r).
Definition absolute_distance (c r : fl) : fl := fabs (fsub rnd c r).
Definition relative_distance (c r : fl) : fl := fdiv rnd (absolute_distance c r) (largest c r).
Definition ulp_distance (c r : fl) : fl := fdiv rnd (absolute_distance c r) (fspacing spacing (largest c r)).
Record thresholds := Thresholds { t_absolute : Q; t_relative : Q; t_ulp : Q }.
Record row := Row { at_ : nat; computed_ : fl; reference_ : fl; absolute : fl * bool; relative : fl * bool; ulp : fl * bool }.
Inductive sorting := Ulp | Absolute | Relative | Index | Unknown.
(** 351-381: failures of all points; or of the changing columns, of the changing points and of all points *)
Inductive head := All (bad full : nat) | Changing (bad_columns total_columns bad changing full : nat).
(** 262-276: column c of the map is true if a value of the column changes; [levels]: the length of the third dimension *)
Definition column_map (levels : nat) (l : list bool) : list bool := map (fun c => any (firstn levels (skipn (c * levels) l))) (seq 0 (length l / levels)).
(** 348-374; [three]: the length of the third dimension if there are three, all of more than one element, [changing]: where inputs and references differ if the inputs have the shape of the references *)
Definition make_head (three : option nat) (changing : option (list bool)) (success : list bool) : head :=
  let bad := length (failing success) in
  match three, changing with
  | Some levels, Some ch =>
      let bad_map := column_map levels (map negb success) in
      let map_ := column_map levels ch in
      Changing (count (map (fun p => fst p && snd p) (combine bad_map map_))) (count map_) bad (count ch) (length success)
  | _, _ => All bad (length success)
  end.
(** 383-395; [argsort] of the distances; None = the local variable was never assigned *)
Definition order (sort : sorting) (argsort : list fl -> list nat) (points : list (fl * fl)) : option (list nat) :=
  match sort with
  | Ulp => Some (argsort (map (fun p => ulp_distance (fst p) (snd p)) points))
  | Absolute => Some (argsort (map (fun p => absolute_distance (fst p) (snd p)) points))
  | Relative => Some (argsort (map (fun p => relative_distance (fst p) (snd p)) points))
  | Index => Some (rev (seq 0 (length points)))
  | Unknown => None
  end.
(** 396-417 *)
Definition make_row (t : thresholds) (points : list (fl * fl)) (i : nat) : list row :=
  let '(c, r) := nth i points (NaN, NaN) in
  if isnan c && isnan r then []
  else [Row i c r (absolute_distance c r, flt (absolute_distance c r) (Num (t_absolute t)))
                  (fmul rnd (relative_distance c r) (Num 100), flt (absolute_distance c r) (fmul rnd (Num (t_relative t)) (largest c r)))
                  (ulp_distance c r, fle (ulp_distance c r) (Num (t_ulp t)))].
(** 341-424; None = an exception: no points (division by full_count, 361-363) or an unknown way of sorting *)
Definition multi_report (t : thresholds) (sort : sorting) (argsort : list fl -> list nat) (three : option nat) (changing : option (list bool)) (points : list (fl * fl)) : option (head * list row) :=
  let success := map (fun p => multi_success rnd spacing (t_absolute t) (t_relative t) (t_ulp t) (fst p) (snd p)) points in
  if Nat.eqb (length success) 0 then None
  else match order sort argsort points with
       | None => None
       | Some p => Some (make_head three changing success, flat_map (make_row t points) (rev p))
       end.
(** 430-435 MultiModalFloatMetric.__repr__: the header and at most eleven rows *)
Definition shown (rows : list row) : list row := if Nat.ltb 12 (S (length rows)) then firstn 11 rows else rows.
End Reports.

(** Specification.  numpy's order: NaN comes last *)
Definition not_after (x y : fl) : Prop := y = NaN \/ fle x y = true.
(** np.argsort: all positions, in an order in which the values ascend *)
Definition sorts (argsort : list fl -> list nat) : Prop :=
  forall d, Permutation (argsort d) (seq 0 (length d)) /\ StronglySorted not_after (map (fun i => nth i d NaN) (argsort d)).
