(** Model of the comparison metrics: ndsl/testing/comparison.py:47-114 (LegacyMetric) and 186-319 (_Metric,
    MultiModalFloatMetric: construction, overrides, _compute_all_metrics).

    Floating point values are NaN, the two infinities and rational numbers; the result of every arithmetic operation goes
    through an arbitrary rounding [rnd].  Simplified: overflow and signed zeros are left out; reference and computed arrays have the
    same shape (a list here, np.squeeze does not matter); the reports are left out. *)
From Verif Require Import Base.
From Coq Require Export QArith Qabs.
Local Open Scope Q_scope.

Inductive fl := NaN | Inf (negative : bool) | Num (q : Q).

Section Float.
  Variable rnd : Q -> Q.

  Definition isnan (x : fl) : bool := match x with NaN => true | _ => false end.
  Definition qlt (a b : Q) : bool := negb (Qle_bool b a).
  Definition fneg (x : fl) : fl := match x with NaN => NaN | Inf s => Inf (negb s) | Num q => Num (- q) end.
  Definition fabs (x : fl) : fl := match x with NaN => NaN | Inf _ => Inf false | Num q => Num (Qabs q) end.
  Definition fadd (x y : fl) : fl :=
    match x, y with
    | NaN, _ | _, NaN => NaN
    | Inf s, Inf t => if Bool.eqb s t then Inf s else NaN
    | Inf s, Num _ | Num _, Inf s => Inf s
    | Num a, Num b => Num (rnd (a + b))
    end.
  Definition fsub (x y : fl) : fl := fadd x (fneg y).
  Definition fneg_sign (x : fl) : bool := match x with NaN => false | Inf s => s | Num q => qlt q 0 end.
  Definition fmul (x y : fl) : fl :=
    match x, y with
    | NaN, _ | _, NaN => NaN
    | Num a, Num b => Num (rnd (a * b))
    | Inf _, Num q | Num q, Inf _ => if Qeq_bool q 0 then NaN else Inf (xorb (fneg_sign x) (fneg_sign y))
    | Inf s, Inf t => Inf (xorb s t)
    end.
  Definition fdiv (x y : fl) : fl :=
    match x, y with
    | NaN, _ | _, NaN => NaN
    | Inf _, Inf _ => NaN
    | Inf s, Num b => Inf (xorb s (fneg_sign y))
    | Num _, Inf _ => Num 0
    | Num a, Num b => if Qeq_bool b 0 then (if Qeq_bool a 0 then NaN else Inf (fneg_sign x)) else Num (rnd (a / b))
    end.
  (** comparisons with NaN are false *)
  Definition flt (x y : fl) : bool :=
    match x, y with
    | NaN, _ | _, NaN => false
    | Num a, Num b => qlt a b
    | Inf s, Inf t => s && negb t
    | Inf s, Num _ => s
    | Num _, Inf t => negb t
    end.
  Definition fle (x y : fl) : bool :=
    match x, y with
    | NaN, _ | _, NaN => false
    | Num a, Num b => Qle_bool a b
    | Inf s, Inf t => s || negb t
    | Inf s, Num _ => s
    | Num _, Inf t => negb t
    end.
  Definition feq0 (x : fl) : bool := match x with Num q => Qeq_bool q 0 | _ => false end.
  (** np.maximum: NaN if either is *)
  Definition fmax (x y : fl) : fl := if isnan x || isnan y then NaN else if flt x y then y else x.

  (** ** LegacyMetric *)
  (** ignore_near_zero_errors: Some near_zero if errors near zero are to be ignored; 90-113 *)
  Definition legacy_success (eps : Q) (near_zero : option Q) (computed reference : fl) : bool :=
    let denom := if feq0 reference then Num 1 else reference in                         (* 79-82 *)
    let metric := fabs (fdiv (fsub computed reference) denom) in                        (* 83-85 *)
    (isnan computed && isnan reference) || flt metric (Num eps)                         (* 92-95 *)
    || match near_zero with
       | Some z => flt (fabs computed) (Num z) && flt (fabs reference) (Num z)
       | None => false
       end.
  (** booleans: the metric is xor, False is 0 and True is 1 in the comparison with eps; 86-87, 92-95.  Simplified: near-zero errors
      not ignored *)
  Definition legacy_success_bool (eps : Q) (computed reference : bool) : bool :=
    qlt (if xorb computed reference then 1 else 0) eps.

  (** ** MultiModalFloatMetric *)
  Variable spacing : Q -> Q.       (* np.spacing of a finite non-negative number *)
  Definition fspacing (x : fl) : fl := match x with Num q => Num (spacing q) | _ => NaN end.

  (** 279-312 *)
  Definition multi_success (absolute relative ulp : Q) (computed reference : fl) : bool :=
    let max_values := fmax (fabs computed) (fabs reference) in
    let distance := fabs (fsub computed reference) in
    let absolute_metric := flt distance (Num absolute) in
    let relative_metric := flt distance (fmul (Num relative) max_values) in
    let ulp_metric := fle (fdiv distance (fspacing max_values)) (Num ulp) in
    (isnan computed && isnan reference) || ((relative_metric || absolute_metric) || ulp_metric).
  (** 313-315 *)
  Definition multi_success_bool (computed reference : bool) : bool := xorb computed reference.

  (** self.check = np.all(self.success); 70, 257 *)
  Definition check {A} (success : A -> A -> bool) (computed reference : list A) : bool :=
    forallb (fun cr => success (fst cr) (snd cr)) (combine computed reference).

  (** ** thresholds *)
  (** relative_fraction and ulp_threshold are objects of the class; absolute_eps is made anew for each comparison; 220-223, 243-254 *)
  Record klass := mkKlass { relative_fraction : Q; ulp_threshold : Q }.
  Record overrides := mkOv { o_abs : Q; o_rel : Q; o_ulp : Q }.     (* -1: none *)
  Definition raised_to (value override : Q) : Q := if qlt value override then override else value.
  (** constructing a metric: the class afterwards, and the thresholds used *)
  Definition construct (abs_default : Q) (k : klass) (o : overrides) : klass * (Q * Q * Q) :=
    let a := raised_to abs_default (o_abs o) in
    let k' := mkKlass (raised_to (relative_fraction k) (o_rel o)) (raised_to (ulp_threshold k) (o_ulp o)) in
    (k', (a, relative_fraction k', ulp_threshold k')).
  (** the defaults, 220-223 *)
  Definition f64_absolute : Q := 1 # 10000000000000.
  Definition f32_absolute : Q := 1 # 10000000000.
  Definition fresh_class : klass := mkKlass (1 # 1000000) 1.
  (** a sequence of comparisons in one process, most recent first *)
  Fixpoint after (os : list overrides) : klass :=
    match os with [] => fresh_class | o :: os' => fst (construct f64_absolute (after os') o) end.
End Float.
