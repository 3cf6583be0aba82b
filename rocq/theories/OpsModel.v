(** Model of the basic stencils and functions: ndsl/stencils/basic_operations.py 15-148.

    Numbers are IEEE 754 binary floating-point numbers (Flocq), of any precision and exponent range: [prec] = 53, [emax] = 1024 for double,
    24 and 128 for single; arithmetic rounds to nearest even.  A field is a number for each point; IJ fields have no level.  The stencils run over
    a domain (GridIndexing, not modelled here): points i0 .. i0+ni-1 and so on.  PARALLEL assigns to all points of the domain from the values
    before the statement; FORWARD goes through the levels in ascending order; interval(0, 1) is the first level, and GT4Py refuses a
    domain without one.  Left out: element types of mixed fields, NaN payloads. *)
From Coq Require Import ZArith List Bool.
From Flocq Require Import Core BinarySingleNaN.
From Verif Require Import Base.
Local Open Scope Z_scope.

Record domain := Dom { i0 : Z; ni : Z; j0 : Z; nj : Z; k0 : Z; nk : Z }.
Definition in_plane (d : domain) (i j : Z) : bool := (i0 d <=? i) && (i <? i0 d + ni d) && ((j0 d <=? j) && (j <? j0 d + nj d)).
Definition in_levels (d : domain) (k : Z) : bool := (k0 d <=? k) && (k <? k0 d + nk d).
(** with computation(PARALLEL), interval(...): q = value *)
Definition parallel {V} (d : domain) (value q : Z -> Z -> Z -> V) : Z -> Z -> Z -> V :=
  fun i j k => if in_plane d i j && in_levels d k then value i j k else q i j k.
(** with computation(FORWARD) over the levels from a to b-1: a statement for each level *)
Definition forward {S} (a b : Z) (step : Z -> S -> S) (s : S) : S := fold_left (fun s k => step k s) (zrange a b) s.
(** an assignment to a field without levels, under a condition *)
Definition assign_ij {V} (d : domain) (cond : Z -> Z -> bool) (value q : Z -> Z -> V) : Z -> Z -> V :=
  fun i j => if in_plane d i j && cond i j then value i j else q i j.

(** 89-108: select_k *)
Definition select_k {V} (d : domain) (in_field : Z -> Z -> Z -> V) (out_field : Z -> Z -> V) (k_mask : Z -> Z -> Z -> Z) (k_select : Z -> Z -> Z) : Z -> Z -> V :=
  forward (k0 d) (k0 d + nk d) (fun k => assign_ij d (fun i j => k_mask i j k =? k_select i j) (fun i j => in_field i j k)) out_field.
(** 52-61 and 64-73: set_value_2D and set_IJ_mask_value *)
Definition set_value_2D {V} (d : domain) (buffer : Z -> Z -> V) (value : V) : option (Z -> Z -> V) :=
  if nk d <? 1 then None else Some (forward (k0 d) (k0 d + 1) (fun _ => assign_ij d (fun _ _ => true) (fun _ _ => value)) buffer).
(** 15-24: copy *)
Definition copy {V} (d : domain) (q_in q_out : Z -> Z -> Z -> V) : Z -> Z -> Z -> V := parallel d q_in q_out.
(** 40-49: set_value *)
Definition set_value {V} (d : domain) (q_out : Z -> Z -> Z -> V) (value : V) : Z -> Z -> Z -> V := parallel d (fun _ _ _ => value) q_out.

Section Float.
Context (prec emax : Z) (P0 : Prec_gt_0 prec) (PE : Prec_lt_emax prec emax).
Notation float := (binary_float prec emax).
Definition half : float := Bldexp mode_NE Bone (-1).
(** 27-37: adjustmentfactor_stencil *)
Definition adjustmentfactor (d : domain) (adjustment : Z -> Z -> float) (q_out : Z -> Z -> Z -> float) : Z -> Z -> Z -> float :=
  parallel d (fun i j k => Bmult mode_NE (q_out i j k) (adjustment i j)) q_out.
(** 76-86: adjust_divide_stencil *)
Definition adjust_divide (d : domain) (adjustment q_out : Z -> Z -> Z -> float) : Z -> Z -> Z -> float :=
  parallel d (fun i j k => Bdiv mode_NE (q_out i j k) (adjustment i j k)) q_out.
(** 111-124: average_in *)
Definition average (q a : float) : float := Bmult mode_NE (Bplus mode_NE q a) half.
Definition average_in (d : domain) (q_out adjustment : Z -> Z -> Z -> float) : Z -> Z -> Z -> float :=
  parallel d (fun i j k => average (q_out i j k) (adjustment i j k)) q_out.
(** 127-139: sign; b > 0 is false for NaN *)
Definition positive (b : float) : bool := Bltb (B754_zero false) b.
Definition sign (a b : float) : float := let a_sign_b := Babs a in if positive b then a_sign_b else Bopp a_sign_b.
(** 142-148: dim; the greater of two numbers, the first if they are equal (std::max; NaN is not considered here) *)
Definition greater (x y : float) : float := if Bltb x y then y else x.
Definition dim (a b : float) : float := greater (Bminus mode_NE a b) (B754_zero false).
End Float.
Arguments half {prec emax P0 PE}.
Arguments average {prec emax P0 PE}.
Arguments sign {prec emax}.
Arguments positive {prec emax}.
Arguments dim {prec emax P0 PE}.
Arguments greater {prec emax}.
Arguments adjustmentfactor {prec emax P0 PE}.
Arguments adjust_divide {prec emax P0 PE}.
Arguments average_in {prec emax P0 PE}.
