(** Model of the noise of the threshold tests: ndsl/testing/perturbation.py 6-19.

    The numbers of an array are real numbers of a binary format, infinities or NaN.  Arithmetic is that of IEEE 754 in the default
    rounding (Flocq's round with ZnearestE); overflow cannot occur, since no factor is above one (proved) and so no product above its
    number.  A factor is a double; it multiplies a float32 array as numpy does in place: the product is computed in double and then rounded to float32.
    The draws of np.random.uniform are arguments, one for each number below the limit. *)
From Coq Require Import Reals QArith.
From Flocq Require Import Core.
From Verif Require Import Base Dict.
Open Scope R_scope.

Definition fexp64 : Z -> Z := FLT_exp (-1074) 53.
Definition fexp32 : Z -> Z := FLT_exp (-149) 24.
Definition is_double (x : R) : Prop := generic_format radix2 fexp64 x.
Definition is_single (x : R) : Prop := generic_format radix2 fexp32 x.
Definition round64 (x : R) : R := round radix2 fexp64 ZnearestE x.
Definition round32 (x : R) : R := round radix2 fexp32 ZnearestE x.

Inductive value := Number (x : R) | NaN | Inf (negative : bool).
Inductive dtype := Double | Single | Other (name : string).
(** what a dictionary of inputs holds: arrays (the numbers in the order of the memory) or anything else *)
Inductive entry := Array (d : dtype) (l : list value) | Else.

(** 15: data < 1e30; the limit in the precision of the comparison is an argument *)
Definition selected (limit : R) (v : value) : bool :=
  match v with Number x => if Rlt_dec x limit then true else false | NaN => false | Inf negative => negative end.
(** 17-19 for one number *)
Definition times (d : dtype) (v : value) (u : R) : value :=
  match v, d with
  | Number x, Single => Number (round32 (round64 (x * round64 (1 + u))))
  | Number x, _ => Number (round64 (x * round64 (1 + u)))
  | _, _ => v    (* the factor is positive (proved) *)
  end.
(** 15-19 for an array and the draws for its selected numbers *)
Fixpoint noise (limit : R) (d : dtype) (l : list value) (draws : list R) : list value :=
  match l with
  | [] => []
  | v :: l' =>
      if selected limit v
      then match draws with [] => v :: noise limit d l' [] | u :: draws' => times d v u :: noise limit d l' draws' end
      else v :: noise limit d l' draws
  end.
(** 6-19; the draws for every entry *)
Fixpoint perturb (limit : dtype -> R) (input : dict entry) (draws : list (list R)) : dict entry :=
  match input with
  | [] => []
  | (name, Array Double l) :: input' => (name, Array Double (noise (limit Double) Double l (hd [] draws))) :: perturb limit input' (tl draws)
  | (name, Array Single l) :: input' => (name, Array Single (noise (limit Single) Single l (hd [] draws))) :: perturb limit input' (tl draws)
  | e :: input' => e :: perturb limit input' (tl draws)
  end.

(** ** specification *)
(** draws between -1e-16 and 1e-16 *)
Definition small (u : R) : Prop := Rabs u <= / 10 ^ 16.
Definition all_small (draws : list (list R)) : Prop := forall l u, In l draws -> In u l -> small u.
(** the double next to a number on the side of zero *)
Definition next_to (x y : R) : Prop := is_double y /\ Rabs y < Rabs x /\ 0 <= x * y /\ forall z, is_double z -> Rabs z < Rabs x -> 0 <= x * z -> Rabs z <= Rabs y.
(** the numbers of an array belong to its dtype *)
Definition proper (e : entry) : Prop :=
  match e with Array Double l => forall x, In (Number x) l -> is_double x | Array Single l => forall x, In (Number x) l -> is_single x | _ => True end.
(** the numbers that are to get noise, and so a draw of their own: those below the limit and minus infinity *)
Definition gets_noise (limit : R) (v : value) : bool :=
  match v with Number x => if Rle_dec limit x then false else true | NaN => false | Inf negative => negative end.
