(** Model of what a translate test passes to and takes from the code under test, call by call: ndsl/stencils/testing/translate.py 184-323.

    Arrays are of an abstract type [A]; moving an axis, adding to the elements, the storage an array is put into at a start (see Stor*.v) and the window cut out of
    a storage are functions.  The object of a test is used for all calls of a savepoint (conftest.py 320-341), so the descriptions of its variables are state.
    Left out: dictionaries of tracers (names_4d), dummy axes, devices, text that is itself a number, a parameter that is also a data variable, and
    what an exception (None) leaves behind. *)
From Verif Require Import Base Dict.

Section Info.
Context {A : Type}.
Inductive value := Num (z : Z) | Array (a : A).
(** the values in the description of a variable *)
Inductive attr := Val (v : value) | Name (s : string) | Listed.
Definition info := dict attr.

(** 193-198: an array as value cannot be looked up (unhashable) *)
Definition update_attr (inputs : dict value) (kv : string * attr) : option (string * attr) :=
  let '(k, v) := kv in
  if (k =? "serialname")%string then Some (k, v)
  else match v with
       | Listed => Some (k, v)
       | Name s => match get inputs s with Some w => Some (k, Val w) | None => Some (k, v) end
       | Val (Num _) => Some (k, v)
       | Val (Array _) => None
       end.
Fixpoint update_info (inputs : dict value) (i : info) : option info :=
  match i with [] => Some [] | kv :: i' => do x <- update_attr inputs kv; do r <- update_info inputs i'; Some (x :: r) end.

(** 225, 273, 320-323 *)
Definition serialname (d : string) (i : info) : string := match get i "serialname" with Some (Name s) => s | _ => d end.
Definition serialnames (vars : dict info) : list string := map (fun x => serialname (fst x) (snd x)) vars.
(** 226-228, 274-276; simplified: 226 reads the flag before the description is updated, which differs only when the flag is the name of an input *)
Definition is_index (i : info) : bool :=
  match get i "index_variable" with Some (Val (Num z)) => negb (z =? 0) | Some _ => true | None => false end.

Context (as_int : A -> option Z) (move : Z -> A -> A) (add_to : Z -> A -> A) (starts : A -> Z * Z).
Context (place : string -> A -> Z * Z * Z -> option A).
(** int() *)
Definition attr_int (a : attr) : option Z := match a with Val (Num z) => Some z | Val (Array a) => as_int a | _ => None end.
(** 187-191, 200-205 *)
Definition index (i : info) (key : string) (default : Z) : option Z := match get i key with Some a => attr_int a | None => Some default end.
Definition collect_starts (a : A) (i : info) : option (Z * Z * Z) :=
  let '(x, y) := starts a in
  do x' <- index i "istart" x; do y' <- index i "jstart" y; do z' <- index i "kstart" 0; Some (x', y', z').

(** 224-261 for one variable *)
Definition load_variable (inputs : dict value) (d : string) (i : info) : option (info * dict value * A) :=
  let s := serialname d i in
  do i' <- update_info inputs i;
  do v <- get inputs s;
  match v with
  | Num _ => None
  | Array a =>
      do a1 <- match get i' "kaxis" with None => Some a | Some k => do z <- attr_int k; Some (move z a) end;
      do st <- collect_starts a1 i';
      let a2 := if is_index i' then add_to (-1) a1 else a1 in
      do r <- place d a2 st;
      Some (i', put inputs s (Array a2), r)
  end.
(** 224 *)
Fixpoint load_variables (inputs : dict value) (vars : dict info) (out : dict value) : option (dict info * dict value) :=
  match vars with
  | [] => Some ([], out)
  | (d, i) :: vars' =>
      do x <- load_variable inputs d i;
      let '(i', inputs', r) := x in
      do y <- load_variables inputs' vars' (put out d (Array r));
      Some ((d, i') :: fst y, snd y)
  end.
(** 222-223 *)
Fixpoint load_parameters (inputs : dict value) (params : list string) (out : dict value) : option (dict value) :=
  match params with [] => Some out | p :: l => do v <- get inputs p; load_parameters inputs l (put out p v) end.
(** 207-265 *)
Definition load (params : list string) (vars : dict info) (inputs : dict value) : option (dict info * dict value) :=
  do out <- load_parameters inputs params [];
  load_variables inputs vars out.

Context (defaults : dict attr) (cut : A -> dict attr -> option A) (move_back : Z -> A -> A).
(** 272-316 for one variable; out_data = inputs *)
Definition slice_variable (results : dict value) (var : string) (i : info) : option (info * string * A) :=
  do i' <- update_info results i;
  do v <- get results var;
  match v with
  | Num _ => None
  | Array a =>
      let a1 := if is_index i' then add_to 1 a else a in
      do c <- cut a1 (update defaults i');
      do r <- match get i' "kaxis" with None => Some c | Some k => do z <- attr_int k; Some (move_back z c) end;
      Some (i', serialname var i', r)
  end.
Fixpoint slice_variables (results : dict value) (vars : dict info) (out : dict A) : option (dict info * dict A) :=
  match vars with
  | [] => Some ([], out)
  | (d, i) :: vars' =>
      do x <- slice_variable results d i;
      let '(i', s, r) := x in
      do y <- slice_variables results vars' (put out s r);
      Some ((d, i') :: fst y, snd y)
  end.
(** 263-317 *)
Definition slice_output (vars : dict info) (results : dict value) : option (dict info * dict A) := slice_variables results vars [].

(** the calls of a savepoint, one after the other with the same object *)
Fixpoint calls {X Y} (f : dict info -> X -> option (dict info * Y)) (vars : dict info) (l : list X) : option (list Y) :=
  match l with [] => Some [] | x :: l' => do r <- f vars x; do ys <- calls f (fst r) l'; Some (snd r :: ys) end.
End Info.
Arguments value : clear implicits. Arguments attr : clear implicits. Arguments info : clear implicits.
