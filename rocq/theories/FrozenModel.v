(** Model of FrozenStencil of ndsl/dsl/stencil.py: the end of __init__ 398-417, __call__ 419-475, _compute_field_origins 493-532.
    Left out: the log, the debugger, the rank comparison (TwinModel.v), the warnings of _validate_quantity_sizes 579-610 (they
    change nothing), the check of shapes gt4py makes in a validated call, and gt4py itself: running the stencil object is
    an event carrying the arguments by name. *)
From Verif Require Import Dict Base.
Open Scope list_scope.

(** k in d *)
Definition has {V} (d : dict V) (k : string) : bool := match get d k with Some _ => true | None => false end.
Inductive run_mode := Build | BuildAndRun | Run.

(** ** Origins of the fields *)
Inductive ax := AxI | AxJ | AxK.
(** gt4py's FieldInfo: axes, and the mask of the data dimensions (mask[len(domain_mask):]) *)
Record field_info := mkInfo { axes : list ax; data_mask : list bool }.
(** origin[{"I": 0, "J": 1, "K": 2}[ax]], 523-524; origin_tuple has three entries (291-292; for a mapping this is assumed) *)
Definition coord (origin : Z * Z * Z) (a : ax) : Z := let '(i, j, k) := origin in match a with AxI => i | AxJ => j | AxK => k end.
(** 521-530; None = the argument is not used by the stencil *)
Definition field_origin (origin : Z * Z * Z) (info : option field_info) : list Z :=
  match info with
  | Some f => map (coord origin) (axes f) ++ flat_map (fun b : bool => if b then [0] else []) (data_mask f)
  | None => map (coord origin) [AxI; AxJ; AxK]
  end.
(** 493-532.  [given]: the mapping passed as origin, {"_all_": origin} for a tuple; [origin]: its entry "_all_" *)
Definition field_origins (infos : dict (option field_info)) (origin : Z * Z * Z) (given : dict (list Z)) : dict (list Z) :=
  fold_left (fun m kv => if has m (fst kv) then m else put m (fst kv) (field_origin origin (snd kv))) infos given.

(** ** Calls *)
Section Calls.
  Context {A : Type}.
  (** how Python binds a call f( *args, **kwargs ) of a function with the named parameters [names], all required: None =
      TypeError (too many arguments, an argument given twice, an unknown or a missing name) *)
  Definition bind_params (names : list string) (args : list A) (kwargs : dict A) : option (dict A) :=
    if (List.length names <? List.length args)%nat then None else
    let positional := combine names args in
    if existsb (fun kv => has positional (fst kv)) kwargs then None else
    let bound := positional ++ kwargs in
    if existsb (fun kv => negb (existsb (String.eqb (fst kv)) names)) kwargs then None else
    if forallb (fun n => has bound n) names then Some bound else None.

  (** what a call does: it raises, does nothing, or runs the stencil with the given arguments by name *)
  Inductive effect := Raises | Nothing | Runs (bound : dict A).

  Record stencil := mkStencil {
    names : list string;                 (* _argument_names *)
    validate : bool;                     (* compilation_config.validate_args *)
    checked : bool;                      (* _arguments_already_checked *)
    instance_call : option effect }.     (* the attribute __call__ of the instance, if one has been set *)

  (** 303, 315, 412-417.  In Build mode an attribute __call__ that does nothing is set on the instance. *)
  Definition new_stencil (names : list string) (validate : bool) (mode : run_mode) : stencil :=
    mkStencil names validate false (match mode with Build => Some Nothing | _ => None end).

  (** 419-475, the method __call__ of the class *)
  Definition class_call (s : stencil) (args : list A) (kwargs : dict A) : stencil * effect :=
    if negb (checked s) && validate s then
      if has kwargs "origin" || has kwargs "domain" then (s, Raises) else        (* 456-459 *)
      match bind_params (names s) args kwargs with                               (* 460-467: stencil_object( *args, **kwargs ) *)
      | None => (s, Raises)
      | Some b => (mkStencil (names s) (validate s) true (instance_call s), Runs b)
      end
    else                                                                          (* 470-475: stencil_object.run( **zipped, **kwargs ) *)
      let zipped := combine (names s) args in                                     (* 434: dict(zip(names, args)) *)
      if existsb (fun kv => has zipped (fst kv)) kwargs then (s, Raises) else     (* an argument given twice: TypeError *)
      match bind_params (names s) [] (zipped ++ kwargs) with
      | None => (s, Raises)
      | Some b => (s, Runs b)
      end.
  (** Python evaluates stencil( *args, **kwargs ) by looking __call__ up on the class of the object, never on the object
      itself (Python language reference, "Special method lookup") *)
  Definition call (s : stencil) (args : list A) (kwargs : dict A) : stencil * effect := class_call s args kwargs.

  (** a sequence of calls of one stencil, and what each did *)
  Fixpoint calls (s : stencil) (l : list (list A * dict A)) : list effect :=
    match l with [] => [] | (args, kwargs) :: l' => let '(s', e) := call s args kwargs in e :: calls s' l' end.

  (** ** Specification *)
  (** the arguments reach the stencil under their own names: the i-th positional argument under the i-th name, a keyword
      argument under its keyword, and nothing else *)
  Definition bound_as (names : list string) (args : list A) (kwargs b : dict A) : Prop :=
    (forall i n a, nth_error names i = Some n -> nth_error args i = Some a -> get b n = Some a)
    /\ (forall n, ~ In n (firstn (List.length args) names) -> get b n = get kwargs n).
  (** a call Python accepts: no more positional arguments than names, keywords are other names, and every name is given *)
  Definition acceptable (names : list string) (args : list A) (kwargs : dict A) : Prop :=
    (List.length args <= List.length names)%nat /\ NoDup (keys kwargs)
    /\ forall n, In n (skipn (List.length args) names) <-> In n (keys kwargs).
End Calls.
Arguments effect : clear implicits.
Arguments stencil : clear implicits.
