(** Model of the construction of NDSLRuntime objects: ndsl/dsl/ndsl_runtime.py 15-103, and of the patching of their class by
    ndsl/dsl/dace/orchestration.py 637-713 (orchestrate).

    A class is the chain of its __init__ bodies up to NDSLRuntime; a body is a list of statements that call super().__init__, set
    attributes and create further runtimes.  Simplified: the attributes set by NDSLRuntime.__init__ are one flag; all objects share
    one configuration; a runtime is created with one argument, the object that creates it; keyword arguments, multiple
    inheritance and methods other than __init__ and __call__ are left out. *)
From Verif Require Import Base Dict.

Inductive val := VQuantity | VLocal | VOther | VRuntime (i : nat).
Inductive expr := EQuantity | ELocal | EOther | ESelf | EArg.
(** [CSub name call body parent]: class name(parent), [call] = it defines __call__ *)
Inductive body := BNil | BSuper (r : body) | BSet (n : string) (e : expr) (r : body) | BNew (n : string) (c : cls) (r : body)
with cls := CRuntime | CSub (name : string) (call : bool) (b : body) (parent : cls).
(** types: [TPatched i n t] is the class made by the call number n of orchestrate on object i *)
Inductive rty := TRuntime | TSub (name : string) (call : bool) (parent : rty) | TPatched (i n : nat) (parent : rty).
Fixpoint type_of (c : cls) : rty := match c with CRuntime => TRuntime | CSub n k _ p => TSub n k (type_of p) end.
Definition rty_dec (a b : rty) : {a = b} + {a <> b}.
Proof. repeat decide equality. Defined.
(** issubclass *)
Fixpoint subtype (a b : rty) : bool :=
  if rty_dec a b then true else match a with TRuntime => false | TSub _ _ p | TPatched _ _ p => subtype p b end.
Fixpoint callable (t : rty) : bool := match t with TRuntime => false | TSub _ k p => k || callable p | TPatched _ _ _ => true end.

Record obj := Obj {
  attrs : dict val; initialised : bool; ty : rty;
  seen : list (dict val) (* the attributes at each call of orchestrate that patched the object, last first *) }.
Record world := World { objs : list obj; top : option nat (* _TOP_LEVEL *); warnings : list (nat * string) (* object, attribute *) }.

Fixpoint update (l : list obj) (i : nat) (f : obj -> obj) : list obj :=
  match l, i with [], _ => [] | o :: l', O => f o :: l' | o :: l', S i => o :: update l' i f end.
Definition on (w : world) (i : nat) (f : obj -> obj) : world := World (update (objs w) i f) (top w) (warnings w).
Definition set_attr (n : string) (v : val) (o : obj) : obj := Obj (put (attrs o) n v) (initialised o) (ty o) (seen o).

(* ndsl_runtime.py 60-72 check_for_quantity; [limit] is Python's recursion limit; None = RecursionError *)
Fixpoint check (limit : nat) (l : list obj) (i : nat) : option (list (nat * string)) :=
  match limit with
  | O => None
  | S limit =>
      match nth_error l i with
      | None => Some []
      | Some o =>
          fold_right (fun '(k, v) acc =>
            do a <- acc;
            match v with VQuantity => Some ((i, k) :: a) | VRuntime j => do c <- check limit l j; Some (c ++ a) | _ => Some a end)
            (Some []) (attrs o)
      end
  end.

Section Run.
  Variable limit : nat.
  Variable orchestrated : bool.       (* config.is_dace_orchestrated() *)

  (* orchestration.py 637-638, 685-710 *)
  Definition patch (i : nat) (o : obj) : obj :=
    if orchestrated then Obj (attrs o) (initialised o) (TPatched i (length (seen o)) (ty o)) (attrs o :: seen o) else o.
  (* ndsl_runtime.py 51-79 __post_init__; false = an exception *)
  Definition post_init (i : nat) (w : world) : world * bool :=
    match nth_error (objs w) i with
    | None => (w, false)
    | Some o =>
        if initialised o then
          let call w := (if callable (ty o) then on w i (patch i) else w, true) in
          if match top w with Some t => (t =? i)%nat | None => false end then
            match check limit (objs w) i with
            | None => (w, false)
            | Some l => call (World (objs w) (top w) (warnings w ++ l))
            end
          else call w
        else (w, false)
    end.
  Definition eval (self : nat) (arg : option nat) (e : expr) : val :=
    match e with
    | EQuantity => VQuantity | ELocal => VLocal | EOther => VOther | ESelf => VRuntime self
    | EArg => match arg with Some i => VRuntime i | None => VOther end
    end.
  (* 36-46 new_init around the body; 24-27 NDSLRuntime.__init__ *)
  Fixpoint run_init (c : cls) (self : nat) (arg : option nat) (w : world) : world * bool :=
    match c with
    | CRuntime => (on w self (fun o => Obj (attrs o) true (ty o) (seen o)), true)
    | CSub _ _ b p =>
        let w := match top w with None => World (objs w) (Some self) (warnings w) | Some _ => w end in
        let (w, ok) := run_body b (run_init p self arg) self arg w in
        if ok then post_init self w else (w, false)
    end
  with run_body (b : body) (super : world -> world * bool) (self : nat) (arg : option nat) (w : world) : world * bool :=
    match b with
    | BNil => (w, true)
    | BSuper r => let (w, ok) := super w in if ok then run_body r super self arg w else (w, false)
    | BSet n e r => run_body r super self arg (on w self (set_attr n (eval self arg e)))
    | BNew n c r =>
        let j := length (objs w) in
        let (w, ok) := run_init c j (Some self) (World (objs w ++ [Obj [] false (type_of c) []]) (top w) (warnings w)) in
        if ok then run_body r super self arg (on w self (set_attr n (VRuntime j))) else (w, false)
    end.
  (* c(arg): the world after, the new object unless an exception was raised *)
  Definition create (c : cls) (arg : option nat) (w : world) : world * option nat :=
    let j := length (objs w) in
    let (w, ok) := run_init c j arg (World (objs w ++ [Obj [] false (type_of c) []]) (top w) (warnings w)) in
    (w, if ok then Some j else None).
  (* a program: runtimes created one after the other, exceptions caught *)
  Definition program (l : list (cls * option nat)) (w : world) : world := fold_left (fun w '(c, a) => fst (create c a w)) l w.
End Run.
Definition start : world := World [] None [].

(* ndsl_runtime.py 81-103 __getattribute__ of a Local of object [i]; [caller] is the self of the calling frame.  true = allowed *)
Definition may_read (w : world) (caller : option nat) (i : nat) : bool :=
  match caller with
  | None => false
  | Some j => match nth_error (objs w) j, nth_error (objs w) i with Some a, Some b => subtype (ty a) (ty b) | _, _ => false end
  end.

(** ** specification *)
(** number of classes between an object and NDSLRuntime *)
Fixpoint depth (c : cls) : nat := match c with CRuntime => 0 | CSub _ _ _ p => S (depth p) end.
Fixpoint supers (b : body) : nat :=
  match b with BNil => 0 | BSuper r => S (supers r) | BSet _ _ r | BNew _ _ r => supers r end.
Fixpoint one_super (c : cls) : Prop := match c with CRuntime => True | CSub _ _ b p => supers b = 1%nat /\ one_super p end.
(** [j] is held, directly or through other runtimes, by [i] *)
Inductive reaches (l : list obj) : nat -> nat -> Prop :=
  | r_self i : reaches l i i
  | r_step i o k m j : nth_error l i = Some o -> In (k, VRuntime m) (attrs o) -> reaches l m j -> reaches l i j.
Definition holds_quantity (l : list obj) (i : nat) (k : string) : Prop := exists o, nth_error l i = Some o /\ In (k, VQuantity) (attrs o).
(** a class is callable when it, or a class that it is derived from, defines __call__ *)
Inductive defines_call : cls -> Prop :=
| own_call n b p : defines_call (CSub n true b p)
| inherited_call n k b p : defines_call p -> defines_call (CSub n k b p).
