(** Model of orchestrate(): ndsl/dsl/dace/orchestration.py 535-614 (_LazyComputepathMethod and its cache of bound callables), 617-713.

    What a call does is kept as the nest of programs it goes through: each program has the configuration that _parse_sdfg and _call_sdfg
    get, and at the bottom is a function of the user's with the object it runs on.  Parsing, building and running programs are left out
    (see CompileModel.v, LoadModel.v).  Python's objects have an identity (their number here, never used twice) and an address, which is
    what id() gives and which is used again after an object is gone.  An object is gone only if nothing refers to it: neither the
    user's code (an operation of the history) nor a bound callable, all of which the cache keeps.  Left out: garbage collection of
    classes and functions (the cache keeps every function that it knows), attributes that the user sets on objects or classes, multiple
    inheritance, __name__ and __qualname__, and the configuration None (an AttributeError in line 641). *)
From Verif Require Import Base Dict.
Open Scope Z_scope.

(** 653-660: what an annotation is to orchestrate *)
Inductive annotation := Compiletime | AQuantity | AState | AOther (text : string).
(** functions: those of the user, and the __call__ of a patched class (687-688), which hands on to a bound callable *)
Inductive code := User | Calls (b : nat).
Record func := Func { annotations : dict annotation; body : code }.
(** classes: methods are numbers of functions *)
Inductive cls := Object | Sub (own : dict nat) (base : cls).
(** 548-555 a bound callable: function, configuration (of its lazy method) and object *)
Record config := Config { tag : Z; orchestrated : bool }.
Record bound := Bound { b_func : nat; b_config : config; b_obj : nat }.
(** an object: its class, the attributes that orchestrate sets (bound callables), its address, whether it still exists *)
Record object := Obj { class : cls; attrs : dict nat; address : Z; live : bool }.
Record world := World { n_user : nat; funcs : list func; objs : list object; bounds : list bound; cache : list (Z * nat * nat) }.

(** attribute lookup on a class *)
Fixpoint method_of (c : cls) (m : string) : option nat :=
  match c with Object => None | Sub own base => match get own m with Some f => Some f | None => method_of base m end end.

Fixpoint set_nth {A} (l : list A) (n : nat) (x : A) : list A :=
  match l, n with [], _ => [] | _ :: l', O => x :: l' | y :: l', S n' => y :: set_nth l' n' x end.

(** 606-614 *)
Fixpoint find (l : list (Z * nat * nat)) (a : Z) (f : nat) : option nat :=
  match l with [] => None | (a', f', b) :: l' => if (a =? a') && (f =? f')%nat then Some b else find l' a f end.
Definition bind_to (w : world) (f : nat) (c : config) (o : nat) (a : Z) : nat * world :=
  match find (cache w) a f with
  | Some b => (b, w)
  | None => (length (bounds w), World (n_user w) (funcs w) (objs w) (bounds w ++ [Bound f c o]) (cache w ++ [(a, f, length (bounds w))]))
  end.

(** 650-660 *)
Definition flag_args (args : list string) (d : dict annotation) : dict annotation := fold_left (fun d a => put d a Compiletime) args d.
Definition flag_types (d : dict annotation) : dict annotation :=
  map (fun '(a, t) => (a, match t with AQuantity | AState => Compiletime | _ => t end)) d.
Definition flag (w : world) (f : nat) (args : list string) : world :=
  match nth_error (funcs w) f with
  | None => w
  | Some g => World (n_user w) (set_nth (funcs w) f (Func (flag_types (flag_args args (annotations g))) (body g))) (objs w) (bounds w) (cache w)
  end.

(** 617-713; the world afterwards and whether it came back without an exception *)
Definition orchestrate (w : world) (o : nat) (c : config) (m : string) (args : list string) : world * bool :=
  if negb (orchestrated c) then (w, true)
  else match nth_error (objs w) o with
  | None => (w, false)
  | Some x =>
      match method_of (class x) m with
      | None => (w, false)
      | Some f =>
          let (b, w) := bind_to (flag w f args) f c o (address x) in
          if (m =? "__call__")%string
          then (World (n_user w) (funcs w ++ [Func [] (Calls b)])
                  (set_nth (objs w) o (Obj (Sub [("__call__"%string, length (funcs w))] (class x)) (attrs x) (address x) (live x))) (bounds w) (cache w), true)
          else (World (n_user w) (funcs w) (set_nth (objs w) o (Obj (class x) (put (attrs x) m b) (address x) (live x))) (bounds w) (cache w), true)
      end
  end.

(** what a call does *)
Inductive run := Python (f o : nat) | Program (c : config) (inner : run).
Fixpoint run_func (fuel : nat) (w : world) (f o : nat) : option run :=
  match fuel with
  | O => None
  | S fuel =>
      do g <- nth_error (funcs w) f;
      match body g with
      | User => Some (Python f o)
      | Calls b => do x <- nth_error (bounds w) b; do r <- run_func fuel w (b_func x) (b_obj x); Some (Program (b_config x) r)
      end
  end.
Definition run_bound (w : world) (b : nat) : option run :=
  do x <- nth_error (bounds w) b; do r <- run_func (length (funcs w)) w (b_func x) (b_obj x); Some (Program (b_config x) r).
(** obj(...) looks the function up in the class, obj.m(...) in the object first *)
Definition call (w : world) (o : nat) (m : string) : option run :=
  do x <- nth_error (objs w) o;
  match (if (m =? "__call__")%string then None else get (attrs x) m) with
  | Some b => run_bound w b
  | None => do f <- method_of (class x) m; run_func (length (funcs w)) w f o
  end.

(** ** histories *)
Inductive op :=
| New (c : cls) (a : Z)                                            (* obj = c() at address a *)
| Copy (o : nat) (a : Z)                                           (* copy.copy(obj): class and attributes are shared *)
| Free (o : nat)                                                   (* nothing of the user's refers to the object any more *)
| Orchestrate (o : nat) (c : config) (m : string) (args : list string).
Fixpoint functions_of (c : cls) : list nat := match c with Object => [] | Sub own base => map snd own ++ functions_of base end.
Definition in_use (w : world) (a : Z) : bool := existsb (fun x => live x && (address x =? a)) (objs w).
Definition is_live (w : world) (o : nat) : bool := match nth_error (objs w) o with Some x => live x | None => false end.
(** what cannot happen (an address that is in use, objects that are gone) changes nothing; nor does an exception of orchestrate *)
Definition step (w : world) (p : op) : world :=
  match p with
  | New c a =>
      if forallb (fun f => (f <? n_user w)%nat) (functions_of c) && negb (in_use w a)
      then World (n_user w) (funcs w) (objs w ++ [Obj c [] a true]) (bounds w) (cache w) else w
  | Copy o a =>
      match nth_error (objs w) o with
      | Some x => if live x && negb (in_use w a) then World (n_user w) (funcs w) (objs w ++ [Obj (class x) (attrs x) a true]) (bounds w) (cache w) else w
      | None => w
      end
  | Free o =>
      match nth_error (objs w) o with
      | Some x => if existsb (fun b => (b_obj b =? o)%nat) (bounds w) then w
                  else World (n_user w) (funcs w) (set_nth (objs w) o (Obj (class x) (attrs x) (address x) false)) (bounds w) (cache w)
      | None => w
      end
  | Orchestrate o c m args => if is_live w o then fst (orchestrate w o c m args) else w
  end.
Definition steps (w : world) (l : list op) : world := fold_left step l w.
(** a program starts with the user's functions, with their annotations *)
Definition start (fs : list (dict annotation)) : world := World (length fs) (map (fun d => Func d User) fs) [] [] [].

(** ** specification *)
(** the configurations with which the method [m] of object [o], of class [c], was orchestrated, in the order of the history *)
Fixpoint configs (l : list op) (o : nat) (m : string) : list config :=
  match l with
  | [] => []
  | Orchestrate o' c m' _ :: l' => if (o' =? o)%nat && (m' =? m)%string && orchestrated c then c :: configs l' o m else configs l' o m
  | _ :: l' => configs l' o m
  end.
(** the first configuration with which the function [f] of object [o], of class [c], was orchestrated under any name *)
Fixpoint first_config (l : list op) (o : nat) (c : cls) (f : nat) : option config :=
  match l with
  | [] => None
  | Orchestrate o' k m _ :: l' =>
      if (o' =? o)%nat && orchestrated k && match method_of c m with Some f' => (f' =? f)%nat | None => false end then Some k else first_config l' o c f
  | _ :: l' => first_config l' o c f
  end.
(** programs around programs, the last one outermost *)
Definition nest (r : run) (l : list config) : run := fold_left (fun r c => Program c r) l r.
