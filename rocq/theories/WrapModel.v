(** Model of the wrapped halo updater: ndsl/dsl/dace/wrapped_halo_exchange.py 9-83.

    The state is a dataclass, a dictionary or something else; quantities are values of an abstract type, attributes hold quantities or other values.  The inner HaloUpdater and
    the communicator are what they are called with (the exchange itself is C01-C12, the order of start and wait C33).  The decorator dace_inhibitor changes nothing outside DaCe.
    [None]: an exception.  Simplified: attributes of a dataclass are those in its table (methods are not looked up); a dictionary has no attribute of the name of a quantity. *)
From Coq Require Import ZArith List Bool String.
From Verif Require Import Base Dict GridModel.
Import ListNotations.
Local Open Scope list_scope.

Section Wrap.
Context {V : Type} (truth : V -> bool).
Inductive state := Dataclass (l : dict V) | Dictionary (l : dict V) | Else.
(** state.__getattribute__(x) *)
Definition getattribute (s : state) (x : string) : option V := match s with Dataclass l => get l x | _ => None end.
(** state[x] *)
Definition getitem (s : state) (x : string) : option V := match s with Dictionary l => get l x | _ => None end.
(** 18-30 *)
Record wrapped := Wrapped { x_names : list string; y_names : option (list string); comm : bool }.
(** what reaches the updater and the communicator *)
Inductive event := Start (xs : list V) (ys : option (list V)) | Wait | Synchronize (x y : V).
(** 32-38: what the caller gets, as used in a condition *)
Definition check_for_attribute (s : state) (attr : string) : option bool :=
  match s with
  | Dataclass _ => do v <- getattribute s attr; Some (truth v)
  | Dictionary l => Some (match get l attr with Some _ => true | None => false end)
  | Else => Some false
  end.
(** 40-63 *)
Definition start (w : wrapped) (s : state) : option (list event) :=
  match y_names w with
  | None =>
      match s with
      | Dataclass _ => do xs <- all_some (map (getattribute s) (x_names w)); Some [Start xs None]
      | Dictionary _ => do xs <- all_some (map (getitem s) (x_names w)); Some [Start xs None]
      | Else => None
      end
  | Some ys =>
      match s with
      | Dataclass _ => do vx <- all_some (map (getattribute s) (x_names w)); do vy <- all_some (map (getattribute s) ys); Some [Start vx (Some vy)]
      | Dictionary _ => do vx <- all_some (map (getitem s) (x_names w)); do vy <- all_some (map (getitem s) ys); Some [Start vx (Some vy)]
      | Else => None
      end
  end.
(** 65-67 *)
Definition wait : list event := [Wait].
(** 69-72 *)
Definition update (w : wrapped) (s : state) : option (list event) := do e <- start w s; Some (e ++ wait).
(** 74-83 *)
Definition interface (w : wrapped) (s : state) : option (list event) :=
  if comm w then
    match y_names w with
    | Some [y] => match x_names w with [x] => do vx <- getattribute s x; do vy <- getattribute s y; Some [Synchronize vx vy] | _ => None end
    | _ => None
    end
  else None.

(** what a program does with the state and the updater: assignments to the state's attributes or entries, and calls *)
Inductive call := Bind (x : string) (v : V) | CStart | CWait | CUpdate | CInterface.
Definition bind_name (s : state) (x : string) (v : V) : state :=
  match s with Dataclass l => Dataclass (put l x v) | Dictionary l => Dictionary (put l x v) | Else => Else end.
Fixpoint run (w : wrapped) (s : state) (p : list call) : option (list event) :=
  match p with
  | [] => Some []
  | Bind x v :: p => run w (bind_name s x v) p
  | CStart :: p => do e <- start w s; do r <- run w s p; Some (e ++ r)
  | CWait :: p => do r <- run w s p; Some (wait ++ r)
  | CUpdate :: p => do e <- update w s; do r <- run w s p; Some (e ++ r)
  | CInterface :: p => do e <- interface w s; do r <- run w s p; Some (e ++ r)
  end.
End Wrap.
Arguments state : clear implicits.
Arguments event : clear implicits.
Arguments call : clear implicits.
