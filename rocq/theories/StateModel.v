(** Model of ndsl/quantity/state.py: the table of optional fields (122-133), update_copy_memory (348-401) and
    update_move_memory (403-479).

    The classes are trees of named fields; a state is a tree of attributes.  What an array assignment does to a quantity
    ([.field[:] = array], or the shape / stride checks and swap_buffer) is an arbitrary partial function: None = it raises.
    Simplified: attributes of a Quantity object reached by giving a dictionary for a quantity field are not modelled
    (such an update raises unless the dictionary is empty). *)
From Verif Require Import Base Dict.

(** dataclass fields in order of declaration: Quantity (or any other type but OptionalQuantityType), OptionalQuantityType,
    or a nested dataclass *)
Inductive fields := FNil | FCons (n : string) (t : ty) (fs : fields)
with ty := TQuantity (optional : bool) | TState (fs : fields).

(** _flag_optional_recursive; 123-133.  One table for the whole tree, by field name. *)
Fixpoint flag (fs : fields) (acc : dict bool) : dict bool :=
  match fs with
  | FNil => acc
  | FCons n (TQuantity o) fs' => flag fs' (put acc n o)
  | FCons n (TState gs) fs' => flag fs' (flag gs acc)
  end.
Definition optional_quantities (fs : fields) : dict bool := flag fs [].

Section Update.
  Context {Q A : Type}.       (* quantities (with their contents), arrays *)

  (** an attribute: None, a quantity, or a nested state; a state maps attribute names *)
  Inductive val := VNone | VQ (q : Q) | VNode (f : string -> option val).

  (** the memory map; items in order of insertion *)
  Inductive mem := MNone | MArr (a : A) | MDict (ms : mems)
  with mems := MNil | MCons (n : string) (m : mem) (ms : mems).

  Definition getattr (v : val) (n : string) : option val := match v with VNode f => f n | _ => None end.
  Definition setattr (v : val) (n : string) (w : val) : option val :=
    match v with
    | VNode f => Some (VNode (fun n' => if (n' =? n)%string then Some w else f n'))
    | _ => None
    end.

  Variable none_ok : string -> bool.        (* is None accepted for this name *)
  Variable assign : Q -> A -> option Q.     (* the quantity after the array is put into it *)

  (** the loop over memory_map.items(); the state as it is when the loop ends or raises, and whether it raised *)
  Fixpoint items (v : val) (ms : mems) : val * bool :=
    match ms with
    | MNil => (v, false)
    | MCons n m ms' => let '(v', r) := item v n m in if r then (v', true) else items v' ms'
    end
  with item (v : val) (n : string) (m : mem) : val * bool :=
    match m with
    | MNone =>
        if none_ok n then match setattr v n VNone with Some v' => (v', false) | None => (v, true) end else (v, true)
    | MDict ms =>
        match getattr v n with
        | None => (v, true)
        | Some w =>                      (* the nested object is changed in place *)
            let '(w', r) := items w ms in match setattr v n w' with Some v' => (v', r) | None => (v, true) end
        end
    | MArr a =>
        match getattr v n with
        | Some (VQ q) =>
            match assign q a with
            | Some q' => match setattr v n (VQ q') with Some v' => (v', false) | None => (v, true) end
            | None => (v, true)
            end
        | _ => (v, true)                 (* no such attribute, None has no .field, a dataclass has no .field *)
        end
    end.
End Update.
Arguments val : clear implicits.
Arguments mem : clear implicits.
Arguments mems : clear implicits.

(** 376-401: None is looked up in self.optional_quantities (KeyError if absent, TypeError if False) *)
Definition update_copy_memory {Q A} (fs : fields) (copy : Q -> A -> option Q) (v : val Q) (ms : mems A) : val Q * bool :=
  items (fun n => match get (optional_quantities fs) n with Some o => o | None => false end) copy v ms.
(** 439-479: None is always accepted *)
Definition update_move_memory {Q A} (move : Q -> A -> option Q) (v : val Q) (ms : mems A) : val Q * bool :=
  items (fun _ => true) move v ms.

(** ** Specification *)
Section Spec.
  Context {Q A : Type}.
  (** the attribute at a path *)
  Fixpoint at_path (v : val Q) (p : list string) : option (val Q) :=
    match p with [] => Some v | n :: p' => match getattr v n with Some w => at_path w p' | None => None end end.
  Fixpoint entry_of (ms : mems A) (n : string) : option (mem A) :=
    match ms with MNil => None | MCons n' m ms' => if (n =? n')%string then Some m else entry_of ms' n end.
  (** what the memory map holds at a path: None or an array *)
  Fixpoint given (ms : mems A) (p : list string) : option (option A) :=
    match p with
    | [] => None
    | n :: p' =>
        match entry_of ms n, p' with
        | Some MNone, [] => Some None
        | Some (MArr a), [] => Some (Some a)
        | Some (MDict ms'), _ => given ms' p'
        | _, _ => None
        end
    end.
  (** the map has an entry (not a dictionary) at the path or above it *)
  Fixpoint covered (ms : mems A) (p : list string) : bool :=
    match p with
    | [] => false
    | n :: p' => match entry_of ms n with Some (MDict ms') => covered ms' p' | Some _ => true | None => false end
    end.
  (** keys of a dictionary are distinct, at every level *)
  Fixpoint distinct (ms : mems A) : Prop :=
    match ms with MNil => True | MCons n m ms' => entry_of ms' n = None /\ distinct_in m /\ distinct ms' end
  with distinct_in (m : mem A) : Prop := match m with MDict ms => distinct ms | _ => True end.
  Definition leaf (v : option (val Q)) : Prop := match v with Some (VNode _) => False | _ => True end.
End Spec.

(** the declared type at a path *)
Fixpoint field_of (fs : fields) (n : string) : option ty :=
  match fs with FNil => None | FCons n' t fs' => if (n =? n')%string then Some t else field_of fs' n end.
Fixpoint declared (fs : fields) (p : list string) : option ty :=
  match p with
  | [] => None
  | n :: p' =>
      match field_of fs n, p' with
      | Some t, [] => Some t
      | Some (TState gs), _ => declared gs p'
      | _, _ => None
      end
  end.
(** all names of quantity fields anywhere in the tree *)
Fixpoint leaf_names (fs : fields) : list string :=
  match fs with
  | FNil => []
  | FCons n (TQuantity _) fs' => n :: leaf_names fs'
  | FCons _ (TState gs) fs' => leaf_names gs ++ leaf_names fs'
  end.
