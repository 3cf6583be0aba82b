(** Model of the copies of temporaries in tests: ndsl/stencils/testing/temporaries.py 8-23 (copy_temporaries), 26-29 (assert_same_temporaries) and 32-47 (_assert_same_temporaries).

    Objects are numbers; each has its attributes in the order of dir(), with the module of the class of those that are objects.  An attribute that raises AttributeError is [Plain], like None.
    A negative depth is 0.  An array is what the copy of it is: deepcopy leaves nothing shared with the object.  Left out: printing. *)
From Coq Require Import List Bool String Ascii.
From Verif Require Import TrapModel.
Import ListNotations.
Local Open Scope list_scope.

Section Temporaries.
Context {A : Type}.
Inductive attribute := Quantity (a : A) | Object (module : string) (id : nat) | Plain.
Inductive temporary := Arr (a : A) | Sub (d : list (string * temporary)).
(** Python: s.split(".")[0] *)
Fixpoint first_part (s : string) : string := match s with EmptyString => EmptyString | String c s' => if Ascii.eqb c "."%char then EmptyString else String c (first_part s') end.
(** 18: ("pyFV3") is a string, not a tuple *)
Definition ours (module : string) : bool := contains (first_part module) "pyFV3".

Context (dir : nat -> list (string * attribute)).
(** 8-23 *)
Fixpoint copy_temporaries (obj : nat) (max_depth : nat) : list (string * temporary) :=
  flat_map (fun x =>
    match snd x with
    | Quantity a => [(fst x, Arr a)]
    | Object m o =>
        if ours m then
          match max_depth with
          | O => []
          | S k => match copy_temporaries o k with [] => [] | d => [(fst x, Sub d)] end
          end
        else []
    | Plain => []
    end) (filter (fun x => negb (prefix "__" (fst x))) (dir obj)).

(** Python: d[k]; None = KeyError *)
Fixpoint lookup {T} (d : list (string * T)) (k : string) : option T := match d with [] => None | (n, x) :: d' => if string_dec n k then Some x else lookup d' k end.
(** np.allclose(a, b, equal_nan=True); None = it raises *)
Context (allclose : A -> A -> option bool).
(** 32-47 for one value; None = another exception (KeyError, IndexError, TypeError, ValueError) *)
Fixpoint compare (x : temporary) (y : option temporary) : option (list (list string)) :=
  match x with
  | Arr a => match y with
             | Some (Arr b) => match allclose a b with Some true => Some [] | Some false => Some [[]] | None => None end
             | _ => None
             end
  | Sub d => match y with
             | Some (Sub e) =>
                 (fix all d := match d with
                               | [] => Some []
                               | (n, x') :: d' => match compare x' (lookup e n), all d' with
                                                  | Some l, Some r => Some (map (cons n) l ++ r)
                                                  | _, _ => None
                                                  end
                               end) d
             | Some (Arr _) => match d with [] => Some [] | _ => None end
             | None => None
             end
  end.
(** 44-46: "a.b.c" *)
Fixpoint name (p : list string) : string := match p with [] => EmptyString | [n] => n | n :: p' => (n ++ "." ++ name p')%string end.
(** 26-29: returns (Some true), raises AssertionError (Some false) or another exception *)
Definition differing (d e : list (string * temporary)) : option (list string) := option_map (map name) (compare (Sub d) (Some (Sub e))).
Definition assert_same_temporaries (d e : list (string * temporary)) : option bool := option_map (fun l => match l with [] => true | _ => false end) (differing d e).

(** Specification. *)
(** the array at the end of a path of keys *)
Inductive entry : temporary -> list string -> A -> Prop :=
| entry_here a : entry (Arr a) [] a
| entry_below d n x p a : In (n, x) d -> entry x p a -> entry (Sub d) (n :: p) a.
(** the quantity at the end of a path of attributes, through objects whose package is a part of the word pyFV3 *)
Inductive reaches : nat -> list string -> A -> Prop :=
| reaches_here o n a : In (n, Quantity a) (dir o) -> prefix "__" n = false -> reaches o [n] a
| reaches_below o n m o' p a u v : In (n, Object m o') (dir o) -> prefix "__" n = false -> "pyFV3"%string = (u ++ first_part m ++ v)%string -> reaches o' p a -> reaches o (n :: p) a.
(** the keys of a dictionary are different, at every depth, and no inner one is empty *)
Inductive proper : temporary -> Prop :=
| proper_arr a : proper (Arr a)
| proper_sub d : d <> [] -> NoDup (map fst d) -> (forall n x, In (n, x) d -> proper x) -> proper (Sub d).
End Temporaries.
Arguments temporary : clear implicits.
Arguments attribute : clear implicits.
