(** Model of the argument cache of orchestrated programs: ndsl/dsl/dace/dace_executable.py:26-61 (hash_expected_dsl_args),
    ndsl/dsl/dace/orchestration.py:372-424 (_call_sdfg, the part after the build) and ndsl/quantity/state.py:481-499
    (State._hash).

    Simplified: one program; the marshalling itself (DaceProgram._create_sdfg_args) binds each parameter name to the memory
    or scalar it was given; GPU uploads are left out. *)
From Verif Require Import Base Dict.

(** an argument of a call *)
Inductive pyval :=
| VArr (addr : Z) (layout : nat)       (* array or quantity: address of its first element; shape, strides and dtype *)
| VState (elems : list (Z * Z))        (* a State: for each element its identity hash (default object.__hash__) and the
                                          address of its current buffer *)
| VInt (n : Z)                         (* a Python int *)
| VObj (h : Z) (id : nat)              (* any other hashable object: its hash and what it is *)
| VBad (id : nat).                     (* an unhashable object *)

(** CPython's hash of an int: modulo 2^61-1 with the sign of the number, and -1 is replaced by -2.  Language, not NDSL. *)
Definition hash_int (n : Z) : Z :=
  let h := (Z.sgn n * (Z.abs n mod (2 ^ 61 - 1)))%Z in if (h =? -1)%Z then (-2)%Z else h.

(** what the compiled program gets for a parameter *)
Inductive carg := Memory (addr : Z) (layout : nat) | Memories (addrs : list Z) | Scalar (v : pyval).
Definition to_c (v : pyval) : carg :=
  match v with
  | VArr a l => Memory a l
  | VState es => Memories (map snd es)
  | _ => Scalar v
  end.

Record call := mkCall { pos : list pyval; kw : dict pyval }.

Section Args.
  Variable params : list string.          (* parameter names of the function *)
  Variable tuple_hash : list Z -> Z.      (* CPython's tuple hash, a function of the hashes of the elements *)

  (** _create_sdfg_args: positional arguments by position, keyword arguments by name *)
  Definition marshal (c : call) : dict carg :=
    (combine params (map to_c (pos c)) ++ map (fun kv => (fst kv, to_c (snd kv))) (kw c))%list.

  (** dace_executable.py:40-50, then hash() of each; None: TypeError *)
  Definition hash_of (v : pyval) : option Z :=
    match v with
    | VArr a _ => Some (hash_int a)                       (* 41-44: only the address *)
    | VState es => Some (hash_int (tuple_hash (map fst es)))   (* 45-46, state.py:488-499: the elements' identities *)
    | VInt n => Some (hash_int n)
    | VObj h _ => Some h
    | VBad _ => None
    end.
  Fixpoint hashes (vs : list pyval) : option (list Z) :=
    match vs with
    | [] => Some []
    | v :: vs' => match hash_of v, hashes vs' with Some h, Some hs => Some (h :: hs) | _, _ => None end
    end.
  (** list(args) + list(kwargs.values()); dace_executable.py:40, 51 *)
  Definition call_hash (c : call) : option Z :=
    match hashes (pos c ++ map snd (kw c)) with Some hs => Some (tuple_hash hs) | None => None end.

  Record exe := mkExe { arguments : option (dict carg); arguments_hash : Z; skip_hash : bool }.
  (** orchestration.py:364-368 *)
  Definition loaded : exe := mkExe (Some []) 0 false.

  (** _call_sdfg, orchestration.py:399-417: the new executable and the arguments the program is run on *)
  Definition run_call (c : call) (e : exe) : exe * dict carg :=
    let '(e1, h) :=
      if skip_hash e then (mkExe None (arguments_hash e) true, 0%Z)                    (* dace_executable.py:34-36 *)
      else match call_hash c with
           | Some h => (e, h)
           | None => (mkExe None (arguments_hash e) true, 0%Z)                         (* 52-60 *)
           end in
    match arguments e1 with
    | Some a => if (h =? arguments_hash e1)%Z then (e1, a)
                else (mkExe (Some (marshal c)) h (skip_hash e1), marshal c)
    | None => (mkExe (Some (marshal c)) h (skip_hash e1), marshal c)
    end.

  (** a sequence of calls, most recent first; for each call what it ran on *)
  Fixpoint calls (cs : list call) : exe * list (dict carg) :=
    match cs with
    | [] => (loaded, [])
    | c :: cs' => let '(e, rs) := calls cs' in let '(e', r) := run_call c e in (e', r :: rs)
    end.

  (** ** Specification *)
  (** some call up to now had an unhashable argument *)
  Definition unhashable (cs : list call) : bool := existsb (fun c => match call_hash c with None => true | _ => false end) cs.
  (** the call whose arguments are in place: the first of the latest calls with one and the same hash *)
  Fixpoint leader (cs : list call) (h : Z) : option call :=
    match cs with
    | [] => None
    | c :: cs' =>
        match call_hash c with
        | Some h' => if (h' =? h)%Z then match leader cs' h with Some l => Some l | None => Some c end else None
        | None => None
        end
    end.
  (** every call so far had the hash a freshly loaded program starts with *)
  Definition all_initial (cs : list call) : bool :=
    forallb (fun c => match call_hash c with Some h => (h =? 0)%Z | None => false end) cs.
End Args.
