(** Model of the debugger: ndsl/debug/debugger.py:55-76 (track_data), 78-111 (save_as_dataset), 113-117 (increment_call_count);
    ndsl/debug/tooling.py:9-46 (instrument); the same protocol around a stencil call in ndsl/dsl/stencil.py:446-449, 478-482
    (a call with an empty body).

    A program is a tree of instrumented calls with anything in between; only exceptions and handlers matter.  A file is
    identified by the components of its path.  Simplified: one rank (the rank is part of every path); a write that fails with
    ValueError (logged, no file; 107-109) counts as a write. *)
From Verif Require Import Base Dict.
Local Open Scope nat_scope.

Inductive prog :=
| Skip
| Raise
| Seq (p q : prog)
| Try (p : prog)                                         (* the caller catches the exception *)
| Call (savename : string) (args : list string) (p : prog).   (* an instrumented function, its argument names, its body *)

Inductive file :=
| Save (step : nat) (savename : string) (call : nat) (is_in : bool)     (* S{step}_{savename}-Call{call}-In|Out.nc4; 102-105 *)
| Track (count : nat) (name source : string) (is_in : bool).            (* tracks/{name}/{count}_{name}_{source}-In|Out.nc4; 65-69 *)

Record dbg := mkDbg { step : nat; calls_count : dict nat; track_count : dict nat; written : list file }. (* latest write first *)

Section Debug.
  Variable saved : string -> bool.      (* savename in self.stencils_or_class or self.save_all_stencils; 83 *)
  Variable tracked : string -> bool.    (* name in self.track_parameter_by_name; 57 *)

  Definition count_of (d : dict nat) (n : string) : nat := match get d n with Some c => c | None => 0 end.

  (** 78-111 *)
  Definition save_as_dataset (s : dbg) (n : string) (is_in : bool) : dbg :=
    if saved n then
      mkDbg (if is_in then step s else S (step s)) (calls_count s) (track_count s)
            (Save (step s) n (count_of (calls_count s) n) is_in :: written s)
    else s.
  (** 55-76 *)
  Definition track1 (source : string) (is_in : bool) (s : dbg) (n : string) : dbg :=
    if tracked n then
      let c := count_of (track_count s) n in
      mkDbg (step s) (calls_count s) (put (track_count s) n (S c)) (Track c n source is_in :: written s)
    else s.
  Definition track_data (s : dbg) (args : list string) (source : string) (is_in : bool) : dbg :=
    fold_left (track1 source is_in) args s.
  (** 113-117 *)
  Definition increment_call_count (s : dbg) (n : string) : dbg :=
    mkDbg (step s) (put (calls_count s) n (S (count_of (calls_count s) n))) (track_count s) (written s).

  (** tooling.py:37-44; returns whether an exception comes out *)
  Fixpoint exec (p : prog) (s : dbg) : dbg * bool :=
    match p with
    | Skip => (s, false)
    | Raise => (s, true)
    | Seq p q => let '(s1, r) := exec p s in if r then (s1, true) else exec q s1
    | Try p => let '(s1, _) := exec p s in (s1, false)
    | Call n args p =>
        let s0 := track_data (save_as_dataset s n true) args n true in
        let '(s1, r) := exec p s0 in
        if r then (s1, true)
        else (increment_call_count (track_data (save_as_dataset s1 n false) args n false) n, false)
    end.
  Definition begin : dbg := mkDbg 0 [] [] [].

  (** ** Specification *)
  (** no exception occurs *)
  Fixpoint quiet (p : prog) : Prop :=
    match p with Skip => True | Raise => False | Seq p q => quiet p /\ quiet q | Try p => quiet p | Call _ _ p => quiet p end.
  Fixpoint calls (p : prog) (n : string) : Prop :=
    match p with
    | Skip | Raise => False
    | Seq p q => calls p n \/ calls q n
    | Try p => calls p n
    | Call m _ p => m = n \/ calls p n
    end.
  (** no function is active twice *)
  Fixpoint no_recursion (p : prog) : Prop :=
    match p with
    | Skip | Raise => True
    | Seq p q => no_recursion p /\ no_recursion q
    | Try p => no_recursion p
    | Call n _ p => ~ calls p n /\ no_recursion p
    end.
  (** number of calls of saved functions in the tree *)
  Fixpoint n_saved (p : prog) : nat :=
    match p with
    | Skip | Raise => 0
    | Seq p q => n_saved p + n_saved q
    | Try p => n_saved p
    | Call n _ p => (if saved n then 1 else 0) + n_saved p
    end.
  Definition is_save (dir : bool) (f : file) : bool := match f with Save _ _ _ b => Bool.eqb b dir | Track _ _ _ _ => false end.
  Definition is_track (f : file) : bool := match f with Track _ _ _ _ => true | _ => false end.
End Debug.
