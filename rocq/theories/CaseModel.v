(** Model of the selection of translate tests: ndsl/stencils/testing/conftest.py 148-175, 178-220, 240-341, 360-446, 448-455.

    Options that are numbers are taken as parsed.  The grid, the stencil factory and the test object of a case are left out, but for whether the
    grid of a rank can be read.  None = an exception, which ends the collection of tests. *)
From Coq Require Import Ascii.
From Verif Require Import Base Dict VerdModel.
Local Open Scope nat_scope.

(** Python's str.split(",") *)
Fixpoint split (s : string) : list string :=
  match s with
  | EmptyString => [EmptyString]
  | String c s' => if Ascii.eqb c "," then EmptyString :: split s' else match split s' with h :: t => String c h :: t | [] => [] end
  end.
(** Python's str.replace('-', '_'), 149 *)
Fixpoint underscores (s : string) : string := match s with EmptyString => EmptyString | String c s' => String (if Ascii.eqb c "-" then "_"%char else c) (underscores s') end.
Definition class_name (test : string) : string := ("Translate" ++ underscores test)%string.
(** 188-190: glob("*-In.nc") and [:-6] *)
Fixpoint savepoint_of (file : string) : option string :=
  if (file =? "-In.nc")%string then Some EmptyString else match file with EmptyString => None | String c f => do r <- savepoint_of f; Some (String c r) end.
(** sorted() of strings: by code *)
Fixpoint insert (x : string) (l : list string) : list string := match l with [] => [x] | y :: l' => if (x <=? y)%string then x :: l else y :: insert x l' end.
Definition sorted (l : list string) : list string := fold_right insert [] l.

Record options := Options { which_modules : option string; skip_modules : option string; which_rank : option nat; which_savepoint : option nat; topology : string }.
(** the directory: the names of its files; the size of the dimension "savepoint" of a file; the ranks in Grid-Info.nc (all for --grid default) *)
Record directory := Directory { files : list string; n_calls : string -> option nat; has_grid : nat -> bool }.

Section Cases.
(** the test classes: None = no class of this name, Some true = a parallel test *)
Context (classes : string -> option bool).
(** the order in which Python goes through a set: any *)
Context (order : list string -> list string).

(** 162-167 *)
Definition is_parallel (test : string) : option bool := classes (class_name test).
(** list comprehension with a predicate that may raise, 204 *)
Fixpoint choose (p : string -> option bool) (l : list string) : option (list string) :=
  match l with [] => Some [] | x :: l' => do b <- p x; do r <- choose p l'; Some (if b then x :: r else r) end.
Definition somes {X} (l : list (option X)) : list X := flat_map (fun o => match o with Some x => [x] | None => [] end) l.
(** 183-204; a set = its elements without repetition, gone through in some order *)
Definition all_savepoint_names (o : options) (d : directory) (p : string -> option bool) : option (list string) :=
  let names := match which_modules o with
               | None => nodup string_dec (somes (map savepoint_of (files d)))
               | Some w => filter (fun n => negb (n =? "")%string) (nodup string_dec (split w))
               end in
  let names := match skip_modules o with None => names | Some w => filter (fun n => if in_dec string_dec n (split w) then false else true) names end in
  choose p (order names).
(** 166-167, 207-212 *)
Definition sequential_names (o : options) (d : directory) := all_savepoint_names o d (fun n => do b <- is_parallel n; Some (negb b)).
Definition parallel_names (o : options) (d : directory) := all_savepoint_names o d is_parallel.
(** 215-230 *)
Definition get_ranks (o : options) (layout : nat * nat) : option (list nat) :=
  match which_rank o with
  | Some r => Some [r]
  | None => if (topology o =? "doubly-periodic")%string then Some (seq 0 (fst layout * snd layout))
            else if (topology o =? "cubed-sphere")%string then Some (seq 0 (6 * fst layout * snd layout)) else None
  end.

Record case := Case { c_rank : nat; c_name : string; c_call : nat }.
(** 320-341 *)
Fixpoint cases_of_names (d : directory) (replay : option nat) (rank : nat) (names : list string) : option (list case) :=
  match names with
  | [] => Some []
  | n :: names' =>
      do _ <- classes (class_name n);
      do k <- n_calls d (n ++ "-In.nc")%string;
      let calls := match replay with Some i => seq i 1 | None => seq 0 k end in
      do r <- cases_of_names d replay rank names';
      Some (map (Case rank n) calls ++ r)
  end.
(** 288-342 *)
Fixpoint savepoint_cases (d : directory) (names : list string) (replay : option nat) (ranks : list nat) : option (list case) :=
  match ranks with
  | [] => Some []
  | r :: ranks' =>
      do _ <- if has_grid d r then Some tt else None;
      do here <- cases_of_names d replay r (sorted names);
      do rest <- savepoint_cases d names replay ranks';
      Some (here ++ rest)
  end.
(** 253-285 *)
Definition sequential_cases (o : options) (d : directory) (layout : nat * nat) : option (list case) :=
  do names <- sequential_names o d;
  do ranks <- get_ranks o layout;
  savepoint_cases d names (which_savepoint o) ranks.
(** 448-455; communicator.py 791 *)
Definition get_communicator (size : nat) (layout : nat * nat) (topology : string) : option comm :=
  if (1 <? size) && (topology =? "cubed-sphere")%string then if 6 * (fst layout * snd layout) =? size then Some (Cube layout) else None else Some (Tile layout).
(** 360-393 *)
Definition parallel_cases (o : options) (d : directory) (layout : nat * nat) (size rank : nat) : option (list case) :=
  do _ <- get_communicator size layout (topology o);
  do names <- parallel_names o d;
  savepoint_cases d names (which_savepoint o) [rank].
End Cases.
