(** Model of the verdict of a translate test: ndsl/stencils/testing/test_translate.py 27-28, 35-100, 147-313, 316-459.

    Thresholds are of an abstract type [T] (floats), data of an abstract type [A]; the metrics are functions (see Metric*.v), so is what the
    translate object computes.  Left out: reports and saved files, the thresholds printed for failed tests, extra_data_load, the
    compilation, pytest beyond the outcome of a test (an exception = Error, reported as a failure).  None = an exception. *)
From Verif Require Import Base Dict.
Local Open Scope nat_scope.

Inductive verdict := Passed | Failed | Skipped | Xfailed | Error.

Section Verd.
Context {T A : Type}.
Context (gt : T -> T -> bool) (gpu_max_err gpu_near_zero : T).            (* 25-26 *)
Context (known : string -> bool).                                          (* config/backend.py 85: the names Backend accepts *)

(** what is ignored near zero for a variable: 58 {var: True}, 62-65 {var: {"near_zero": n}} *)
Inductive near := Ignore | Near (n : T).
(** the attributes of the translate object that the test uses (translate.py 58-62, 78-79) *)
Record obj := Obj { max_error : T; near_zero : T; ignore : dict near; mmr_abs : T; mmr_rel : T; mmr_ulp : T; skip_test : bool }.
(** an entry of the overrides of a test; None = the key is not there *)
Inductive ignored := Fields (l : list string) | Values (d : dict T) | Other.
Record spec := Spec { s_platform : option string; s_backend : option string; s_max_error : option T; s_near_zero : option T; s_ignore : option ignored;
  s_all_other : option T; s_abs : option T; s_rel : option T; s_ulp : option T; s_skip : option bool }.
Definition given {X} (o : option X) (x : X) : X := match o with Some y => y | None => x end.

(** config/backend.py 126-133: comparing with a string makes a Backend of it *)
Definition same_backend (s : spec) (backend : string) : option bool :=
  match s_backend s with None => Some true | Some n => if known n then Some (n =? backend)%string else None end.
(** 43-47 *)
Fixpoint matches (l : list spec) (backend platform : string) : option (list spec) :=
  match l with
  | [] => Some []
  | s :: l' =>
      do b <- same_backend s backend;
      do r <- matches l' backend platform;
      Some (if b && (given (s_platform s) platform =? platform)%string then s :: r else r)
  end.
(** 54-77; [out_vars] = the keys of testobj.out_vars, None = the object has no such attribute *)
Definition set_ignore (out_vars : option (list string)) (s : spec) (d : dict near) : option (dict near) :=
  match s_ignore s with
  | None => Some d
  | Some (Fields l) => Some (update d (map (fun f => (f, Ignore)) l))
  | Some (Values v) =>
      let d1 := fold_left (fun d kv => put d (fst kv) (Near (snd kv))) v d in
      match s_all_other s with
      | None => Some d1
      | Some n => do outs <- out_vars; Some (fold_left (fun d k => match get d k with None => put d k (Near n) | Some _ => d end) outs d1)
      end
  | Some Other => None
  end.
(** 48-91 *)
Definition apply_spec (out_vars : option (list string)) (s : spec) (o : obj) : option obj :=
  do i <- set_ignore out_vars s (ignore o);
  Some (Obj (given (s_max_error s) (max_error o)) (given (s_near_zero s) (near_zero o)) i
            (given (s_abs s) (mmr_abs o)) (given (s_rel s) (mmr_rel o)) (given (s_ulp s) (mmr_ulp o)) (given (s_skip s) (skip_test o))).
(** 35-100; the file is read anew for each test (conftest.py 136-145), so what is put into the entries stays within it *)
Definition process_override (overrides : dict (list spec)) (out_vars : option (list string)) (name backend platform : string) (o : obj) : option obj :=
  match get overrides name with
  | None => Some o
  | Some l => do m <- matches l backend platform; match m with [] => Some o | [s] => apply_spec out_vars s o | _ => None end
  end.
(** Python's max *)
Definition pymax (a b : T) : T := if gt b a then b else a.
(** 170-177, 368-375 *)
Definition prepare (gpu : bool) (overrides : option (dict (list spec))) (out_vars : option (list string)) (name backend platform : string) (o : obj) : option obj :=
  let o1 := if gpu then Obj (pymax (max_error o) gpu_max_err) (pymax (near_zero o) gpu_near_zero) (ignore o) (mmr_abs o) (mmr_rel o) (mmr_ulp o) (skip_test o) else o in
  match overrides with None => Some o1 | Some d => process_override d out_vars name backend platform o1 end.

(** the metrics; None = an exception (shapes, types) *)
Context (legacy : T -> option near -> T -> A -> A -> option bool) (modal : T -> T -> T -> option A -> A -> A -> option bool).
(** 261-284, 405-428 *)
Definition agrees (multimodal : bool) (o : obj) (x : string) (input : dict A) (ref out : A) : option bool :=
  if multimodal then modal (mmr_abs o) (mmr_rel o) (mmr_ulp o) (get input x) ref out else legacy (max_error o) (get (ignore o) x) (near_zero o) ref out.
(** 258-286: within a subtest any exception counts for this variable alone *)
Definition pop (l : list string) : list string * list string := (removelast l, match rev l with x :: _ => [x] | [] => [] end).
Definition one_variable (multimodal : bool) (o : obj) (input : dict A) (output : dict A) (x : string) (ref : A) (failing passing : list string) : list string * list string :=
  let failing := failing ++ [x] in
  match get output x with
  | None => (failing, passing)
  | Some out => match agrees multimodal o x input ref out with Some true => (fst (pop failing), passing ++ snd (pop failing)) | _ => (failing, passing) end
  end.
(** 250-287, 395-430: a variable without reference stops the test *)
Fixpoint variables (multimodal : bool) (o : obj) (subset : string -> A -> A) (input output refs : dict A) (vars failing passing : list string) : option (list string * list string) :=
  match vars with
  | [] => Some (failing, passing)
  | x :: vars' =>
      do ref <- get refs x;
      let '(f, p) := one_variable multimodal o input output x (subset x ref) failing passing in
      variables multimodal o subset input output refs vars' f p
  end.
(** 308-313, 454-459 *)
Definition conclude (r : option (list string * list string)) : verdict :=
  match r with None => Error | Some (failing, passing) => match failing, passing with [], _ :: _ => Passed | _, _ => Failed end end.

(** the files of a case: the size of the dimension "rank" of the input, the data of the rank and call (None = isel raises) *)
Record files := Files { n_ranks : nat; data_in : option (dict A); data_out : option (dict A) }.
Fixpoint select (d : dict A) (names : list string) : option (dict A) := match names with [] => Some [] | x :: l => do a <- get d x; do r <- select d l; Some ((x, a) :: r) end.
(** 147-313; [inputs], [outputs] = the serialized names of in_vars and out_vars *)
Definition test_sequential (multimodal : bool) (o : option obj) (rank : nat) (fs : files) (inputs outputs : list string) (subset : string -> A -> A) (compute : dict A -> option (dict A)) : verdict :=
  match o with
  | None => Error
  | Some o =>
      if skip_test o then Passed
      else if negb (rank <? n_ranks fs) then Skipped
      else match (do d <- data_in fs; do i <- select d inputs; do out <- compute i; do refs <- data_out fs; Some (i, out, refs)) with
           | None => Error
           | Some (i, out, refs) => conclude (variables multimodal o subset i out refs outputs [] [])
           end
  end.
(** 331-459: the inputs are not selected; 386-387 [outputs] = the names of outputs and of out_vars, each once *)
Definition test_parallel (multimodal compute_grid grid_option : bool) (o : option obj) (rank : nat) (fs : files) (outputs : list string) (subset : string -> A -> A) (compute : dict A -> option (dict A)) : verdict :=
  match o with
  | None => Error
  | Some o =>
      if skip_test o then Passed
      else if compute_grid && negb grid_option then Xfailed
      else if negb (rank <? n_ranks fs) then Skipped
      else match (do i <- data_in fs; do out <- compute i; do refs <- data_out fs; Some (i, out, refs)) with
           | None => Error
           | Some (i, out, refs) => conclude (variables multimodal o subset i out refs outputs [] [])
           end
  end.

(** 345-356, 316-323: the layout is guessed from the number of processes; communicator.py 791: a cubed sphere needs as many processes as it has ranks.
    TilePartitioner(layout) on a TileCommunicator is not checked *)
Inductive comm := Tile (layout : nat * nat) | Cube (layout : nat * nat).
Definition communicator (size : nat) : option comm :=
  if negb (size mod 6 =? 0) then let l := Nat.sqrt size in Some (Tile (l, l))
  else let l := Nat.sqrt (size / 6) in if 6 * (l * l) =? size then Some (Cube (l, l)) else None.
End Verd.
Arguments near : clear implicits. Arguments obj : clear implicits. Arguments spec : clear implicits. Arguments ignored : clear implicits. Arguments files : clear implicits.
