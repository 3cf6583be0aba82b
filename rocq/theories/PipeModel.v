(** Model of the optimization pipelines of schedule trees: ndsl/dsl/dace/stree/pipeline.py 9-71 (StreePipeline, CPUPipeline, GPUPipeline).

    A pass is what its visit does to the tree, which is changed in place: the tree afterwards, and whether it raised.  What visit returns is dropped (38).  Trees, their text and which files can be
    opened for writing are arbitrary.  Simplified: the cache directory is a text without a "/" at its end. *)
From Coq Require Import List Bool String.
From Verif Require Import Base Dict SaveModel.
Import ListNotations.
Local Open Scope list_scope.
Local Open Scope nat_scope.

Section Pipeline.
Context {T : Type}.
Variables (as_string : T -> string) (can_write : string -> bool).
(** p and str(p) *)
Record pass := Pass { p_name : string; p_visit : T -> T * bool }.
(** 16-19, 34: cache_directory / f"pass{i}_{p}.txt"; None = Path() *)
Definition report_path (dir : option string) (i : nat) (p : pass) : string :=
  let file := ("pass" ++ decimal i ++ "_" ++ p_name p ++ ".txt")%string in match dir with None => file | Some d => (d ++ "/" ++ file)%string end.
(** 33-42 for the passes from number i on; the result: the tree, the files, an exception was raised *)
Fixpoint run_from (dir : option string) (verbose : bool) (i : nat) (passes : list pass) (t : T) (files : dict string) : T * dict string * bool :=
  match passes with
  | [] => (t, files, false)
  | p :: rest =>
      let '(t1, failed) := p_visit p t in
      if failed then (t1, files, true)
      else if verbose then
        let path := report_path dir i p in
        if can_write path then run_from dir verbose (S i) rest t1 (put files path (as_string t1)) else (t1, files, true)
      else run_from dir verbose (S i) rest t1 files
  end.
(** 28-44 *)
Definition run (dir : option string) (verbose : bool) (passes : list pass) (t : T) (files : dict string) := run_from dir verbose 0 passes t files.
(** 47-59, the passes of a CPUPipeline; [merge_k] = CartesianAxisMerge(AxisIterator._K) *)
Definition cpu_passes (merge_k : pass) (passes : option (list pass)) : list pass := match passes with Some l => l | None => [merge_k] end.
(** 62-71 *)
Definition gpu_passes (passes : option (list pass)) : list pass := match passes with Some l => l | None => [] end.

(** ** specification: the trees after each pass, if none raises *)
Inductive chain : list pass -> T -> list T -> Prop :=
| chain_nil t : chain [] t []
| chain_cons p l t t1 ts : p_visit p t = (t1, false) -> chain l t1 ts -> chain (p :: l) t (t1 :: ts).
End Pipeline.
Arguments pass : clear implicits.
