(** Model of the directories in which the ranks keep their compiled stencils: ndsl/dsl/__init__.py 43-48 (the directory set at import), ndsl/comm/decomposition.py 56-96
    (build_cache_path, set_distributed_caches), called from ndsl/dsl/stencil_config.py 53-60.  The rank whose code is read is [compiling_equivalent] of CompileModel.v (C30).

    root_path is the same for all ranks and left out.  Every rank compiles its stencils in Build and BuildAndRun mode in the directory of its settings (stencil.py 380-386; with minimal caching
    too, after waiting).  GT4Py's own default is the variable GT_CACHE_DIR_NAME or ".gt_cache".  What is in a directory is represented by the layout and rank that wrote there last. *)
From Coq Require Import ZArith List Bool String Ascii DecimalString.
From Verif Require Import Base PartModel CompileModel SaveModel.
Import ListNotations.
Local Open Scope list_scope.
Local Open Scope Z_scope.

(** Python: f"{n:06}" and f"{n:06d}" for n >= 0 *)
Fixpoint zeros (n : nat) : string := match n with O => EmptyString | S k => String "0"%char (zeros k) end.
Definition padded (rank : Z) : string := let s := decimal (Z.to_nat rank) in (zeros (6 - String.length s) ++ s)%string.
(** dsl/__init__.py 43-48 *)
Definition directory_at_import (mpi : bool) (variable : option string) (rank : Z) : string :=
  match variable with Some d => d | None => if mpi then (".gt_cache_" ++ padded rank)%string else ".gt_cache"%string end.
(** decomposition.py 61-79 *)
Definition target_rank_str (size : Z) (minimal : bool) (rank equivalent : Z) : string :=
  if size =? 1 then EmptyString else if minimal then ("_" ++ padded equivalent)%string else ("_" ++ padded rank)%string.
Definition cache_directory (size : Z) (minimal : bool) (rank equivalent : Z) : string := (".gt_cache" ++ target_rank_str size minimal rank equivalent)%string.
(** the disk: for each directory who wrote there last *)
Definition disk := string -> option (layout * Z).
(** stencil_config.py 53-60, 121-141 with decomposition.py 82-96: the directory of a rank after its CompilationConfig is made; None = RuntimeError *)
Definition directory (mpi : bool) (variable : option string) (m : run_mode) (minimal : bool) (l : layout) (size : Z) (d : disk) (rank : Z) : option string :=
  if negb (fst l =? snd l) then None
  else do e <- (if minimal then compiling_equivalent m l rank else Some rank);
       match m with
       | Run => let dir := cache_directory size minimal rank e in match d dir with Some _ => Some dir | None => None end
       | _ => Some (directory_at_import mpi variable rank)
       end.
(** a job of [tiles] tiles (six, or one for a single tile) that compiles, its ranks finishing in the given order *)
Definition build (mpi : bool) (variable : option string) (m : run_mode) (minimal : bool) (l : layout) (tiles : Z) (order : list Z) (d : disk) : disk :=
  fold_left (fun d rank => match directory mpi variable m minimal l (tiles * (fst l * snd l)) d rank with
                           | Some dir => fun x => if String.eqb x dir then Some (l, rank) else d x
                           | None => d end) order d.
(** what a rank of a job in Run mode finds in its directory; None = RuntimeError *)
Definition found (mpi : bool) (variable : option string) (minimal : bool) (l : layout) (tiles : Z) (d : disk) (rank : Z) : option (layout * Z) :=
  do dir <- directory mpi variable Run minimal l (tiles * (fst l * snd l)) d rank; d dir.
