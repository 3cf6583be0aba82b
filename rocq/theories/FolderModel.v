(** Model of the folder in which a process builds its programs: ndsl/dsl/dace/build.py 117-163 (set_distributed_caches), ndsl/dsl/caches/cache_location.py 51-59, and of everything in ndsl that
    changes the settings of GT4Py and DaCe which it uses: dace_config.py 147-379 (DaceConfig), stencil_config.py 31-60 (CompilationConfig) with decomposition.py 61-96, stencil_config.py 178-203
    (StencilConfig), stencil.py 317-330 (FrozenStencil).

    The settings are global to the process.  DaCe builds a program in the folder "default_build_folder/name" as it is when the program is compiled (the cache mode "name", DaCe's default, which ndsl leaves; build.py 70).
    Simplified: the file system is a set of paths that does not change while configurations are made; log messages are left out. *)
From Coq Require Import ZArith List Bool String.
From Verif Require Import Base Dict PartModel CompileModel LoadModel StashModel.
Import ListNotations.
Local Open Scope list_scope.
Local Open Scope Z_scope.

(** gt_config.cache_settings["root_path"], ["dir_name"], and dace.Config "default_build_folder" *)
Record settings := Settings { root_path : string; dir_name : string; build_folder : string }.
(** backend.py 7-11, 95, 182-183: is_orchestrated, the first part of the name is "orch" *)
Definition orchestrated (b : string) : bool := String.prefix "orch:" b.
(** backend.py 21-27, 96: the second part of the name is "dace" *)
Definition uses_dace (b : string) : bool := String.prefix "st:dace:" b || String.prefix "orch:dace:" b.

(** cache_location.py 51-54 *)
Definition get_cache_fullpath (s : settings) (p : path) : string := (root_path s ++ "/.gt_cache_" ++ path_name p)%string.
(** cache_location.py 57-58 *)
Definition get_cache_directory (p : path) : string := (".gt_cache_" ++ path_name p)%string.
(** build.py 152-158 and stencil.py 324-330 *)
Definition set_build_folder (s : settings) : settings := Settings (root_path s) (dir_name s) (root_path s ++ "/" ++ dir_name s ++ "/dacecache")%string.
(** build.py 117-163; the flag: a RuntimeError *)
Definition set_distributed_caches (there : string -> bool) (s : settings) (c : dconfig) (force : bool) : settings * bool :=
  if negb (orchestrated (d_backend c)) && negb force then (s, false)
  else if is_run (d_orch c) && negb force && negb (there (get_cache_fullpath s (d_path c))) then (s, true)
  else (set_build_folder (Settings (root_path s) (get_cache_directory (d_path c)) (build_folder s)), false).

(** what a process does that concerns the settings *)
Inductive event :=
| EDace (comm : option comm_info) (b : string) (nx nz : Z) (o : orchestration) (single : bool)   (* DaceConfig(...) *)
| ECompile (comm : option comm_info) (m : run_mode) (minimal : bool)                             (* CompilationConfig(...) *)
| EConfig (b : string) (given : bool)                                                            (* StencilConfig(...), with a DaceConfig given or without *)
| EStencil (b : string).                                                                         (* FrozenStencil(...) of a backend *)
(** dace_config.py 147-379 ending with 377; an exception leaves the settings as they are *)
Definition make_dace_config (there : string -> bool) (s : settings) (comm : option comm_info) (b : string) (nx nz : Z) (o : orchestration) (single : bool) : settings * option dconfig :=
  match make_dace comm b nx nz o single with
  | None => (s, None)
  | Some c => let '(s', failed) := set_distributed_caches there s c false in (s', if failed then None else Some c)
  end.
(** decomposition.py 82-96, called from stencil_config.py 59-60 *)
Definition make_compilation_config (there : string -> bool) (s : settings) (comm : option comm_info) (m : run_mode) (minimal : bool) : settings :=
  match comm, m with
  | Some (rank, size, l), Run =>
      if negb (fst l =? snd l) then s
      else match (if minimal then compiling_equivalent m l rank else Some rank) with
           | None => s
           | Some e => let dir := cache_directory size minimal rank e in
               if there (root_path s ++ "/" ++ dir)%string then Settings (root_path s) dir (build_folder s) else s
           end
  | _, _ => s
  end.
Definition happen (there : string -> bool) (s : settings) (e : event) : settings :=
  match e with
  | EDace comm b nx nz o single => fst (make_dace_config there s comm b nx nz o single)
  | ECompile comm m minimal => make_compilation_config there s comm m minimal
  | EConfig b given => if given then s else fst (make_dace_config there s None b 0 0 OBuildAndRun false)
  | EStencil b => if uses_dace b then set_build_folder s else s
  end.
Definition history (there : string -> bool) (s : settings) (l : list event) : settings := fold_left (happen there) l s.
(** DaCe: the folder of a program compiled now *)
Definition built_in (s : settings) (name : string) : string := (build_folder s ++ "/" ++ name)%string.

(** ** specification: where the programs of a code path belong, written out *)
Definition home (root : string) (p : path) (name : string) : string :=
  (root ++ "/.gt_cache_FV3_" ++
   match p with All => "A" | BottomLeft => "BL" | Left => "L" | TopLeft => "TL" | Top => "T" | TopRight => "TR" | Right => "R" | BottomRight => "BR" | Bottom => "B" | Center => "C" end
   ++ "/dacecache/" ++ name)%string.
(** what does not take the folder away from the code path [p]: other DaceConfigs only without orchestration or for the same code path, no StencilConfig of an orchestrated backend that makes its own
    DaceConfig unless [p] is the one code path of a process without communicator, and no CompilationConfig with a communicator in Run mode *)
Definition harmless (p : path) (e : event) : Prop :=
  match e with
  | EDace comm b nx nz o single => orchestrated b = false \/ (forall c, make_dace comm b nx nz o single = Some c -> d_path c = p)
  | ECompile comm m _ => comm = None \/ m <> Run
  | EConfig b given => given = true \/ orchestrated b = false \/ p = All
  | EStencil _ => True
  end.
