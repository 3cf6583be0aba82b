(** Model of who compiles what: ndsl/dsl/dace/dace_config.py, ndsl/dsl/caches/cache_location.py,
    ndsl/dsl/stencil_config.py, ndsl/comm/decomposition.py, ndsl/config/backend.py (names).
    MPI.COMM_WORLD is taken to be the communicator of the configuration; environment variables, the DaCe options and the
    performance collector of DaceConfig are not represented. *)
From Coq Require Import QArith Ascii.
From Verif Require Import Base Dict PartModel.
Open Scope Z_scope.

(** ** Code paths *)
(** caches/codepath.py:15-24 *)
Inductive path := All | BottomLeft | Left | TopLeft | Top | TopRight | Right | BottomRight | Bottom | Center.

(** cache_location.py:5-49; None = NotImplementedError *)
Definition identify_code_path (l : layout) (rank : Z) (single : bool) : option path :=
  if single then Some All
  else if (fst l =? 1) && (snd l =? 1) then Some All
  else if (fst l =? 1) || (snd l =? 1) then None
  else Some (
    if on_tile_bottom l rank then
      if on_tile_left l rank then BottomLeft else if on_tile_right l rank then BottomRight else Bottom
    else if on_tile_top l rank then
      if on_tile_left l rank then TopLeft else if on_tile_right l rank then TopRight else Top
    else if on_tile_left l rank then Left else if on_tile_right l rank then Right else Center).

(** dace_config.py:42-53 *)
Definition is_corner (l : layout) (rank : Z) : bool :=
  if on_tile_bottom l rank && (on_tile_left l rank || on_tile_right l rank) then true
  else on_tile_top l rank && (on_tile_left l rank || on_tile_right l rank).
(** 56-73 *)
Definition smallest_rank_bottom (x y : Z) (l : layout) : bool := (y =? 0) && (x =? 1).
Definition smallest_rank_top (x y : Z) (l : layout) : bool := (y =? snd l - 1) && (x =? 1).
Definition smallest_rank_left (x y : Z) (l : layout) : bool := (x =? 0) && (y =? 1).
Definition smallest_rank_right (x y : Z) (l : layout) : bool := (x =? fst l - 1) && (y =? 1).
Definition smallest_rank_middle (x y : Z) (l : layout) : bool := (fst l >? 1) && (snd l >? 1) && (x =? 1) && (y =? 1).
(** 76-131 _determine_compiling_ranks on a cubed sphere *)
Definition compiles (l : layout) (rank : Z) (single : bool) : bool :=
  if single then rank =? 0
  else if negb (tile_index l rank =? 0) then false
  else if is_corner l rank then true
  else
    let '(y, x) := subtile_index l rank in
    smallest_rank_left x y l || smallest_rank_bottom x y l || smallest_rank_middle x y l || smallest_rank_right x y l || smallest_rank_top x y l.

(** ** Stencil mode *)
(** stencil_config.py:18-28 *)
Inductive run_mode := Build | BuildAndRun | Run.
Definition mode_value (m : run_mode) : nat := match m with Build => 0 | BuildAndRun => 1 | Run => 2 end.

(** stencil_config.py:76-119 determine_compiling_equivalent; [tile]: the partitioner of one tile *)
Definition compiling_equivalent (m : run_mode) (l : layout) (rank : Z) : option Z :=
  match m with
  | Run =>
      let b := on_tile_bottom l rank in let t := on_tile_top l rank in
      let lf := on_tile_left l rank in let r := on_tile_right l rank in
      if (fst l =? 1) && (snd l =? 1) then Some 0
      else if (fst l =? 2) && (snd l =? 2) then
        if b && lf then Some 0 else if b && r then Some 1 else if t && lf then Some 2 else if t && r then Some 3 else None
      else if b then (if lf then Some 0 else if r then Some 2 else Some 1)
      else if t then (if lf then Some 6 else if r then Some 8 else Some 7)
      else (if lf then Some 3 else if r then Some 5 else Some 4)
  | _ => Some (rank mod tile_ranks l)
  end.

(** decomposition.py:14-24 determine_rank_is_compiling: rank < size / 6, a true division *)
Definition rank_is_compiling (rank size : Z) : bool := if Qlt_le_dec (inject_Z rank) (inject_Z size / 6) then true else false.

(** what one rank does with MPI.COMM_WORLD for one stencil, stencil.py:364-393, decomposition.py:27-53, with minimal caching
    and run mode Build or BuildAndRun.  A destination is the exact value of tile * (size / 6) + rank (Python computes a
    float; whether MPI accepts a float as a rank is not modelled). *)
Inductive act := Send (dest : Q) | Recv (source : Z).
Definition handshake (equivalent : Z -> Z) (size rank : Z) : list act :=
  if rank_is_compiling rank size
  then (if size >? 1 then map (fun tile => Send (inject_Z tile * (inject_Z size / 6) + inject_Z rank)) (zrange 1 6) else [])
  else (if size >? 1 then [Recv (equivalent rank)] else []).

(** ** Backends and configurations *)
(** backend.py:41-55 _NDSL_TO_GT4PY_BACKEND_NAMING *)
Definition backend_table : list (string * string) := [
  ("st:python:cpu:IJK", "debug"); ("st:numpy:cpu:IJK", "numpy"); ("st:gt:cpu:IJK", "gt:cpu_kfirst"); ("st:gt:cpu:KJI", "gt:cpu_ifirst");
  ("st:gt:gpu:KJI", "gt:gpu"); ("st:dace:cpu:IJK", "dace:cpu_kfirst"); ("orch:dace:cpu:IJK", "dace:cpu_kfirst");
  ("st:dace:cpu:KIJ", "dace:cpu"); ("orch:dace:cpu:KIJ", "dace:cpu"); ("st:dace:cpu:KJI", "dace:cpu_KJI");
  ("orch:dace:cpu:KJI", "dace:cpu_KJI"); ("st:dace:gpu:KJI", "dace:gpu"); ("orch:dace:gpu:KJI", "dace:gpu")]%string.
(** backend.py:83-118, 171-173: as_gt4py; the backend is its name (_humanly_readable); None = ValueError.  gt4py is assumed
    to have all thirteen backends. *)
Definition as_gt4py (name : string) : option string := get backend_table name.
(** backend.py:97-98: the third of the four ':'-separated parts is "gpu" *)
Definition is_gpu (name : string) : bool :=
  match name with
  | "st:gt:gpu:KJI" | "st:dace:gpu:KJI" | "orch:dace:gpu:KJI" => true
  | _ => false
  end%string.

(** stencil_config.py:31-60 CompilationConfig *)
Record cconfig := mkC { backend : string; rebuild : bool; validate_args : bool; format_source : bool; device_sync : bool;
  mode : run_mode; minimal : bool; c_rank : Z; c_size : Z; c_equivalent : Z; c_compiling : bool }.

(** rank, size and layout of the communicator *)
Definition comm_info := (Z * Z * layout)%type.
(** 31-60, 62-74, 121-141; None = RuntimeError or ValueError (unknown backend) *)
Definition make_config (b : string) (reb va fs ds : bool) (m : run_mode) (min : bool) (comm : option comm_info) : option cconfig :=
  do g <- as_gt4py b;
  if negb (is_gpu b) && ds then None
  else match comm with
       | None => Some (mkC b reb va fs ds m min 1 1 1 true)
       | Some (rank, size, l) =>
           if negb (fst l =? snd l) then None
           else if min then
             do e <- compiling_equivalent m l rank;
             Some (mkC b reb va fs ds m min rank size e (rank_is_compiling rank size))
           else Some (mkC b reb va fs ds m min rank size rank true)
       end.

(** values stored in the dictionaries *)
Inductive pyval := PBool (b : bool) | PStr (s : string) | PInt (z : Z) | PInts (l : list Z).
(** enum names *)
Definition mode_name (m : run_mode) : string := match m with Build => "Build" | BuildAndRun => "BuildAndRun" | Run => "Run" end%string.
Definition mode_of_name (s : string) : option run_mode :=
  if (s =? "Build")%string then Some Build else if (s =? "BuildAndRun")%string then Some BuildAndRun
  else if (s =? "Run")%string then Some Run else None.

(** stencil_config.py:143-152 as_dict *)
Definition as_dict (c : cconfig) : dict pyval := [
  ("backend", PStr (backend c)); ("rebuild", PBool (rebuild c)); ("validate_args", PBool (validate_args c));
  ("format_source", PBool (format_source c)); ("device_sync", PBool (device_sync c)); ("run_mode", PStr (mode_name (mode c)));
  ("use_minimal_caching", PBool (minimal c))]%string.
(** data.get(key, default); None = a value of another type, which Python would carry on with (not modelled) *)
Definition get_bool (d : dict pyval) (k : string) (default : bool) : option bool :=
  match get d k with None => Some default | Some (PBool b) => Some b | Some _ => None end.
Definition get_str (d : dict pyval) (k : string) (default : string) : option string :=
  match get d k with None => Some default | Some (PStr s) => Some s | Some _ => None end.
(** 154-168 from_dict *)
Definition from_dict (d : dict pyval) : option cconfig :=
  do b <- get_str d "backend" "st:python:cpu:IJK";
  do reb <- get_bool d "rebuild" false;
  do va <- get_bool d "validate_args" true;
  do fs <- get_bool d "format_source" false;
  do ds <- get_bool d "device_sync" false;
  do ms <- get_str d "run_mode" "BuildAndRun";
  do m <- mode_of_name ms;
  do min <- get_bool d "use_minimal_caching" false;
  make_config b reb va fs ds m min None.

(** bytes(True) = bytes(1) = one zero byte, bytes(False) = b"" ; bytes(n) = n zero bytes *)
Definition zeros (n : nat) : list ascii := repeat zero n.
Definition flag (b : bool) : list ascii := zeros (if b then 1 else 0).
Fixpoint encode (s : string) : list ascii := match s with EmptyString => [] | String c s' => c :: encode s' end.
(** stencil_config.py:211-226 _compute_hash: the bytes given to md5, [g] = the gt4py name *)
Definition hashed (g : string) (c : cconfig) (compare_to_numpy : bool) : list ascii :=
  encode g ++ flag (rebuild c) ++ flag (validate_args c) ++ flag (minimal c) ++ flag compare_to_numpy ++ flag (format_source c)
  ++ flag (device_sync c) ++ zeros (mode_value (mode c)).
(** 228-235 __hash__ / __eq__ for two StencilConfig; md5 is an argument *)
Definition config_eq (md5 : list ascii -> Z) (g1 : string) (c1 : cconfig) (n1 : bool) (g2 : string) (c2 : cconfig) (n2 : bool) : bool :=
  md5 (hashed g1 c1 n1) =? md5 (hashed g2 c2 n2).

(** ** DaceConfig *)
Inductive orchestration := OBuildAndRun | OBuild | ORun.
(** dace_config.py:147-379, the fields that are data *)
Record dconfig := mkD { d_backend : string; d_orch : orchestration; d_rank : Z; d_size : Z; d_layout : layout;
  d_resolution : Z * Z * Z; d_path : path; d_compile : bool; d_single : bool }.
Definition make_dace (comm : option comm_info) (b : string) (tile_nx tile_nz : Z) (o : orchestration) (single : bool) : option dconfig :=
  do g <- as_gt4py b;
  match comm with
  | None => Some (mkD b o 0 1 (1, 1) (tile_nx, tile_nx, tile_nz) All true single)
  | Some (rank, size, l) =>
      do p <- identify_code_path l rank single;
      Some (mkD b o rank size l (tile_nx, tile_nx, tile_nz) p (compiles l rank single) single)
  end.
(** 394-402 as_dict: the six entries, as a tuple *)
Definition d_as_dict (c : dconfig) := (d_orch c, d_backend c, d_rank c, d_size c, d_layout c, d_resolution c).
(** 404-415 from_dict *)
Definition d_from_dict (x : orchestration * string * Z * Z * layout * (Z * Z * Z)) : option dconfig :=
  let '(o, b, rank, size, l, res) := x in
  do c <- make_dace None b 0 0 o false;
  Some (mkD (d_backend c) (d_orch c) rank size l res (d_path c) (d_compile c) (d_single c)).

(** ** specification *)

(** the tile edges a rank touches: (south, north, west, east) *)
Definition edges (l : layout) (rank : Z) : bool * bool * bool * bool :=
  let '(y, x) := (rank mod (fst l * snd l) / snd l, rank mod (fst l * snd l) mod snd l) in (y =? 0, y =? fst l - 1, x =? 0, x =? snd l - 1).

(** a system of ranks with rendezvous communication: a step matches a send with the receive posted for it *)
Definition sys := Z -> list act.
Definition set (p : sys) (r : Z) (l : list act) : sys := fun r' => if r' =? r then l else p r'.
Inductive step (size : Z) (p : sys) : sys -> Prop :=
  Step : forall c d q lc ld, 0 <= c < size -> 0 <= d < size -> c <> d -> p c = Send q :: lc -> p d = Recv c :: ld ->
    (q == inject_Z d)%Q -> step size p (set (set p c lc) d ld).
Inductive steps (size : Z) : nat -> sys -> sys -> Prop :=
| S_refl p : steps size 0 p p
| S_step n p p' p'' : step size p p' -> steps size n p' p'' -> steps size (S n) p p''.
Definition finished (size : Z) (p : sys) : Prop := forall r, 0 <= r < size -> p r = [].
