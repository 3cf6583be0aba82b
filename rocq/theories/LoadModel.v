(** Model of storing and loading compiled programs: ndsl/dsl/dace/build.py 26-48 (write_build_info), 56-114 (get_sdfg_path),
    ndsl/dsl/caches/cache_location.py 51-59, ndsl/dsl/caches/codepath.py 15-33, and of the places that call them: orchestration.py
    304-350 (_build_sdfg), 428-470 (_parse_sdfg).

    The file system is a dictionary from directories to the build information in them.  A directory belongs to a code path and a program
    (137-154: the build folder is the directory that is read).  Simplified: the information is kept as it is, not written as text and
    parsed; resolutions over layouts are compared exactly (the code divides in double precision, which is the same for integers below
    2^26); programs given as .sdfg files are either there or not. *)
From Coq Require Import QArith.
From Verif Require Import Base Dict PartModel CompileModel.
Open Scope Z_scope.

(** codepath.py 15-33 *)
Definition path_name (p : path) : string :=
  match p with
  | All => "FV3_A" | BottomLeft => "FV3_BL" | Left => "FV3_L" | TopLeft => "FV3_TL" | Top => "FV3_T"
  | TopRight => "FV3_TR" | Right => "FV3_R" | BottomRight => "FV3_BR" | Bottom => "FV3_B" | Center => "FV3_C"
  end.
(** cache_location.py 51-54 and build.py 84 *)
Definition sdfg_dir (root : string) (p : path) (name : string) : string :=
  (root ++ "/.gt_cache_" ++ path_name p ++ "/dacecache/" ++ name)%string.

(** build.py 40-43 *)
Record info := Info { i_backend : string; i_layout : layout; i_resolution : Z * Z * Z }.
Definition disk := dict info.
(** orchestration.py 304-308 *)
Definition write_build_info (root : string) (d : disk) (name : string) (c : dconfig) : disk :=
  put d (sdfg_dir root (d_path c) name) (Info (d_backend c) (d_layout c) (d_resolution c)).

(** 56-114; the result is the path, None for "nothing to load"; Error = an exception *)
Inductive result := Error | Nothing | Path (p : string).
Definition nx (r : Z * Z * Z) : Z := fst (fst r).
Definition ratio (a b : Z) : option Q := if b =? 0 then None else Some (inject_Z a / inject_Z b)%Q.
Definition is_run (o : orchestration) : bool := match o with ORun => true | _ => false end.
Definition get_sdfg_path (root : string) (d : disk) (files : list string) (name : string) (c : dconfig) (file : option string) (override : bool) : result :=
  if negb override && negb (is_run (d_orch c)) then Nothing
  else match file with
  | Some f => if existsb (String.eqb f) files then Path f else Error
  | None =>
      let dir := sdfg_dir root (d_path c) name in
      match get d dir with
      | None => Error
      | Some i =>
          match as_gt4py (i_backend i) with
          | None => Error
          | Some _ =>
              if negb (String.eqb (d_backend c) (i_backend i)) then Error
              else match ratio (nx (d_resolution c)) (fst (d_layout c)), ratio (nx (i_resolution i)) (fst (i_layout i)) with
              | Some q, Some q' => if Qeq_bool q q' then Path dir else Error
              | _, _ => Error
              end
          end
      end
  end.

(** a history of builds, the last one first: program and configuration *)
Fixpoint disk_after (root : string) (builds : list (string * dconfig)) : disk :=
  match builds with [] => [] | (name, c) :: l => write_build_info root (disk_after root l) name c end.

(** ** specification *)
Definition path_eq_dec (p q : path) : {p = q} + {p <> q}.
Proof. decide equality. Defined.
(** the last build of a program for a code path *)
Fixpoint last_build (builds : list (string * dconfig)) (name : string) (p : path) : option dconfig :=
  match builds with
  | [] => None
  | (n, c) :: l => if String.eqb n name then if path_eq_dec (d_path c) p then Some c else last_build l name p else last_build l name p
  end.
(** the sizes of arrays that a program is compiled for: columns and rows of a rank's share of the tile, and levels *)
Definition share (c : dconfig) : Q * Q * Z :=
  let '(x, y, z) := d_resolution c in
  let '(ly, lx) := d_layout c in
  ((inject_Z x / inject_Z lx)%Q, (inject_Z y / inject_Z ly)%Q, z).
Definition same_share (c c' : dconfig) : Prop :=
  (fst (fst (share c)) == fst (fst (share c')))%Q /\ (snd (fst (share c)) == snd (fst (share c')))%Q /\ snd (share c) = snd (share c').
