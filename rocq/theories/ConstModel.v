(** Model of ndsl/monitor/netcdf_monitor.py 174-205: NetCDFMonitor.store_constant, with the files it replaces.

    The state is the one gather_state (communicator.py:303-340) gives: a dictionary on the root rank, None on the others (C62, C134 have the gathering).  It copies
    the entry "time" as it is, a datetime, and makes a quantity of every other one.  Left out: a monitor whose path is "/" or "." (Path joins those without a
    slash between), variables with the name of a dimension (coordinates in xarray), attributes, several processes at once. *)
From Coq Require Import Ascii.
From Verif Require Import Base Dict.
Local Open Scope string_scope.

Section Const.
  Context {A : Type}.
  (** xr.DataArray: dimensions with their sizes, and the values *)
  Record array := mkArray { dims : list (string * Z); data : A }.
  (** an entry of the gathered state (communicator.py:319-340) *)
  Inductive entry := Field (a : array) | Moment.
  (** xr.Dataset: its variables *)
  Definition dataset := dict array.
  (** the file system: directories, and the content of netCDF files *)
  Record disk := mkDisk { is_dir : string -> bool; file : string -> option dataset }.
  Definition set_file (d : disk) (p : string) (c : option dataset) : disk := mkDisk (is_dir d) (fun q => if q =? p then c else file d q).

  (** the directory of a path: what is before its last slash *)
  Fixpoint parent (p : string) : option string :=
    match p with
    | "" => None
    | String c p' => match parent p' with Some r => Some (String c r) | None => if Ascii.eqb c "/" then Some "" else None end
    end.

  (** the path given to the monitor (109-126) *)
  Variable root : string.
  (** Whether netCDF4 accepts to write a dataset, and the file system to store it, when the directory is there. *)
  Variable writes : string -> dataset -> bool.

  (** netcdf_monitor.py:179-183 *)
  Definition constant_path (name : string) : string := root ++ "/" ++ "constants" ++ "_" ++ name ++ ".nc".

  (** ds[name] = array (xarray): the other variables must agree on the sizes of the dimensions *)
  Definition fits (a b : array) : bool :=
    forallb (fun p => forallb (fun q => negb (fst p =? fst q) || (snd p =? snd q)%Z) (dims b)) (dims a).
  Definition assign (ds : dataset) (name : string) (a : array) : option dataset :=
    if forallb (fun v => (fst v =? name) || fits a (snd v)) ds then Some (put ds name a) else None.

  (** netcdf_monitor.py:182-205, one entry: the disk and whether it raised *)
  Definition store_one (d : disk) (name : string) (e : entry) : disk * bool :=
    let path := constant_path name in
    match e with
    | Moment => (d, true)                                                       (* 189, 197: a datetime has no view *)
    | Field a =>
        match match file d path with Some ds => assign ds name a | None => Some [(name, a)] end with     (* 185-202 *)
        | None => (d, true)
        | Some ds =>
            let d := match file d path with Some _ => set_file d path None | None => d end in            (* 203-204 *)
            if match parent path with Some p => is_dir d p | None => true end && writes path ds          (* 205 *)
            then (set_file d path (Some ds), false)
            else (d, true)
        end
    end.
  (** netcdf_monitor.py:182, the loop *)
  Fixpoint store_all (d : disk) (s : dict entry) : disk * bool :=
    match s with
    | [] => (d, false)
    | (n, e) :: s' => let '(d', r) := store_one d n e in if r then (d', true) else store_all d' s'
    end.
  (** netcdf_monitor.py:174-205; None: not the root rank *)
  Definition store_constant (d : disk) (s : option (dict entry)) : disk * bool :=
    match s with Some s => store_all d s | None => (d, false) end.
  (** successive calls, until one raises *)
  Fixpoint calls (d : disk) (ss : list (option (dict entry))) : disk * bool :=
    match ss with
    | [] => (d, false)
    | s :: ss' => let '(d', r) := store_constant d s in if r then (d', true) else calls d' ss'
    end.

  (** ** Specification *)

  (** the variable [v] of the file of the constant [name] *)
  Definition variable (d : disk) (name v : string) : option array :=
    match file d (root ++ "/constants_" ++ name ++ ".nc") with Some ds => get ds v | None => None end.
  (** everything given to store_constant on the root rank, the latest first *)
  Fixpoint given (ss : list (option (dict entry))) : list (string * entry) :=
    match ss with [] => [] | None :: ss' => given ss' | Some s :: ss' => (given ss' ++ rev s)%list end.
  (** the first in a list of pairs *)
  Definition latest (name : string) (l : list (string * entry)) : option entry := option_map snd (find (fun p => fst p =? name) l).
  (** a name that is not a path with directories *)
  Fixpoint slashless (s : string) : Prop := match s with "" => True | String c s' => c <> "/"%char /\ slashless s' end.
  (** dimensions of the same name have the same size *)
  Definition agree (a b : array) : Prop := forall n i j, List.In (n, i) (dims a) -> List.In (n, j) (dims b) -> i = j.
  (** a file system: a file is in a directory *)
  Definition sane (d : disk) : Prop := forall p, file d p <> None -> match parent p with Some q => is_dir d q = true | None => True end.
End Const.
Arguments disk : clear implicits.
Arguments dataset : clear implicits.
Arguments entry : clear implicits.
Arguments array : clear implicits.
