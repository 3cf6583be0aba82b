(** Model of open_restart: ndsl/restart/_legacy_restart.py 23-72 (open_restart), 75-76 (get_coupler_res_filename), 85-96 (restart_filenames), 114-129 (metadata), 142-146 (prepend_label),
    149-166 (load_partial_state_from_restart_file, on top of [load] and [map_keys] of RestartModel.v).

    A file is the dictionary of its variables at Time 0 (ds.isel(Time=0).drop_vars("Time")); a variable has dimensions, perhaps units, and data.  What a rank gets of the data is
    [part rank] (scatter_state is C62; [to_state] is left out).  os.path.join is modelled for a second part that is not absolute.  Renaming a dimension to a name that another one has
    (an error of xarray) is left out. *)
From Coq Require Import ZArith Arith Bool Ascii.
From Verif Require Import Base Dict SaveModel RestartModel.
Import ListNotations.
Local Open Scope string_scope.
Local Open Scope list_scope.

(** os.path.join *)
Fixpoint ends_with_slash (s : string) : bool := match s with EmptyString => false | String c EmptyString => Ascii.eqb c "/"%char | String _ s' => ends_with_slash s' end.
Definition join (d f : string) : string := match d with EmptyString => f | _ => if ends_with_slash d then (d ++ f)%string else (d ++ "/" ++ f)%string end.
(** 142-146 *)
Definition prepend_label (filename label : string) : string := match label with EmptyString => filename | _ => (label ++ "." ++ filename)%string end.
(** 18-20 *)
Definition RESTART_NAMES : list string := ["fv_core.res"; "fv_srf_wnd.res"; "fv_tracer.res"].
Definition RESTART_OPTIONAL_NAMES : list string := ["sfc_data"; "phy_data"].
Definition COUPLER_RES_NAME : string := "coupler.res".

Section Open.
Context {D T : Type}.
Record variable := Array { dims : list string; units : option string; data : D }.
Record property := Entry { restart_name : string; p_dims : list string; p_units : string }.
Context (disk : string -> option (dict variable)) (coupler : string -> option T).
(** 85-96; [tile]: tile_index *)
Definition path (dirname label name : string) (tile : nat) : string := join dirname (prepend_label name label ++ ".tile" ++ decimal (tile + 1) ++ ".nc").
Definition restart_filenames (dirname : string) (tile : nat) (label : string) : list string :=
  flat_map (fun name => let filename := path dirname label name tile in
      if existsb (String.eqb name) RESTART_NAMES || match disk filename with Some _ => true | None => false end then [filename] else [])
    (RESTART_NAMES ++ RESTART_OPTIONAL_NAMES).
(** 114-116: da.dims[-len(new_dims):] zipped with new_dims *)
Definition apply_dims (old new : list string) : list string :=
  if Nat.leb (List.length new) (List.length old) then firstn (List.length old - List.length new) old ++ new else firstn (List.length old) new.
(** 119-129 *)
Definition apply_metadata (props : dict property) (name : string) (v : variable) : variable :=
  match get props name with Some p => Array (apply_dims (dims v) (p_dims p)) (Some (p_units p)) (data v) | None => v end.
Definition has_units (v : variable) : bool := match units v with Some _ => true | None => false end.
Definition names_of (props : dict property) : dict string := map (fun p => (fst p, restart_name (snd p))) props.
(** only_names: None, a collection, or an iterator with what is left in it; [name in only_names] takes from an iterator until the name is found *)
Inductive only := Every | Collection (l : list string) | Iterator (l : list string).
Fixpoint taken (n : string) (l : list string) : bool * list string := match l with [] => (false, []) | m :: l' => if String.eqb m n then (true, l') else taken n l' end.
(** 155-161 for an iterator *)
Fixpoint pick (props : dict property) (l : list string) (items : dict variable) : dict variable * list string :=
  match items with
  | [] => ([], l)
  | (n, v) :: items =>
      if String.eqb n "time" || has_units v || match get props n with Some _ => true | None => false end
      then let '(b, l) := taken n l in let '(s, l) := pick props l items in (if b then (n, v) :: s else s, l)
      else pick props l items
  end.
(** 149-166 *)
Definition load_file (props : dict property) (o : only) (file : dict variable) : dict variable * only :=
  let '(s, o') := match o with
                  | Every => (load has_units (names_of props) None file, o)
                  | Collection l => (load has_units (names_of props) (Some l) file, o)
                  | Iterator l => let '(s, l) := pick props l (map_keys file (standard_names (names_of props))) in (s, Iterator l)
                  end in
  (map (fun kv => (fst kv, apply_metadata props (fst kv) (snd kv))) s, o').
Inductive item := Var (v : variable) | Date (t : T).
Inductive error := NoFiles | FileNotFound (f : string).
Inductive result := Raised (e : error) | Loaded (s : dict item).
(** 55-61; inr = FileNotFoundError *)
Fixpoint load_files (props : dict property) (o : only) (files : list string) (s : dict item) : (dict item * only) + string :=
  match files with
  | [] => inl (s, o)
  | f :: files => match disk f with
                  | None => inr f
                  | Some file => let '(new, o) := load_file props o file in load_files props o files (update s (map (fun kv => (fst kv, Var (snd kv))) new))
                  end
  end.
(** 43-46 *)
Definition properties (standard : dict property) (tracers : option (dict property)) : dict property := match tracers with None => standard | Some t => update t standard end.
(** 50-66: the state of the rank 0 of a tile *)
Definition root_state (props : dict property) (o : only) (dirname : string) (tile : nat) (label : string) : result :=
  let filenames := restart_filenames dirname tile label in
  match filenames with
  | [] => Raised NoFiles
  | _ => match load_files props o filenames [] with
         | inr f => Raised (FileNotFound f)
         | inl (s, o) =>
             match coupler (join dirname (prepend_label COUPLER_RES_NAME label)) with
             | None => Loaded s
             | Some t => if match o with Every => true | Collection l => existsb (String.eqb "time") l | Iterator l => fst (taken "time" l) end then Loaded (put s "time" (Date t)) else Loaded s
             end
         end
  end.
(** 67-71: the ranks of the tile wait for the root in scatter_state *)
Context (part : Z -> D -> D).
Inductive outcome := Exception (e : error) | Waits | Has (s : dict item).
Definition scattered (rank : Z) (i : item) : item := match i with Var v => Var (Array (dims v) (units v) (part rank (data v))) | Date t => Date t end.
Definition open_restart (props : dict property) (o : only) (dirname : string) (tile : nat) (label : string) (rank : Z) : outcome :=
  match root_state props o dirname tile label with
  | Raised e => if Z.eqb rank 0 then Exception e else Waits
  | Loaded s => Has (map (fun kv => (fst kv, scattered rank (snd kv))) s)
  end.

(** Specification: the file f holds the variable r *)
Definition holds (f r : string) (v : variable) : Prop := exists file, disk f = Some file /\ get file r = Some v.
End Open.
Arguments variable : clear implicits.
Arguments item : clear implicits.
Arguments result : clear implicits.
Arguments outcome : clear implicits.
