(** Model of small utilities: flatten_nml_to_dict and f90nml_as_dict of ndsl/utils.py, get_pair_rank of ndsl/dsl/stencil.py, _rot_3d of
    ndsl/grid/mirror.py. *)
From Coq Require Import Ring.
From Verif Require Import Base Dict.

(** ** ndsl/utils.py *)
Section Namelist.
Variable V : Type.
(** a namelist: settings and groups (f90nml.Namelist objects) by name, in order *)
Inductive nml := Setting (v : V) | Group (entries : list (string * nml)).

(** utils.py:141-146, entering the settings of a flattened group; None = ValueError *)
Fixpoint enter (sub acc : dict V) : option (dict V) :=
  match sub with
  | [] => Some acc
  | (k, v) :: sub' => match get acc k with Some _ => None | None => enter sub' (put acc k v) end
  end.
(** 128-149 flatten_nml_to_dict: flattened groups first (135-137), then entered one by one; since both loops only
    can raise, one pass is the same *)
Fixpoint flatten (n : nml) : option (dict V) :=
  match n with
  | Setting v => None
  | Group entries =>
      (fix go (entries : list (string * nml)) (acc : dict V) : option (dict V) :=
         match entries with
         | [] => Some acc
         | (k, n') :: entries' =>
             match n' with
             | Setting v => go entries' (put acc k v)                                 (* 148 *)
             | Group _ => do sub <- flatten n'; do acc' <- enter sub acc; go entries' acc'
             end
         end) entries []
  end.
(** 203-209: the groups asked for that exist, in the order asked; a group asked twice is stored once *)
Fixpoint extract (n : list (string * nml)) (targets : list string) (acc : list (string * nml)) : list (string * nml) :=
  match targets with
  | [] => acc
  | t :: targets' => extract n targets' (match get n t with Some g => put acc t g | None => acc end)
  end.
(** 183-216 f90nml_as_dict with flatten=True *)
Definition as_dict (n : list (string * nml)) (targets : option (list string)) : option (dict V) :=
  flatten (Group (match targets with Some ts => extract n ts [] | None => n end)).

(** *** specification: the settings at any depth, with their names, in order *)
Fixpoint settings (n : nml) : list (string * V) :=
  match n with
  | Setting v => []
  | Group entries => flat_map (fun e => match snd e with Setting v => [(fst e, v)] | Group _ => settings (snd e) end) entries
  end.
(** a namelist as read from a file: groups that hold settings only; the names in one group are distinct (keys of a dictionary) *)
Definition two_level (groups : list (string * dict V)) : list (string * nml) :=
  map (fun '(g, s) => (g, Group (map (fun '(k, v) => (k, Setting v)) s))) groups.
End Namelist.
Arguments Setting {V}. Arguments Group {V}.

(** ** dsl/stencil.py:233-238 *)
Definition get_pair_rank (rank size : Z) : Z :=
  let dycore_ranks := size / 2 in
  if rank <? dycore_ranks then rank + dycore_ranks else rank - dycore_ranks.

(** ** grid/mirror.py:224-247 _rot_3d with convert=False; None = AssertionError *)
Section Rotation.
Variables (R angle : Type) (add mul : R -> R -> R) (opp : R -> R) (cos sin : angle -> R).
Definition point := (R * R * R)%type.
Definition rot_3d (axis : Z) (p : point) (a : angle) : option point :=
  let c := cos a in
  let s := sin a in
  let '(p0, p1, p2) := p in
  if axis =? 1 then Some (p0, add (mul c p1) (mul s p2), add (mul (opp s) p1) (mul c p2))
  else if axis =? 2 then Some (add (mul c p0) (opp (mul s p2)), p1, add (mul s p0) (mul c p2))
  else if axis =? 3 then Some (add (mul c p0) (mul s p1), add (mul (opp s) p0) (mul c p1), p2)
  else None.
Definition dot (p q : point) : R :=
  let '(p0, p1, p2) := p in let '(q0, q1, q2) := q in add (add (mul p0 q0) (mul p1 q1)) (mul p2 q2).
End Rotation.
