(** Model of saving a State to a NetCDF file and loading it: ndsl/quantity/state.py 501-506 (file name), 508-545 (to_xarray),
    547-562 (to_netcdf), 564-597 (update_from_netcdf).

    States and update_copy_memory are those of StateModel.v.  The file gives back what was written.  Simplified: every quantity
    field has "dims" in its metadata (the code raises otherwise; State.zeros and the like raise too), no field has the name of a
    dimension.  When xarray refuses to put arrays together (a dimension with two sizes) is an arbitrary test; that it refuses
    a Dataset as the variable of a Dataset is part of the model. *)
From Coq Require Import DecimalString.
From Verif Require Import Base Dict StateModel.
Local Open Scope string_scope.

Section Save.
  Context {Q A : Type}.
  Variable field : Q -> A.                                  (* quantity.field_as_xarray and its values *)
  Variable agree : list (string * A) -> bool.               (* can be variables of one Dataset *)
  Variable agree_below : list (string * A) -> list (string * A) -> bool.    (* root of a DataTree, and a group *)

  (** what _save_recursive puts in the dictionary: an array, or a Dataset *)
  Inductive saved := SArr (a : A) | SSet (l : list (string * A)).
  (** xr.Dataset(data_vars=...); None = it raises *)
  Fixpoint arrays (l : list (string * saved)) : option (list (string * A)) :=
    match l with
    | [] => Some []
    | (n, SArr a) :: l' => do r <- arrays l'; Some ((n, a) :: r)
    | (_, SSet _) :: _ => None
    end.
  Definition dataset (l : list (string * saved)) : option (list (string * A)) :=
    do r <- arrays l; if agree r then Some r else None.

  (** 513-532 _save_recursive *)
  Fixpoint save (fs : fields) (v : val Q) : option (list (string * saved)) :=
    match fs with
    | FNil => Some []
    | FCons n (TState gs) fs' =>
        do w <- getattr v n; do l <- save gs w; do s <- dataset l; do r <- save fs' v; Some ((n, SSet s) :: r)
    | FCons n (TQuantity _) fs' =>
        match getattr v n with
        | Some (VQ q) => do r <- save fs' v; Some ((n, SArr (field q)) :: r)
        | Some VNone => save fs' v
        | _ => None
        end
    end.

  (** a DataTree: the variables of the root, and the groups *)
  Record tree := Tree { root : list (string * A); groups : list (string * list (string * A)) }.
  Definition top_level (l : list (string * saved)) : list (string * saved) :=
    filter (fun x => match snd x with SArr _ => true | SSet _ => false end) l.
  Fixpoint sub_sets (l : list (string * saved)) : list (string * list (string * A)) :=
    match l with [] => [] | (n, SSet s) :: l' => (n, s) :: sub_sets l' | _ :: l' => sub_sets l' end.
  (** 534-545 *)
  Definition to_xarray (fs : fields) (v : val Q) : option tree :=
    do l <- save fs v;
    do r <- dataset (top_level l);
    if forallb (fun g => agree_below r (snd g)) (sub_sets l) then Some (Tree r (sub_sets l)) else None.

  (** 576-595 _load_recursive: the root ("/") first, then the groups ("/name", the slash is cut off) *)
  Fixpoint load_arrays (l : list (string * A)) (rest : mems A) : mems A :=
    match l with [] => rest | (n, a) :: l' => MCons n (MArr a) (load_arrays l' rest) end.
  Fixpoint load_groups (l : list (string * list (string * A))) : mems A :=
    match l with [] => MNil | (n, s) :: l' => MCons n (MDict (load_arrays s MNil)) (load_groups l') end.
  Definition load (t : tree) : mems A := load_arrays (root t) (load_groups (groups t)).

  Variable copy : Q -> A -> option Q.                        (* quantity.field[:] = array *)
  (** 564-597 *)
  Definition update_from_netcdf (fs : fields) (v : val Q) (t : tree) : val Q * bool := update_copy_memory fs copy v (load t).
End Save.
Arguments tree A : clear implicits.
Arguments saved A : clear implicits.

(** 501-506 _netcdf_name, without the directory *)
Definition decimal (n : nat) : string := NilEmpty.string_of_uint (Nat.to_uint n).
Definition netcdf_name (cls : string) (size rank : nat) (postfix : string) : string :=
  cls ++ (if (1 <? size)%nat then "_rank" ++ decimal rank else "") ++ postfix ++ ".nc4".

(** ** Specification *)
(** the paths of the quantity fields of a class *)
Fixpoint leaves (fs : fields) : list (list string) :=
  match fs with
  | FNil => []
  | FCons n (TQuantity _) fs' => [n] :: leaves fs'
  | FCons n (TState gs) fs' => (map (cons n) (leaves gs) ++ leaves fs')%list
  end.
(** names of the fields of one level; they are distinct at every level *)
Fixpoint names (fs : fields) : list string := match fs with FNil => [] | FCons n _ fs' => n :: names fs' end.
Fixpoint named (fs : fields) : Prop :=
  match fs with FNil => True | FCons n t fs' => ~ In n (names fs') /\ named_ty t /\ named fs' end
with named_ty (t : ty) : Prop := match t with TQuantity _ => True | TState gs => named gs end.
(** only quantities *)
Fixpoint flat (fs : fields) : Prop :=
  match fs with FNil => True | FCons _ (TQuantity _) fs' => flat fs' | FCons _ (TState _) _ => False end.
(** quantities, and states of quantities *)
Fixpoint two_levels (fs : fields) : Prop :=
  match fs with FNil => True | FCons _ (TQuantity _) fs' => two_levels fs' | FCons _ (TState gs) fs' => flat gs /\ two_levels fs' end.
(** the attributes of a state are as the class declares *)
Fixpoint typed {Q} (fs : fields) (v : val Q) : Prop :=
  match fs with
  | FNil => True
  | FCons n t fs' => (exists w, getattr v n = Some w /\ typed_ty t w) /\ typed fs' v
  end
with typed_ty {Q} (t : ty) (w : val Q) : Prop :=
  match t with
  | TQuantity _ => w = VNone \/ exists q, w = VQ q
  | TState gs => (exists f, w = VNode f) /\ typed gs w
  end.
