(** Model of the allocation of State and LocalState objects: ndsl/quantity/state.py 57-120 (_init), 160-271 (checks and allocators),
    335-346 (fill), 613-719 (LocalState), ndsl/quantity/local.py 19-43 and ndsl/dsl/ndsl_runtime.py 105-129 (make_local).

    Quantities and the factory are those of AllocModel.v.  A class is the tree of its fields.  Simplified: fields with
    init=False are left out, the data class made from the dictionary (dacite) has its entries; who may read a Local
    (the guards on __getattribute__) is not modelled. *)
From Verif Require Import Base Dict PartModel DecompModel HaloModel GridModel ViewModel AllocModel.

(** the metadata of a field: None where "dims" is missing *)
Record meta := Meta { mdims : list sdim; munits : string; mdtype : dtype }.
Inductive kind := KQuantity | KOptional | KLocal.
Inductive cls := CNil | CCons (n : string) (t : cty) (c : cls)
with cty := CQ (k : kind) (m : option meta) | CState (c : cls) | COther.
(** a state *)
Inductive tree (A : Type) := TNil | TCons (n : string) (x : node A) (t : tree A)
with node (A : Type) := NQ (q : quantity A) (is_local : bool) | NState (t : tree A).
Arguments TNil {A}.
Arguments TCons {A} _ _ _.
Arguments NQ {A} _ _.
Arguments NState {A} _.

Section Make.
  Context {A : Type} (zero one wrong : A).      (* [wrong] is 123456789 *)
  Variable Float : dtype.

  (* local.py 23-43 Local.__init__ from the parts of a quantity, as in state.py 94-103 and ndsl_runtime.py 121-129;
     None = IndexError for an array without axes *)
  Definition local (q : quantity A) (allow : bool) : option (quantity A) :=
    do sel <- whole q;
    do d <- assign (data q) sel (Arr [] (fun _ => wrong) (dt (data q)));
    new_quantity Float d (dims q) (units q) (backend q) (Some (origin q)) (Some (extent q)) allow 0.

  (* ndsl_runtime.py 105-129 make_local *)
  Definition make_local (s : sizer) (b : string) (ds : list sdim) (d : dtype) (u : string) (allow : bool) : option (quantity A) :=
    do q <- zeros zero Float s b ds u d allow; local q allow.

  (* state.py 57-120; [fill] is what the allocator puts into the memory.  None = an exception *)
  Fixpoint init (s : sizer) (b : string) (fill : list Z -> A) (c : cls) : option (tree A) :=
    match c with
    | CNil => Some TNil
    | CCons n t c' =>
        do x <- match t with
                | CState c1 => do t1 <- init s b fill c1; Some (NState t1)
                | CQ _ None => None
                | CQ k (Some m) =>
                    do q <- allocate Float s b fill (mdims m) (munits m) (mdtype m) true;
                    match k with KLocal => do q' <- local q true; Some (NQ q' true) | _ => Some (NQ q false) end
                | COther => None
                end;
        do r <- init s b fill c'; Some (TCons n x r)
    end.

  (* 160-172 _check_no_locals, 614-626 _check_only_locals: is there a field of that kind? *)
  Definition kind_eqb (a b : kind) : bool := match a, b with KQuantity, KQuantity | KOptional, KOptional | KLocal, KLocal => true | _, _ => false end.
  Fixpoint has (k : kind) (c : cls) : bool :=
    match c with
    | CNil => false
    | CCons _ t c' => match t with CState c1 => has k c1 | CQ k' _ => kind_eqb k k' | COther => false end || has k c'
    end.
  (* 135-158: the sizer while the data dimensions are replaced *)
  Definition with_dims (s : sizer) (dd : dict Z) : sizer := mkSizer (nx s) (ny s) (nz s) (n_halo s) dd (fortran s).

  (* 174-244 empty, zeros, ones *)
  Definition allocated (s : sizer) (b : string) (dd : dict Z) (fill : list Z -> A) (c : cls) : option (tree A) :=
    if has KLocal c then None else init (with_dims s dd) b fill c.
  Definition state_empty s b dd (junk : list Z -> A) := allocated s b dd junk.
  Definition state_zeros s b dd := allocated s b dd (fun _ => zero).
  Definition state_ones s b dd := allocated s b dd (fun _ => one).

  (* 335-346 fill: attribute.field[:] = value.  field is a view of the memory: assignment through it is assignment to q.view[:];
     for a quantity without dimensions field is the array itself, and [:] raises *)
  Definition fill_q (q : quantity A) (x : A) : option (quantity A) :=
    do sel <- compute q; setitem q sel (Arr [] (fun _ => x) (dt (data q))).
  Fixpoint fill_tree (t : tree A) (x : A) : option (tree A) :=
    match t with
    | TNil => Some TNil
    | TCons n y r =>
        do y' <- match y with NState u => do u' <- fill_tree u x; Some (NState u') | NQ q l => do q' <- fill_q q x; Some (NQ q' l) end;
        do r' <- fill_tree r x; Some (TCons n y' r')
    end.
  (* 246-271 full *)
  Definition state_full s b dd (junk : list Z -> A) (x : A) (c : cls) : option (tree A) :=
    do t <- state_empty s b dd junk c; fill_tree t x.

  (* 628-650 make_locals *)
  Definition make_locals (s : sizer) (b : string) (dd : dict Z) (junk : list Z -> A) (c : cls) : option (tree A) :=
    if has KQuantity c then None else init (with_dims s dd) b junk c.
  (* 696-701, 710-715: the types of the fields, changed in the class itself *)
  Fixpoint retype (a b : kind) (c : cls) : cls :=
    match c with
    | CNil => CNil
    | CCons n t c' => CCons n (match t with CState c1 => CState (retype a b c1) | CQ k m => CQ (if kind_eqb k a then b else k) m | COther => COther end) (retype a b c')
    end.
  (* 652-719 make_as_state: the class afterwards, and the state unless an exception was raised *)
  Definition make_as_state (s : sizer) (b : string) (dd : dict Z) (junk : list Z -> A) (c : cls) : cls * option (tree A) :=
    if has KQuantity c then (c, None)
    else let c1 := retype KLocal KQuantity c in
         match init (with_dims s dd) b junk c1 with
         | None => (c1, None)
         | Some t => (retype KQuantity KLocal c1, Some t)
         end.
End Make.

(** ** specification *)
Fixpoint declared (c : cls) (p : list string) : option (kind * meta) :=
  match c with
  | CNil => None
  | CCons n t c' =>
      match p with
      | [] => None
      | m :: p' =>
          if (m =? n)%string
          then match t, p' with CQ k (Some x), [] => Some (k, x) | CState c1, _ => declared c1 p' | _, _ => None end
          else declared c' p
      end
  end.
Fixpoint held {A} (t : tree A) (p : list string) : option (quantity A * bool) :=
  match t with
  | TNil => None
  | TCons n x r =>
      match p with
      | [] => None
      | m :: p' =>
          if (m =? n)%string then match x, p' with NQ q l, [] => Some (q, l) | NState u, _ => held u p' | _, _ => None end
          else held r p
      end
  end.
(** every field has its metadata, with known dimensions *)
Fixpoint complete (s : sizer) (c : cls) : Prop :=
  match c with
  | CNil => True
  | CCons _ t c' =>
      match t with
      | CQ _ (Some m) => mdims m <> [] /\ exists ns, map (points s) (mdims m) = map Some ns
      | CQ _ None => False
      | CState c1 => complete s c1
      | COther => False
      end /\ complete s c'
  end.
