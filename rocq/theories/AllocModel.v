(** Model of the quantities that a QuantityFactory makes: ndsl/initialization/allocator.py 61-242; the constructor of Quantity and its
    xarray form, ndsl/quantity/quantity.py 31-184, 201-208, 256-274, 327-355, 495-505, 521-537; ndsl/io.py 22-77.

    An array is a shape, a function from index tuples and an element type.  The sizer is that of GridModel.v, the view that of
    ViewModel.v.  Left out: devices and memory layout (a copy into another layout has the same values), sharing of memory. *)
From Verif Require Import Base Dict PartModel DecompModel HaloModel GridModel ViewModel.

(** element types; only floating point types are told apart by the code *)
Inductive dtype := Float16 | Float32 | Float64 | Other (name : string).
Definition dtype_eqb (a b : dtype) : bool :=
  match a, b with
  | Float16, Float16 | Float32, Float32 | Float64, Float64 => true
  | Other x, Other y => String.eqb x y
  | _, _ => false
  end.
(** ndsl/dsl/typing.py 127-135 is_float *)
Definition is_float (d : dtype) : bool := match d with Other _ => false | _ => true end.

Definition sdim_dec (a b : sdim) : {a = b} + {a <> b}.
Proof. repeat decide equality. Defined.

Record arr (A : Type) := Arr { shape : list Z; elt : list Z -> A; dt : dtype }.
Arguments Arr {A} _ _ _.
Arguments shape {A} _.
Arguments elt {A} _ _.
Arguments dt {A} _.

(** ** numpy: a[selection] = v *)
(** may an array of shape [v] be assigned to one of shape [t]?  The last axes are matched first; lists are reversed *)
Fixpoint fits_rev (v t : list Z) : bool :=
  match v, t with
  | [], _ => true
  | n :: v', m :: t' => ((n =? 1) || (n =? m)) && fits_rev v' t'
  | n :: v', [] => (n =? 1) && fits_rev v' []
  end.
Definition fits (v t : list Z) : bool := fits_rev (rev v) (rev t).
(** the element of an array of shape [v] that goes to position [p] *)
Fixpoint spread_rev (v p : list Z) : list Z :=
  match v, p with
  | [], _ => []
  | n :: v', i :: p' => (if n =? 1 then 0 else i) :: spread_rev v' p'
  | _ :: v', [] => 0 :: spread_rev v' []
  end.
Definition spread (v p : list Z) : list Z := rev (spread_rev (rev v) (rev p)).
(** where address [i] is in a list of addresses *)
Fixpoint index_of (i : Z) (l : list Z) : option Z :=
  match l with [] => None | j :: l' => if i =? j then Some 0 else do k <- index_of i l'; Some (k + 1) end.
Fixpoint locate (sel : list (list Z)) (p : list Z) : option (list Z) :=
  match sel, p with
  | [], [] => Some []
  | l :: sel', i :: p' => do k <- index_of i l; do r <- locate sel' p'; Some (k :: r)
  | _, _ => None
  end.
Definition lens (sel : list (list Z)) : list Z := map (fun l => Z.of_nat (length l)) sel.
(** None = ValueError *)
Definition assign {A} (a : arr A) (sel : list (list Z)) (v : arr A) : option (arr A) :=
  if fits (shape v) (lens sel)
  then Some (Arr (shape a) (fun p => match locate sel p with Some k => elt v (spread (shape v) k) | None => elt a p end) (dt a))
  else None.
(** a[selection], selections by slices only *)
Definition take {A} (a : arr A) (sel : list (list Z)) : arr A :=
  Arr (lens sel) (fun p => elt a (map (fun '(l, i) => nth (Z.to_nat i) l 0) (combine sel p))) (dt a).
Definition colon : list entry := [Slice None None None].

(** ** Quantity *)
Record quantity (A : Type) := Quantity {
  data : arr A; dims : list sdim; units : string; origin : list Z; extent : list Z; nhalo : Z; backend : string;
  attrs : dict string }.
Arguments Quantity {A} _ _ _ _ _ _ _ _.
Arguments data {A} _.
Arguments dims {A} _.
Arguments units {A} _.
Arguments origin {A} _.
Arguments extent {A} _.
Arguments nhalo {A} _.
Arguments backend {A} _.
Arguments attrs {A} _.

Section Make.
  Context {A : Type} (zero one : A).
  (* the floating point type that NDSL is configured for *)
  Variable Float : dtype.

  (* quantity.py 31-145, 495-505 _validate_quantity_property_lengths; None = ValueError *)
  Definition new_quantity (d : arr A) (ds : list sdim) (u : string) (b : string) (o : option (list Z)) (e : option (list Z))
      (allow : bool) (nh : Z) : option (quantity A) :=
    if negb allow && is_float (dt d) && negb (dtype_eqb (dt d) Float) then None
    else
      let o := match o with Some o => o | None => map (fun _ => 0) ds end in
      let e := match e with Some e => e | None => map (fun '(n, i) => n - i) (combine (shape d) o) end in
      let n := length (shape d) in
      if (length ds =? n)%nat && (length o =? n)%nat && (length e =? n)%nat then Some (Quantity d ds u o e nh b []) else None.

  (* a QuantityFactory: its sizer and its backend *)
  Variable s : sizer.
  Variable b : string.

  (* allocator.py 176-215 _allocate; None = KeyError for an unknown dimension, ValueError for a negative size *)
  Definition allocate (fill : list Z -> A) (ds : list sdim) (u : string) (d : dtype) (allow : bool) : option (quantity A) :=
    do e <- get_extent s ds;
    do sh <- get_shape s ds;
    if existsb (fun n => n <? 0) sh then None
    else new_quantity (Arr sh fill d) ds u b (Some (get_origin s ds)) (Some e) allow (n_halo s).
  (* 61-74 empty; [junk] is what memory happens to hold *)
  Definition empty (junk : list Z -> A) := allocate junk.
  (* 76-89 zeros, 91-104 ones *)
  Definition zeros := allocate (fun _ => zero).
  Definition ones := allocate (fun _ => one).

  (* q[idx] = v: quantity.py 353-355 *)
  Definition setitem (q : quantity A) (sel : list (list Z)) (v : arr A) : option (quantity A) :=
    do d <- assign (data q) sel v;
    Some (Quantity d (dims q) (units q) (origin q) (extent q) (nhalo q) (backend q) (attrs q)).
  (* the addresses of q[:] and q.view[:] (bounds.py 145-167) *)
  Definition whole (q : quantity A) : option (list (list Z)) := resolve (shape (data q)) colon.
  Definition compute (q : quantity A) : option (list (list Z)) := view (shape (data q)) (origin q) (extent q) colon.

  (* 106-126 full; a number is an array without axes; its conversion to dtype is left out *)
  Definition full (junk : list Z -> A) (ds : list sdim) (u : string) (value : A) (d : dtype) (allow : bool) : option (quantity A) :=
    do q <- empty junk ds u d allow;
    do sel <- whole q; setitem q sel (Arr [] (fun _ => value) d).
  (* 128-149 from_array *)
  Definition from_array (a : arr A) (ds : list sdim) (u : string) (allow : bool) : option (quantity A) :=
    do q <- zeros ds u (dt a) allow;
    do sel <- whole q; setitem q sel a.
  (* 151-174 from_compute_array *)
  Definition from_compute_array (a : arr A) (ds : list sdim) (u : string) (allow : bool) : option (quantity A) :=
    do q <- zeros ds u (dt a) allow;
    do sel <- compute q; setitem q sel a.

  (* 217-242 get_quantity_halo_spec, quantity.py 201-208: Some n = a specification for n halo points *)
  Definition get_quantity_halo_spec (ds : list sdim) (n : option Z) (d : dtype) : option Z :=
    do q <- zeros ds ""%string d false;
    let n := match n with Some n => n | None => n_halo s end in
    if nhalo q <? n then None else Some n.

  (* ** xarray.  A DataArray: values, dimension names, attributes *)
  Record data_array := DataArray { values : arr A; da_dims : list sdim; da_attrs : dict string }.
  (* quantity.py 256-260 attrs; None = TypeError: a keyword given twice *)
  Definition all_attrs (q : quantity A) : option (dict string) :=
    match get (attrs q) "units"%string, get (attrs q) "backend"%string with
    | None, None => Some (attrs q ++ [("units"%string, units q); ("backend"%string, backend q)])
    | _, _ => None
    end.
  (* 272-274 field, 327-334 field_as_xarray; a quantity without dimensions gives its array (bounds.py 133-143) *)
  Definition field (q : quantity A) : option (arr A) :=
    match origin q with [] => Some (data q) | _ => do sel <- compute q; Some (take (data q) sel) end.
  Definition field_as_xarray (q : quantity A) : option data_array :=
    do f <- field q; do t <- all_attrs q; Some (DataArray f (dims q) t).
  (* 336-343 data_as_xarray *)
  Definition data_as_xarray (q : quantity A) : option data_array :=
    do t <- all_attrs q; Some (DataArray (data q) (dims q) t).
  (* 521-537 _resolve_backend; [known] are the names that config/backend.py 41-55 lists; None = ValueError *)
  Variable known : list string.
  Variable python : string.
  Definition resolve_backend (d : data_array) (forced : option string) : option string :=
    match forced with
    | Some x => Some x
    | None => match get (da_attrs d) "backend"%string with
              | Some x => if in_dec string_dec x known then Some x else None
              | None => Some python
              end
    end.
  (* 147-184 from_data_array *)
  Definition from_data_array (d : data_array) (o e : option (list Z)) (nh : Z) (forced : option string) (allow : bool) : option (quantity A) :=
    do x <- resolve_backend d forced;
    new_quantity (values d) (da_dims d) (match get (da_attrs d) "units"%string with Some u => u | None => "unknown"%string end) x o e allow nh.
  (* ** ndsl/io.py.  A state is a dictionary of quantities, with or without a time (of any type) *)
  Context {T : Type}.
  Record state := State { vars : list (string * quantity A); time : option T }.
  (* an xarray.Dataset, which a NetCDF file gives back as it was written.  Simplified: no variable has the name of a dimension *)
  Record dataset := Dataset { data_vars : list (string * data_array); ds_time : option T }.
  (* xarray: a dimension has one size in all variables; otherwise ValueError *)
  Definition sized (l : list (string * data_array)) : list (sdim * Z) :=
    flat_map (fun x => combine (da_dims (snd x)) (shape (values (snd x)))) l.
  Definition consistent (l : list (sdim * Z)) : bool :=
    forallb (fun x => forallb (fun y => if sdim_dec (fst x) (fst y) then snd x =? snd y else true) l) l.
  (* 22-28 to_xarray_dataset *)
  Definition to_xarray_dataset (st : state) : option dataset :=
    do l <- all_some (map (fun x => do d <- data_as_xarray (snd x); Some (fst x, d)) (vars st));
    if consistent (sized l) then Some (Dataset l (time st)) else None.
  (* 31-42 write_state: the content of the file *)
  Definition write_state (st : state) : option dataset :=
    match time st with None => None | Some _ => to_xarray_dataset st end.
  (* 60-77 read_state *)
  Definition read_state (f : dataset) : option state :=
    do l <- all_some (map (fun x => do q <- from_data_array (snd x) None None 0 None false; Some (fst x, q)) (data_vars f));
    Some (State l (ds_time f)).
End Make.

(** ** specification *)
(** the number of points of the compute domain along a dimension; None = a dimension that the factory does not know *)
Definition points (s : sizer) (d : sdim) : option Z :=
  match d with
  | H AI false => Some (nx s) | H AI true => Some (nx s + 1)
  | H AJ false => Some (ny s) | H AJ true => Some (ny s + 1)
  | H AV false => Some (nz s) | H AV true => Some (nz s + 1)
  | Data n => get (data_dims s) n
  end.
(** the number of halo points before it *)
Definition before (s : sizer) (d : sdim) : Z := match d with H AI _ | H AJ _ => n_halo s | _ => 0 end.
(** the number of points after it: the halo, and one more where the size of an interface field is wanted *)
Definition behind (s : sizer) (d : sdim) : Z :=
  match d with
  | Data _ => 0
  | H a i => before s d + (if i then 0 else if fortran s then 0 else 1)
  end.
Definition sizes_ok (s : sizer) : Prop :=
  0 <= nx s /\ 0 <= ny s /\ 0 <= nz s /\ 0 <= n_halo s /\ forall n x, get (data_dims s) n = Some x -> 0 <= x.
(** index tuples of an array with sizes [ns] *)
Definition within (ns p : list Z) : Prop := Forall2 (fun n i => 0 <= i < n) ns p.
Definition plus (p q : list Z) : list Z := map (fun '(x, y) => x + y) (combine p q).
(** the same but for the attributes that the user gave *)
Definition same_but_attrs {A} (p q : quantity A) : Prop :=
  data p = data q /\ dims p = dims q /\ units p = units q /\ origin p = origin q /\ extent p = extent q /\ nhalo p = nhalo q /\ backend p = backend q.
(** the same shape, type and elements *)
Definition same_arr {A} (a c : arr A) : Prop := shape a = shape c /\ dt a = dt c /\ forall i, within (shape a) i -> elt a i = elt c i.
(** a quantity that the constructor accepts *)
Definition well_made {A} (q : quantity A) : Prop :=
  length (dims q) = length (shape (data q)) /\ length (origin q) = length (shape (data q)) /\ length (extent q) = length (shape (data q)).
(** may data of that type become a quantity? *)
Definition precision_ok (Float d : dtype) (allow : bool) : Prop := allow = true \/ d = Float \/ exists n, d = Other n.
