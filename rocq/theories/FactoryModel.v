(** Model of the data dimension tables of quantity factories: ndsl/initialization/allocator.py:26-59 (update_data_dimensions,
    add_data_dimensions), ndsl/initialization/subtile_grid_sizer.py:129-175 (lookup of a dimension),
    ndsl/quantity/state.py:135-158 (_FactorySwapDimensionsDefinitions, around every State allocator, 174-333) and
    ndsl/quantity/field_bundle.py:119-137 (extend_3D_quantity_factory).

    A factory holds a reference to a sizer, a sizer holds a reference to a dictionary object (its data_dimensions).  References
    are numbers: position in the lists below.  Simplified: every sizer is created with a dictionary of its own, and the
    dictionary given to a State allocator is not at the same time the table of some sizer. *)
From Verif Require Import Base Dict.
Local Open Scope nat_scope.

Record heap := mkHeap {
  dicts : list (dict Z);      (* the dictionary objects *)
  sizers : list nat;                 (* sizer -> the dictionary its data_dimensions refers to *)
  facs : list nat }.                 (* factory -> its sizer *)

(** What a program does with factories.  [Seq], [Fail] stand for the code between the calls: a sequence stops at the first
    exception. *)
Inductive prog :=
| Skip
| Fail                                          (* user code, dacite, _init (78-103) ... raises *)
| Seq (p q : prog)
| NewFactory (d : dict Z)                (* a sizer with table d and a factory for it *)
| Update (f : nat) (d : dict Z)          (* factory.update_data_dimensions(d) *)
| Add (f : nat) (d : dict Z)             (* factory.add_data_dimensions(d) *)
| Extend (f : nat) (d : dict Z)          (* FieldBundle.extend_3D_quantity_factory(factory, d) *)
| Alloc (f : nat) (dims : list string)          (* factory.zeros/ones/empty(dims, ...) *)
| With (f : nat) (d : dict Z) (p : prog) (* with cls._FactorySwapDimensionsDefinitions(factory, d): p *)
| Try (p : prog).                               (* the caller catches the exception *)

Definition sizer_of (h : heap) (f : nat) : nat := nth f (facs h) 0.
Definition table_ref (h : heap) (f : nat) : nat := nth (sizer_of h f) (sizers h) 0.
(** factory.sizer.data_dimensions *)
Definition table (h : heap) (f : nat) : dict Z := nth (table_ref h f) (dicts h) [].

Fixpoint set_nth {A} (l : list A) (n : nat) (x : A) : list A :=
  match l, n with
  | [], _ => []
  | _ :: l', O => x :: l'
  | y :: l', S n' => y :: set_nth l' n' x
  end.

Section Exec.
  (** extents of the six x/y/z dimensions, subtile_grid_sizer.py:131-141 *)
  Variable spatial : dict Z.
  (** the dictionary get_extent looks dimensions up in; subtile_grid_sizer.py:131-153 *)
  Definition lookup (t : dict Z) (d : string) : option Z :=
    match get spatial d with Some v => Some v | None => get t d end.
  Fixpoint lookups (t : dict Z) (dims : list string) : option (list Z) :=
    match dims with
    | [] => Some []
    | d :: dims' =>
        match lookup t d, lookups t dims' with Some v, Some vs => Some (v :: vs) | _, _ => None end
    end.

  (** allocator.py:39 *)
  Definition do_update (h : heap) (f : nat) (d : dict Z) : heap :=
    mkHeap (set_nth (dicts h) (table_ref h f) (update (table h f) d)) (sizers h) (facs h).
  (** allocator.py:52-57 *)
  Definition clash (h : heap) (f : nat) (d : dict Z) : bool :=
    existsb (fun n => existsb (fun m => (n =? m)%string) (keys (table h f))) (keys d).

  (** a name that refers to no factory yet: NameError *)
  Definition dead (h : heap) (f : nat) : bool := Nat.leb (length (facs h)) f.

  (** heap, extents of the quantities allocated so far, raised *)
  Fixpoint exec (p : prog) (h : heap) (out : list (list Z)) : heap * list (list Z) * bool :=
    match p with
    | Skip => (h, out, false)
    | Fail => (h, out, true)
    | Seq p q => let '(h1, out1, r) := exec p h out in if r then (h1, out1, true) else exec q h1 out1
    | NewFactory d =>
        (mkHeap (dicts h ++ [d]) (sizers h ++ [length (dicts h)]) (facs h ++ [length (sizers h)]), out, false)
    | Update f d => if dead h f then (h, out, true) else (do_update h f d, out, false)               (* allocator.py:28-39 *)
    | Add f d =>                                                                                     (* allocator.py:41-59 *)
        if dead h f || clash h f d then (h, out, true) else (do_update h f d, out, false)
    | Extend f d =>                                             (* copy.copy shares the sizer; field_bundle.py:131-137 *)
        if dead h f then (h, out, true) else
        let h1 := mkHeap (dicts h) (sizers h) (facs h ++ [sizer_of h f]) in
        let f1 := length (facs h) in
        if clash h1 f1 d then (h, out, true) else (do_update h1 f1 d, out, false)
    | Alloc f dims =>                                                                                (* allocator.py:176-215 *)
        if dead h f then (h, out, true) else
        match lookups (table h f) dims with Some e => (h, out ++ [e], false) | None => (h, out, true) end
    | With f d p =>
        if dead h f then (h, out, true) else
        let s := sizer_of h f in
        let original := nth s (sizers h) 0 in                                                        (* state.py:149 *)
        let h1 := mkHeap (dicts h ++ [d]) (set_nth (sizers h) s (length (dicts h))) (facs h) in      (* state.py:150 *)
        let '(h2, out2, r) := exec p h1 out in
        (mkHeap (dicts h2) (set_nth (sizers h2) s original) (facs h2), out2, r)                      (* state.py:158 *)
    | Try p => let '(h1, out1, _) := exec p h out in (h1, out1, false)
    end.
End Exec.

Definition start : heap := mkHeap [] [] [].
