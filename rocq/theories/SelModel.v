(** Model of selection by dimension name: ndsl/quantity/quantity.py 229-242 (Quantity.sel) and ndsl/quantity/bounds.py 60-71 (BoundaryArrayView.sel), on the views of
    ViewModel.v and numpy's basic indexing (SyncModel.v: an integer entry drops its axis).

    A quantity is a list of axes (dimension, origin, extent, length of the storage) with a function from indices of the storage to values; keyword arguments are a
    function from dimension names to entries.  Left out: zero-dimensional quantities, and that the result shares its memory with the quantity. *)
From Coq Require Import Permutation.
From Verif Require Import Base PartModel DecompModel HaloModel ViewModel SyncModel.

Section Sel.
  Context {A : Type}.
  Record quantity := mkQuantity { axs : list ax; values : list Z -> A }.
  Definition kwargs := dim -> option entry.

  (** quantity.py:242, bounds.py:71: one entry per dimension, in the order of the dimensions *)
  Definition entries (q : quantity) (kw : kwargs) : list entry :=
    map (fun a => match kw (a_dim a) with Some e => e | None => Slice None None None end) (axs q).

  (** None: q.view (bounds.py:120-168); Some c: the corner or interior view c (bounds.py:29-58).  The addresses along each axis; None = an exception *)
  Definition lookup (c : option corner) (q : quantity) (es : list entry) : option (list (list Z)) :=
    let l := axs q in
    match c with
    | None => view (map a_shape l) (map a_origin l) (map a_extent l) es
    | Some c => corner_view c (map a_dim l) (map a_shape l) (map a_origin l) (map a_extent l) es
    end.
  (** q.sel(kw) and q.view.<corner>.sel(kw): shape and elements of the result *)
  Definition sel (c : option corner) (q : quantity) (kw : kwargs) : option (list Z * (list Z -> A)) :=
    let es := entries q kw in
    do addrs <- lookup c q es;
    Some (kept_shape es addrs, fun p => values q (array_index es addrs p)).

  (** ** Specification *)

  (** the point a slice or index along a dimension counts from, and the one the stop of a slice counts from *)
  Definition from_ (c : option corner) (a : ax) : Z := match c with None => 0 | Some c => corner_ref c (a_dim a) (a_extent a) end.
  Definition until (c : option corner) (a : ax) : Z := match c with None => 0 | Some c => corner_stop c (a_dim a) (a_extent a) end.
  (** the points asked for along an axis, counted from the start of the compute domain; without an argument, the compute domain *)
  Definition wanted (c : option corner) (kw : kwargs) (a : ax) : list Z :=
    match kw (a_dim a) with
    | None => zrange 0 (a_extent a)
    | Some e => selected (a_origin a) (a_extent a) (a_shape a) (from_ c a) (until c a) e
    end.
  (** dimensions given by a number are not in the result *)
  Definition by_number (kw : kwargs) (a : ax) : bool := match kw (a_dim a) with Some (Int _) => true | _ => false end.
  Definition result_axes (kw : kwargs) (q : quantity) : list ax := filter (fun a => negb (by_number kw a)) (axs q).
  (** a quantity and arguments for it: a storage that has the compute domain, and entries that stay inside and step forward *)
  Definition proper (c : option corner) (q : quantity) (kw : kwargs) : Prop :=
    Forall (fun a => ax_ok a /\ match kw (a_dim a) with Some e => inside (a_origin a) (a_extent a) (a_shape a) (from_ c a) (until c a) e | None => True end) (axs q).
  (** the value at the point with the given coordinate (from the start of the compute domain) along each axis *)
  Definition at_point (q : quantity) (h : ax -> Z) : A := values q (map (fun a => a_origin a + h a) (axs q)).
  (** one is the other with its dimensions in another order *)
  Definition reordered (q r : quantity) : Prop := Permutation (axs q) (axs r) /\ forall h, at_point q h = at_point r h.
End Sel.
Arguments quantity : clear implicits.
