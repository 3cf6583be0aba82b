(** Model of the rank comparison tool of FrozenStencil: ndsl/dsl/stencil.py, get_pair_rank 233-238 (UtilModel.v),
    compare_ranks 241-255, _convert_quantities_to_storage 613-631 and the calls 430-443.  Left out: arrays of different shapes
    on the two ranks (numpy would broadcast or compare them as a whole); MPI itself, of which is used that the k-th
    comm.sendrecv of a rank is answered by the k-th of its pair. *)
From Verif Require Import Dict Base RanksModel.
Open Scope list_scope.

Section Twin.
  Context {E : Type}.
  Variable isnan : E -> bool.         (* np.isnan of one entry *)
  Variable differs : E -> E -> bool.  (* != of two entries; true if one of them is NaN *)

  (** an argument of a stencil call.  Arrays are given by their entries in C order. *)
  Inductive arg :=
  | Quantity (data : list E)        (* an ndsl Quantity; its _data is a numpy array *)
  | NdArray (data : list E)         (* a numpy array.  Its attribute [data] is a memoryview, not an array *)
  | Wrapper (data : list E)         (* any other object whose attribute [data] is a numpy array, such as an xarray.DataArray *)
  | Plain.                          (* a number, a string, ...: no attribute [data] *)

  (** 613-631: what reaches the comparison.  Every object with an attribute [dims] is replaced by its _data; an
      xarray.DataArray has [dims] but no _data, and is left alone by the except clause. *)
  Definition to_storage (a : arg) : arg := match a with Quantity d => NdArray d | _ => a end.
  (** 247-248: the same replacement for a quantity *)
  Definition unwrap (a : arg) : arg := match a with Quantity d => NdArray d | _ => a end.
  (** 249: hasattr(maybe_array, "data") and isinstance(maybe_array.data, np.ndarray), and then 250: maybe_array.data *)
  Definition compared (a : arg) : option (list E) := match unwrap a with Wrapper d => Some d | _ => None end.

  (** 246: sorted(data.items()) *)
  Definition sorted_items (data : dict arg) : list (string * arg) :=
    flat_map (fun k => match get data k with Some a => [(k, a)] | None => [] end) (fold_left (fun ks kv => insert (fst kv) ks) data []).
  (** the arrays a rank sends, in order, under the names it has for them *)
  Definition exchanged (data : dict arg) : list (string * list E) :=
    flat_map (fun ka => match compared (snd ka) with Some d => [(fst ka, d)] | None => [] end) (sorted_items data).
  (** 252: np.sum(np.logical_and(~np.isnan(array), array != other)) *)
  Fixpoint arr_diffs (array other : list E) : Z :=
    match array, other with
    | x :: array', y :: other' => (if negb (isnan x) && differs x y then 1 else 0) + arr_diffs array' other'
    | _, _ => 0
    end.
  (** 245-255, given the arrays sent by the pair rank, in order; None = the pair makes fewer exchanges (never returns) *)
  Fixpoint compare_loop (mine : list (string * list E)) (theirs : list (list E)) : option (dict Z) :=
    match mine, theirs with
    | [], _ => Some []
    | (name, array) :: mine', other :: theirs' =>
        do rest <- compare_loop mine' theirs';
        let n := arr_diffs array other in
        Some (if n >? 0 then (name, n) :: rest else rest)
    | _ :: _, [] => None
    end.
  Definition compare_ranks (mine theirs : dict arg) : option (dict Z) := compare_loop (exchanged mine) (map snd (exchanged theirs)).
  (** 430-443 and 484-491: the call raises iff there are differences *)
  Definition call_raises (mine theirs : dict arg) : option bool :=
    do differences <- compare_ranks (map (fun ka => (fst ka, to_storage (snd ka))) mine) (map (fun ka => (fst ka, to_storage (snd ka))) theirs);
    Some (match differences with [] => false | _ => true end).

  (** ** Specification *)
  (** the entries of an argument *)
  Definition entries (a : arg) : list E := match a with Quantity d | NdArray d | Wrapper d => d | Plain => [] end.
  (** two arguments of the same kind and size *)
  Definition alike (a b : arg) : Prop :=
    match a, b with
    | Quantity d, Quantity e | NdArray d, NdArray e | Wrapper d, Wrapper e => List.length d = List.length e
    | Plain, Plain => True
    | _, _ => False
    end.
  (** number of positions where my entry is a number and not that of the other *)
  Definition mismatches (d e : list E) : nat := List.length (filter (fun p => negb (isnan (fst p)) && differs (fst p) (snd p)) (combine d e)).
End Twin.
Arguments arg : clear implicits.
