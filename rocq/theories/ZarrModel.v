(** Model of ndsl/monitor/zarr_monitor.py: where each rank of the cubed sphere writes in the global array (_ZarrVariableWriter.append 198-233,
    _get_from_slice 268-273, array_chunks 253-265), and what one rank's ZarrMonitor does with a sequence of states (store 92-104).

    Left out: attributes other than units, transposition to the stored dimension order (176-181), store_constant, time encoding, and zarr itself: an array is
    a function of time, tile and position, chunks matter only for [chunk_sizes]. *)
From Verif Require Import Base Dict PartModel DecompModel NetcdfModel.
From Coq Require Import QArith.
Open Scope Z_scope.

Section Array.
  Variable rnd : Q -> Q.
  Context {A : Type}.
  (** [None]: never written (create_dataset with fill_value=None, 165-171) *)
  Definition array := nat -> Z -> index -> option A.

  (** zarr_monitor.py:161, 209-213: the tile extent of the array, from the extent of rank 0's quantity *)
  Definition tile_shape (l : layout) (dims : list dim) (root_extent : list Z) : list Z := global_extent l dims root_extent.

  (** view[from_slice].shape for from_slice = (slice(0, stop - start), ...) (268-273): numpy clips to the view *)
  Definition clipped (sl : list (Z * Z)) (view_shape : list Z) : list Z :=
    map (fun se => Z.max 0 (Z.min (snd (fst se) - fst (fst se)) (snd se))) (combine sl view_shape).

  (** zarr_monitor.py:216-232: rank [rank] writes its [view] for time index [t].  None = ValueError: subtile_slice raises, or the shapes of the two sides of the
      assignment differ (broadcasting is left out).  The default edge_interior_ratio 1.0 of subtile_slice is used. *)
  Definition write (l : layout) (dims : list dim) (extent : list Z) (view_shape : Z -> list Z) (view : nat -> Z -> index -> A)
      (ar : array) (e : nat * Z) : option array :=
    let '(t, rank) := e in
    do sl <- subtile_slice rnd l 1 rank dims extent false;
    if list_eqb (clipped sl (view_shape rank)) (shape_of sl) then
      Some (fun t' tile p =>
              if Nat.eqb t' t && (tile =? tile_index l rank) && in_slices sl p then Some (view t rank (unshift sl p)) else ar t' tile p)
    else None.
  (** writes in the order they reach the store *)
  Fixpoint write_all (l : layout) (dims : list dim) (extent : list Z) (view_shape : Z -> list Z) (view : nat -> Z -> index -> A)
      (es : list (nat * Z)) (ar : array) : option array :=
    match es with [] => Some ar | e :: es' => do ar' <- write l dims extent view_shape view ar e; write_all l dims extent view_shape view es' ar' end.

  (** zarr_monitor.py:253-265 array_chunks *)
  Fixpoint chunk_sizes (l : layout) (dims : list dim) (extent : list Z) : list Z :=
    match dims, extent with
    | Dim a iface :: dims', e :: extent' => (if iface then (e - 1) / by_dim a l 1 else e / by_dim a l 1) :: chunk_sizes l dims' extent'
    | TILE :: dims', e :: extent' => e / 1 :: chunk_sizes l dims' extent'
    | _, _ => []
    end.
End Array.

Section Store.
  Context {U V : Type}.
  Variable U_eqb : U -> U -> bool.
  (** _ZarrVariableWriter: units of the first quantity (None: array not created yet) and the values at time 0 .. i_time-1 *)
  Definition var_writer := (option U * list V)%type.
  Definition monitor := option (dict var_writer).     (* _writers; None before the first store *)

  (** sorted(state.items(), key=...) (103): insertion sort by name *)
  Fixpoint insert (x : string * (U * V)) (l : dict (U * V)) : dict (U * V) :=
    match l with [] => [x] | y :: l' => if String.leb (fst x) (fst y) then x :: l else y :: insert x l' end.
  Definition sorted (s : dict (U * V)) : dict (U * V) := fold_right insert [] s.

  (** zarr_monitor.py:198-233 (units check 244-250) and 355-367 for the time: the writer afterwards; None = ValueError *)
  Definition append (name : string) (w : var_writer) (q : U * V) : option var_writer :=
    if (name =? "time")%string then Some (fst w, snd w ++ [snd q])
    else match fst w with
         | None => Some (Some (fst q), snd w ++ [snd q])
         | Some u => if U_eqb u (fst q) then Some (Some u, snd w ++ [snd q]) else None
         end.
  (** zarr_monitor.py:103-104, a loop over the items; the flag: it raised, after appending the earlier ones *)
  Fixpoint append_all (items : dict (U * V)) (ws : dict var_writer) : dict var_writer * bool :=
    match items with
    | [] => (ws, false)
    | (n, q) :: items' =>
        match get ws n with
        | None => (ws, true)
        | Some w => match append n w q with None => (ws, true) | Some w' => append_all items' (put ws n w') end
        end
    end.
  (** zarr_monitor.py:55-70 *)
  Definition init_writers (s : dict (U * V)) : dict var_writer :=
    map (fun n => (n, (None, []))) (filter (fun n => negb (n =? "time")%string) (keys s)) ++ [("time"%string, (None, []))].
  (** zarr_monitor.py:86-104 *)
  Definition store (m : monitor) (s : dict (U * V)) : monitor * bool :=
    match m with
    | None => let '(ws, r) := append_all (sorted s) (init_writers s) in (Some ws, r)
    | Some ws => if same_set (keys s) (keys ws) then let '(ws', r) := append_all (sorted s) ws in (Some ws', r) else (m, true)
    end.
  (** the states stored, most recent first, each with whether store raised *)
  Fixpoint store_all (ss : list (dict (U * V))) (m : monitor) (h : list (dict (U * V) * bool)) : monitor * list (dict (U * V) * bool) :=
    match ss with [] => (m, h) | s :: ss' => let '(m', r) := store m s in store_all ss' m' ((s, r) :: h) end.
  (** the accepted states, oldest first *)
  Fixpoint accepted (h : list (dict (U * V) * bool)) : list (dict (U * V)) :=
    match h with [] => [] | (s, false) :: h' => accepted h' ++ [s] | (_, true) :: h' => accepted h' end.
  (** the values stored for variable [n] *)
  Definition values (m : monitor) (n : string) : list V :=
    match m with None => [] | Some ws => match get ws n with Some w => snd w | None => [] end end.
End Store.
