(** Model of ndsl/halo/updater.py VectorInterfaceHaloUpdater (367-544): synchronization of the shared edges of a C-grid vector.

    A rank's component is a list of axes (ViewModel: dimension, origin, extent, length) and a function from index tuples to
    values.  Sent buffers are copies made when a rank starts, and a rank writes only its own arrays, in [wait], after its own
    start: hence the result does not depend on the interleaving of the ranks and is given rank by rank.  Left out: buffers
    from the pool (PoolModel), device copies, timers, the tag (always 1), MPI itself: a receive gets the first unreceived
    message from its source (messages between two ranks keep their order). *)
From Verif Require Import Base PartModel DecompModel HaloModel ViewModel.

Definition dim_eqb (d e : dim) : bool :=
  match d, e with
  | TILE, TILE => true
  | Dim a i, Dim b j => match a, b with AI, AI | AJ, AJ | AV, AV => Bool.eqb i j | _, _ => false end
  | _, _ => false
  end.

(** constants.py I_DIM, J_INTERFACE_DIM, J_DIM, I_INTERFACE_DIM *)
Definition I_DIM := Dim AI false.
Definition J_INTERFACE_DIM := Dim AJ true.
Definition J_DIM := Dim AJ false.
Definition I_INTERFACE_DIM := Dim AI true.

Definition has_dim (d : dim) (axs : list ViewModel.ax) : bool := existsb (fun a => dim_eqb (a_dim a) d) axs.
(** updater.py:351-364 on_c_grid *)
Definition on_c_grid (x y : list ViewModel.ax) : bool :=
  if negb (has_dim I_DIM x) || negb (has_dim J_INTERFACE_DIM x) then false
  else if negb (has_dim J_DIM y) || negb (has_dim I_INTERFACE_DIM y) then false
  else true.

(** quantity.extent[quantity.dims.index(d)]; None = ValueError *)
Definition extent_of (d : dim) (axs : list ViewModel.ax) : option Z :=
  option_map a_extent (find (fun a => dim_eqb (a_dim a) d) axs).

(** bounds.py:60-71 sel(across=z, along=slice(0, n)): the index tuple, one entry per dimension *)
Definition sel_entries (along across : dim) (z n : Z) (axs : list ViewModel.ax) : list entry :=
  map (fun a => if dim_eqb (a_dim a) across then Int z
                else if dim_eqb (a_dim a) along then Slice (Some 0) (Some n) None
                else Slice None None None) axs.

(** numpy basic indexing: integer entries drop their axis.  Shape of the result, and the array index of a point of it. *)
Fixpoint kept_shape (es : list entry) (addrs : list (list Z)) : list Z :=
  match es, addrs with
  | Int _ :: es', _ :: addrs' => kept_shape es' addrs'
  | _ :: es', l :: addrs' => Z.of_nat (length l) :: kept_shape es' addrs'
  | _, _ => []
  end.
Fixpoint array_index (es : list entry) (addrs : list (list Z)) (p : index) : index :=
  match es, addrs with
  | Int _ :: es', l :: addrs' => hd 0 l :: array_index es' addrs' p
  | _ :: es', l :: addrs' => nth (Z.to_nat (hd 0 p)) l 0 :: array_index es' addrs' (tl p)
  | _, _ => []
  end.

(** view.<corner>.sel(...): entries and addresses *)
Definition edge_sel (c : corner) (along across : dim) (z : Z) (axs : list ViewModel.ax) : option (list entry * list (list Z)) :=
  do n <- extent_of along axs;
  do addrs <- corner_view c (map a_dim axs) (map a_shape axs) (map a_origin axs) (map a_extent axs) (sel_entries along across z n axs);
  Some (sel_entries along across z n axs, addrs).

Section Values.
  Context {A : Type}.
  Variable neg : A -> A.

  (** the selected data, as an array *)
  Definition edge_read (c : corner) (along across : dim) (z : Z) (axs : list ViewModel.ax) (f : index -> A)
    : option (list Z * (index -> A)) :=
    do s <- edge_sel c along across z axs;
    Some (kept_shape (fst s) (snd s), fun p => f (array_index (fst s) (snd s) p)).

  (** Buffer.assign_to(view): element by element in C order; None = the message does not fill the buffer *)
  Definition store (f : index -> A) (k : index) (v : A) : index -> A := fun p => if list_eq_dec Z.eq_dec p k then v else f p.
  Definition edge_write (c : corner) (along across : dim) (z : Z) (axs : list ViewModel.ax) (f : index -> A) (m : list A)
    : option (index -> A) :=
    do s <- edge_sel c along across z axs;
    let shape := kept_shape (fst s) (snd s) in
    if Z.of_nat (length m) =? prod shape then
      Some (fold_left (fun g qv => store g (array_index (fst s) (snd s) (fst qv)) (snd qv)) (combine (indices shape) m) f)
    else None.

  (** updater.py:425-468 _Isend_vector_shared_boundary: destinations and buffers; None = an exception (also 408-409) *)
  Definition shared_sends (south west : boundary) (x y : list ViewModel.ax) (fx fy : index -> A) : option (list (Z * list A)) :=
    if negb (on_c_grid x y) then None
    else
      do south_data <- edge_read SW I_DIM J_INTERFACE_DIM 0 x fx;
      let south_data := rotate_scalar south_data [I_DIM] (- b_rot south) in
      let south_data := if (b_rot south =? 3) || (b_rot south =? 2) then neg_arr neg south_data else south_data in
      do west_data <- edge_read SW J_DIM I_INTERFACE_DIM 0 y fy;
      let west_data := rotate_scalar west_data [J_DIM] (- b_rot west) in
      let west_data := if (b_rot west =? 1) || (b_rot west =? 2) then neg_arr neg west_data else west_data in
      Some [(b_to south, flatten south_data); (b_to west, flatten west_data)].

  (** messages from one rank to another, in order *)
  Definition inbox (sent : list (Z * list A)) (dest : Z) : list (list A) := map snd (filter (fun m => fst m =? dest) sent).

  (** self.boundaries[bt]; None = KeyError *)
  Definition edge_of (bd : btype -> Z -> option (option boundary)) (bt : btype) (r : Z) : option boundary :=
    match bd bt r with Some (Some b) => Some b | _ => None end.

  (** what rank r sends *)
  Definition rank_sends (bd : btype -> Z -> option (option boundary)) (x y : Z -> list ViewModel.ax) (fx fy : Z -> index -> A) (r : Z)
    : option (list (Z * list A)) :=
    do south <- edge_of bd SOUTH r;
    do west <- edge_of bd WEST r;
    shared_sends south west (x r) (y r) (fx r) (fy r).

  (** updater.py:394-423, 480-515 and 330-348: the components of rank r after wait(); None = an exception, or a receive
      without a matching message *)
  Definition synchronize (bd : btype -> Z -> option (option boundary)) (x y : Z -> list ViewModel.ax) (fx fy : Z -> index -> A) (r : Z)
    : option ((index -> A) * (index -> A)) :=
    do _ <- rank_sends bd x y fx fy r;
    do north <- edge_of bd NORTH r;
    do east <- edge_of bd EAST r;
    do from_north <- rank_sends bd x y fx fy (b_to north);
    do from_east <- rank_sends bd x y fx fy (b_to east);
    do north_msg <- nth_error (inbox from_north r) 0;
    do east_msg <- nth_error (inbox from_east r) (if b_to east =? b_to north then 1 else 0);
    do fx' <- edge_write NW I_DIM J_INTERFACE_DIM (-1) (x r) (fx r) north_msg;
    do fy' <- edge_write SE J_DIM I_INTERFACE_DIM (-1) (y r) (fy r) east_msg;
    Some (fx', fy').

  (** communicator.py:735-762 TileCommunicator.start_synchronize_vector_interfaces; None also = NotImplementedError *)
  Definition tile_synchronize (l : layout) (x y : Z -> list ViewModel.ax) (fx fy : Z -> index -> A) (r : Z)
    : option ((index -> A) * (index -> A)) :=
    if (fst l <? 3) || (snd l <? 3) then None
    else synchronize (fun bt r => Some (Some (tile_boundary l bt r))) x y fx fy r.
End Values.

(** ** specification *)

(** Axes of a component: one axis along the edge, one across it (staggered), the others vertical; the axis along the edge
    comes before the vertical ones. *)
Definition edge_axes (along across : dim) (axs : list ViewModel.ax) (len lines : Z) (levels : list Z) : Prop :=
  exists pre post a b vs, axs = pre ++ b :: post /\ pre ++ post = a :: vs /\
    a_dim a = along /\ a_dim b = across /\ a_extent a = len /\ a_extent b = lines /\
    Forall (fun v => match a_dim v with Dim AV _ => True | _ => False end) vs /\ map a_extent vs = levels /\
    Forall ax_ok axs.

(** Points of the compute domain. *)
Definition in_domain (axs : list ViewModel.ax) (p : index) : Prop :=
  Forall2 (fun a x => a_origin a <= x < a_origin a + a_extent a) axs p.
(** Position along a dimension, counted from the origin, and along the vertical dimensions. *)
Fixpoint pos (d : dim) (axs : list ViewModel.ax) (p : index) : Z :=
  match axs, p with
  | a :: axs', x :: p' => if dim_eqb (a_dim a) d then x - a_origin a else pos d axs' p'
  | _, _ => 0
  end.
Fixpoint level (axs : list ViewModel.ax) (p : index) : list Z :=
  match axs, p with
  | a :: axs', x :: p' =>
      match a_dim a with Dim AV _ => x - a_origin a :: level axs' p' | _ => level axs' p' end
  | _, _ => []
  end.
