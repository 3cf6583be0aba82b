(** Model of halo regions, data rotation and CPU packing:
    ndsl/comm/_boundary_utils.py, ndsl/comm/boundary.py, ndsl/halo/rotate.py, ndsl/halo/data_transformer.py (CPU) and
    the message exchange of ndsl/halo/updater.py HaloUpdater.

    Arrays of any number of dimensions are functions from index tuples; [list dim] names the dimensions (DecompModel).
    Values are of an arbitrary type [A]; for vectors a negation on [A] is given.  Memory (buffers from the pool, device
    copies) is not represented: a packed buffer is the list of values it holds. *)
From Verif Require Import Base PartModel DecompModel.
Open Scope Z_scope.

(** _boundary_utils.py:123-152 boundary_at_start_of_dim and its mapping *)
Definition at_start (b : btype) (d : dim) : option bool :=
  match d with
  | Dim AI _ =>
      match b with
      | WEST | NORTHWEST | SOUTHWEST => Some true
      | EAST | NORTHEAST | SOUTHEAST => Some false
      | _ => None
      end
  | Dim AJ _ =>
      match b with
      | SOUTH | SOUTHWEST | SOUTHEAST => Some true
      | NORTH | NORTHWEST | NORTHEAST => Some false
      | _ => None
      end
  | _ => None
  end.

(** _boundary_utils.py:86-119, one dimension; None = IndexError *)
Definition boundary_slice1 (d : dim) (origin extent shape : Z) (b : btype) (n : Z) (interior : bool) : option (Z * Z) :=
  let overlap := match d with Dim _ true => 1 | _ => 0 end in
  let '(start, stop) :=
    match at_start b d with
    | None => (origin, origin + extent)
    | Some true =>
        if interior then (origin + overlap, origin + overlap + n) else (origin - n, origin)
    | Some false =>
        if interior then (origin + extent - overlap - n, origin + extent - overlap)
        else (origin + extent, origin + extent + n)
    end in
  if start <? 0 then None else if shape <? stop then None else Some (start, stop).

(** quantity/quantity.py:201-220, halo/... QuantityHaloSpec: memory description of one quantity (strides: GpuModel) *)
Record spec := mkSpec { sp_dims : list dim; sp_origin : list Z; sp_extent : list Z; sp_shape : list Z; sp_n : Z }.

(** _boundary_utils.py:75-120 get_boundary_slice: zip over dims, origin, extent, shape (stops at the shortest) *)
Fixpoint boundary_slice (dims : list dim) (origin extent shape : list Z) (b : btype) (n : Z) (interior : bool)
  : option (list (Z * Z)) :=
  match dims, origin, extent, shape with
  | d :: dims', o :: origin', e :: extent', s :: shape' =>
      do x <- boundary_slice1 d o e s b n interior;
      do rest <- boundary_slice dims' origin' extent' shape' b n interior;
      Some (x :: rest)
  | _, _, _, _ => Some []
  end.

(** boundary.py:39-61, 106-117 send_slice / recv_slice *)
Definition send_slice (b : btype) (s : spec) : option (list (Z * Z)) :=
  boundary_slice (sp_dims s) (sp_origin s) (sp_extent s) (sp_shape s) b (sp_n s) true.
Definition recv_slice (b : btype) (s : spec) : option (list (Z * Z)) :=
  boundary_slice (sp_dims s) (sp_origin s) (sp_extent s) (sp_shape s) b (sp_n s) false.

(** ** numpy on index tuples *)
Fixpoint upd (l : list Z) (k : nat) (v : Z) : list Z :=
  match l, k with
  | [], _ => []
  | _ :: l', O => v :: l'
  | x :: l', S k' => x :: upd l' k' v
  end.

(** np.rot90(m, axes=(a, b)) = transpose(flip(m, b)): R[a=i, b=j] = m[a=j, b=len_b-1-i] *)
Definition rot90 {A} (m : list Z * (index -> A)) (a b : nat) : list Z * (index -> A) :=
  let '(s, f) := m in
  (upd (upd s a (nth b s 0)) b (nth a s 0),
   fun p => f (upd (upd p a (nth b p 0)) b (nth b s 0 - 1 - nth a p 0))).

(** np.flip(m, axis=a) *)
Definition flip {A} (m : list Z * (index -> A)) (a : nat) : list Z * (index -> A) :=
  let '(s, f) := m in (s, fun p => f (upd p a (nth a s 0 - 1 - nth a p 0))).

Definition is_i_dim (d : dim) : bool := match d with Dim AI _ => true | _ => false end.
Definition is_j_dim (d : dim) : bool := match d with Dim AJ _ => true | _ => false end.

(** rotate.py:9-14: the loop leaves the last matching position *)
Fixpoint last_pos (p : dim -> bool) (dims : list dim) (i : nat) (acc : option nat) : option nat :=
  match dims with
  | [] => acc
  | d :: dims' => last_pos p dims' (S i) (if p d then Some i else acc)
  end.
Definition x_dim (dims : list dim) : option nat := last_pos is_i_dim dims 0 None.
Definition y_dim (dims : list dim) : option nat := last_pos is_j_dim dims 0 None.

(** rotate.py:27-33: reverse every horizontal dimension *)
Fixpoint reverse_horizontal (dims : list dim) (s p : list Z) : list Z :=
  match dims, s, p with
  | d :: dims', n :: s', x :: p' =>
      (if is_i_dim d || is_j_dim d then n - 1 - x else x) :: reverse_horizontal dims' s' p'
  | _, _, _ => p
  end.

(** rotate.py:4-34 rotate_scalar_data *)
Definition rotate_scalar {A} (m : list Z * (index -> A)) (dims : list dim) (n : Z) : list Z * (index -> A) :=
  let k := n mod 4 in
  if k =? 0 then m
  else if (k =? 1) || (k =? 3) then
    match x_dim dims, y_dim dims with
    | Some x, Some y => if k =? 1 then rot90 m y x else rot90 m x y
    | Some x, None => if k =? 1 then flip m x else m
    | None, Some y => if k =? 3 then flip m y else m
    | None, None => m
    end
  else let '(s, f) := m in (s, fun p => f (reverse_horizontal dims s p)).

(** rotate.py:37-50 rotate_vector_data; [neg] is the elementwise minus *)
Definition neg_arr {A} (neg : A -> A) (m : list Z * (index -> A)) : list Z * (index -> A) :=
  (fst m, fun p => neg (snd m p)).
Definition rotate_vector {A} (neg : A -> A) (x y : list Z * (index -> A)) (n : Z) (dims : list dim)
  : (list Z * (index -> A)) * (list Z * (index -> A)) :=
  let x := rotate_scalar x dims n in
  let y := rotate_scalar y dims n in
  let k := n mod 4 in
  if k =? 0 then (x, y)
  else if k =? 1 then (y, neg_arr neg x)
  else if k =? 2 then (neg_arr neg x, neg_arr neg y)
  else (neg_arr neg y, x).

(** C-order enumeration of an array: ndarray.flatten() *)
Fixpoint indices (shape : list Z) : list index :=
  match shape with
  | [] => [[]]
  | n :: s => flat_map (fun i => map (cons i) (indices s)) (zrange 0 n)
  end.
Definition flatten {A} (m : list Z * (index -> A)) : list A := map (snd m) (indices (fst m)).

(** position of an index in C order: what reshape reads *)
Definition prod (s : list Z) : Z := fold_right Z.mul 1 s.
Fixpoint flat_index (shape p : list Z) : Z :=
  match shape, p with
  | _ :: s, i :: p' => i * prod s + flat_index s p'
  | _, _ => 0
  end.

(** data_transformer.py:113-119 _slices_size *)
Definition slices_size (sl : list (Z * Z)) : Z := fold_right Z.mul 1 (map (fun s => Z.abs (fst s - snd s)) sl).

(** data_transformer.py:122-146 HaloExchangeSpec *)
Record exspec := mkEx { ex_spec : spec; ex_pack : list (Z * Z); ex_rot : Z; ex_unpack : list (Z * Z) }.

Section Values.
  Context {A : Type}.
  Variable neg : A -> A.

  (** quantity[slices] *)
  Definition view (q : index -> A) (sl : list (Z * Z)) : list Z * (index -> A) := (shape_of sl, take_slice q sl).

  (** data_transformer.py:429-445: one quantity of _pack_scalar *)
  Definition pack1 (info : exspec) (q : index -> A) : list A :=
    flatten (rotate_scalar (view q (ex_pack info)) (sp_dims (ex_spec info)) (- ex_rot info)).

  (** data_transformer.py:418-445 _pack_scalar; None = RuntimeError (counts differ) or the assignment into
      buffer[offset : offset + data_size] failing *)
  Fixpoint pack_scalar (infos : list exspec) (qs : list (index -> A)) : option (list A) :=
    match infos, qs with
    | [], [] => Some []
    | info :: infos', q :: qs' =>
        let data := pack1 info q in
        if Z.of_nat (length data) =? slices_size (ex_pack info) then
          do rest <- pack_scalar infos' qs'; Some (data ++ rest)
        else None
    | _, _ => None
    end.

  (** data_transformer.py:523-529: view[...] = buffer[offset : offset+data_size].reshape(view.shape) *)
  Definition unpack1 (info : exspec) (q : index -> A) (seg : list A) : index -> A :=
    let sl := ex_unpack info in
    put_slice q sl (fun p => nth (Z.to_nat (flat_index (shape_of sl) p)) seg (q (shift sl p))).

  (** data_transformer.py:511-530 _unpack_scalar; [buf] is the part of the buffer from the current offset on *)
  Fixpoint unpack_scalar (infos : list exspec) (qs : list (index -> A)) (buf : list A) : option (list (index -> A)) :=
    match infos, qs with
    | [], [] => Some []
    | info :: infos', q :: qs' =>
        let n := Z.to_nat (slices_size (ex_unpack info)) in
        let seg := firstn n buf in
        if (length seg =? n)%nat then
          do rest <- unpack_scalar infos' qs' (skipn n buf); Some (unpack1 info q seg :: rest)
        else None
    | _, _ => None
    end.

  (** data_transformer.py:447-493 _pack_vector *)
  Fixpoint pack_vector (ix iy : list exspec) (qx qy : list (index -> A)) : option (list A) :=
    match ix, iy, qx, qy with
    | [], [], [], [] => Some []
    | x :: ix', y :: iy', q :: qx', r :: qy' =>
        let '(dx, dy) := rotate_vector neg (view q (ex_pack x)) (view r (ex_pack y)) (- ex_rot x) (sp_dims (ex_spec x)) in
        do rest <- pack_vector ix' iy' qx' qy'; Some (flatten dx ++ flatten dy ++ rest)
    | _, _, _, _ => None
    end.

  (** data_transformer.py:532-566 _unpack_vector *)
  Fixpoint unpack_vector (ix iy : list exspec) (qx qy : list (index -> A)) (buf : list A)
    : option (list (index -> A) * list (index -> A)) :=
    match ix, iy, qx, qy with
    | [], [], [], [] => Some ([], [])
    | x :: ix', y :: iy', q :: qx', r :: qy' =>
        let nx := Z.to_nat (slices_size (ex_unpack x)) in
        let ny := Z.to_nat (slices_size (ex_unpack y)) in
        let sx := firstn nx buf in
        let sy := firstn ny (skipn nx buf) in
        if ((length sx =? nx) && (length sy =? ny))%nat then
          do rest <- unpack_vector ix' iy' qx' qy' (skipn ny (skipn nx buf));
          Some (unpack1 x q sx :: fst rest, unpack1 y r sy :: snd rest)
        else None
    | _, _, _, _ => None
    end.
End Values.

(** ** Building a HaloUpdater *)

(** defaultdict(list): append a value under a key, keys in order of first insertion *)
Fixpoint dict_append {V} (k : Z) (v : V) (d : list (Z * list V)) : list (Z * list V) :=
  match d with
  | [] => [(k, [v])]
  | (k', vs) :: d' => if k =? k' then (k', vs ++ [v]) :: d' else (k', vs) :: dict_append k v d'
  end.

(** updater.py:129-134: one HaloExchangeSpec *)
Definition exchange_spec (b : boundary) (s : spec) : option exspec :=
  do snd_ <- send_slice (b_type b) s;
  do rcv <- recv_slice (b_type b) s;
  Some (mkEx s snd_ (b_rot b) rcv).

Fixpoint add_specs (b : boundary) (specs : list spec) (d : list (Z * list exspec)) : option (list (Z * list exspec)) :=
  match specs with
  | [] => Some d
  | s :: specs' => do e <- exchange_spec b s; add_specs b specs' (dict_append (b_to b) e d)
  end.

(** updater.py:96-145 from_scalar_specifications: destination rank -> exchange specs, in boundary order *)
Fixpoint scalar_transformers (bs : list boundary) (specs : list spec) (d : list (Z * list exspec))
  : option (list (Z * list exspec)) :=
  match bs with
  | [] => Some d
  | b :: bs' => do d' <- add_specs b specs d; scalar_transformers bs' specs d'
  end.

(** constants.py:68-70 BOUNDARY_TYPES *)
Definition boundary_types : list btype :=
  [NORTH; SOUTH; WEST; EAST; NORTHWEST; NORTHEAST; SOUTHWEST; SOUTHEAST].

(** communicator.py:621-630 boundaries on the periodic tile *)
Definition tile_boundaries (l : layout) (rank : Z) : list boundary :=
  map (fun bt => tile_boundary l bt rank) boundary_types.

(** communicator.py:621-630 boundaries on the cube: None results are left out *)
Fixpoint cube_boundaries_of (l : layout) (rank : Z) (bts : list btype) : option (list boundary) :=
  match bts with
  | [] => Some []
  | bt :: bts' =>
      do ob <- cube_boundary l bt rank;
      do rest <- cube_boundaries_of l rank bts';
      Some (match ob with Some b => b :: rest | None => rest end)
  end.
Definition cube_boundaries (l : layout) (rank : Z) : option (list boundary) := cube_boundaries_of l rank boundary_types.

(** ** One exchange of a HaloUpdater on every rank (updater.py:222-311 start / wait).
    Generic in what is packed: [E] describes one destination (a transformer), [Q] is a rank's quantities.
    Messages between a pair of ranks are delivered in the order sent (MPI for one tag; LocalComm likewise).  Sends
    complete independently of the receiver; a receive completes when a message is there.  Timers, device
    synchronisation and the buffer pool are not represented here. *)
Section Exchange.
  Context {A E Q : Type}.
  Variable pk : E -> Q -> option (list A).          (* async_pack *)
  Variable up : E -> Q -> list A -> option Q.       (* async_unpack *)
  Variable bufsize : E -> Z.                        (* size of the unpack buffer *)
  Variable T : Z -> list (Z * E).                   (* self._transformers of each rank *)

  Inductive phase := Idle | Posted (got : list (Z * list A)) | Finished.
  Record sys := mkSys { sy_q : Z -> Q; sy_net : Z -> Z -> list (list A); sy_ph : Z -> phase }.

  (** start() on a rank; completion of one receive on a rank; the rest of wait() on a rank *)
  Inductive event := EStart (r : Z) | ERecv (r src : Z) | EFinish (r : Z).

  Definition assoc {V} (k : Z) (d : list (Z * V)) : option V :=
    match find (fun kv => fst kv =? k) d with Some kv => Some (snd kv) | None => None end.

  (** updater.py:254-273: pack, then Isend, every transformer in order *)
  Fixpoint post_all (r : Z) (ts : list (Z * E)) (q : Q) (net : Z -> Z -> list (list A)) : option (Z -> Z -> list (list A)) :=
    match ts with
    | [] => Some net
    | (d, e) :: ts' =>
        do m <- pk e q;
        post_all r ts' q (fun a b => if (a =? r) && (b =? d) then net a b ++ [m] else net a b)
    end.

  (** updater.py:293-300: unpack every transformer in order *)
  Fixpoint unpack_all (ts : list (Z * E)) (got : Z -> option (list A)) (q : Q) : option Q :=
    match ts with
    | [] => Some q
    | (s, e) :: ts' => do m <- got s; do q' <- up e q m; unpack_all ts' got q'
    end.

  Definition upd_fun {V} (f : Z -> V) (r : Z) (v : V) : Z -> V := fun a => if a =? r then v else f a.

  (** [None]: the event is not possible in this state, or it raises *)
  Definition step (ev : event) (st : sys) : option sys :=
    match ev with
    | EStart r =>
        match sy_ph st r with
        | Idle => do net <- post_all r (T r) (sy_q st r) (sy_net st);
                  Some (mkSys (sy_q st) net (upd_fun (sy_ph st) r (Posted [])))
        | _ => None
        end
    | ERecv r s =>
        match sy_ph st r, sy_net st s r, assoc s (T r) with
        | Posted got, m :: rest, Some e =>
            match assoc s got with
            | Some _ => None
            | None =>
                if Z.of_nat (length m) =? bufsize e then
                  Some (mkSys (sy_q st) (fun a b => if (a =? s) && (b =? r) then rest else sy_net st a b)
                              (upd_fun (sy_ph st) r (Posted ((s, m) :: got))))
                else None
            end
        | _, _, _ => None
        end
    | EFinish r =>
        match sy_ph st r with
        | Posted got =>
            do q <- unpack_all (T r) (fun s => assoc s got) (sy_q st r);
            Some (mkSys (upd_fun (sy_q st) r q) (sy_net st) (upd_fun (sy_ph st) r Finished))
        | _ => None
        end
    end.

  Fixpoint run (evs : list event) (st : sys) : option sys :=
    match evs with [] => Some st | ev :: evs' => do st' <- step ev st; run evs' st' end.

  Definition initial (q : Z -> Q) : sys := mkSys q (fun _ _ => []) (fun _ => Idle).
End Exchange.

(** data_transformer.py:311-334 _compile: both buffers have the total pack size *)
Definition scalar_bufsize (infos : list exspec) : Z := fold_right (fun i acc => slices_size (ex_pack i) + acc) 0 infos.
Definition vector_bufsize (infos : list exspec * list exspec) : Z := scalar_bufsize (fst infos) + scalar_bufsize (snd infos).

(** updater.py:148-211 from_vector_specifications: the two dictionaries are filled in step and zipped *)
Fixpoint add_vector_specs (b : boundary) (sx sy : list spec) (dx dy : list (Z * list exspec))
  : option (list (Z * list exspec) * list (Z * list exspec)) :=
  match sx, sy with
  | x :: sx', y :: sy' =>
      do ex <- exchange_spec b x; do ey <- exchange_spec b y;
      add_vector_specs b sx' sy' (dict_append (b_to b) ex dx) (dict_append (b_to b) ey dy)
  | _, _ => Some (dx, dy)
  end.
Fixpoint vector_dicts (bs : list boundary) (sx sy : list spec) (dx dy : list (Z * list exspec))
  : option (list (Z * list exspec) * list (Z * list exspec)) :=
  match bs with
  | [] => Some (dx, dy)
  | b :: bs' => do d <- add_vector_specs b sx sy dx dy; vector_dicts bs' sx sy (fst d) (snd d)
  end.
Definition vector_transformers (bs : list boundary) (sx sy : list spec)
  : option (list (Z * (list exspec * list exspec))) :=
  do d <- vector_dicts bs sx sy [] [];
  Some (map (fun xy => (fst (fst xy), (snd (fst xy), snd (snd xy)))) (combine (fst d) (snd d))).
