(** The GPU halo packing of ndsl/halo/data_transformer.py (HaloDataTransformerGPU) and the kernels of
    ndsl/halo/cuda_kernels.py, the index lists they read, and the module-wide cache of index lists. *)
From Coq Require Import ZArith Lia List Bool Permutation.
From Verif Require Import Base PartModel DecompModel HaloModel.
Import ListNotations.
Local Open Scope Z_scope.

(** quantity.dtype as the kernel selection sees it (data_transformer.py:757-770): numpy float32, numpy float64 (or
    python float), anything else. *)
Inductive dtype := F32 | F64 | Other.
Definition has_kernel (t : dtype) : bool := match t with Other => false | _ => true end.

(** data_transformer.py:122-146 HaloExchangeSpec together with the memory part of QuantityHaloSpec
    (ndsl/quantity/metadata.py:66-78: strides and itemsize of quantity.data in bytes, dtype). *)
Record ginfo := mkG { g_ex : exspec; g_strides : list Z; g_item : Z; g_dtype : dtype }.

(** sum(np.array(p) * strides) *)
Definition dot (p strides : list Z) : Z := fold_right Z.add 0 (map (fun ab => fst ab * snd ab) (combine p strides)).

(** conversion of an integer to np.int32 on assignment: wraps modulo 2^32 *)
Definition wrap32 (z : Z) : Z := (z + 2^31) mod 2^32 - 2^31.

(** data_transformer.py:61-106 _build_flatten_indices: the array of addresses of the slice, rotated if asked for, in C
    order.  [arr_indices] is np.zeros(shape)[slices]; simplified: slices are taken to lie within the shape, so that the
    view has the shape of the slices.  The nditer visits each element once and each gets its own multi_index, so the
    visiting order does not matter. *)
Definition build_flatten_indices (slices : list (Z * Z)) (dims : list dim) (strides : list Z) (itemsize : Z)
    (rotate : bool) (rotation : Z) : list Z :=
  let offset_to_slice := dot (map fst slices) strides / itemsize in
  let arr := (shape_of slices, fun multi_index => wrap32 (offset_to_slice + dot multi_index strides / itemsize)) in
  flatten (if rotate then rotate_scalar arr dims (- rotation) else arr).

(** data_transformer.py:617-626: what the key of the cache is made of (str of the tuple; str of tuples of ints and
    slices is injective) *)
Definition cache_key : Type := list (Z * Z) * Z * list Z * list Z * Z.
Definition key_of (g : ginfo) (slices : list (Z * Z)) : cache_key :=
  (slices, ex_rot (g_ex g), sp_shape (ex_spec (g_ex g)), g_strides g, g_item g).

(** what is computed on a miss (631-641) *)
Definition fresh_indices (g : ginfo) (slices : list (Z * Z)) (rotate : bool) : list Z :=
  build_flatten_indices slices (sp_dims (ex_spec (g_ex g))) (g_strides g) (g_item g) rotate (ex_rot (g_ex g)).

(** equality of key strings *)
Definition key_dec : forall a b : cache_key, {a = b} + {a <> b}.
Proof. repeat (decide equality; try apply Z.eq_dec). Defined.

(** data_transformer.py:605-645 _flatten_indices with the module-wide INDICES_CACHE: a request returns the indices
    served and the new cache. *)
Definition cache := list (cache_key * list Z).
Fixpoint lookup (k : cache_key) (c : cache) : option (list Z) :=
  match c with [] => None | (k', v) :: c' => if key_dec k' k then Some v else lookup k c' end.
Definition flatten_indices (g : ginfo) (slices : list (Z * Z)) (rotate : bool) (c : cache) : list Z * cache :=
  match lookup (key_of g slices) c with
  | Some v => (v, c)
  | None => let v := fresh_indices g slices rotate in (v, (key_of g slices, v) :: c)
  end.

(** One transformer's requests, data_transformer.py:647-672 (scalar): send indices rotated, receive indices not. *)
Record request := mkReq { rq_info : ginfo; rq_slices : list (Z * Z); rq_rotate : bool }.
Definition compile_requests (g : ginfo) : list request :=
  [mkReq g (ex_pack (g_ex g)) true; mkReq g (ex_unpack (g_ex g)) false].
Fixpoint serve (rs : list request) (c : cache) : list (list Z) * cache :=
  match rs with
  | [] => ([], c)
  | r :: rs' =>
      let '(v, c') := flatten_indices (rq_info r) (rq_slices r) (rq_rotate r) c in
      let '(vs, c'') := serve rs' c' in (v :: vs, c'')
  end.

(** The thread numbers of a launch with [blocks] = 128 threads per block and n // 128 + 1 blocks
    (data_transformer.py:754-755; cuda_kernels.py:22 blockDim.x * blockIdx.x + threadIdx.x). *)
Definition threads (n : Z) : list Z :=
  let blocks := 128 in
  flat_map (fun blockIdx => map (fun threadIdx => blocks * blockIdx + threadIdx) (zrange 0 blocks))
           (zrange 0 (n / blocks + 1)).

(** Memory of a device array: value at each element offset. *)
Section Device.
  Context {A K : Type}.
  Variable Kdec : forall a b : K, {a = b} + {a <> b}.
  (** the stores of all threads, one after the other *)
  Definition store1 (m : K -> A) (w : K * A) : K -> A := fun k => if Kdec k (fst w) then snd w else m k.
  Definition stored (m : K -> A) (ws : list (K * A)) : K -> A := fold_left store1 ws m.
End Device.

Section Kernels.
  Context {A : Type}.
  Variable neg : A -> A.           (* -1.0 * x *)

  Definition at_ (idx : list Z) (t : Z) : Z := nth (Z.to_nat t) idx 0.

  (** cuda_kernels.py:15-29 pack_scalar, one thread *)
  Definition pack_scalar_thread (source : Z -> A) (idx : list Z) (nIndex offset tid : Z) : list (Z * A) :=
    if nIndex <=? tid then [] else [(offset + tid, source (at_ idx tid))].

  (** cuda_kernels.py:115-162 pack_vector, one thread *)
  Definition pack_vector_thread (sx sy : Z -> A) (ix iy : list Z) (nx ny offset rotate tid : Z) : list (Z * A) :=
    if nx + ny <=? tid then []
    else if rotate =? 0 then
      (if tid <? nx then [(offset + tid, sx (at_ ix tid))] else [(offset + tid, sy (at_ iy (tid - nx)))])
    else if rotate =? 1 then
      (if tid <? ny then [(offset + tid, sy (at_ iy tid))] else [(offset + tid, neg (sx (at_ ix (tid - ny))))])
    else if rotate =? 2 then
      (if tid <? nx then [(offset + tid, neg (sx (at_ ix tid)))] else [(offset + tid, neg (sy (at_ iy (tid - nx))))])
    else if rotate =? 3 then
      (if tid <? ny then [(offset + tid, neg (sy (at_ iy tid)))] else [(offset + tid, sx (at_ ix (tid - ny)))])
    else [].

  (** Destination arrays of an unpack: (number of the field, false = x component or scalar / true = y component, element
      offset).  Simplified: the fields do not share memory. *)
  Definition place : Type := nat * bool * Z.

  (** cuda_kernels.py:46-58 unpack_scalar, one thread *)
  Definition unpack_scalar_thread (buffer : Z -> A) (idx : list Z) (nIndex offset : Z) (i : nat) (tid : Z)
    : list (place * A) :=
    if nIndex <=? tid then [] else [((i, false, at_ idx tid), buffer (offset + tid))].

  (** cuda_kernels.py:179-195 unpack_vector, one thread *)
  Definition unpack_vector_thread (buffer : Z -> A) (ix iy : list Z) (nx ny offset : Z) (i : nat) (tid : Z)
    : list (place * A) :=
    if tid <? nx then [((i, false, at_ ix tid), buffer (offset + tid))]
    else if tid <? nx + ny then [((i, true, at_ iy (tid - nx)), buffer (offset + tid))]
    else [].

  (** data_transformer.py:738-791 _opt_pack_scalar: the stores of all kernels.  An unsupported dtype builds a
      RuntimeError without raising it (766-769), leaves pack_kernel None, builds a second RuntimeError (774) and goes on.
      Simplified: all fields of a transformer have the dtype of its buffer; the index lists are those of a cache miss. *)
  Fixpoint gpu_pack_scalar (offset : Z) (infos : list ginfo) (sources : list (Z -> A)) : option (list (Z * A)) :=
    match infos, sources with
    | [], [] => Some []
    | g :: infos', s :: sources' =>
        let n := slices_size (ex_pack (g_ex g)) in
        let idx := fresh_indices g (ex_pack (g_ex g)) true in
        let ws := if has_kernel (g_dtype g) then flat_map (pack_scalar_thread s idx n offset) (threads n) else [] in
        do rest <- gpu_pack_scalar (offset + n) infos' sources'; Some (ws ++ rest)
    | _, _ => None
    end.

  (** data_transformer.py:793-864 _opt_pack_vector; the dtype of the x component chooses the kernel *)
  Fixpoint gpu_pack_vector (offset : Z) (infos_x infos_y : list ginfo) (sx sy : list (Z -> A)) : option (list (Z * A)) :=
    match infos_x, infos_y, sx, sy with
    | [], [], [], [] => Some []
    | gx :: infos_x', gy :: infos_y', x :: sx', y :: sy' =>
        let nx := slices_size (ex_pack (g_ex gx)) in
        let ny := slices_size (ex_pack (g_ex gy)) in
        let ix := fresh_indices gx (ex_pack (g_ex gx)) true in
        let iy := fresh_indices gy (ex_pack (g_ex gy)) true in
        let ws := if has_kernel (g_dtype gx)
                  then flat_map (pack_vector_thread x y ix iy nx ny offset ((- ex_rot (g_ex gx)) mod 4)) (threads (nx + ny))
                  else [] in
        do rest <- gpu_pack_vector (offset + (nx + ny)) infos_x' infos_y' sx' sy'; Some (ws ++ rest)
    | _, _, _, _ => None
    end.

  (** data_transformer.py:890-942 _opt_unpack_scalar; [i] numbers the fields *)
  Fixpoint gpu_unpack_scalar (offset : Z) (i : nat) (infos : list ginfo) (buffer : Z -> A) : list (place * A) :=
    match infos with
    | [] => []
    | g :: infos' =>
        let n := slices_size (ex_unpack (g_ex g)) in
        let idx := fresh_indices g (ex_unpack (g_ex g)) false in
        (if has_kernel (g_dtype g) then flat_map (unpack_scalar_thread buffer idx n offset i) (threads n) else [])
        ++ gpu_unpack_scalar (offset + n) (S i) infos' buffer
    end.

  (** data_transformer.py:944-1014 _opt_unpack_vector *)
  Fixpoint gpu_unpack_vector (offset : Z) (i : nat) (infos_x infos_y : list ginfo) (buffer : Z -> A)
    : list (place * A) :=
    match infos_x, infos_y with
    | gx :: infos_x', gy :: infos_y' =>
        let nx := slices_size (ex_unpack (g_ex gx)) in
        let ny := slices_size (ex_unpack (g_ex gy)) in
        let ix := fresh_indices gx (ex_unpack (g_ex gx)) false in
        let iy := fresh_indices gy (ex_unpack (g_ex gy)) false in
        (if has_kernel (g_dtype gx)
         then flat_map (unpack_vector_thread buffer ix iy nx ny offset i) (threads (nx + ny)) else [])
        ++ gpu_unpack_vector (offset + (nx + ny)) (S i) infos_x' infos_y' buffer
    | _, _ => []
    end.

  (** ** Specification *)

  (** the element offset of an index tuple in the memory of the array *)
  Definition addr (g : ginfo) (p : index) : Z := dot p (g_strides g) / g_item g.
  (** the array that lives in a device memory *)
  Definition array_in (g : ginfo) (m : Z -> A) : index -> A := fun p => m (addr g p).
End Kernels.

(** A slice of an array that the index lists can describe: the strides are whole elements, and the element offsets fit
    a 32-bit integer. *)
Record describes (g : ginfo) (sl : list (Z * Z)) : Prop := mkDesc {
  d_dims : length sl = length (sp_dims (ex_spec (g_ex g)));
  d_strides : length (g_strides g) = length sl;
  d_item : 0 < g_item g;
  d_whole : Forall (fun s => (g_item g | s)) (g_strides g);
  d_up : Forall (fun s => fst s <= snd s) sl;
  d_fit : forall p, Forall2 (fun s x => fst s <= x < snd s) sl p -> - 2^31 <= addr g p < 2^31 }.
