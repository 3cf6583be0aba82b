(** C15: the GPU pack and unpack do what the CPU pack and unpack do.  C16: the cache of index lists. *)
From Coq Require Import ZArith Lia List Bool Permutation.
From Verif Require Import Base PartModel DecompModel DecompSpec HaloModel HaloSpec HaloProofs HaloPack GpuModel GpuProofs.
Import ListNotations.
Local Open Scope Z_scope.

(** ** C15 *)

(** Every element number below n is handled by exactly one thread of the launch, and in all there are the numbers
    0 .. n-1 and no others that pass the guard. *)
Theorem C15_launch : forall n, 0 <= n -> filter (fun tid => tid <? n) (threads n) = zrange 0 n.
Proof.
  intros n H.
  assert (E : forall l, filter (fun tid => tid <? n) l = flat_map (fun t => if t <? n then [t] else []) l).
  { induction l as [|t l IH]; [reflexivity|]. cbn. destruct (t <? n); cbn; rewrite IH; reflexivity. }
  rewrite E, (threads_map _ (fun t => t)); auto.
  - apply map_id.
  - intros t Ht. destruct (t <? n) eqn:X; [reflexivity|lia].
  - intros t Ht. destruct (t <? n) eqn:X; [lia|reflexivity].
Qed.
Print Assumptions C15_launch.
Example C15_launch_case : length (threads 128) = 256%nat /\ length (filter (fun t => t <? 128) (threads 128)) = 128%nat.
Proof. split; vm_compute; reflexivity. Qed.

(** A buffer that holds [data] from position 0 on and is otherwise as it was. *)
Definition holds {A} (b b' : Z -> A) (data : list A) : Prop :=
  (forall i d, (i < length data)%nat -> b' (Z.of_nat i) = nth i data d) /\
  (forall a, ~ 0 <= a < Z.of_nat (length data) -> b' a = b a).

(** C15, scalar pack.  The CPU pack of the arrays living in the device memories succeeds, and after the stores of all
    threads of all kernels, in whatever order, the send buffer holds exactly its data.  Partial: the dtype is one of the
    two the kernels exist for, element offsets fit 32 bits, and the index lists are those of a cache miss (C16). *)
Theorem C15_pack_scalar_partial : forall (A : Type) (infos : list ginfo) (ms : list (Z -> A)),
  Forall sendable infos -> length infos = length ms ->
  exists data stores,
    pack_scalar (map g_ex infos) (arrays infos ms) = Some data /\
    gpu_pack_scalar 0 infos ms = Some stores /\
    forall order b, Permutation stores order -> holds b (stored Z.eq_dec b order) data.
Proof.
  intros A infos ms F L. destruct (gpu_scalar 0 infos ms F L) as (data & C & G). exists data. eexists.
  split; [exact C|]. split; [exact G|]. intros order b P. apply (stored_block b 0 data order) in P. destruct P as [P1 P2].
  split; intros; [apply P1; auto|apply P2; lia].
Qed.
Print Assumptions C15_pack_scalar_partial.

(** C15, vector pack.  As above, for a pair of components whose horizontal dimensions are at the same positions. *)
Theorem C15_pack_vector_partial : forall (A : Type) (neg : A -> A) (infos_x infos_y : list ginfo) (mx my : list (Z -> A)),
  Forall2 vector_sendable infos_x infos_y -> length infos_x = length mx -> length infos_y = length my ->
  exists data stores,
    pack_vector neg (map g_ex infos_x) (map g_ex infos_y) (arrays infos_x mx) (arrays infos_y my) = Some data /\
    gpu_pack_vector neg 0 infos_x infos_y mx my = Some stores /\
    forall order b, Permutation stores order -> holds b (stored Z.eq_dec b order) data.
Proof.
  intros A neg ix iy mx my F Lx Ly. destruct (gpu_vector neg 0 ix iy mx my F Lx Ly) as (data & C & G). exists data. eexists.
  split; [exact C|]. split; [exact G|]. intros order b P. apply (stored_block b 0 data order) in P. destruct P as [P1 P2].
  split; intros; [apply P1; auto|apply P2; lia].
Qed.
Print Assumptions C15_pack_vector_partial.

(** Memory [m'] of a component whose unpacked array should be [q'], starting from memory [m]: the array is [q'], and
    the elements outside the received region, padding included, are as they were. *)
Definition unpacked {A} (g : ginfo) (m m' : Z -> A) (q' : index -> A) : Prop :=
  (forall p, in_extent (sp_shape (ex_spec (g_ex g))) p -> array_in g m' p = q' p) /\
  (forall a, (forall p, inside (ex_unpack (g_ex g)) p -> addr g p <> a) -> m' a = m a).

(** The arrays of the fields' components in device memory [m]. *)
Definition fields {A} (infos : list ginfo) (m : place -> A) (y : bool) : list (index -> A) :=
  arrays infos (map (fun i a => m (i, y, a)) (seq 0 (length infos))).

Lemma fields_nth {A} infos (m : place -> A) y i g : nth_error infos i = Some g ->
  nth_error (fields infos m y) i = Some (array_in g (fun a => m (i, y, a))).
Proof.
  intros Eg. unfold fields, arrays.
  assert (G : forall s j, nth_error infos j = Some g ->
    nth_error (map (fun gm => array_in (fst gm) (snd gm)) (combine infos (map (fun i a => m (i, y, a)) (seq s (length infos))))) j
    = Some (array_in g (fun a => m ((s + j)%nat, y, a)))).
  { clear. induction infos as [|h infos IH]; intros s0 [|j] E; try discriminate; cbn in *.
    - injection E as ->. rewrite Nat.add_0_r. reflexivity.
    - rewrite (IH (S s0) j E). replace (S s0 + j)%nat with (s0 + S j)%nat by lia. reflexivity. }
  apply (G 0%nat i Eg).
Qed.

Lemma seg_unique ss s t : NoDup (map s_label ss) -> In s ss -> In t ss -> s_label s = s_label t -> s = t.
Proof.
  induction ss as [|u ss IH]; intros N H1 H2 E; [destruct H1|]. inversion N as [|? ? X Y]; subst. cbn in *.
  destruct H1 as [->|H1], H2 as [->|H2]; auto; exfalso; apply X; [rewrite E|rewrite <- E]; apply in_map; auto.
Qed.

Lemma seg_unpacked {A} buffer (m : place -> A) ss order i y g o q' :
  NoDup (map s_label ss) -> Forall (fun s => receivable (s_info s)) ss -> Permutation (flat_map (seg_writes buffer) ss) order ->
  In (mkSeg (i, y) g o) ss ->
  (forall p, q' p = if in_slices (ex_unpack (g_ex g)) p
     then buffer (o + flat_index (shape_of (ex_unpack (g_ex g))) (unshift (ex_unpack (g_ex g)) p))
     else array_in g (fun a => m (i, y, a)) p) ->
  unpacked g (fun a => m (i, y, a)) (fun a => stored place_dec m order (i, y, a)) q'.
Proof.
  intros N F P I Q. destruct (segs_result buffer m ss order N F P) as [R1 R2]. split.
  - intros p Hp. unfold array_in in *. specialize (R1 _ p I Hp). cbn [s_label s_info s_off] in R1.
    unfold seg_slices in R1. cbn [s_info] in R1. etransitivity; [exact R1|]. rewrite Q. reflexivity.
  - intros a Ha. apply R2. intros s p Hs Hp E. apply pair_equal_spec in E. destruct E as [El Ea].
    pose proof (seg_unique ss s _ N Hs I ltac:(cbn; congruence)) as ->. cbn in *. eapply Ha; eauto.
Qed.

(** C15, scalar unpack: after all stores, in whatever order, each field's memory is that of the array the CPU unpack of
    the same receive buffer makes.  Partial as for packing. *)
Theorem C15_unpack_scalar_partial : forall (A : Type) (infos : list ginfo) (m : place -> A) (buffer : Z -> A) N qs',
  0 <= N -> Forall (fun g => receivable g /\ floating (g_dtype g)) infos ->
  unpack_scalar (map g_ex infos) (fields infos m false) (map buffer (zrange 0 N)) = Some qs' ->
  forall order, Permutation (gpu_unpack_scalar 0 0 infos buffer) order ->
  (forall i g, nth_error infos i = Some g -> exists q', nth_error qs' i = Some q' /\
     unpacked g (fun a => m (i, false, a)) (fun a => stored place_dec m order (i, false, a)) q') /\
  (forall i y a, (length infos <= i)%nat \/ y = true -> stored place_dec m order (i, y, a) = m (i, y, a)).
Proof.
  intros A infos m buffer N qs' HN F C order P.
  rewrite (gpu_scalar_segs buffer 0 0 infos F) in P.
  assert (FR : Forall receivable infos) by (eapply Forall_impl; [|exact F]; cbn; tauto).
  assert (FS : Forall (fun s => receivable (s_info s)) (scalar_segs 0 0 infos)).
  { clear -FR. generalize 0 at 1. generalize 0%nat. induction FR; intros n o; cbn; constructor; auto. }
  destruct (cpu_scalar_segs buffer 0 0 N infos _ qs' HN FR C) as [L X].
  split.
  - intros i g Eg. destruct (X i g _ Eg (fields_nth infos m false i g Eg)) as (q' & o & E1 & E2 & E3). exists q'. split; [auto|].
    eapply seg_unpacked; eauto using scalar_NoDup.
  - destruct (segs_result buffer m _ order (scalar_NoDup 0 0 infos) FS P) as [_ R2].
    intros i y a Hi. apply R2. intros s p Hs Hp E. apply pair_equal_spec in E. destruct E as [El _].
    apply (in_map s_label) in Hs. rewrite scalar_labels, <- El in Hs. apply in_map_iff in Hs.
    destruct Hs as (j & E & Hj). apply in_seq in Hj. injection E as -> <-. destruct Hi; [lia|discriminate].
Qed.
Print Assumptions C15_unpack_scalar_partial.

(** C15, vector unpack. *)
Theorem C15_unpack_vector_partial : forall (A : Type) (gx gy : list ginfo) (m : place -> A) (buffer : Z -> A) N out,
  0 <= N -> Forall2 (fun x y => receivable x /\ receivable y /\ floating (g_dtype x)) gx gy ->
  unpack_vector (map g_ex gx) (map g_ex gy) (fields gx m false) (fields gy m true) (map buffer (zrange 0 N)) = Some out ->
  forall order, Permutation (gpu_unpack_vector 0 0 gx gy buffer) order ->
  (forall i g, nth_error gx i = Some g -> exists q', nth_error (fst out) i = Some q' /\
     unpacked g (fun a => m (i, false, a)) (fun a => stored place_dec m order (i, false, a)) q') /\
  (forall i g, nth_error gy i = Some g -> exists q', nth_error (snd out) i = Some q' /\
     unpacked g (fun a => m (i, true, a)) (fun a => stored place_dec m order (i, true, a)) q').
Proof.
  intros A gx gy m buffer N out HN F C order P.
  rewrite (gpu_vector_segs buffer 0 0 gx gy F) in P.
  assert (Fx : Forall receivable gx) by (clear -F; induction F; constructor; tauto).
  assert (Fy : Forall receivable gy) by (clear -F; induction F; constructor; tauto).
  assert (FS : Forall (fun s => receivable (s_info s)) (vector_segs 0 0 gx gy)).
  { clear -Fx Fy. generalize 0 at 1. generalize 0%nat. revert gy Fy. induction Fx; intros gy Fy n o; cbn; [constructor|].
    destruct Fy; [constructor|]. constructor; [auto|]. constructor; [auto|]. auto. }
  destruct (cpu_vector_segs buffer 0 0 N gx gy _ _ out HN Fx Fy C) as [X Y]. split.
  - intros i g Eg. destruct (X i g _ Eg (fields_nth gx m false i g Eg)) as (q' & o & E1 & E2 & E3). exists q'. split; [auto|].
    eapply seg_unpacked; eauto using vector_NoDup.
  - intros i g Eg. destruct (Y i g _ Eg (fields_nth gy m true i g Eg)) as (q' & o & E1 & E2 & E3). exists q'. split; [auto|].
    eapply seg_unpacked; eauto using vector_NoDup.
Qed.
Print Assumptions C15_unpack_vector_partial.

(** Two fields of doubles, one in C order and one in Fortran order, sent east with one rotation. *)
Section Case.
  Definition IJ : list dim := [Dim AI false; Dim AJ false].
  Definition sp1 : spec := mkSpec IJ [2; 2] [4; 4] [8; 8] 2.
  Definition ex1 : exspec := mkEx sp1 [(4, 6); (2, 6)] 1 [(6, 8); (2, 6)].
  Definition gC : ginfo := mkG ex1 [64; 8] 8 F64.
  Definition gF : ginfo := mkG ex1 [8; 64] 8 F64.
  Example case_slices : exchange_spec (mkB EAST 0 1 1) sp1 = Some ex1.
  Proof. reflexivity. Qed.
  Lemma desc_case g sl : g = gC \/ g = gF -> sl = ex_pack ex1 \/ sl = ex_unpack ex1 -> describes g sl.
  Proof.
    intros Hg Hs. assert (L : forall p, inside sl p -> exists a b, p = [a; b] /\ 0 <= a < 8 /\ 0 <= b < 8).
    { intros p H. destruct Hs as [-> | ->]; inversion H as [|? a ? p1 A H1]; subst; inversion H1 as [|? b ? p2 B H2]; subst; inversion H2; subst;
        cbn in A, B; exists a, b; repeat split; lia. }
    constructor; destruct Hg as [-> | ->], Hs as [-> | ->]; try reflexivity;
      try (repeat constructor; cbn; lia); try (repeat constructor; [exists 8|exists 1]; reflexivity);
      try (repeat constructor; [exists 1|exists 8]; reflexivity);
      intros p H; destruct (L p H) as (a & b & -> & A & B); unfold addr, dot; cbn [g_strides g_item gC gF combine map fold_right fst snd];
      Z.to_euclidean_division_equations; lia.
  Qed.
  Example C15_case : sendable gC /\ sendable gF /\ receivable gC /\ receivable gF /\ vector_sendable gC gF /\
    pack_scalar [ex1; ex1] (arrays [gC; gF] [fun a => a; fun a => 1000 + a]) =
      Some [37; 45; 36; 44; 35; 43; 34; 42; 1044; 1045; 1036; 1037; 1028; 1029; 1020; 1021] /\
    fresh_indices gC (ex_pack ex1) true = [37; 45; 36; 44; 35; 43; 34; 42].
  Proof.
    assert (D : forall g, g = gC \/ g = gF -> sendable g).
    { intros g H. split; [apply desc_case; destruct H as [-> | ->]; auto|]. destruct H as [-> | ->]; repeat split; cbn; unfold floating; auto. }
    assert (R : forall g, g = gC \/ g = gF -> receivable g).
    { intros g H. constructor; [apply desc_case; destruct H as [-> | ->]; auto|destruct H as [-> | ->]; repeat constructor; cbn; lia|].
      assert (S : sp_shape (ex_spec (g_ex g)) = [8; 8]) by (destruct H as [-> | ->]; reflexivity). rewrite S.
      assert (L : forall p, in_extent [8; 8] p -> exists a b, p = [a; b] /\ 0 <= a < 8 /\ 0 <= b < 8).
      { intros p X. inversion X as [|? a ? p1 A H1]; subst; inversion H1 as [|? b ? p2 B H2]; subst; inversion H2; subst. eauto 8. }
      intros p p' Hp Hp'. destruct (L p Hp) as (a & b & -> & A & B), (L p' Hp') as (a' & b' & -> & A' & B').
      unfold addr, dot. destruct H as [-> | ->]; cbn [g_strides g_item gC gF combine map fold_right fst snd]; intros E;
        assert (a = a' /\ b = b') as [-> ->] by (Z.to_euclidean_division_equations; lia); reflexivity. }
    repeat (split; [auto|]); [|split; vm_compute; reflexivity].
    constructor; auto; [split; [apply D; auto|repeat split]|].
    unfold same_axes. cbn. repeat (constructor; [split; reflexivity|]). constructor.
  Qed.
End Case.

(** C15 does not hold for other dtypes: an integer field is packed by the CPU, but on the GPU the RuntimeError is built
    and dropped, no kernel runs and the message is whatever the buffer held. *)
Theorem C15_dtype_refuted : exists (g : ginfo) (m : Z -> Z) data,
  describes g (ex_pack (g_ex g)) /\ plane (sp_dims (ex_spec (g_ex g))) /\
  pack_scalar [g_ex g] (arrays [g] [m]) = Some data /\ (0 < length data)%nat /\
  gpu_pack_scalar 0 [g] [m] = Some [].
Proof.
  exists (mkG ex1 [64; 8] 8 Other), (fun a => a). eexists.
  split; [destruct (desc_case gC (ex_pack ex1) (or_introl eq_refl) (or_introl eq_refl)); constructor; auto|].
  split; [split; reflexivity|]. split; [vm_compute; reflexivity|]. split; [cbn; lia|]. reflexivity.
Qed.
Print Assumptions C15_dtype_refuted.

(** Nor for an array with elements further than 2^31 from its start: the 32-bit index wraps. *)
Theorem C15_offset_refuted : exists (g : ginfo) (m : Z -> Z) data stores,
  Forall2 (fun r s => 0 <= fst r /\ snd r <= s) (ex_pack (g_ex g)) (sp_shape (ex_spec (g_ex g))) /\
  pack_scalar [g_ex g] (arrays [g] [m]) = Some data /\ gpu_pack_scalar 0 [g] [m] = Some stores /\
  stored Z.eq_dec (fun _ => 0) stores 0 <> nth 0 data 0.
Proof.
  exists (mkG (mkEx (mkSpec IJ [1; 1] [46341; 46339] [46343; 46341] 1) [(46341, 46342); (46339, 46340)] 0 [(46342, 46343); (46340, 46341)])
    [46341 * 4; 4] 4 F32), (fun a => a). do 2 eexists.
  split; [repeat constructor; cbn; lia|]. split; [vm_compute; reflexivity|]. split; [vm_compute; reflexivity|]. vm_compute. discriminate.
Qed.
Print Assumptions C15_offset_refuted.

(** Nor for a vector whose components order their horizontal dimensions differently: the CPU rotates both with the x
    component's dimension order, the GPU each with its own. *)
Theorem C15_axes_refuted : exists (gx gy : ginfo) (m : Z -> Z) data stores,
  sendable gx /\ describes gy (ex_pack (g_ex gy)) /\ plane (sp_dims (ex_spec (g_ex gy))) /\
  pack_vector Z.opp [g_ex gx] [g_ex gy] (arrays [gx] [m]) (arrays [gy] [m]) = Some data /\
  gpu_pack_vector Z.opp 0 [gx] [gy] [m] [m] = Some stores /\
  map (stored Z.eq_dec (fun _ => 0) stores) (zrange 0 (Z.of_nat (length data))) <> data.
Proof.
  assert (S : sendable gC) by (apply C15_case).
  exists gC, (mkG (mkEx (mkSpec [Dim AJ false; Dim AI false] [2; 2] [4; 4] [8; 8] 2) [(4, 6); (2, 6)] 1 [(6, 8); (2, 6)]) [64; 8] 8 F64), (fun a => a).
  do 2 eexists. split; [exact S|].
  split; [destruct S as [[] _]; constructor; auto|]. split; [split; reflexivity|].
  split; [vm_compute; reflexivity|]. split; [vm_compute; reflexivity|]. vm_compute. discriminate.
Qed.
Print Assumptions C15_axes_refuted.

(** ** C16 *)

(** C16.  Two requests for indices that have the same key get the same list, provided they agree on whether to rotate
    and on the positions of the horizontal dimensions; the key contains neither. *)
Theorem C16_same_key_partial : forall g sl rot g' sl' rot',
  key_of g sl = key_of g' sl' -> rot = rot' ->
  same_axes (sp_dims (ex_spec (g_ex g))) (sp_dims (ex_spec (g_ex g'))) ->
  fresh_indices g sl rot = fresh_indices g' sl' rot'.
Proof.
  intros g sl rot g' sl' rot' K <- AX. unfold key_of in K. injection K as -> Er _ Es Ei.
  unfold fresh_indices, build_flatten_indices. rewrite Er, Es, Ei. destruct rot; [|reflexivity]. apply rotate_axes, AX.
Qed.
Print Assumptions C16_same_key_partial.

(** C16 over the life of the process: if all requests ever made that share a key agree in this way, every request is
    answered with its own index list, whatever came before. *)
Definition agree (r r' : request) : Prop :=
  key_of (rq_info r) (rq_slices r) = key_of (rq_info r') (rq_slices r') ->
  rq_rotate r = rq_rotate r' /\ same_axes (sp_dims (ex_spec (g_ex (rq_info r)))) (sp_dims (ex_spec (g_ex (rq_info r')))).
Definition own (r : request) : list Z := fresh_indices (rq_info r) (rq_slices r) (rq_rotate r).

Theorem C16_served_partial : forall rs, (forall r r', In r rs -> In r' rs -> agree r r') -> fst (serve rs []) = map own rs.
Proof.
  intros rs H.
  assert (G : forall l c, (forall r, In r l -> In r rs) ->
    (forall k v, lookup k c = Some v -> exists r, In r rs /\ k = key_of (rq_info r) (rq_slices r) /\ v = own r) ->
    fst (serve l c) = map own l).
  { induction l as [|r l IH]; intros c Hl Hc; [reflexivity|]. cbn [serve map].
    assert (Hr : In r rs) by (apply Hl; left; auto).
    unfold flatten_indices. destruct (lookup _ c) as [v|] eqn:E.
    - destruct (Hc _ _ E) as (r' & I & K & ->). specialize (IH c (fun x X => Hl x (or_intror X)) Hc).
      destruct (serve l c). cbn [fst] in *. rewrite IH. f_equal.
      destruct (H r r' Hr I K) as [R A]. symmetry. apply C16_same_key_partial; auto.
    - match goal with |- context [serve l ?c'] => assert (Hc' : forall k v, lookup k c' = Some v -> exists r, In r rs /\ k = key_of (rq_info r) (rq_slices r) /\ v = own r); [|specialize (IH c' (fun x X => Hl x (or_intror X)) Hc'); destruct (serve l c')] end.
      + intros k v. cbn [lookup]. destruct (key_dec _ k) as [<-|]; [intros [= <-]; exists r; auto|apply Hc].
      + cbn [fst] in *. rewrite IH. reflexivity. }
  apply G; auto. discriminate.
Qed.
Print Assumptions C16_served_partial.
(** So the fields of an exchange get, in order, their own pack indices (rotated) and their own unpack indices (as they are). *)
Theorem C16_fields_partial : forall infos, (forall r r', In r (flat_map compile_requests infos) -> In r' (flat_map compile_requests infos) -> agree r r') ->
  fst (serve (flat_map compile_requests infos) []) =
  flat_map (fun g => [fresh_indices g (ex_pack (g_ex g)) true; fresh_indices g (ex_unpack (g_ex g)) false]) infos.
Proof. intros infos H. rewrite C16_served_partial by assumption. clear H. induction infos as [|g gs IH]; [reflexivity|]. cbn [flat_map]. rewrite map_app, IH. reflexivity. Qed.
Print Assumptions C16_fields_partial.
Example C16_case : (forall r r', In r (compile_requests gC ++ compile_requests gF) -> In r' (compile_requests gC ++ compile_requests gF) -> agree r r') /\
  NoDup (map own (compile_requests gC ++ compile_requests gF)).
Proof.
  split; [|vm_compute; repeat constructor; cbn; intuition discriminate].
  intros r r' H H'. cbn in H, H'. repeat (destruct H as [<-|H]; [|]); try (destruct H); repeat (destruct H' as [<-|H']; [|]); try (destruct H');
    intros K; try discriminate K; (split; [reflexivity|unfold same_axes; cbn; repeat (constructor; [split; reflexivity|]); constructor]).
Qed.

(** C16 does not hold in general.  A field whose dimensions are (x, y) and one whose dimensions are (y, x), with the same
    shape, strides, origin and extent, exchange across a corner with a rotation: the second is served the indices of
    the first, which are rotated the other way. *)
Theorem C16_dims_refuted : exists b s s' e e' st it t,
  exchange_spec b s = Some e /\ exchange_spec b s' = Some e' /\ wf_spec s /\ wf_spec s' /\
  nth 2 (fst (serve (compile_requests (mkG e st it t) ++ compile_requests (mkG e' st it t)) [])) []
  <> own (mkReq (mkG e' st it t) (ex_pack e') true).
Proof.
  exists (mkB NORTHEAST 0 1 1), sp1, (mkSpec [Dim AJ false; Dim AI false] [2; 2] [4; 4] [8; 8] 2). do 2 eexists. exists [64; 8], 8, F64.
  split; [reflexivity|]. split; [reflexivity|]. split; [|split].
  - repeat split; try reflexivity; cbn; try lia. repeat constructor; cbn; lia.
  - repeat split; try reflexivity; cbn; try lia. repeat constructor; cbn; lia.
  - vm_compute. discriminate.
Qed.
Print Assumptions C16_dims_refuted.

(** Two fields of the same padded shape, one of which is larger by the width of the halo: the cells the smaller one
    receives into are the cells the larger one sends, so its unpack is served the rotated list. *)
Theorem C16_rotate_refuted : exists b s s' e e' st it t,
  exchange_spec b s = Some e /\ exchange_spec b s' = Some e' /\ wf_spec s /\ wf_spec s' /\ sp_dims s = sp_dims s' /\
  nth 3 (fst (serve (compile_requests (mkG e st it t) ++ compile_requests (mkG e' st it t)) [])) []
  <> own (mkReq (mkG e' st it t) (ex_unpack e') false).
Proof.
  exists (mkB EAST 0 1 1), (mkSpec IJ [2; 2] [6; 4] [10; 8] 2), (mkSpec IJ [2; 2] [4; 4] [10; 8] 2). do 2 eexists. exists [64; 8], 8, F64.
  split; [reflexivity|]. split; [reflexivity|]. split; [|split; [|split; [reflexivity|]]].
  - repeat split; try reflexivity; cbn; try lia. repeat constructor; cbn; lia.
  - repeat split; try reflexivity; cbn; try lia. repeat constructor; cbn; lia.
  - vm_compute. discriminate.
Qed.
Print Assumptions C16_rotate_refuted.
