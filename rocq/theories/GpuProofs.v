(** Proofs about the GPU packing model. *)
From Coq Require Import ZArith Lia List Bool Permutation.
From Verif Require Import Base PartModel DecompModel DecompSpec HaloModel HaloSpec HaloProofs HaloPack GpuModel.
Import ListNotations.
Local Open Scope Z_scope.

Ltac ilia := unfold index in *; lia.

(** ** the launch *)
Lemma zrange_shift a b c : map (fun t => c + t) (zrange a b) = zrange (c + a) (c + b).
Proof.
  unfold zrange. rewrite map_map. replace (c + b - (c + a)) with (b - a) by lia. apply map_ext. intros; lia.
Qed.

Lemma zrange_blocks k : 0 <= k -> flat_map (fun b => map (fun t => 128 * b + t) (zrange 0 128)) (zrange 0 k) = zrange 0 (128 * k).
Proof.
  intros H. pattern k. apply natlike_ind; [reflexivity| |exact H]. clear k H. intros k H IH.
  replace (Z.succ k) with (k + 1) by lia.
  rewrite (zrange_app 0 k (k + 1)) by lia. rewrite flat_map_app, IH.
  rewrite (zrange_cons k) by lia. replace (zrange (k + 1) (k + 1)) with (@nil Z) by (unfold zrange; replace (k + 1 - (k + 1)) with 0 by lia; reflexivity).
  cbn [flat_map]. rewrite app_nil_r, zrange_shift.
  replace (128 * (k + 1)) with (128 * k + 128) by lia. rewrite Z.add_0_r. rewrite <- zrange_app by lia. reflexivity.
Qed.

Lemma threads_eq n : 0 <= n -> threads n = zrange 0 (128 * (n / 128 + 1)).
Proof. intros H. unfold threads. apply zrange_blocks. pose proof (Z.div_pos n 128). lia. Qed.

Lemma threads_map {W} (f : Z -> list W) (g : Z -> W) n : 0 <= n ->
  (forall t, 0 <= t < n -> f t = [g t]) -> (forall t, n <= t -> f t = []) ->
  flat_map f (threads n) = map g (zrange 0 n).
Proof.
  intros H F N. rewrite threads_eq by auto.
  pose proof (Z.div_mod n 128 ltac:(lia)). pose proof (Z.mod_pos_bound n 128 ltac:(lia)).
  rewrite (zrange_app 0 n) by lia. rewrite flat_map_app.
  assert (E : flat_map f (zrange n (128 * (n / 128 + 1))) = []).
  { assert (G : forall l, (forall t, In t l -> n <= t) -> flat_map f l = []).
    { induction l as [|a l IH]; intros B; [reflexivity|]. cbn. rewrite N by (apply B; left; auto). apply IH. intros; apply B; right; auto. }
    apply G. intros t Ht. apply in_zrange in Ht. lia. }
  rewrite E, app_nil_r.
  assert (G : forall l, (forall t, In t l -> 0 <= t < n) -> flat_map f l = map g l).
  { induction l as [|a l IH]; intros B; [reflexivity|]. cbn. rewrite F by (apply B; left; auto). cbn. f_equal. apply IH. intros; apply B; right; auto. }
  apply G. intros t Ht. apply in_zrange in Ht. auto.
Qed.

(** ** stores in any order *)
(** the types there are kernels for *)
Definition floating (t : dtype) : Prop := t = F32 \/ t = F64.
Lemma floating_kernel t : floating t -> has_kernel t = true.
Proof. intros [-> | ->]; reflexivity. Qed.

Section Stored.
  Context {A K : Type}.
  Variable Kdec : forall a b : K, {a = b} + {a <> b}.
  Notation stored := (@stored A K Kdec).

  Lemma stored_out (m : K -> A) ws k : ~ In k (map fst ws) -> stored m ws k = m k.
  Proof.
    revert m. induction ws as [|w ws IH]; intros m H; [reflexivity|]. unfold GpuModel.stored. cbn [fold_left].
    change (stored (store1 Kdec m w) ws k = m k).
    rewrite IH by (intros X; apply H; right; auto). unfold store1. destruct (Kdec k (fst w)); [|reflexivity].
    exfalso. apply H. left. auto.
  Qed.

  Lemma stored_in (m : K -> A) ws k v : NoDup (map fst ws) -> In (k, v) ws -> stored m ws k = v.
  Proof.
    revert m. induction ws as [|w ws IH]; intros m N H; [destruct H|].
    inversion N as [|? ? N1 N2]; subst. change (stored (store1 Kdec m w) ws k = v).
    destruct H as [->|H].
    - rewrite stored_out by auto. unfold store1. cbn [fst snd]. destruct (Kdec k k); congruence.
    - apply IH; auto.
  Qed.

  Lemma stored_perm (m : K -> A) ws ws' k : NoDup (map fst ws) -> Permutation ws ws' -> stored m ws' k = stored m ws k.
  Proof.
    intros N P. assert (N' : NoDup (map fst ws')) by (eapply Permutation_NoDup; [apply Permutation_map, P|auto]).
    destruct (in_dec Kdec k (map fst ws)) as [I|I].
    - apply in_map_iff in I. destruct I as ([k' v] & E & I). cbn in E. subst k'.
      rewrite (stored_in m ws k v), (stored_in m ws' k v); auto. eapply Permutation_in; eauto.
    - rewrite !stored_out; auto. intros X. apply I. eapply Permutation_in; [apply Permutation_map, Permutation_sym, P|auto].
  Qed.
End Stored.

Lemma combine_fst {T U} (l : list T) (l' : list U) : length l = length l' -> map fst (combine l l') = l.
Proof. revert l'. induction l; intros [|]; cbn; intros; try discriminate; f_equal; auto. Qed.
Lemma zrange_len a n : 0 <= n -> length (zrange a (a + n)) = Z.to_nat n.
Proof. intros. unfold zrange. rewrite map_length, seq_length. f_equal. lia. Qed.

Lemma combine_nth_in {T U} (l : list T) (l' : list U) i d d' : length l = length l' -> (i < length l)%nat ->
  In (nth i l d, nth i l' d') (combine l l').
Proof. intros L H. rewrite <- combine_nth by auto. apply nth_In. rewrite combine_length. lia. Qed.

(** consecutive stores *)
Lemma stored_block {A} (b : Z -> A) off (data : list A) ws : Permutation (combine (zrange off (off + Z.of_nat (length data))) data) ws ->
  (forall i d, (i < length data)%nat -> stored Z.eq_dec b ws (off + Z.of_nat i) = nth i data d) /\
  (forall a, ~ off <= a < off + Z.of_nat (length data) -> stored Z.eq_dec b ws a = b a).
Proof.
  intros P. set (keys := zrange off (off + Z.of_nat (length data))) in *.
  assert (L : length keys = length data) by (unfold keys; rewrite zrange_len by lia; lia).
  assert (N : NoDup (map fst (combine keys data))) by (rewrite combine_fst by auto; apply zrange_NoDup).
  split.
  - intros i d H. rewrite (stored_perm _ _ _ _ _ N P).
    apply (stored_in Z.eq_dec); auto. replace (off + Z.of_nat i) with (nth i keys 0); [apply combine_nth_in; lia|].
    unfold keys. rewrite <- (Nat2Z.id i) at 1. rewrite zrange_nth; lia.
  - intros a H. rewrite (stored_perm _ _ _ _ _ N P). apply stored_out. rewrite combine_fst by auto.
    unfold keys. rewrite in_zrange. auto.
Qed.

Lemma map_zrange_combine {W} (vals : list W) (h : Z -> W) off n : n = Z.of_nat (length vals) ->
  (forall t d, 0 <= t < n -> h t = nth (Z.to_nat t) vals d) ->
  map (fun t => (off + t, h t)) (zrange 0 n) = combine (zrange off (off + n)) vals.
Proof.
  intros -> H. revert off h H. induction vals as [|v vals IH]; intros off h H; [rewrite combine_nil; reflexivity|].
  cbn [length]. rewrite (zrange_cons 0), (zrange_cons off) by lia. cbn [map combine]. f_equal.
  - f_equal; [lia|]. rewrite (H 0 v) by (cbn [length]; lia). reflexivity.
  - specialize (IH (off + 1) (fun t => h (t + 1))).
    replace (off + Z.of_nat (S (length vals))) with (off + 1 + Z.of_nat (length vals)) by lia.
    rewrite <- IH.
    + replace (zrange (0 + 1) (Z.of_nat (S (length vals)))) with (map (fun t => 1 + t) (zrange 0 (Z.of_nat (length vals)))) by (rewrite zrange_shift; f_equal; lia).
      rewrite map_map. apply map_ext. intros t. f_equal; [lia|]. f_equal. lia.
    + intros t d B. rewrite (H (t + 1) d) by (cbn [length]; lia).
      replace (Z.to_nat (t + 1)) with (S (Z.to_nat t)) by lia. reflexivity.
Qed.

(** ** index lists *)
Lemma rotate_natural {A B} (g : A -> B) s (f : index -> A) dims n :
  fst (rotate_scalar (s, fun p => g (f p)) dims n) = fst (rotate_scalar (s, f) dims n) /\
  forall p, snd (rotate_scalar (s, fun p => g (f p)) dims n) p = g (snd (rotate_scalar (s, f) dims n) p).
Proof.
  unfold rotate_scalar, rot90, flip.
  destruct (n mod 4 =? 0), (n mod 4 =? 1), (n mod 4 =? 3), (x_dim dims), (y_dim dims); cbn [orb fst snd]; auto.
Qed.

Lemma flatten_natural {A B} (g : A -> B) s (f : index -> A) dims n :
  flatten (rotate_scalar (s, fun p => g (f p)) dims n) = map g (flatten (rotate_scalar (s, f) dims n)).
Proof.
  unfold flatten. destruct (rotate_natural g s f dims n) as [-> H]. rewrite map_map. apply map_ext. auto.
Qed.

Lemma in_indices s p : In p (indices s) -> in_extent s p.
Proof.
  revert p. induction s as [|n s IH]; intros p; cbn [indices].
  - intros [<-|[]]. constructor.
  - intros H. apply in_flat_map in H. destruct H as (i & Hi & Hp). apply in_map_iff in Hp. destruct Hp as (q & <- & Hq).
    apply in_zrange in Hi. constructor; [lia|]. apply IH; auto.
Qed.

Lemma flatten_same {A} (m m' : list Z * (index -> A)) : same_array m m' -> flatten m = flatten m'.
Proof.
  intros [E V]. unfold flatten. rewrite <- E. apply map_ext_in. intros p Hp. apply V, in_indices, Hp.
Qed.

Lemma dot_div p st item : item <> 0 -> Forall (fun s => (item | s)) st -> (item | dot p st).
Proof.
  intros I F. revert p. unfold dot. induction F as [|s st H F IH]; intros [|x p]; cbn; try (exists 0; lia).
  apply Z.divide_add_r; [apply Z.divide_mul_r; auto|apply IH].
Qed.

Lemma dot_shift sl p st : length p = length sl -> dot (shift sl p) st = dot (map fst sl) st + dot p st.
Proof.
  unfold dot, shift. revert p st. induction sl as [|[a b] sl IH]; intros [|x p] st L; try discriminate; [reflexivity|].
  destruct st as [|s st]; [reflexivity|]. cbn. rewrite IH by (cbn in L; lia). lia.
Qed.

Lemma wrap32_id z : - 2^31 <= z < 2^31 -> wrap32 z = z.
Proof. intros H. unfold wrap32. rewrite Z.mod_small by lia. lia. Qed.

Lemma shift_inside sl p : in_extent (shape_of sl) p -> inside sl (shift sl p).
Proof.
  unfold in_extent, inside, shift, shape_of. revert p. induction sl as [|[a b] sl IH]; intros p H; inversion H; subst; cbn; constructor; auto.
  cbn in *. lia.
Qed.

Lemma index_value g sl p : describes g sl -> in_extent (shape_of sl) p ->
  wrap32 (dot (map fst sl) (g_strides g) / g_item g + dot p (g_strides g) / g_item g) = addr g (shift sl p).
Proof.
  intros [Ld Ls I W U F] H.
  assert (L : length p = length sl) by (apply in_extent_length in H; rewrite shape_of_length in H; lia).
  assert (E : dot (map fst sl) (g_strides g) / g_item g + dot p (g_strides g) / g_item g = addr g (shift sl p)).
  { unfold addr. rewrite dot_shift by auto. destruct (dot_div (map fst sl) (g_strides g) (g_item g) ltac:(lia) W) as [a ->].
    destruct (dot_div p (g_strides g) (g_item g) ltac:(lia) W) as [b ->].
    rewrite <- Z.mul_add_distr_r, !Z.div_mul by lia. reflexivity. }
  rewrite E. apply wrap32_id, F. apply shift_inside. auto.
Qed.

Lemma send_indices {A} g dims n (m : Z -> A) sl : describes g sl -> plane dims -> length dims = length sl ->
  map m (build_flatten_indices sl dims (g_strides g) (g_item g) true n) =
  flatten (rotate_scalar (view (array_in g m) sl) dims (- n)).
Proof.
  intros D P L. unfold build_flatten_indices. rewrite <- flatten_natural.
  apply flatten_same. apply rotate_same; auto.
  - cbn [fst]. rewrite shape_of_length. auto.
  - split; [reflexivity|]. cbn [fst snd view]. intros p Hp. unfold array_in, take_slice. rewrite index_value; auto.
Qed.

Lemma size_length g sl n : describes g sl -> plane (sp_dims (ex_spec (g_ex g))) ->
  Z.of_nat (length (build_flatten_indices sl (sp_dims (ex_spec (g_ex g))) (g_strides g) (g_item g) true n)) = slices_size sl.
Proof.
  intros D P. destruct D as [Ld Ls I W U F]. unfold build_flatten_indices.
  cbv zeta. match goal with |- context [rotate_scalar (_, ?h)] => set (f := h) end. assert (L : length (shape_of sl) = length (sp_dims (ex_spec (g_ex g)))) by (rewrite shape_of_length; auto).
  destruct (rotate_coords (sp_dims (ex_spec (g_ex g))) (shape_of sl) f (- n) P L) as [S _].
  rewrite flatten_length.
  - etransitivity; [apply f_equal; exact S|]. rewrite prod_rot by auto. symmetry. apply slices_size_prod; auto.
  - eapply eq_ind; [|symmetry; exact S]. apply rot_shape_nonneg; auto. apply shape_nonneg; auto.
Qed.

Lemma recv_indices g sl n : describes g sl ->
  build_flatten_indices sl (sp_dims (ex_spec (g_ex g))) (g_strides g) (g_item g) false n =
  map (fun p => addr g (shift sl p)) (indices (shape_of sl)).
Proof.
  intros D. unfold build_flatten_indices, flatten. cbn [fst snd]. apply map_ext_in. intros p Hp. apply index_value; auto. apply in_indices; auto.
Qed.

Lemma indices_NoDup s : NoDup (indices s).
Proof.
  induction s as [|n s IH]; cbn [indices]; [repeat constructor; auto|].
  assert (G : forall l, NoDup l -> NoDup (flat_map (fun i => map (cons i) (indices s)) l)).
  { induction l as [|i l IHl]; intros N; [constructor|]. inversion N; subst. cbn [flat_map].
    assert (X : forall a b : list index, NoDup a -> NoDup b -> (forall x, In x a -> In x b -> False) -> NoDup (a ++ b)).
    { clear. induction a as [|x a IHa]; intros b Na Nb H; [auto|]. inversion Na; subst. cbn. constructor.
      - rewrite in_app_iff. intros [Y|Y]; [auto|]. eapply H; [left; reflexivity|auto].
      - apply IHa; auto. intros y Y1 Y2. eapply H; [right; eauto|auto]. }
    apply X; auto.
    - apply FinFun.Injective_map_NoDup; auto. intros a b E. congruence.
    - intros p P1 P2. apply in_map_iff in P1. destruct P1 as (q & <- & _). apply in_flat_map in P2.
      destruct P2 as (j & Hj & P2). apply in_map_iff in P2. destruct P2 as (q' & E & _). injection E as -> _. auto. }
  apply G, zrange_NoDup.
Qed.

(** ** packing *)
Lemma at_nth idx t d : 0 <= t < Z.of_nat (length idx) -> at_ idx t = nth (Z.to_nat t) idx d.
Proof. intros H. unfold at_. apply nth_indep. lia. Qed.

Lemma nth_map_at {A} (m : Z -> A) idx t d : 0 <= t < Z.of_nat (length idx) -> m (at_ idx t) = nth (Z.to_nat t) (map m idx) d.
Proof.
  intros H. rewrite nth_indep with (d' := m 0) by (rewrite map_length; lia). rewrite map_nth. reflexivity.
Qed.

Section Pack.
  Context {A : Type}.
  Variable neg : A -> A.

  Lemma scalar_kernel (m : Z -> A) idx n off : n = Z.of_nat (length idx) ->
    flat_map (pack_scalar_thread m idx n off) (threads n) = combine (zrange off (off + n)) (map m idx).
  Proof.
    intros ->. rewrite (threads_map _ (fun t => (off + t, m (at_ idx t)))) ; [|lia| |].
    - apply map_zrange_combine; [rewrite map_length; reflexivity|]. intros t d H. apply nth_map_at; auto.
    - intros t H. unfold pack_scalar_thread. destruct (_ <=? t) eqn:E; [lia|reflexivity].
    - intros t H. unfold pack_scalar_thread. destruct (_ <=? t) eqn:E; [reflexivity|lia].
  Qed.

  Lemma combine_app {T U} (a b : list T) (c d : list U) : length a = length c -> combine (a ++ b) (c ++ d) = combine a c ++ combine b d.
  Proof. revert c. induction a; intros [|]; cbn; intros; try discriminate; f_equal; auto. Qed.

  Lemma block_app off (d1 d2 : list A) :
    combine (zrange off (off + Z.of_nat (length d1))) d1 ++ combine (zrange (off + Z.of_nat (length d1)) (off + Z.of_nat (length d1) + Z.of_nat (length d2))) d2
    = combine (zrange off (off + Z.of_nat (length (d1 ++ d2)))) (d1 ++ d2).
  Proof.
    rewrite <- combine_app by (rewrite zrange_len by lia; lia). f_equal. rewrite <- zrange_app by lia. f_equal. rewrite app_length. lia.
  Qed.

  Definition sendable (g : ginfo) : Prop :=
    describes g (ex_pack (g_ex g)) /\ plane (sp_dims (ex_spec (g_ex g))) /\ floating (g_dtype g).

  Lemma gpu_scalar off infos (ms : list (Z -> A)) : Forall sendable infos -> length infos = length ms ->
    exists data, pack_scalar (map g_ex infos) (map (fun gm => array_in (fst gm) (snd gm)) (combine infos ms)) = Some data /\
      gpu_pack_scalar off infos ms = Some (combine (zrange off (off + Z.of_nat (length data))) data).
  Proof.
    intros F. revert off ms. induction F as [|g infos (D & P & K) F IH]; intros off [|m ms] L; try discriminate.
    - exists []. cbn. rewrite Z.add_0_r. split; [reflexivity|]. destruct (zrange off off); reflexivity.
    - cbn in L. injection L as L. apply floating_kernel in K.
      pose proof (send_indices g (sp_dims (ex_spec (g_ex g))) (ex_rot (g_ex g)) m (ex_pack (g_ex g)) D P ltac:(symmetry; apply (d_dims _ _ D))) as E.
      pose proof (size_length g (ex_pack (g_ex g)) (ex_rot (g_ex g)) D P) as S.
      set (idx := build_flatten_indices (ex_pack (g_ex g)) (sp_dims (ex_spec (g_ex g))) (g_strides g) (g_item g) true (ex_rot (g_ex g))) in *.
      destruct (IH (off + slices_size (ex_pack (g_ex g))) ms L) as (data & CP & GP).
      exists (map m idx ++ data). cbn [map combine fst snd pack_scalar gpu_pack_scalar].
      unfold pack1. rewrite <- E. rewrite map_length, S, Z.eqb_refl, CP. cbn [bind]. split; [reflexivity|].
      rewrite GP, K. cbn [bind]. f_equal. fold (fresh_indices g (ex_pack (g_ex g)) true) in idx. fold idx.
      unfold fresh_indices. fold idx. rewrite scalar_kernel by auto.
      rewrite <- S. rewrite <- (map_length m idx). apply block_app.
  Qed.

  (** *** vectors *)
  Definition same_axes (d d' : list dim) : Prop :=
    Forall2 (fun a b => is_i_dim a = is_i_dim b /\ is_j_dim a = is_j_dim b) d d'.

  Lemma same_axes_last d d' : same_axes d d' -> forall i ax ay,
    last_pos is_i_dim d i ax = last_pos is_i_dim d' i ax /\ last_pos is_j_dim d i ay = last_pos is_j_dim d' i ay.
  Proof.
    induction 1 as [|a b d d' [E1 E2] H IH]; intros i ax ay; [auto|]. cbn. rewrite E1, E2. apply IH.
  Qed.
  Lemma same_axes_reverse d d' : same_axes d d' -> forall s p, reverse_horizontal d s p = reverse_horizontal d' s p.
  Proof.
    induction 1 as [|a b d d' [E1 E2] H IH]; intros [|n s] [|x p]; try reflexivity. cbn. rewrite E1, E2. f_equal. apply IH.
  Qed.
  Lemma same_axes_pos d d' : same_axes d d' ->
    (x_dim d = x_dim d') /\ (y_dim d = y_dim d') /\ forall s p, reverse_horizontal d s p = reverse_horizontal d' s p.
  Proof.
    intros H. repeat split; [apply (same_axes_last d d' H 0%nat None None)..|]. apply same_axes_reverse, H.
  Qed.

  Lemma rotate_axes {B} (m : list Z * (index -> B)) d d' n : same_axes d d' ->
    flatten (rotate_scalar m d n) = flatten (rotate_scalar m d' n).
  Proof.
    intros H. destruct (same_axes_pos d d' H) as (X & Y & R). unfold rotate_scalar. rewrite X, Y.
    destruct (n mod 4 =? 0); [reflexivity|]. destruct ((n mod 4 =? 1) || (n mod 4 =? 3))%bool; [reflexivity|].
    destruct m as [s f]. unfold flatten. cbn [fst snd]. apply map_ext. intros p. rewrite R. reflexivity.
  Qed.
End Pack.

Section PackVector.
  Context {A : Type}.
  Variable neg : A -> A.

  Lemma kernel2 (f : Z -> list (Z * A)) off l1 l2 n1 n2 (h1 h2 : Z -> A) :
    n1 = Z.of_nat (length l1) -> n2 = Z.of_nat (length l2) ->
    (forall t, 0 <= t < n1 + n2 -> f t = [(off + t, if t <? n1 then h1 t else h2 (t - n1))]) ->
    (forall t, n1 + n2 <= t -> f t = []) ->
    (forall t d, 0 <= t < n1 -> h1 t = nth (Z.to_nat t) l1 d) -> (forall t d, 0 <= t < n2 -> h2 t = nth (Z.to_nat t) l2 d) ->
    flat_map f (threads (n1 + n2)) = combine (zrange off (off + (n1 + n2))) (l1 ++ l2).
  Proof.
    intros E1 E2 F N H1 H2.
    rewrite (threads_map f (fun t => (off + t, if t <? n1 then h1 t else h2 (t - n1)))); [|lia|auto|auto].
    apply (map_zrange_combine (l1 ++ l2) (fun t => if t <? n1 then h1 t else h2 (t - n1))); [rewrite app_length; lia|].
    intros t d Ht. destruct (t <? n1) eqn:E.
    - rewrite app_nth1 by lia. apply H1. lia.
    - rewrite app_nth2 by lia. replace (Z.to_nat t - length l1)%nat with (Z.to_nat (t - n1)) by lia. apply H2. lia.
  Qed.

  Lemma vector_kernel (x y : Z -> A) ix iy nx ny off k : nx = Z.of_nat (length ix) -> ny = Z.of_nat (length iy) -> 0 <= k < 4 ->
    flat_map (pack_vector_thread neg x y ix iy nx ny off k) (threads (nx + ny)) =
    combine (zrange off (off + (nx + ny)))
      (if k =? 0 then map x ix ++ map y iy
       else if k =? 1 then map y iy ++ map (fun a => neg (x a)) ix
       else if k =? 2 then map (fun a => neg (x a)) ix ++ map (fun a => neg (y a)) iy
       else map (fun a => neg (y a)) iy ++ map x ix).
  Proof.
    intros Ex Ey K. destruct (mod4 k K) as [->|[->|[->| ->]]]; cbn [Z.eqb Pos.eqb].
    - apply (kernel2 _ off _ _ _ _ (fun t => x (at_ ix t)) (fun t => y (at_ iy t))); try (rewrite map_length; auto).
      + intros t H. unfold pack_vector_thread. destruct (nx + ny <=? t) eqn:E; [lia|]. cbn [Z.eqb]. destruct (t <? nx); reflexivity.
      + intros t H. unfold pack_vector_thread. destruct (nx + ny <=? t) eqn:E; [reflexivity|lia].
      + intros; apply nth_map_at; lia.
      + intros; apply nth_map_at; lia.
    - rewrite (Z.add_comm nx ny).
      apply (kernel2 _ off _ _ _ _ (fun t => y (at_ iy t)) (fun t => neg (x (at_ ix t)))); try (rewrite map_length; auto).
      + intros t H. unfold pack_vector_thread. destruct (nx + ny <=? t) eqn:E; [lia|]. cbn [Z.eqb]. destruct (t <? ny); reflexivity.
      + intros t H. unfold pack_vector_thread. destruct (nx + ny <=? t) eqn:E; [reflexivity|lia].
      + intros; apply nth_map_at; lia.
      + intros; apply (nth_map_at (fun a => neg (x a))); lia.
    - apply (kernel2 _ off _ _ _ _ (fun t => neg (x (at_ ix t))) (fun t => neg (y (at_ iy t)))); try (rewrite map_length; auto).
      + intros t H. unfold pack_vector_thread. destruct (nx + ny <=? t) eqn:E; [lia|]. cbn [Z.eqb Pos.eqb]. destruct (t <? nx); reflexivity.
      + intros t H. unfold pack_vector_thread. destruct (nx + ny <=? t) eqn:E; [reflexivity|lia].
      + intros; apply (nth_map_at (fun a => neg (x a))); lia.
      + intros; apply (nth_map_at (fun a => neg (y a))); lia.
    - rewrite (Z.add_comm nx ny).
      apply (kernel2 _ off _ _ _ _ (fun t => neg (y (at_ iy t))) (fun t => x (at_ ix t))); try (rewrite map_length; auto).
      + intros t H. unfold pack_vector_thread. destruct (nx + ny <=? t) eqn:E; [lia|]. cbn [Z.eqb Pos.eqb]. destruct (t <? ny); reflexivity.
      + intros t H. unfold pack_vector_thread. destruct (nx + ny <=? t) eqn:E; [reflexivity|lia].
      + intros; apply (nth_map_at (fun a => neg (y a))); lia.
      + intros; apply nth_map_at; lia.
  Qed.

  Record vector_sendable (gx gy : ginfo) : Prop := mkVs {
    vs_x : sendable gx;
    vs_y : describes gy (ex_pack (g_ex gy)) /\ plane (sp_dims (ex_spec (g_ex gy)));
    vs_axes : same_axes (sp_dims (ex_spec (g_ex gx))) (sp_dims (ex_spec (g_ex gy)));
    vs_rot : ex_rot (g_ex gx) = ex_rot (g_ex gy) }.

  Lemma neg_flatten (m : list Z * (index -> A)) : flatten (neg_arr neg m) = map neg (flatten m).
  Proof. unfold flatten, neg_arr. cbn [fst snd]. rewrite map_map. reflexivity. Qed.

  Definition arrays (infos : list ginfo) (ms : list (Z -> A)) : list (index -> A) :=
    map (fun gm => array_in (fst gm) (snd gm)) (combine infos ms).

  Lemma gpu_vector off infos_x infos_y (mx my : list (Z -> A)) : Forall2 vector_sendable infos_x infos_y ->
    length infos_x = length mx -> length infos_y = length my ->
    exists data, pack_vector neg (map g_ex infos_x) (map g_ex infos_y) (arrays infos_x mx) (arrays infos_y my) = Some data /\
      gpu_pack_vector neg off infos_x infos_y mx my = Some (combine (zrange off (off + Z.of_nat (length data))) data).
  Proof.
    intros F. revert off mx my. induction F as [|gx gy infos_x infos_y V F IH]; intros off [|x mx] [|y my] Lx Ly; try discriminate.
    - exists []. cbn. rewrite Z.add_0_r. split; [reflexivity|]. destruct (zrange off off); reflexivity.
    - cbn in Lx, Ly. injection Lx as Lx. injection Ly as Ly. destruct V as [(Dx & Px & K) [Dy Py] AX R]. apply floating_kernel in K.
      pose proof (send_indices gx (sp_dims (ex_spec (g_ex gx))) (ex_rot (g_ex gx)) x (ex_pack (g_ex gx)) Dx Px ltac:(symmetry; apply (d_dims _ _ Dx))) as Ex.
      pose proof (send_indices gy (sp_dims (ex_spec (g_ex gy))) (ex_rot (g_ex gy)) y (ex_pack (g_ex gy)) Dy Py ltac:(symmetry; apply (d_dims _ _ Dy))) as Ey.
      pose proof (size_length gx (ex_pack (g_ex gx)) (ex_rot (g_ex gx)) Dx Px) as Sx.
      pose proof (size_length gy (ex_pack (g_ex gy)) (ex_rot (g_ex gy)) Dy Py) as Sy.
      rewrite <- (rotate_axes _ _ _ _ AX) in Ey. rewrite <- R in Ey, Sy.
      cbn [map arrays combine fst snd pack_vector gpu_pack_vector].
      unfold fresh_indices. rewrite <- R.
      set (ix := build_flatten_indices (ex_pack (g_ex gx)) (sp_dims (ex_spec (g_ex gx))) (g_strides gx) (g_item gx) true (ex_rot (g_ex gx))) in *.
      set (iy := build_flatten_indices (ex_pack (g_ex gy)) (sp_dims (ex_spec (g_ex gy))) (g_strides gy) (g_item gy) true (ex_rot (g_ex gx))) in *.
      destruct (IH (off + (slices_size (ex_pack (g_ex gx)) + slices_size (ex_pack (g_ex gy)))) mx my Lx Ly) as (data & CP & GP).
      fold (arrays infos_x mx) (arrays infos_y my). rewrite CP, GP, K. cbn [bind].
      rewrite vector_kernel by (auto; apply Z.mod_pos_bound; lia).
      unfold rotate_vector. set (k := (- ex_rot (g_ex gx)) mod 4).
      set (rx := rotate_scalar (view (array_in gx x) (ex_pack (g_ex gx))) (sp_dims (ex_spec (g_ex gx))) (- ex_rot (g_ex gx))) in *.
      set (ry := rotate_scalar (view (array_in gy y) (ex_pack (g_ex gy))) (sp_dims (ex_spec (g_ex gx))) (- ex_rot (g_ex gx))) in *.
      assert (Nx : map (fun a => neg (x a)) ix = flatten (neg_arr neg rx)) by (rewrite neg_flatten, <- Ex, map_map; reflexivity).
      assert (Ny : map (fun a => neg (y a)) iy = flatten (neg_arr neg ry)) by (rewrite neg_flatten, <- Ey, map_map; reflexivity).
      assert (G : forall d : list A, Z.of_nat (length d) = slices_size (ex_pack (g_ex gx)) + slices_size (ex_pack (g_ex gy)) ->
        combine (zrange off (off + (slices_size (ex_pack (g_ex gx)) + slices_size (ex_pack (g_ex gy))))) d ++
        combine (zrange (off + (slices_size (ex_pack (g_ex gx)) + slices_size (ex_pack (g_ex gy)))) (off + (slices_size (ex_pack (g_ex gx)) + slices_size (ex_pack (g_ex gy))) + Z.of_nat (length data))) data
        = combine (zrange off (off + Z.of_nat (length (d ++ data)))) (d ++ data)).
      { intros d <-. apply block_app. }
      destruct (k =? 0), (k =? 1), (k =? 2); cbn [bind]; (eexists; split; [reflexivity|]); f_equal; rewrite app_assoc;
        rewrite <- ?Nx, <- ?Ny, <- ?Ex, <- ?Ey; apply G; rewrite app_length, !map_length; lia.
  Qed.
End PackVector.

(** ** unpacking *)
Section Unpack.
  Context {A : Type}.
  Variable buffer : Z -> A.
  Definition label : Type := nat * bool.
  Record seg := mkSeg { s_label : label; s_info : ginfo; s_off : Z }.
  Definition seg_slices (s : seg) := ex_unpack (g_ex (s_info s)).

  (** what one component receives *)
  Definition seg_writes (s : seg) : list (place * A) :=
    map (fun p => ((s_label s, addr (s_info s) (shift (seg_slices s) p)), buffer (s_off s + flat_index (shape_of (seg_slices s)) p)))
        (indices (shape_of (seg_slices s))).

  Record receivable (g : ginfo) : Prop := mkRecv {
    r_desc : describes g (ex_unpack (g_ex g));
    r_in : Forall2 (fun r s => 0 <= fst r /\ snd r <= s) (ex_unpack (g_ex g)) (sp_shape (ex_spec (g_ex g)));
    r_inj : forall p p', in_extent (sp_shape (ex_spec (g_ex g))) p -> in_extent (sp_shape (ex_spec (g_ex g))) p' ->
            addr g p = addr g p' -> p = p' }.

  Lemma seg_key s w : In w (seg_writes s) -> exists p, inside (seg_slices s) p /\ fst w = (s_label s, addr (s_info s) p).
  Proof.
    intros H. apply in_map_iff in H. destruct H as (p & <- & Hp). apply in_indices in Hp.
    exists (shift (seg_slices s) p). split; [apply shift_inside; auto|reflexivity].
  Qed.

  Lemma shift_unshift sl p : inside sl p -> shift sl (unshift sl p) = p.
  Proof.
    unfold inside, shift, unshift. induction 1 as [|s x sl p H F IH]; [reflexivity|]. cbn. rewrite IH. f_equal. lia.
  Qed.
  Lemma unshift_shift sl p : length p = length sl -> unshift sl (shift sl p) = p.
  Proof.
    unfold shift, unshift. revert p. induction sl as [|s sl IH]; intros [|x p] L; try discriminate; [reflexivity|].
    cbn. rewrite IH by (cbn in L; lia). f_equal. lia.
  Qed.
  Lemma in_extent_indices s p : in_extent s p -> In p (indices s).
  Proof.
    unfold in_extent. induction 1 as [|n x s p H F IH]; [left; reflexivity|]. cbn [indices]. apply in_flat_map. exists x.
    rewrite in_zrange. split; [lia|]. apply in_map. auto.
  Qed.

  Lemma seg_in s p : inside (seg_slices s) p ->
    In ((s_label s, addr (s_info s) p), buffer (s_off s + flat_index (shape_of (seg_slices s)) (unshift (seg_slices s) p))) (seg_writes s).
  Proof.
    intros H. apply in_map_iff. exists (unshift (seg_slices s) p). split; [rewrite shift_unshift by auto; reflexivity|].
    apply in_extent_indices, unshift_in, H.
  Qed.

  Lemma seg_NoDup s : receivable (s_info s) -> NoDup (map fst (seg_writes s)).
  Proof.
    intros [D I J]. unfold seg_writes. rewrite map_map. cbn [fst].
    assert (G : forall l, NoDup l -> (forall p, In p l -> in_extent (shape_of (seg_slices s)) p) ->
              NoDup (map (fun p => (s_label s, addr (s_info s) (shift (seg_slices s) p))) l)).
    { induction l as [|p l IH]; intros N B; [constructor|]. inversion N; subst. cbn. constructor; [|apply IH; auto; intros; apply B; right; auto].
      intros X. apply in_map_iff in X. destruct X as (q & E & Hq). injection E as E.
      assert (Hp' : in_extent (shape_of (seg_slices s)) p) by (apply B; left; auto).
      assert (Hq' : in_extent (shape_of (seg_slices s)) q) by (apply B; right; auto).
      assert (X : shift (seg_slices s) q = shift (seg_slices s) p).
      { apply J; auto; eapply slices_inside; eauto; apply shift_inside; auto. }
      apply (f_equal (unshift (seg_slices s))) in X.
      rewrite !unshift_shift in X by (apply in_extent_length in Hp'; apply in_extent_length in Hq'; rewrite shape_of_length in *; auto).
      subst q; contradiction. }
    apply G; [apply indices_NoDup|apply in_indices].
  Qed.

  Definition place_dec : forall a b : place, {a = b} + {a <> b}.
  Proof. repeat (decide equality; try apply Z.eq_dec). Defined.

  Lemma NoDup_app_intro {T} (a b : list T) : NoDup a -> NoDup b -> (forall x, In x a -> In x b -> False) -> NoDup (a ++ b).
  Proof.
    induction a as [|x a IHa]; intros Na Nb H; [auto|]. inversion Na; subst. cbn. constructor.
    - rewrite in_app_iff. intros [Y|Y]; [auto|]. eapply H; [left; reflexivity|auto].
    - apply IHa; auto. intros y Y1 Y2. eapply H; [right; eauto|auto].
  Qed.

  Lemma segs_NoDup ss : NoDup (map s_label ss) -> Forall (fun s => receivable (s_info s)) ss ->
    NoDup (map fst (flat_map seg_writes ss)).
  Proof.
    induction ss as [|s ss IH]; intros N F; [constructor|]. inversion N; subst. inversion F; subst.
    cbn [flat_map]. rewrite map_app. apply NoDup_app_intro; auto; [apply seg_NoDup; auto|].
    intros k K1 K2. apply in_map_iff in K1. destruct K1 as (w & <- & Hw). apply in_map_iff in K2. destruct K2 as (w' & E & Hw').
    apply seg_key in Hw. destruct Hw as (p & _ & Ew). apply in_flat_map in Hw'. destruct Hw' as (s' & Hs' & Hw').
    apply seg_key in Hw'. destruct Hw' as (p' & _ & Ew'). rewrite Ew, Ew' in E. injection E as E _. apply H1. rewrite <- E. apply in_map; auto.
  Qed.

  Lemma segs_result (m : place -> A) ss ws : NoDup (map s_label ss) -> Forall (fun s => receivable (s_info s)) ss ->
    Permutation (flat_map seg_writes ss) ws ->
    (forall s p, In s ss -> in_extent (sp_shape (ex_spec (g_ex (s_info s)))) p ->
      stored place_dec m ws (s_label s, addr (s_info s) p) =
      if in_slices (seg_slices s) p then buffer (s_off s + flat_index (shape_of (seg_slices s)) (unshift (seg_slices s) p))
      else m (s_label s, addr (s_info s) p)) /\
    (forall l a, (forall s p, In s ss -> inside (seg_slices s) p -> (l, a) <> (s_label s, addr (s_info s) p)) ->
      stored place_dec m ws (l, a) = m (l, a)).
  Proof.
    intros N F P. pose proof (segs_NoDup ss N F) as ND.
    assert (O : forall l a, (forall s p, In s ss -> inside (seg_slices s) p -> (l, a) <> (s_label s, addr (s_info s) p)) ->
      stored place_dec m ws (l, a) = m (l, a)).
    { intros l a H. rewrite (stored_perm _ _ _ _ _ ND P). apply stored_out. intros X. apply in_map_iff in X.
      destruct X as (w & E & Hw). apply in_flat_map in Hw. destruct Hw as (s & Hs & Hw). apply seg_key in Hw.
      destruct Hw as (p & Hp & E'). eapply H; eauto. congruence. }
    split; [|exact O]. intros s p Hs Hp. destruct (in_slices (seg_slices s) p) eqn:E.
    - apply in_slices_inside in E. rewrite (stored_perm _ _ _ _ _ ND P). apply stored_in; auto.
      apply in_flat_map. exists s. split; auto. apply seg_in; auto.
    - apply O. intros s' p' Hs' Hp' Eq. apply pair_equal_spec in Eq. destruct Eq as [EL EA].
      assert (s' = s).
      { clear -N Hs Hs' EL. induction ss as [|t ss IH]; [destruct Hs|]. inversion N; subst. cbn in *.
        destruct Hs as [->|Hs], Hs' as [->|Hs']; auto.
        - exfalso. apply H1. rewrite EL. apply in_map; auto.
        - exfalso. apply H1. rewrite <- EL. apply in_map; auto. }
      subst s'. rewrite Forall_forall in F. destruct (F s Hs) as [D I J].
      assert (p = p') by (apply J; auto; eapply slices_inside; eauto). subst p'.
      apply in_slices_inside in Hp'. congruence.
  Qed.

  (** the index lists in the kernels give these stores *)
  Lemma unflatten_values n off sl : n = slices_size sl -> Forall (fun s => fst s <= snd s) sl ->
    map (fun t => buffer (off + t)) (zrange 0 n) = map (fun p => buffer (off + flat_index (shape_of sl) p)) (indices (shape_of sl)).
  Proof.
    intros -> U. pose proof (shape_nonneg sl U) as S. rewrite slices_size_prod by auto.
    pose proof (indices_length (shape_of sl) S) as L. unfold index in *.
    rewrite <- (map_map (fun t => t) (fun t => buffer (off + t))), map_id.
    rewrite <- (map_map (flat_index (shape_of sl)) (fun t => buffer (off + t))). f_equal.
    apply nth_ext with (d := 0) (d' := 0).
    - rewrite map_length. unfold zrange. rewrite map_length, seq_length. ilia.
    - intros i Hi. unfold zrange in Hi. rewrite map_length, seq_length in Hi.
      rewrite <- (Nat2Z.id i) at 1. rewrite zrange_nth by ilia.
      rewrite nth_indep with (d' := flat_index (shape_of sl) []) by (rewrite map_length; ilia). rewrite map_nth.
      assert (In (nth i (indices (shape_of sl)) []) (indices (shape_of sl))) as X by (apply nth_In; ilia).
      pose proof (in_indices _ _ X) as Y. destruct (flat_index_nth _ _ Y) as [B E].
      assert (Z.to_nat (flat_index (shape_of sl) (nth i (indices (shape_of sl)) [])) = i); [|ilia].
      eapply (proj1 (NoDup_nth (indices (shape_of sl)) [])); [apply indices_NoDup|ilia|ilia|]. exact E.
  Qed.

  Lemma seg_writes_map s : receivable (s_info s) ->
    seg_writes s = map (fun t => ((s_label s, at_ (fresh_indices (s_info s) (seg_slices s) false) t), buffer (s_off s + t)))
                       (zrange 0 (slices_size (seg_slices s))).
  Proof.
    intros [D I J]. unfold fresh_indices, seg_slices. rewrite recv_indices by auto.
    set (sl := ex_unpack (g_ex (s_info s))) in *.
    pose proof (shape_nonneg sl (d_up _ _ D)) as S. pose proof (indices_length (shape_of sl) S) as L.
    pose proof (slices_size_prod sl (d_up _ _ D)) as E.
    pose proof (unflatten_values (slices_size sl) (s_off s) sl eq_refl (d_up _ _ D)) as V.
    unfold seg_writes, seg_slices. fold sl.
    set (ps := indices (shape_of sl)) in *.
    assert (K : map (fun t => at_ (map (fun p => addr (s_info s) (shift sl p)) ps) t) (zrange 0 (slices_size sl)) = map (fun p => addr (s_info s) (shift sl p)) ps).
    { apply nth_ext with (d := at_ (map (fun p => addr (s_info s) (shift sl p)) ps) 0) (d' := 0).
      - rewrite !map_length. unfold zrange. rewrite map_length, seq_length. ilia.
      - intros i Hi. rewrite map_length in Hi. unfold zrange in Hi. rewrite map_length, seq_length in Hi.
        rewrite map_nth. rewrite <- (Nat2Z.id i) at 1. rewrite zrange_nth by ilia. unfold at_. f_equal. ilia. }
    assert (C : forall T (l : list T) (f : T -> place) (g : T -> A), map (fun t => (f t, g t)) l = combine (map f l) (map g l)).
    { clear. induction l; cbn; intros; f_equal; auto. }
    rewrite (C index ps (fun p => (s_label s, addr (s_info s) (shift sl p)))).
    rewrite (C Z (zrange 0 (slices_size sl)) (fun t => (s_label s, at_ (map (fun p => addr (s_info s) (shift sl p)) ps) t))).
    rewrite V. f_equal.
    rewrite <- (map_map (fun t => at_ (map (fun p => addr (s_info s) (shift sl p)) ps) t) (fun a => (s_label s, a))), K, map_map. reflexivity.
  Qed.

  Fixpoint scalar_segs (off : Z) (i : nat) (infos : list ginfo) : list seg :=
    match infos with
    | [] => []
    | g :: infos' => mkSeg (i, false) g off :: scalar_segs (off + slices_size (ex_unpack (g_ex g))) (S i) infos'
    end.
  Fixpoint vector_segs (off : Z) (i : nat) (gx gy : list ginfo) : list seg :=
    match gx, gy with
    | x :: gx', y :: gy' =>
        let nx := slices_size (ex_unpack (g_ex x)) in
        let ny := slices_size (ex_unpack (g_ex y)) in
        mkSeg (i, false) x off :: mkSeg (i, true) y (off + nx) :: vector_segs (off + (nx + ny)) (S i) gx' gy'
    | _, _ => []
    end.

  Lemma size_nonneg sl : 0 <= slices_size sl.
  Proof. unfold slices_size. induction sl; cbn [map fold_right]; nia. Qed.

  Lemma gpu_scalar_segs off i infos : Forall (fun g => receivable g /\ floating (g_dtype g)) infos ->
    gpu_unpack_scalar off i infos buffer = flat_map seg_writes (scalar_segs off i infos).
  Proof.
    intros F. revert off i. induction F as [|g infos [R K] F IH]; intros off i; [reflexivity|]. apply floating_kernel in K.
    cbn [gpu_unpack_scalar scalar_segs flat_map]. rewrite K, IH. f_equal.
    rewrite (seg_writes_map (mkSeg (i, false) g off)) by auto. cbn [s_label s_info s_off]. unfold seg_slices. cbn [s_info].
    apply threads_map; [apply size_nonneg| |].
    - intros t H. unfold unpack_scalar_thread. destruct (_ <=? t) eqn:E; [lia|reflexivity].
    - intros t H. unfold unpack_scalar_thread. destruct (_ <=? t) eqn:E; [reflexivity|lia].
  Qed.

  Lemma gpu_vector_segs off i gx gy :
    Forall2 (fun x y => receivable x /\ receivable y /\ floating (g_dtype x)) gx gy ->
    gpu_unpack_vector off i gx gy buffer = flat_map seg_writes (vector_segs off i gx gy).
  Proof.
    intros F. revert off i. induction F as [|x y gx gy (Rx & Ry & K) F IH]; intros off i; [reflexivity|]. apply floating_kernel in K.
    cbn [gpu_unpack_vector vector_segs flat_map]. rewrite K, IH. cbv zeta. rewrite app_assoc. f_equal.
    rewrite (seg_writes_map (mkSeg (i, false) x off)), (seg_writes_map (mkSeg (i, true) y (off + slices_size (ex_unpack (g_ex x))))) by auto.
    cbn [s_label s_info s_off]. unfold seg_slices. cbn [s_info].
    set (nx := slices_size (ex_unpack (g_ex x))). set (ny := slices_size (ex_unpack (g_ex y))).
    pose proof (size_nonneg (ex_unpack (g_ex x))) as Nx. pose proof (size_nonneg (ex_unpack (g_ex y))) as Ny. fold nx in Nx. fold ny in Ny.
    set (ix := fresh_indices x _ _). set (iy := fresh_indices y _ _).
    rewrite (threads_map _ (fun t => if t <? nx then ((i, false, at_ ix t), buffer (off + t)) else ((i, true, at_ iy (t - nx)), buffer (off + t)))).
    - rewrite (zrange_app 0 nx) by lia. rewrite map_app. f_equal.
      + apply map_ext_in. intros t Ht. apply in_zrange in Ht. destruct (t <? nx) eqn:E; [reflexivity|lia].
      + replace (zrange nx (nx + ny)) with (map (fun t => nx + t) (zrange 0 ny)) by (rewrite zrange_shift; f_equal; lia).
        rewrite map_map. apply map_ext_in. intros t Ht. apply in_zrange in Ht. destruct (nx + t <? nx) eqn:E; [lia|].
        replace (nx + t - nx) with t by lia. rewrite Z.add_assoc. reflexivity.
    - lia.
    - intros t H. unfold unpack_vector_thread. destruct (t <? nx) eqn:E; [reflexivity|]. destruct (t <? nx + ny) eqn:E2; [reflexivity|lia].
    - intros t H. unfold unpack_vector_thread. destruct (t <? nx) eqn:E; [lia|]. destruct (t <? nx + ny) eqn:E2; [lia|reflexivity].
  Qed.

  Lemma scalar_labels off i infos : map s_label (scalar_segs off i infos) = map (fun j => (j, false)) (seq i (length infos)).
  Proof. revert off i. induction infos; intros; [reflexivity|]. cbn. rewrite IHinfos. reflexivity. Qed.
  Lemma scalar_NoDup off i infos : NoDup (map s_label (scalar_segs off i infos)).
  Proof. rewrite scalar_labels. apply FinFun.Injective_map_NoDup; [intros a b E; congruence|apply seq_NoDup]. Qed.
  Lemma vector_label_ge off i gx gy l : In l (map s_label (vector_segs off i gx gy)) -> (i <= fst l)%nat.
  Proof.
    revert off i gy. induction gx as [|x gx IH]; intros off i [|y gy] H; try (destruct H; fail).
    cbn in H. destruct H as [<-|[<-|H]]; cbn; try lia. apply IH in H. lia.
  Qed.
  Lemma vector_NoDup off i gx gy : NoDup (map s_label (vector_segs off i gx gy)).
  Proof.
    revert off i gy. induction gx as [|x gx IH]; intros off i [|y gy]; try constructor.
    - cbn. intros [E|H]; [discriminate|]. apply vector_label_ge in H. cbn in H. lia.
    - cbn. constructor; [|apply IH]. intros H. apply vector_label_ge in H. cbn in H. lia.
  Qed.

  (** ** the CPU unpack reads the same buffer positions *)
  Lemma take_range off N n : 0 <= n -> off <= N -> length (firstn (Z.to_nat n) (map buffer (zrange off N))) = Z.to_nat n ->
    off + n <= N /\ firstn (Z.to_nat n) (map buffer (zrange off N)) = map buffer (zrange off (off + n)) /\
    skipn (Z.to_nat n) (map buffer (zrange off N)) = map buffer (zrange (off + n) N).
  Proof.
    intros H B L. rewrite firstn_length, map_length in L.
    assert (LZ : length (zrange off N) = Z.to_nat (N - off)) by (replace N with (off + (N - off)) at 1 by lia; apply zrange_len; lia).
    assert (off + n <= N) by lia. split; [auto|].
    rewrite (zrange_app off (off + n) N), map_app by lia.
    assert (L1 : length (map buffer (zrange off (off + n))) = Z.to_nat n) by (rewrite map_length; apply zrange_len; auto).
    rewrite <- L1. rewrite firstn_app, skipn_app, firstn_all, skipn_all, Nat.sub_diag. cbn. rewrite app_nil_r. auto.
  Qed.

  Lemma unpack1_value g q off : receivable g ->
    forall p, unpack1 (g_ex g) q (map buffer (zrange off (off + slices_size (ex_unpack (g_ex g))))) p =
      if in_slices (ex_unpack (g_ex g)) p
      then buffer (off + flat_index (shape_of (ex_unpack (g_ex g))) (unshift (ex_unpack (g_ex g)) p)) else q p.
  Proof.
    intros [D _ _] p. unfold unpack1, put_slice. destruct (in_slices _ p) eqn:E; [|reflexivity].
    apply in_slices_inside in E. set (sl := ex_unpack (g_ex g)) in *. set (u := unshift sl p).
    assert (U : in_extent (shape_of sl) u) by (apply unshift_in; auto).
    destruct (flat_index_nth _ _ U) as [B N]. pose proof (indices_length (shape_of sl) (in_extent_nonneg _ _ U)) as L.
    rewrite slices_size_prod by (apply (d_up _ _ D)).
    rewrite nth_indep with (d' := buffer 0) by (rewrite map_length, zrange_len by lia; lia).
    rewrite map_nth. f_equal. apply zrange_nth. lia.
  Qed.

  Lemma cpu_scalar_segs off i N infos qs qs' : off <= N -> Forall receivable infos ->
    unpack_scalar (map g_ex infos) qs (map buffer (zrange off N)) = Some qs' ->
    length qs' = length infos /\
    forall j g q, nth_error infos j = Some g -> nth_error qs j = Some q ->
    exists q' o, nth_error qs' j = Some q' /\ In (mkSeg ((i + j)%nat, false) g o) (scalar_segs off i infos) /\
      forall p, q' p = if in_slices (ex_unpack (g_ex g)) p
                       then buffer (o + flat_index (shape_of (ex_unpack (g_ex g))) (unshift (ex_unpack (g_ex g)) p)) else q p.
  Proof.
    intros B F. revert off i qs qs' B. induction F as [|g infos R F IH]; intros off i [|q qs] qs' B; cbn [map unpack_scalar]; try discriminate.
    - intros [= <-]. split; [reflexivity|]. intros [|] ? ?; discriminate.
    - pose proof (size_nonneg (ex_unpack (g_ex g))) as NN. destruct (_ =? _)%nat eqn:E; [|discriminate].
      apply Nat.eqb_eq in E. destruct (take_range off N _ NN B E) as (B' & T & S'). rewrite T, S'.
      destruct (unpack_scalar _ qs _) as [rest|] eqn:RE; [|discriminate]. cbn [bind]. intros [= <-].
      destruct (IH (off + slices_size (ex_unpack (g_ex g))) (S i) qs rest B' RE) as [L X].
      split; [cbn; lia|]. intros [|j] g' q0; cbn [nth_error].
      + intros [= <-] [= <-]. do 2 eexists. split; [reflexivity|]. split; [left; f_equal; f_equal; lia|]. apply unpack1_value; auto.
      + intros Eg Eq. destruct (X j g' q0 Eg Eq) as (q' & o & X1 & X2 & X3). exists q', o. split; [auto|]. split; [|auto].
        right. replace (i + S j)%nat with (S i + j)%nat by lia. auto.
  Qed.

  Lemma cpu_vector_segs off i N gx gy qx qy out : off <= N -> Forall receivable gx -> Forall receivable gy ->
    unpack_vector (map g_ex gx) (map g_ex gy) qx qy (map buffer (zrange off N)) = Some out ->
    (forall j g q, nth_error gx j = Some g -> nth_error qx j = Some q ->
    exists q' o, nth_error (fst out) j = Some q' /\ In (mkSeg ((i + j)%nat, false) g o) (vector_segs off i gx gy) /\
      forall p, q' p = if in_slices (ex_unpack (g_ex g)) p
                       then buffer (o + flat_index (shape_of (ex_unpack (g_ex g))) (unshift (ex_unpack (g_ex g)) p)) else q p) /\
    (forall j g q, nth_error gy j = Some g -> nth_error qy j = Some q ->
    exists q' o, nth_error (snd out) j = Some q' /\ In (mkSeg ((i + j)%nat, true) g o) (vector_segs off i gx gy) /\
      forall p, q' p = if in_slices (ex_unpack (g_ex g)) p
                       then buffer (o + flat_index (shape_of (ex_unpack (g_ex g))) (unshift (ex_unpack (g_ex g)) p)) else q p).
  Proof.
    intros B F. revert off i gy qx qy out B.
    induction F as [|x gx Rx F IH]; intros off i [|y gy] [|q qx] [|r qy] out B Fy; cbn [map unpack_vector]; try discriminate.
    - intros [= <-]. split; intros [|] ? ?; discriminate.
    - inversion Fy as [|? ? Ry Fy']; subst.
      pose proof (size_nonneg (ex_unpack (g_ex x))) as Nx. pose proof (size_nonneg (ex_unpack (g_ex y))) as Ny.
      destruct (_ && _)%bool eqn:E; [|discriminate]. apply andb_prop in E. destruct E as [E1 E2].
      apply Nat.eqb_eq in E1. destruct (take_range off N _ Nx B E1) as (B1 & T1 & S1). rewrite T1, S1 in *.
      apply Nat.eqb_eq in E2. destruct (take_range _ N _ Ny B1 E2) as (B2 & T2 & S2). rewrite T2, S2 in *.
      destruct (unpack_vector _ _ qx qy _) as [rest|] eqn:RE; [|discriminate]. cbn [bind]. intros [= <-].
      rewrite <- Z.add_assoc in RE.
      destruct (IH (off + (slices_size (ex_unpack (g_ex x)) + slices_size (ex_unpack (g_ex y)))) (S i) gy qx qy rest ltac:(lia) Fy' RE) as [X Y].
      cbn [fst snd vector_segs]. split.
      + intros [|j] g' q0; cbn [nth_error].
        * intros [= <-] [= <-]. do 2 eexists. split; [reflexivity|]. split; [left; f_equal; f_equal; lia|]. apply unpack1_value; auto.
        * intros Eg Eq. destruct (X j g' q0 Eg Eq) as (q' & o & X1 & X2 & X3). exists q', o. split; [auto|]. split; [|auto].
          right. right. replace (i + S j)%nat with (S i + j)%nat by lia. auto.
      + intros [|j] g' q0; cbn [nth_error].
        * intros [= <-] [= <-]. do 2 eexists. split; [reflexivity|]. split; [right; left; f_equal; f_equal; lia|]. apply unpack1_value; auto.
        * intros Eg Eq. destruct (Y j g' q0 Eg Eq) as (q' & o & X1 & X2 & X3). exists q', o. split; [auto|]. split; [|auto].
          right. right. replace (i + S j)%nat with (S i + j)%nat by lia. auto.
  Qed.
End Unpack.
