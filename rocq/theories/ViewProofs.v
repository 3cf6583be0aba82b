(** Proofs about view indexing. *)
From Coq Require Import Sorted.
From Verif Require Import Base PartModel DecompModel HaloModel ViewModel.

Lemma sorted_ext (l1 l2 : list Z) : StronglySorted Z.lt l1 -> StronglySorted Z.lt l2 -> (forall x, In x l1 <-> In x l2) -> l1 = l2.
Proof.
  revert l2. induction l1 as [|a l1 IH]; intros [|b l2] S1 S2 H; auto.
  - exfalso. apply (H b). left. auto.
  - exfalso. apply (H a). left. auto.
  - apply StronglySorted_inv in S1, S2. destruct S1 as [S1 F1], S2 as [S2 F2]. rewrite Forall_forall in F1, F2.
    assert (a = b).
    { destruct (proj1 (H a)) as [|X]; [left; auto|auto|]. destruct (proj2 (H b)) as [|Y]; [left; auto|auto|].
      apply F2 in X. apply F1 in Y. lia. }
    subst b. f_equal. apply IH; auto. intros x. specialize (H x). cbn in H. split; intros X.
    + destruct (proj1 H (or_intror X)) as [<-|]; auto. apply F1 in X. lia.
    + destruct (proj2 H (or_intror X)) as [<-|]; auto. apply F2 in X. lia.
Qed.

Lemma sorted_map (f : nat -> Z) m n : (forall i j, (i < j)%nat -> f i < f j) -> StronglySorted Z.lt (map f (seq m n)).
Proof.
  intros H. revert m. induction n as [|n IH]; intros m; cbn; [constructor|]. constructor; [apply IH|].
  apply Forall_forall. intros x X. apply in_map_iff in X. destruct X as (j & <- & X). apply in_seq in X. apply H. lia.
Qed.

Lemma sorted_filter (f : Z -> bool) l : StronglySorted Z.lt l -> StronglySorted Z.lt (filter f l).
Proof.
  induction 1 as [|a l S IH F]; cbn; [constructor|]. destruct (f a); auto. constructor; auto.
  rewrite Forall_forall in *. intros x X. apply filter_In in X. apply F. tauto.
Qed.

Lemma sorted_shift (l : list Z) c : StronglySorted Z.lt l -> StronglySorted Z.lt (map (fun i => c + i) l).
Proof.
  induction 1 as [|a l S IH F]; cbn; constructor; auto. rewrite Forall_forall in *. intros x X. apply in_map_iff in X.
  destruct X as (y & <- & X). apply F in X. lia.
Qed.

Lemma zrange_sorted a b : StronglySorted Z.lt (zrange a b).
Proof. unfold zrange. apply sorted_map. intros. lia. Qed.

Lemma py_range_sorted a b k : 0 < k -> StronglySorted Z.lt (py_range a b k).
Proof. intros K. unfold py_range. apply sorted_map. intros. nia. Qed.

Lemma in_py_range a b k x : 0 < k -> In x (py_range a b k) <-> a <= x < b /\ (x - a) mod k = 0.
Proof.
  intros K. unfold py_range. destruct (Z.ltb_spec k 0); [lia|]. rewrite in_map_iff. split.
  - intros (i & <- & I). apply in_seq in I.
    assert (Z.of_nat i <= (b - a + k - 1) / k - 1) by lia.
    assert (k * ((b - a + k - 1) / k) <= b - a + k - 1) by (apply Z.mul_div_le; lia).
    split; [nia|]. replace (a + Z.of_nat i * k - a) with (Z.of_nat i * k) by lia. apply Z_mod_mult.
  - intros [R M]. apply Z.mod_divide in M; [|lia]. destruct M as [q M].
    exists (Z.to_nat q). split; [nia|]. apply in_seq. assert (0 <= q) by nia.
    assert (q + 1 <= (b - a + k - 1) / k) by (apply Z.div_le_lower_bound; nia). lia.
Qed.

(** one axis of a forward slice with resolved, non-negative bounds *)
Lemma resolve_forward s a b k : 0 <= s -> 0 <= a -> 0 <= b -> 0 < (match k with Some k => k | None => 1 end) ->
  exists l, resolve1 s (Slice (Some a) (Some b) k) = Some l /\ StronglySorted Z.lt l /\
    forall x, In x l <-> 0 <= x < s /\ a <= x < b /\ (x - a) mod (match k with Some k => k | None => 1 end) = 0.
Proof.
  intros S A B K. set (k' := match k with Some k => k | None => 1 end) in *.
  cbn [resolve1]. unfold slice_indices. fold k'.
  destruct (Z.eqb_spec k' 0); [lia|]. destruct (Z.ltb_spec k' 0); [lia|]. cbn [bind].
  destruct (Z.ltb_spec a 0); [lia|]. destruct (Z.ltb_spec b 0); [lia|].
  eexists. split; [reflexivity|]. split; [apply py_range_sorted; lia|]. intros x. rewrite in_py_range by lia.
  destruct (Z_le_gt_dec a s).
  - rewrite (Z.min_l a s) by lia. lia.
  - rewrite (Z.min_r a s) by lia. lia.
Qed.

(** a slice entry in general: reference points ra, rb in view coordinates *)
Lemma slice_ok o ext s ra rb (a b k : option Z) a' b' : 0 <= o -> 0 <= ext -> o + ext <= s -> inside o ext s ra rb (Slice a b k) ->
  a' = o + (match a with Some a => ra + a | None => 0 end) -> b' = o + (match b with Some b => rb + b | None => ext end) ->
  resolve1 s (Slice (Some a') (Some b') k) = Some (map (fun i => o + i) (selected o ext s ra rb (Slice a b k))).
Proof.
  intros O E S (I1 & I2 & I3) -> ->.
  destruct (resolve_forward s (o + match a with Some a => ra + a | None => 0 end) (o + match b with Some b => rb + b | None => ext end) k) as (l & -> & SL & HL).
  { lia. } { destruct a; lia. } { destruct b; lia. } { destruct k; lia. }
  f_equal. apply sorted_ext; auto.
  { apply sorted_shift. cbn [selected]. apply sorted_filter, zrange_sorted. }
  intros x. rewrite HL, in_map_iff. cbn [selected].
  set (A := match a with Some a => ra + a | None => 0 end). set (B := match b with Some b => rb + b | None => ext end).
  set (K := match k with Some k => k | None => 1 end). split.
  - intros (R1 & R2 & R3). exists (x - o). split; [lia|]. apply filter_In. rewrite in_zrange.
    replace (x - o - A) with (x - (o + A)) by lia. rewrite R3. lia.
  - intros (i & <- & H). apply filter_In in H. rewrite in_zrange in H. destruct H as [R H].
    replace (o + i - (o + A)) with (i - A) by lia. lia.
Qed.

Lemma view1_ok a e : ax_ok a -> inside (a_origin a) (a_extent a) (a_shape a) 0 0 e ->
  resolve1 (a_shape a) (compute_entry (a_origin a) (a_extent a) e) =
  Some (map (fun i => a_origin a + i) (selected (a_origin a) (a_extent a) (a_shape a) 0 0 e)).
Proof.
  destruct a as [d o ext s]. cbn. intros (O & E & S) I. destruct e as [z|a b k|]; cbn [inside] in I; [| |tauto].
  - cbn. destruct (Z.ltb_spec (z + o) 0); [lia|]. destruct (Z.leb_spec 0 (z + o)); [|lia]. destruct (Z.ltb_spec (z + o) s); [|lia]. cbn. do 2 f_equal. lia.
  - cbn [compute_entry]. destruct I as (I1 & I2 & I3).
    assert (Ea : or_default (shift_index a o ext) o = Some (o + match a with Some a => 0 + a | None => 0 end)).
    { destruct a as [a|]; cbn; [|f_equal; lia]. destruct (Z.ltb_spec (a + o) 0); [lia|]. f_equal. lia. }
    assert (Eb : or_default (shift_index b o ext) (o + ext) = Some (o + match b with Some b => 0 + b | None => ext end)).
    { destruct b as [b|]; cbn; [|f_equal; lia]. destruct (Z.ltb_spec (b + o) 0); [lia|]. f_equal. lia. }
    rewrite Ea, Eb. apply slice_ok; auto. repeat split; auto.
Qed.

Lemma corner1_ok c a e : ax_ok a ->
  inside (a_origin a) (a_extent a) (a_shape a) (corner_ref c (a_dim a) (a_extent a)) (corner_stop c (a_dim a) (a_extent a)) e ->
  exists e', corner_entry c (a_dim a) (a_origin a) (a_extent a) e = Some e' /\ e' <> NewAxis /\
  resolve1 (a_shape a) e' =
  Some (map (fun i => a_origin a + i) (selected (a_origin a) (a_extent a) (a_shape a) (corner_ref c (a_dim a) (a_extent a)) (corner_stop c (a_dim a) (a_extent a)) e)).
Proof.
  destruct a as [d o ext s]. cbn. intros (O & E & S) I.
  assert (G : get_offset c d o ext = (o + corner_ref c d ext, o + corner_stop c d ext)).
  { destruct c, d as [|[] ?]; cbn; rewrite ?Z.add_0_r; reflexivity. }
  unfold corner_entry. rewrite G. set (ra := corner_ref c d ext) in *. set (rb := corner_stop c d ext) in *.
  destruct e as [z|a b k|]; cbn [inside] in I; [| |tauto].
  - eexists. split; [reflexivity|]. split; [discriminate|].
    cbn. destruct (Z.ltb_spec (z + (o + ra)) 0); [lia|]. destruct (Z.leb_spec 0 (z + (o + ra))); [|lia]. destruct (Z.ltb_spec (z + (o + ra)) s); [|lia]. cbn. do 2 f_equal. lia.
  - eexists. split; [reflexivity|]. split; [discriminate|].
    assert (Ea : or_default match a with Some a => Some (a + (o + ra)) | None => None end o = Some (o + match a with Some a => ra + a | None => 0 end)).
    { destruct a as [a|]; cbn; f_equal; lia. }
    assert (Eb : or_default match b with Some b => Some (b + (o + rb)) | None => None end (o + ext) = Some (o + match b with Some b => rb + b | None => ext end)).
    { destruct b as [b|]; cbn; f_equal; lia. }
    rewrite Ea, Eb. apply slice_ok; auto.
Qed.

Lemma inside_full o ext s ra rb : inside o ext s ra rb (Slice None None None).
Proof. cbn. auto. Qed.

Notation full := (Slice None None None).
Definition pad (axs : list ax) (idx : list entry) : list entry := idx ++ repeat full (length axs - length idx).

Lemma pad_length axs idx : (length idx <= length axs)%nat -> length (pad axs idx) = length axs.
Proof. intros H. unfold pad. rewrite app_length, repeat_length. lia. Qed.

Lemma pad_inside (P : ax -> entry -> Prop) axs idx : (forall a, In a axs -> P a full) -> (length idx <= length axs)%nat ->
  Forall2 P (firstn (length idx) axs) idx -> Forall2 P axs (pad axs idx).
Proof.
  intros H. revert axs H. induction idx as [|e idx IH]; intros axs H L F.
  - unfold pad. cbn [app length]. rewrite Nat.sub_0_r. clear F L. induction axs as [|a axs IHa]; cbn; constructor.
    + apply H. left. auto.
    + apply IHa. intros b B. apply H. right. auto.
  - destruct axs as [|a axs]; [cbn in L; lia|]. cbn [length firstn] in F. inversion F; subst. unfold pad. cbn [app length Nat.sub]. constructor; auto.
    apply IH; auto; [intros b B; apply H; right; auto|cbn in L; lia].
Qed.

Lemma resolve_view axs idx : Forall ax_ok axs ->
  Forall2 (fun a e => inside (a_origin a) (a_extent a) (a_shape a) 0 0 e) axs idx ->
  resolve (map a_shape axs) (compute_entries idx (map a_origin axs) (map a_extent axs)) =
  Some (map (fun '(a, e) => map (fun i => a_origin a + i) (selected (a_origin a) (a_extent a) (a_shape a) 0 0 e)) (combine axs idx)).
Proof.
  intros V F. induction F as [|a e axs idx I F IH]; [reflexivity|]. inversion V; subst. cbn [map compute_entries combine].
  pose proof (view1_ok a e H1 I) as R. destruct e; [..|destruct I]; cbn [compute_entry resolve] in *; rewrite R; cbn [bind]; rewrite IH by auto; reflexivity.
Qed.

Lemma view_ok axs idx : Forall ax_ok axs -> (length idx <= length axs)%nat ->
  Forall2 (fun a e => inside (a_origin a) (a_extent a) (a_shape a) 0 0 e) (firstn (length idx) axs) idx ->
  view (map a_shape axs) (map a_origin axs) (map a_extent axs) idx =
  Some (map (fun '(a, e) => map (fun i => a_origin a + i) (selected (a_origin a) (a_extent a) (a_shape a) 0 0 e))
            (combine axs (pad axs idx))).
Proof.
  intros V L F. unfold view, compute_index. rewrite map_length.
  destruct (Nat.ltb_spec (length axs) (length idx)); [lia|]. cbn [bind]. apply resolve_view; auto.
  apply pad_inside; auto. intros. apply inside_full.
Qed.

Lemma resolve_corner c axs idx : Forall ax_ok axs ->
  Forall2 (fun a e => inside (a_origin a) (a_extent a) (a_shape a) (corner_ref c (a_dim a) (a_extent a)) (corner_stop c (a_dim a) (a_extent a)) e) axs idx ->
  exists l, corner_entries c (map a_dim axs) idx (map a_origin axs) (map a_extent axs) = Some l /\
  resolve (map a_shape axs) l =
  Some (map (fun '(a, e) => map (fun i => a_origin a + i)
     (selected (a_origin a) (a_extent a) (a_shape a) (corner_ref c (a_dim a) (a_extent a)) (corner_stop c (a_dim a) (a_extent a)) e)) (combine axs idx)).
Proof.
  intros V F. induction F as [|a e axs idx I F IH]; [exists []; split; reflexivity|]. inversion V; subst. cbn [map corner_entries combine].
  destruct (corner1_ok c a e H1 I) as (e' & -> & N & R). destruct (IH H2) as (l & -> & Rl). cbn [bind]. eexists. split; [reflexivity|].
  destruct e'; [..|congruence]; cbn [resolve]; rewrite R; cbn [bind]; rewrite Rl; reflexivity.
Qed.

Lemma corner_ok c axs idx : Forall ax_ok axs -> (length idx <= length axs)%nat ->
  Forall2 (fun a e => inside (a_origin a) (a_extent a) (a_shape a) (corner_ref c (a_dim a) (a_extent a)) (corner_stop c (a_dim a) (a_extent a)) e) (firstn (length idx) axs) idx ->
  corner_view c (map a_dim axs) (map a_shape axs) (map a_origin axs) (map a_extent axs) idx =
  Some (map (fun '(a, e) => map (fun i => a_origin a + i)
      (selected (a_origin a) (a_extent a) (a_shape a) (corner_ref c (a_dim a) (a_extent a)) (corner_stop c (a_dim a) (a_extent a)) e))
            (combine axs (pad axs idx))).
Proof.
  intros V L F. unfold corner_view. rewrite map_length.
  destruct (Nat.ltb_spec (length axs) (length idx)); [lia|].
  assert (F' := F). apply pad_inside in F'; auto; [|intros; apply inside_full].
  destruct (resolve_corner c axs (pad axs idx) V F') as (l & E & R). unfold fill. unfold pad in E, R. rewrite E. cbn [bind]. exact R.
Qed.

(** slices 0 <= a <= b <= extent select the compute domain's a .. b-1 *)
Lemma contiguous o ext s a b : 0 <= o -> 0 <= a <= b -> b <= ext -> o + ext <= s ->
  selected o ext s 0 0 (Slice (Some a) (Some b) None) = zrange a b.
Proof.
  intros. apply sorted_ext.
  - apply sorted_filter, zrange_sorted.
  - apply zrange_sorted.
  - intros x. cbn [selected]. rewrite filter_In, !in_zrange. rewrite Z.mod_1_r. cbn. lia.
Qed.
