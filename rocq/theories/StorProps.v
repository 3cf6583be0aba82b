(** C86: the storages made from arrays.  C87: the storages of the translate tests. *)
Require Import ZArith List Bool Lia.
From Verif Require Import Base StorModel.
Local Open Scope Z_scope.

(** ** What a reader expects: the data moved by [start], zero elsewhere *)
Definition within (shape idx : list Z) : Prop := Forall2 (fun n i => 0 <= i < n) shape idx.
Fixpoint withinb (shape idx : list Z) : bool :=
  match shape, idx with
  | [], [] => true
  | n :: shape, i :: idx => (0 <=? i) && (i <? n) && withinb shape idx
  | _, _ => false
  end.
Fixpoint back (idx start : list Z) : list Z :=
  match idx, start with i :: idx, s :: start => (i - s) :: back idx start | _, _ => [] end.
Definition placed {V} (zero : V) (data : nd V) (start idx : list Z) : V :=
  if withinb (shp data) (back idx start) then val data (back idx start) else zero.
(** the data moved by [start] lie inside [shape] *)
Definition room (shape start sizes : list Z) : Prop :=
  Forall2 (fun n se => 0 <= fst se /\ 0 <= snd se /\ fst se + snd se <= n) shape (combine start sizes) /\ List.length start = List.length shape /\ List.length sizes = List.length shape.

(** the indices without the one of an axis *)
Fixpoint omit (axis : nat) (idx : list Z) : list Z :=
  match axis, idx with _, [] => [] | O, _ :: idx => idx | S axis, i :: idx => i :: omit axis idx end.

Section Values.
  Context {V : Type} (zero : V).

  Lemma clip_in n x : 0 <= x <= n -> clip n x = x.
  Proof. unfold clip. intros H. destruct (Z.ltb_spec x 0); lia. Qed.
  Lemma slices_room shape : forall start sizes, room shape start sizes -> slices shape start sizes = Some (combine start sizes).
  Proof.
    induction shape as [|n shape IH]; intros [|s start] [|d sizes] (H & L1 & L2); simpl in *; try discriminate; [reflexivity|].
    inversion H as [|? ? ? ? (A & B & C) T]; subst. simpl in *.
    rewrite IH by (split; [exact T|lia]). simpl. unfold slice_of. rewrite !clip_in by lia. do 3 f_equal. lia.
  Qed.
  Lemma pad_same r (l : list Z) : List.length l = r -> pad r l = Some l.
  Proof. intros <-. unfold pad. rewrite Nat.sub_diag. reflexivity. Qed.
  Lemma fits_same : forall start sizes, List.length start = List.length sizes -> fits sizes (combine start sizes) = true.
  Proof.
    induction start as [|s start IH]; intros [|d sizes] L; simpl in *; try discriminate; [reflexivity|].
    rewrite IH by lia. now rewrite Z.eqb_refl.
  Qed.
  Lemma inside_back : forall start sizes idx, List.length start = List.length sizes -> List.length idx = List.length sizes ->
    inside (combine start sizes) idx = withinb sizes (back idx start).
  Proof.
    induction start as [|s start IH]; intros [|d sizes] [|i idx] L1 L2; simpl in *; try discriminate; [reflexivity|].
    rewrite IH by lia. f_equal. f_equal; [destruct (Z.leb_spec s i), (Z.leb_spec 0 (i - s))|destruct (Z.ltb_spec i (s + d)), (Z.ltb_spec (i - s) d)]; lia.
  Qed.
  Lemma source_back : forall start sizes idx, List.length start = List.length sizes -> List.length idx = List.length sizes ->
    withinb sizes (back idx start) = true -> source sizes (combine start sizes) idx = back idx start.
  Proof.
    induction start as [|s start IH]; intros [|d sizes] [|i idx] L1 L2 W; simpl in *; try discriminate; [reflexivity|].
    apply andb_true_iff in W as [W1 W]. apply andb_true_iff in W1 as [W0 W1]. apply Z.leb_le in W0. apply Z.ltb_lt in W1.
    rewrite IH by (lia || exact W). destruct (Z.eqb_spec d 1); f_equal; lia.
  Qed.
  Lemma room_length shape start sizes : room shape start sizes -> List.length start = List.length sizes /\ List.length sizes = List.length shape.
  Proof. intros (_ & A & B). lia. Qed.
  Lemma within_length shape idx : within shape idx -> List.length idx = List.length shape.
  Proof. induction 1; simpl; congruence. Qed.

  (** the buffer of zeros with the data assigned *)
  Lemma assigned shape start (data : nd V) : room shape start (shp data) ->
    exists b, assign V (mkNd shape (fun _ => zero)) start (shp data) data = Some b /\ shp b = shape /\
      forall idx, List.length idx = List.length shape -> val b idx = placed zero data start idx.
  Proof.
    intros R. destruct (room_length _ _ _ R) as [L1 L2]. unfold assign. cbn [shp]. rewrite (slices_room _ _ _ R). simpl.
    assert (L : List.length (combine start (shp data)) = List.length (shp data)) by (rewrite combine_length; lia).
    rewrite L, pad_same by reflexivity. simpl. rewrite fits_same by exact L1. eexists. split; [reflexivity|]. split; [reflexivity|].
    intros idx Hi. cbn [val]. unfold placed. rewrite inside_back by lia. unfold rank. rewrite Nat.sub_diag. simpl.
    destruct (withinb (shp data) (back idx start)) eqn:W; [|reflexivity]. f_equal. apply source_back; lia || exact W.
  Qed.
  Lemma room_zeros shape start sizes : room shape start sizes -> zeros V zero shape = Some (mkNd shape (fun _ => zero)).
  Proof.
    intros (H & L1 & L2). unfold zeros. replace (forallb (fun n => 0 <=? n) shape) with true; [reflexivity|]. symmetry. apply forallb_forall.
    clear L1 L2. induction H as [|n se shape l (A & B & C) T IH]; intros x; [easy|intros [<-|I]; [apply Z.leb_le; lia|now apply IH]].
  Qed.

  Lemma accepted shape (st : nd V) origin dims : List.length origin = List.length shape -> List.length dims = List.length shape ->
    shp st = shape -> from_array V st origin dims = Some {| array := st; aligned_index := origin; dimensions := dims |}.
  Proof. intros A B C. unfold from_array, rank. now rewrite C, A, B, !Nat.eqb_refl. Qed.

  (** ** Data of three axes: the storage has the shape asked for, the data at [start] and zeros elsewhere, whatever axis, dummy and read_only are *)
  Theorem C86_three (data : nd V) shape origin start axis dummy read_only : List.length shape = 3%nat -> List.length origin = 3%nat -> room shape start (shp data) ->
    exists st, make_storage_data V zero data (Some shape) origin None start dummy axis 3 read_only = Some st /\
      shp (array st) = shape /\ (forall idx, within shape idx -> val (array st) idx = placed zero data start idx) /\
      aligned_index st = origin /\ dimensions st = [I; J; K].
  Proof.
    intros Hs Ho R. destruct (room_length _ _ _ R) as [L1 L2]. rewrite Hs in L2.
    destruct shape as [|n [|m [|p [|]]]]; try discriminate. destruct origin as [|o1 [|o2 [|o3 [|]]]]; try discriminate.
    destruct data as [[|a [|b [|c [|]]]] f]; try discriminate. destruct start as [|s1 [|s2 [|s3 [|]]]]; try discriminate.
    destruct (assigned _ _ _ R) as (bf & E & Sb & Vb). pose proof (room_zeros _ _ _ R) as Ez.
    unfold make_storage_data, rank. cbn [shp List.length Nat.eqb Nat.sub repeat app].
    set (msk := if negb read_only then _ else _). assert (Em : msk = Some ([true; true; true], [n; m; p])).
    { unfold msk. destruct read_only; simpl; [|reflexivity]. now destruct (truthy dummy || negb (Nat.eqb axis 2)). }
    rewrite Em. cbn [bind]. cbn [shp] in *. unfold make_storage_data_3d. cbn [shp]. rewrite Ez. cbn [bind]. rewrite E. cbn [bind].
    unfold translate_origin. cbn [filter List.length Nat.eqb bind mask_to_dimensions app]. rewrite (accepted [n; m; p]) by (reflexivity || exact Sb).
    eexists. split; [reflexivity|]. cbn [array aligned_index dimensions]. split; [exact Sb|]. split; [|easy].
    intros idx W. apply Vb. now apply within_length.
  Qed.

  (** no dummy axes are given *)
  Definition no_dummy (dummy : option (list nat)) : Prop := dummy = None \/ dummy = Some [].
  Lemma no_dummy_truthy dummy : no_dummy dummy -> truthy dummy = false.
  Proof. now intros [->| ->]. Qed.

  (** more axes: [start] and [origin] have an entry for each *)
  Theorem C86_more (data : nd V) shape origin start dummy : (4 <= List.length shape)%nat -> List.length origin = List.length shape -> room shape start (shp data) ->
    no_dummy dummy ->
    exists st, make_storage_data V zero data (Some shape) origin None start dummy 2 3 true = Some st /\
      shp (array st) = shape /\ (forall idx, within shape idx -> val (array st) idx = placed zero data start idx) /\
      aligned_index st = origin /\ dimensions st = [I; J; K] ++ map Extra (skipn 3 shape).
  Proof.
    intros Hs Ho R Hd. apply no_dummy_truthy in Hd. destruct (room_length _ _ _ R) as [L1 L2].
    destruct (assigned _ _ _ R) as (bf & E & Sb & Vb). pose proof (room_zeros _ _ _ R) as Ez.
    unfold make_storage_data. assert (Hr : rank data = List.length shape) by exact L2. rewrite Hr.
    destruct shape as [|n [|m [|p [|q shape]]]]; simpl in Hs; try lia.
    cbn [negb]. rewrite Hd. cbn [List.length Nat.eqb orb negb bind Nat.sub].
    unfold make_storage_data_Nd. rewrite Ez. cbn [bind]. rewrite E. cbn [bind].
    set (sz := S (S (S (S (List.length shape))))).
    assert (Et : translate_origin origin (repeat true sz ++ repeat false 0) = Some origin).
    { unfold translate_origin. simpl (repeat false 0). rewrite app_nil_r.
      assert (Hf : forall k, List.length (filter (fun b => b) (repeat true k)) = k) by (induction k; simpl; congruence).
      rewrite Hf, Ho. cbn [List.length]. now rewrite Nat.eqb_refl. }
    rewrite Et. cbn [bind]. unfold mask_to_dimensions. unfold sz at 1. cbn [repeat app]. rewrite app_nil_r.
    set (go := (fix go (k : nat) (rest : list bool) {struct rest} : option (list dimension) := _)).
    assert (Hgo : forall l k, (forall x, nth_error (shp bf) (k + x) = nth_error l x) -> go k (repeat true (List.length l)) = Some (map Extra l)).
    { induction l as [|x l IH]; intros k Hk; [reflexivity|]. cbn [List.length repeat]. change (bind (go (S k) (repeat true (List.length l))) (fun r => bind (item (shp bf) k) (fun n0 => Some (Extra n0 :: r))) = Some (Extra x :: map Extra l)).
      rewrite IH. 2: { intros y. specialize (Hk (S y)). change (nth_error (x :: l) (S y)) with (nth_error l y) in Hk. rewrite <- Hk. f_equal. lia. }
      cbn [bind]. unfold item. specialize (Hk 0%nat). rewrite Nat.add_0_r in Hk. rewrite Hk. reflexivity. }
    rewrite (Hgo shape 4%nat) by (intros x; rewrite Sb; reflexivity). cbn [bind]. rewrite Sb. cbn [item nth_error bind app].
    rewrite (accepted (n :: m :: p :: q :: shape)). 4: exact Sb. 3: simpl; now rewrite map_length. 2: exact Ho.
    eexists. split; [reflexivity|]. cbn [array aligned_index dimensions]. split; [exact Sb|]. split; [|easy].
    intros idx W. apply Vb. now apply within_length.
  Qed.
  (** ... but not with the default origin of three entries *)
  Theorem C86_more_refused (data : nd V) shape origin start : (4 <= rank data)%nat -> List.length origin = 3%nat ->
    make_storage_data V zero data (Some shape) origin None start None 2 3 true = None.
  Proof.
    intros Hr Ho. unfold make_storage_data. destruct (rank data) as [|[|[|[|r]]]]; try lia. cbn [negb truthy orb Nat.eqb bind Nat.sub].
    destruct (make_storage_data_Nd _ _ _ _ _) as [bf|]; [cbn [bind]|reflexivity]. simpl (repeat false _). rewrite app_nil_r.
    unfold translate_origin. assert (Hf : forall k, List.length (filter (fun b => b) (repeat true k)) = k) by (induction k; simpl; congruence).
    now rewrite Hf, Ho.
  Qed.

  (** ** Data of two axes *)
  (** read-only, without dummy and with the default axis: a storage of the first two axes *)
  Theorem C86_two (data : nd V) n m rest o0 o1 orest s0 s1 srest dummy : room [n; m] [s0; s1] (shp data) -> no_dummy dummy ->
    (orest = [] \/ List.length orest = 1%nat) ->
    exists st, make_storage_data V zero data (Some (n :: m :: rest)) (o0 :: o1 :: orest) None (s0 :: s1 :: srest) dummy 2 3 true = Some st /\
      shp (array st) = [n; m] /\ (forall i j, 0 <= i < n -> 0 <= j < m -> val (array st) [i; j] = placed zero data [s0; s1] [i; j]) /\
      aligned_index st = [o0; o1] /\ dimensions st = [I; J].
  Proof.
    intros R Hd Ho. apply no_dummy_truthy in Hd. destruct (room_length _ _ _ R) as [L1 L2]. destruct data as [[|a [|b [|]]] f]; try discriminate.
    destruct (assigned _ _ _ R) as (bf & E & Sb & Vb). pose proof (room_zeros _ _ _ R) as Ez. cbn [shp] in *.
    unfold make_storage_data, rank. cbn [shp List.length negb Nat.eqb]. rewrite Hd. cbn [orb negb bind].
    unfold make_storage_data_2d. rewrite Hd. cbn [orb negb Nat.eqb firstn shp]. rewrite Ez. cbn [bind]. rewrite E. cbn [bind].
    unfold translate_origin, mask_to_dimensions. cbn [Nat.sub repeat app filter List.length bind].
    destruct Ho as [->|Ho]; [|destruct orest as [|o2 [|]]; try discriminate]; cbn [List.length Nat.eqb bind];
      (rewrite (accepted [n; m]) by (reflexivity || exact Sb); eexists; split; [reflexivity|]; cbn [array aligned_index dimensions]; split; [exact Sb|]; split; [|easy];
       intros i j _ _; now apply Vb).
  Qed.

  Lemma omit_room axis (n m p : Z) s0 s1 (data : nd V) : (axis < 3)%nat -> room (omit axis [n; m; p]) [s0; s1] (shp data) ->
    without [n; m; p] axis = omit axis [n; m; p] /\ exists a b, shp data = [a; b].
  Proof.
    intros Ha R. destruct (room_length _ _ _ R) as [_ L]. destruct data as [l f]. cbn [shp] in *.
    destruct axis as [|[|[|]]]; try lia; (split; [reflexivity|]; simpl in L; destruct l as [|a [|b [|]]]; try discriminate; eauto).
  Qed.
  (** not read-only, without dummy or with the axis itself as the first dummy: the full shape, the data repeated along [axis] *)
  Theorem C86_two_full (data : nd V) n m p origin s0 s1 srest dummy axis : (axis < 3)%nat -> room (omit axis [n; m; p]) [s0; s1] (shp data) ->
    0 <= nth axis [n; m; p] 0 -> (match dummy with Some (d :: _) => d = axis | _ => True end) -> List.length origin = 3%nat ->
    exists st, make_storage_data V zero data (Some [n; m; p]) origin None (s0 :: s1 :: srest) dummy axis 3 false = Some st /\
      shp (array st) = [n; m; p] /\ (forall idx, within [n; m; p] idx -> val (array st) idx = placed zero data [s0; s1] (omit axis idx)) /\
      aligned_index st = origin /\ dimensions st = [I; J; K].
  Proof.
    intros Ha R Hn Hd Ho. destruct (omit_room _ _ _ _ _ _ _ Ha R) as (Ew & a & b & Ed).
    destruct (assigned _ _ _ R) as (bf & E & Sb & Vb). pose proof (room_zeros _ _ _ R) as Ez.
    unfold make_storage_data, rank. rewrite Ed in *. cbn [List.length negb bind]. unfold make_storage_data_2d. cbn [firstn negb].
    rewrite Ed.
    assert (E2 : (if truthy dummy || negb (Nat.eqb axis 2) then without [n; m; p] match dummy with Some (d :: _) => d | _ => axis end else [n; m]) = omit axis [n; m; p]).
    { destruct dummy as [[|x l]|]; [|subst x|]; destruct axis as [|[|[|]]]; try lia; reflexivity. }
    cbn [firstn]. rewrite E2. rewrite Ez. cbn [bind]. rewrite E. cbn [bind].
    assert (Hsb : exists x y, shp bf = [x; y] /\ omit axis [n; m; p] = [x; y]) by (rewrite Sb; destruct axis as [|[|[|]]]; try lia; simpl; eauto).
    destruct Hsb as (x & y & Sx & Ox). unfold rank. rewrite Sx. cbn [List.length Nat.leb]. unfold item.
    assert (Ei : nth_error [n; m; p] axis = Some (nth axis [n; m; p] 0)) by (destruct axis as [|[|[|]]]; try lia; reflexivity).
    rewrite Ei. cbn [bind]. unfold repeat_last. replace (0 <=? nth axis [n; m; p] 0) with true by (symmetry; now apply Z.leb_le). cbn [bind]. rewrite Sx. cbn [app].
    destruct origin as [|o0 [|o1 [|o2 [|]]]]; try discriminate.
    assert (Hf : forall c, shp c = [n; m; p] -> (forall idx, within [n; m; p] idx -> val c idx = val bf (omit axis idx)) -> exists st,
      (do aligned <- translate_origin [o0; o1; o2] [true; true; true]; do dims <- mask_to_dimensions [true; true; true] (shp c); from_array V c aligned dims) = Some st /\
      shp (array st) = [n; m; p] /\ (forall idx, within [n; m; p] idx -> val (array st) idx = placed zero data [s0; s1] (omit axis idx)) /\
      aligned_index st = [o0; o1; o2] /\ dimensions st = [I; J; K]).
    { intros c Sc Vc. unfold translate_origin. cbn [filter List.length Nat.eqb bind mask_to_dimensions app]. rewrite (accepted [n; m; p]) by (reflexivity || exact Sc).
      eexists. split; [reflexivity|]. cbn [array aligned_index dimensions]. split; [exact Sc|]. split; [|easy]. intros idx W. rewrite (Vc idx W). apply Vb.
      apply within_length in W. destruct idx as [|? [|? [|? [|]]]]; try discriminate. destruct axis as [|[|[|]]]; try lia; reflexivity. }
    destruct axis as [|[|[|]]]; try lia; simpl in Ox; cbn [Nat.eqb negb moveaxis_2 shp bind nth]; (assert (x = _ /\ y = _) as [-> ->] by (split; injection Ox; intros; symmetry; eassumption));
      apply Hf; try reflexivity; intros idx W; apply within_length in W; destruct idx as [|? [|? [|? [|]]]]; try discriminate; reflexivity.
  Qed.

  (** read-only, with a dummy axis (the first of the list) or another axis than the last: the shape asked for, of one index along that axis *)
  Theorem C86_two_singleton (data : nd V) n m p origin s0 s1 srest dummy axis : let d := match dummy with Some (d :: _) => d | _ => axis end in
    (exists a l, dummy = Some (a :: l)) \/ axis <> 2%nat -> (d < 3)%nat -> nth d [n; m; p] 0 = 1 -> room (omit d [n; m; p]) [s0; s1] (shp data) -> List.length origin = 3%nat ->
    exists st, make_storage_data V zero data (Some [n; m; p]) origin None (s0 :: s1 :: srest) dummy axis 3 true = Some st /\
      shp (array st) = [n; m; p] /\ (forall idx, within [n; m; p] idx -> val (array st) idx = placed zero data [s0; s1] (omit d idx)) /\
      aligned_index st = origin /\ dimensions st = [I; J; K].
  Proof.
    intros d Ht0 Hd H1 R Ho. assert (Ht : truthy dummy = true \/ axis <> 2%nat) by (destruct Ht0 as [(a & l & ->)|]; auto). clear Ht0. destruct (omit_room _ _ _ _ _ _ _ Hd R) as (Ew & a & b & Ed).
    destruct (assigned _ _ _ R) as (bf & E & Sb & Vb). pose proof (room_zeros _ _ _ R) as Ez.
    assert (Hr : truthy dummy || negb (Nat.eqb axis 2) = true) by (destruct Ht as [->|Hx]; [reflexivity|apply Nat.eqb_neq in Hx; rewrite Hx; apply orb_true_r]).
    unfold make_storage_data, rank. rewrite Ed in *. cbn [List.length negb Nat.eqb]. rewrite Hr. cbn [bind]. unfold make_storage_data_2d. rewrite Hr, Ed. cbn [firstn negb].
    fold d. clearbody d. rewrite Ew, Ez. cbn [bind]. rewrite E. cbn [bind]. unfold np_reshape. rewrite Sb.
    assert (Hp : 0 <= n /\ 0 <= m /\ 0 <= p).
    { destruct R as (F & _ & _). simpl in F. clear -F H1 Hd. destruct d as [|[|[|]]]; try lia; simpl in F, H1; inversion F as [|? ? ? ? A F2]; inversion F2 as [|? ? ? ? B]; subst; simpl in *; lia. }
    assert (Hz : size (omit d [n; m; p]) = size [n; m; p]) by (destruct d as [|[|[|]]]; try lia; simpl in H1; subst; cbn [size fold_right omit]; ring).
    rewrite Hz, Z.eqb_refl. replace (forallb (fun n0 => 0 <=? n0) [n; m; p]) with true by (simpl; destruct (Z.leb_spec 0 n), (Z.leb_spec 0 m), (Z.leb_spec 0 p); try lia; reflexivity).
    cbn [andb bind]. destruct origin as [|o0 [|o1 [|o2 [|]]]]; try discriminate.
    unfold translate_origin. cbn [filter List.length Nat.eqb bind mask_to_dimensions app]. rewrite (accepted [n; m; p]) by reflexivity.
    eexists. split; [reflexivity|]. cbn [array aligned_index dimensions shp val]. split; [reflexivity|]. split; [|easy]. intros idx W.
    rewrite <- Vb. 2: { apply within_length in W. destruct idx as [|? [|? [|? [|]]]]; try discriminate. destruct d as [|[|[|]]]; try lia; reflexivity. }
    f_equal. inversion W as [|? i ? ? Wi W2]; subst. inversion W2 as [|? j ? ? Wj W3]; subst. inversion W3 as [|? k ? ? Wk W4]; subst. inversion W4; subst.
    destruct d as [|[|[|]]]; try lia; simpl in H1; subst; cbn [omit unravel ravel size fold_right].
    - assert (i = 0) by lia; subst i. rewrite !Z.mul_1_r, Z.mul_0_l, !Z.add_0_r, Z.add_0_l, Z.div_1_r. f_equal; [rewrite Z.div_add_l by lia; rewrite Z.div_small by lia; lia|].
      f_equal. rewrite Z.add_comm, Z.mod_add by lia. now apply Z.mod_small.
    - assert (j = 0) by lia; subst j. rewrite !Z.mul_1_r, !Z.mul_1_l, Z.mul_0_l, !Z.add_0_r, Z.add_0_l, Z.div_1_r. f_equal; [rewrite Z.div_add_l by lia; rewrite Z.div_small by lia; lia|].
      f_equal. rewrite Z.add_comm, Z.mod_add by lia. now apply Z.mod_small.
    - assert (k = 0) by lia; subst k. rewrite !Z.mul_1_r, !Z.add_0_r, Z.div_1_r. f_equal; [rewrite Z.div_add_l by lia; rewrite Z.div_small by lia; lia|].
      f_equal. rewrite Z.add_comm, Z.mod_add by lia. now apply Z.mod_small.
  Qed.

  (** ** Data of one axis; the start is the third entry of [start] whatever the axis is *)
  Lemma one_assigned (data : nd V) n s : room [n] [s] (shp data) -> exists b, assign V (mkNd [n] (fun _ => zero)) [s] (shp data) data = Some b /\ shp b = [n] /\
    (forall i, val b [i] = placed zero data [s] [i]) /\ rank data = 1%nat /\ 0 <= n.
  Proof.
    intros R. destruct (room_length _ _ _ R) as [_ L]. destruct (assigned _ _ _ R) as (b & E & Sb & Vb). exists b. split; [exact E|]. split; [exact Sb|].
    split; [intros i; now apply Vb|]. split; [exact L|]. destruct R as (F & _ & _). destruct (shp data) as [|d [|]]; try discriminate. inversion F as [|? ? ? ? A]; simpl in A; lia.
  Qed.
  (** read-only along I or K: a storage of that axis *)
  Theorem C86_one (data : nd V) shape o0 o1 o2 s0 s1 s2 n dummy axis : axis = 0%nat \/ axis = 2%nat /\ List.length shape <> 2%nat -> no_dummy dummy ->
    nth_error shape (Nat.min axis (List.length shape - 1)) = Some n -> room [n] [s2] (shp data) ->
    exists st, make_storage_data V zero data (Some shape) [o0; o1; o2] None [s0; s1; s2] dummy axis 3 true = Some st /\
      shp (array st) = [n] /\ (forall i, 0 <= i < n -> val (array st) [i] = placed zero data [s2] [i]) /\
      (axis = 0%nat -> aligned_index st = [o0] /\ dimensions st = [I]) /\ (axis = 2%nat -> aligned_index st = [o2] /\ dimensions st = [K]).
  Proof.
    intros Ha Hd Hn R. apply no_dummy_truthy in Hd. destruct (one_assigned _ _ _ R) as (b & E & Sb & Vb & Hr & H0).
    unfold make_storage_data. rewrite Hr. cbn [negb Nat.eqb].
    assert (Ea : Nat.eqb axis 1 = false) by (destruct Ha as [-> | [-> _]]; reflexivity). rewrite Ea. cbn [bind].
    unfold make_storage_data_1d, item. rewrite Hn. cbn [bind]. unfold zeros. cbn [forallb]. replace (0 <=? n) with true by (symmetry; now apply Z.leb_le). cbn [andb bind].
    rewrite Hd. cbn [bind nth_error negb]. rewrite E. cbn [bind].
    replace (Nat.eqb (Nat.min axis (List.length shape - 1)) 1) with false by (symmetry; apply Nat.eqb_neq; lia).
    destruct Ha as [-> | [-> _]]; cbn [seq map Nat.eqb]; unfold translate_origin; cbn [filter List.length Nat.eqb bind mask_to_dimensions app];
      (rewrite (accepted [n]) by (reflexivity || exact Sb); eexists; split; [reflexivity|]; cbn [array aligned_index dimensions]; split; [exact Sb|]; split; [intros i _; apply Vb|];
       split; intros; try discriminate; split; reflexivity).
  Qed.
  (** read-only along J: a storage of one row *)
  Theorem C86_one_row (data : nd V) shape o0 o1 o2 s0 s1 s2 n dummy : no_dummy dummy -> nth_error shape 1 = Some n -> room [n] [s2] (shp data) ->
    exists st, make_storage_data V zero data (Some shape) [o0; o1; o2] None [s0; s1; s2] dummy 1 3 true = Some st /\
      shp (array st) = [1; n] /\ (forall j, 0 <= j < n -> val (array st) [0; j] = placed zero data [s2] [j]) /\
      aligned_index st = [o0; o1] /\ dimensions st = [I; J].
  Proof.
    intros Hd Hn R. apply no_dummy_truthy in Hd. destruct (one_assigned _ _ _ R) as (b & E & Sb & Vb & Hr & H0).
    unfold make_storage_data. rewrite Hr. cbn [negb Nat.eqb]. unfold item at 1. rewrite Hn. cbn [bind].
    unfold make_storage_data_1d. cbn [List.length Nat.sub Nat.min item nth_error bind]. unfold zeros. cbn [forallb]. replace (0 <=? n) with true by (symmetry; now apply Z.leb_le). cbn [andb bind].
    rewrite Hd. cbn [bind negb]. rewrite E. cbn [bind Nat.eqb]. unfold np_reshape. rewrite Sb. cbn [size fold_right forallb].
    replace (n * 1 =? 1 * (n * 1)) with true by (symmetry; apply Z.eqb_eq; lia). replace (0 <=? n) with true by (symmetry; now apply Z.leb_le). cbn [andb bind Z.leb Z.compare].
    unfold translate_origin. cbn [filter List.length Nat.eqb bind mask_to_dimensions app]. rewrite (accepted [1; n]) by reflexivity.
    eexists. split; [reflexivity|]. cbn [array aligned_index dimensions shp val]. split; [reflexivity|]. split; [|easy]. intros j _. rewrite <- Vb. f_equal. cbn [unravel ravel size fold_right].
    rewrite Z.div_1_r. f_equal. lia.
  Qed.
  (** not read-only: the full shape, the data along [axis] repeated over the other two *)
  Theorem C86_one_full (data : nd V) n m p o0 o1 o2 s0 s1 s2 dummy axis : (axis < 3)%nat -> no_dummy dummy -> 0 <= n -> 0 <= m -> 0 <= p ->
    room [nth axis [n; m; p] 0] [s2] (shp data) ->
    exists st, make_storage_data V zero data (Some [n; m; p]) [o0; o1; o2] None [s0; s1; s2] dummy axis 3 false = Some st /\
      shp (array st) = [n; m; p] /\ (forall idx, within [n; m; p] idx -> val (array st) idx = placed zero data [s2] [nth axis idx 0]) /\
      aligned_index st = [o0; o1; o2] /\ dimensions st = [I; J; K].
  Proof.
    intros Ha Hd Hn Hm Hp R. apply no_dummy_truthy in Hd. destruct (one_assigned _ _ _ R) as (b & E & Sb & Vb & Hr & H0).
    unfold make_storage_data. rewrite Hr. cbn [negb bind]. unfold make_storage_data_1d. cbn [List.length Nat.sub]. rewrite Nat.min_l by lia. unfold item.
    assert (Ei : nth_error [n; m; p] axis = Some (nth axis [n; m; p] 0)) by (destruct axis as [|[|[|]]]; try lia; reflexivity). rewrite Ei. cbn [bind].
    unfold zeros. cbn [forallb]. replace (0 <=? nth axis [n; m; p] 0) with true by (symmetry; now apply Z.leb_le). cbn [andb bind].
    rewrite Hd. cbn [bind nth_error negb]. rewrite E. cbn [bind].
    apply Z.leb_le in Hn, Hm, Hp.
    assert (Hf : forall c, shp c = [n; m; p] -> (forall idx, within [n; m; p] idx -> val c idx = val b [nth axis idx 0]) -> exists st,
      (do aligned <- translate_origin [o0; o1; o2] [true; true; true]; do dims <- mask_to_dimensions [true; true; true] (shp c); from_array V c aligned dims) = Some st /\
      shp (array st) = [n; m; p] /\ (forall idx, within [n; m; p] idx -> val (array st) idx = placed zero data [s2] [nth axis idx 0]) /\
      aligned_index st = [o0; o1; o2] /\ dimensions st = [I; J; K]).
    { intros c Sc Vc. unfold translate_origin. cbn [filter List.length Nat.eqb bind mask_to_dimensions app]. rewrite (accepted [n; m; p]) by (reflexivity || exact Sc).
      eexists. split; [reflexivity|]. cbn [array aligned_index dimensions]. split; [exact Sc|]. split; [|easy]. intros idx W. now rewrite (Vc idx W), Vb. }
    destruct axis as [|[|[|]]]; try lia; cbn [set_item bind nth] in *.
    - unfold repeat_last at 1. cbn [nth_error bind]. rewrite Hm. cbn [bind]. unfold repeat_last. rewrite Hp. cbn [bind shp val app]. rewrite Sb. cbn [app].
      apply Hf; [reflexivity|]. intros idx W. apply within_length in W. destruct idx as [|? [|? [|? [|]]]]; try discriminate. reflexivity.
    - unfold repeat_first. cbn [nth_error bind]. rewrite Hn. cbn [bind]. unfold repeat_last. rewrite Hp. cbn [bind shp val app]. rewrite Sb. cbn [app].
      apply Hf; [reflexivity|]. intros idx W. apply within_length in W. destruct idx as [|? [|? [|? [|]]]]; try discriminate. reflexivity.
    - unfold tile. rewrite Sb. cbn [forallb]. rewrite Hn, Hm. cbn [andb Z.leb Z.compare List.length Nat.eqb negb removelast app List.last bind].
      apply Hf; [cbn [shp]; do 3 f_equal; lia|]. intros idx W. cbn [val]. inversion W as [|? i ? ? Wi W2]; subst. inversion W2 as [|? j ? ? Wj W3]; subst. inversion W3 as [|? k ? ? Wk W4]; subst. inversion W4; subst.
      cbn [List.last nth]. now rewrite Z.mod_small by lia.
  Qed.

  (** ** Data that do not fit are refused, if no axis is of length 1 (or 0) *)
  Lemma refused : forall shape start sizes t, slices shape start sizes = Some t -> List.length start = List.length shape -> List.length sizes = List.length shape ->
    Forall (fun s => 0 <= s) start -> Forall (fun d => 2 <= d) sizes -> fits sizes t = true -> room shape start sizes.
  Proof.
    induction shape as [|n shape IH]; intros [|s start] [|d sizes] t Es L1 L2 Fs Fd Ff; simpl in L1, L2; try discriminate.
    { split; [constructor|easy]. }
    cbn [slices] in Es. destruct (slices shape start sizes) as [t2|] eqn:E2; [cbn [bind] in Es|discriminate].
    assert (t = slice_of n s (s + d) :: t2) as -> by congruence. cbn [fits slice_of] in Ff. apply andb_true_iff in Ff as [F1 F2].
    inversion Fs as [|? ? Hs Fs2]; subst. inversion Fd as [|? ? Hd Fd2]; subst.
    destruct (IH start sizes t2 E2) as (R1 & R2 & R3); try lia; try assumption.
    split; [|simpl; lia]. simpl. constructor; [|exact R1]. simpl. apply orb_true_iff in F1. rewrite !Z.eqb_eq in F1. unfold slice_of, clip in F1. simpl in F1.
    destruct (Z.ltb_spec (s + d) 0), (Z.ltb_spec s 0); lia.
  Qed.
  Theorem C86_three_refused (data : nd V) shape origin start axis dummy read_only : rank data = 3%nat -> List.length shape = 3%nat ->
    Forall (fun s => 0 <= s) start -> Forall (fun d => 2 <= d) (shp data) -> ~ room shape start (shp data) ->
    make_storage_data V zero data (Some shape) origin None start dummy axis 3 read_only = None.
  Proof.
    intros Hr Hs Fs Fd HR. destruct (make_storage_data V zero data (Some shape) origin None start dummy axis 3 read_only) as [st|] eqn:E; [exfalso; apply HR|reflexivity].
    unfold make_storage_data in E. rewrite Hr in E. cbn [Nat.eqb] in E.
    set (msk := if negb read_only then _ else _) in E. assert (Em : exists k, msk = Some (k, shape)).
    { unfold msk. destruct read_only; simpl; [|eauto]. destruct (truthy dummy || negb (Nat.eqb axis 2)); eauto. }
    destruct Em as (k & Em). rewrite Em in E. cbn [bind] in E. unfold make_storage_data_3d in E.
    destruct start as [|s1 [|s2 [|s3 [|]]]]; try discriminate. unfold rank in Hr. destruct (shp data) as [|a [|b [|c [|]]]] eqn:Ed; try discriminate.
    destruct (zeros V zero shape) as [z|] eqn:Ez; [cbn [bind] in E|discriminate]. unfold assign in E.
    assert (Sz : shp z = shape) by (unfold zeros in Ez; destruct (forallb _ shape); [|discriminate]; injection Ez as <-; reflexivity). rewrite Sz in E.
    destruct (slices shape [s1; s2; s3] [a; b; c]) as [t|] eqn:Et; [cbn [bind] in E|discriminate].
    assert (Lt : List.length t = 3%nat).
    { destruct shape as [|n1 [|n2 [|n3 [|]]]]; try discriminate. cbn in Et. injection Et as <-. reflexivity. }
    rewrite Lt, Ed, pad_same in E by reflexivity. cbn [bind] in E. destruct (fits [a; b; c] t) eqn:Ef; [|discriminate].
    apply (refused shape [s1; s2; s3] [a; b; c] t); try assumption; simpl; lia.
  Qed.

  (** ** Dictionaries of storages: each name has the data of its index along the last axis *)
  Definition no_ones (l : list Z) : Prop := Forall (fun n => n <> 1) l.
  Lemma squeezed (l : nd V) : no_ones (shp l) -> shp (squeeze V l) = shp l /\ forall idx, List.length idx = rank l -> val (squeeze V l) idx = val l idx.
  Proof.
    intros H. assert (A : filter (fun n => negb (n =? 1)) (shp l) = shp l).
    { unfold no_ones in H. induction H as [|n s Hn _ IH]; [reflexivity|]. cbn [filter]. apply Z.eqb_neq in Hn. rewrite Hn. cbn [negb]. now rewrite IH. }
    split; [exact A|]. intros idx Hi. cbn [squeeze val]. f_equal. unfold rank in Hi. revert idx Hi. unfold no_ones in H. clear A. induction H as [|n s Hn _ IH]; intros [|i idx] Hi; try discriminate; [reflexivity|].
    cbn [unsqueeze]. apply Z.eqb_neq in Hn. rewrite Hn. f_equal. apply IH. simpl in Hi. congruence.
  Qed.
  Lemma dict_loop_spec {N} (data : nd V) a b c q shape origin start dummy axis : shp data = [a; b; c; q] -> no_ones [a; b; c] -> List.length shape = 3%nat -> List.length origin = 3%nat ->
    room shape start [a; b; c] -> forall count (names : list N) i, (count <= List.length names)%nat ->
    exists r, dict_loop V zero data shape origin start dummy names axis i count = Some r /\ map fst r = firstn count names /\
      forall k name st, nth_error r k = Some (name, st) -> shp (array st) = shape /\
        forall idx, within shape idx -> val (array st) idx = placed zero (mkNd [a; b; c] (fun x => val data (x ++ [Z.of_nat (i + k)]))) start idx.
  Proof.
    intros Ed Hn Hs Ho R. induction count as [|count IH]; intros names i Hc.
    { exists []. split; [reflexivity|]. split; [reflexivity|]. intros [|k] name st; discriminate. }
    destruct names as [|name names]; [simpl in Hc; lia|]. cbn [dict_loop]. unfold layer. rewrite Ed. cbn [bind].
    set (ly := mkNd [a; b; c] (fun idx => val data (idx ++ [Z.of_nat i]))).
    destruct (squeezed ly Hn) as [Sq Vq]. destruct (C86_three (squeeze V ly) shape origin start axis dummy true Hs Ho) as (st0 & E0 & S0 & V0 & _); [rewrite Sq; exact R|].
    rewrite E0. cbn [bind]. destruct (IH names (S i)) as (r & Er & Mr & Pr); [simpl in Hc; lia|]. rewrite Er. cbn [bind]. eexists. split; [reflexivity|].
    split; [simpl; now rewrite Mr|]. intros [|k] nm st Hk.
    - cbn [nth_error] in Hk. assert (st = st0) as -> by congruence. split; [exact S0|]. intros idx W. rewrite (V0 idx W), Nat.add_0_r. fold ly. unfold placed. rewrite Sq.
      destruct (withinb (shp ly) (back idx start)) eqn:Wb; [|reflexivity]. apply Vq. revert Wb. generalize (back idx start). unfold rank. generalize (shp ly).
      induction l as [|x l IHl]; intros [|y l2]; cbn [withinb]; try discriminate; [reflexivity|]. intros X. apply andb_true_iff in X as [_ X]. simpl. now rewrite (IHl l2 X).
    - cbn [nth_error] in Hk. destruct (Pr k nm st Hk) as [P1 P2]. split; [exact P1|]. intros idx W. rewrite (P2 idx W). now replace (S i + k)%nat with (i + S k)%nat by lia.
  Qed.
  Theorem C86_dict {N} (data : nd V) a b c q shape origin start dummy axis (names : list N) : shp data = [a; b; c; q] -> no_ones [a; b; c] -> List.length shape = 3%nat ->
    List.length origin = 3%nat -> room shape start [a; b; c] -> (Z.to_nat q <= List.length names)%nat ->
    exists r, make_storage_dict V zero data (Some shape) origin start dummy (Some names) axis = Some r /\ map fst r = firstn (Z.to_nat q) names /\
      forall k name st, nth_error r k = Some (name, st) -> shp (array st) = shape /\
        forall idx, within shape idx -> val (array st) idx = placed zero (mkNd [a; b; c] (fun x => val data (x ++ [Z.of_nat k]))) start idx.
  Proof.
    intros Ed Hn Hs Ho R Hq. unfold make_storage_dict. rewrite Ed. exact (dict_loop_spec data a b c q shape origin start dummy axis Ed Hn Hs Ho R (Z.to_nat q) names 0%nat Hq).
  Qed.
  (** without a shape no dictionary can be made: the shape of all four axes is taken for the three of an entry *)
  Theorem C86_dict_refused {N} (data : nd V) a b c q origin start dummy axis (names : option (list N)) : shp data = [a; b; c; q] -> no_ones [a; b; c] -> 0 < q ->
    make_storage_dict V zero data None origin start dummy names axis = None.
  Proof.
    intros Ed Hn Hq. unfold make_storage_dict. rewrite Ed. destruct names as [names|]; [|reflexivity].
    destruct (Z.to_nat q) as [|count] eqn:Eq; [lia|]. cbn [dict_loop]. destruct names as [|name names]; [reflexivity|]. unfold layer. rewrite Ed. cbn [bind].
    set (ly := mkNd [a; b; c] _). destruct (squeezed ly Hn) as [Sq _]. unfold make_storage_data, rank. rewrite Sq. cbn [ly shp List.length Nat.eqb negb].
    set (msk := if truthy dummy || _ then _ else _). assert (Em : msk = Some ([true; true; true], [a; b; c; q])).
    { unfold msk. now destruct (truthy dummy || negb (Nat.eqb axis 2)). }
    rewrite Em. cbn [bind]. unfold make_storage_data_3d. destruct start as [|s1 [|s2 [|s3 [|]]]]; try reflexivity. rewrite Sq. cbn [ly shp].
    destruct (zeros V zero [a; b; c; q]) as [z|] eqn:Ez; [cbn [bind]|reflexivity].
    assert (Sz : shp z = [a; b; c; q]) by (unfold zeros in Ez; destruct (forallb _ _); [|discriminate]; injection Ez as <-; reflexivity).
    destruct (assign _ _ _ _ _) as [bf|] eqn:Ea; [cbn [bind]|reflexivity].
    assert (Sb : shp bf = [a; b; c; q]).
    { unfold assign in Ea. destruct (slices _ _ _); [cbn [bind] in Ea|discriminate]. destruct (pad _ _); [cbn [bind] in Ea|discriminate]. destruct (fits _ _); [|discriminate].
      injection Ea as <-. exact Sz. }
    destruct (translate_origin _ _) as [al|]; [cbn [bind mask_to_dimensions app]|reflexivity]. unfold from_array, rank. rewrite Sb. cbn [List.length Nat.eqb]. now rewrite andb_false_r.
  Qed.

  (** ** reshape: a field of two axes is repeated along the third *)
  Theorem C86_reshape (a : nd V) n m p : shp a = [n; m] -> 0 <= p -> exists b, reshape V a [n; m; p] = Some b /\ shp b = [n; m; p] /\
    forall i j k, val b [i; j; k] = val a [i; j].
  Proof.
    intros Sa Hp. unfold reshape. rewrite Sa. destruct (list_eq_dec Z.eq_dec [n; m] [n; m; p]); [discriminate|]. unfold rank. rewrite Sa. cbn [List.length Nat.ltb Nat.leb Nat.eqb item nth_error bind].
    unfold repeat_last. apply Z.leb_le in Hp. rewrite Hp. eexists. split; [reflexivity|]. cbn [shp val]. now rewrite Sa.
  Qed.
End Values.

(** ** Findings *)
Definition ramp (shape : list Z) : nd Z := mkNd shape (fun idx => 1 + fold_left (fun x i => 10 * x + i) idx 0).
(** data of one index along an axis that do not fit are dropped: the storage is zero *)
Theorem C86_lost_refuted : exists (data : nd Z) st, make_storage_data Z 0 data (Some [3; 2; 2]) [0; 0; 0] None [3; 0; 0] None 2 3 true = Some st /\
  shp data = [1; 2; 2] /\ (forall idx, within (shp data) idx -> val data idx <> 0) /\ (forall idx, within [3; 2; 2] idx -> val (array st) idx = 0).
Proof.
  exists (ramp [1; 2; 2]). eexists. split; [reflexivity|]. split; [reflexivity|]. split.
  - intros idx W. inversion W as [|? i ? ? Wi W2]; subst. inversion W2 as [|? j ? ? Wj W3]; subst. inversion W3 as [|? k ? ? Wk W4]; subst. inversion W4; subst. cbn [val ramp fold_left]. lia.
  - intros idx W. inversion W as [|? i ? ? Wi W2]; subst. cbn [array val]. cbn [inside]. change (slice_of 3 3 (3 + 1)) with (3, 0). cbn [inside].
    replace (3 <=? i) with false by (symmetry; apply Z.leb_gt; lia). reflexivity.
Qed.
(** a dummy axis and another axis, not read-only: the storage has not the shape asked for *)
Theorem C86_dummy_refuted : exists (data : nd Z) st, make_storage_data Z 0 data (Some [1; 2; 3]) [0; 0; 0] None [0; 0; 0] (Some [0%nat]) 2 3 false = Some st /\
  shp data = [2; 3] /\ shp (array st) = [2; 3; 3].
Proof. exists (ramp [2; 3]). eexists. split; [reflexivity|]. now split. Qed.
(** data of J and K, repeated along I, start at the entries of I and J *)
Theorem C86_start_refuted : exists (data : nd Z) start st, make_storage_data Z 0 data (Some [2; 3; 3]) [0; 0; 0] None start None 0 3 false = Some st /\
  room (omit 0 [2; 3; 3]) (omit 0 start) (shp data) /\ exists idx, within [2; 3; 3] idx /\ val (array st) idx <> placed 0 data (omit 0 start) (omit 0 idx).
Proof.
  exists (ramp [2; 2]), [0; 1; 0]. eexists. split; [reflexivity|]. split; [split; [repeat constructor; simpl; lia|now split]|].
  exists [0; 1; 0]. split; [repeat constructor; lia|]. vm_compute. discriminate.
Qed.
(** an entry of a dictionary with a single index along an axis loses that axis *)
Theorem C86_dict_refuted : exists (data : nd Z) st, make_storage_dict Z 0 data (Some [3; 3; 3]) [0; 0; 0] [0; 0; 0] None (Some [0%nat]) 2 = Some [(0%nat, st)] /\
  shp data = [1; 2; 2; 1] /\ shp (array st) = [3; 3] /\ val (array st) [0; 1] = val data [0; 0; 1; 0].
Proof. exists (ramp [1; 2; 2; 1]). eexists. split; [reflexivity|]. split; [reflexivity|]. split; reflexivity. Qed.
(** "K -> IJK" puts the levels along I *)
Theorem C86_reshape_refuted : exists (a : nd Z) b, reshape Z a [2; 2; 3] = Some b /\ shp a = [3] /\ shp b = [3; 2; 3] /\ val b [2; 0; 0] = val a [2] /\ val b [0; 0; 2] = val a [0] /\ val a [2] <> val a [0].
Proof. exists (ramp [3]). eexists. split; [reflexivity|]. repeat split; try reflexivity. vm_compute. discriminate. Qed.

(** ** C87 *)
Section Translate.
  Context {V : Type} (zero : V).
  Definition same (a b : nd V) : Prop := shp a = shp b /\ forall idx, within (shp a) idx -> val a idx = val b idx.

  Lemma take_back : forall shape start sizes, room shape start sizes ->
    take shape (map (fun x => (fst x, snd x + 1)) (combine start (map (fun se => fst se + snd se - 1) (combine start sizes)))) = Some (combine start sizes).
  Proof.
    induction shape as [|n shape IH]; intros [|s start] [|d sizes] (H & L1 & L2); simpl in *; try discriminate; [reflexivity|].
    inversion H as [|? ? ? ? (A & B & C) T]; subst. simpl in *. rewrite IH by (split; [exact T|lia]). cbn [bind]. unfold slice_of. rewrite !clip_in by lia. do 3 f_equal. lia.
  Qed.
  Lemma snd_combine : forall (a b : list Z), List.length a = List.length b -> map snd (combine a b) = b.
  Proof. induction a as [|x a IH]; intros [|y b] L; simpl in *; try discriminate; [reflexivity|]. now rewrite IH by lia. Qed.
  Lemma shifted_back : forall start sizes idx, List.length start = List.length sizes -> List.length idx = List.length sizes ->
    back (shifted (combine start sizes) idx) start = idx /\ List.length (shifted (combine start sizes) idx) = List.length sizes.
  Proof.
    induction start as [|s start IH]; intros [|d sizes] [|i idx] L1 L2; simpl in *; try discriminate; [easy|].
    destruct (IH sizes idx) as [A B]; try lia. rewrite A, B. split; [f_equal; lia|reflexivity].
  Qed.
  Lemma within_b : forall shape idx, within shape idx -> withinb shape idx = true.
  Proof. induction 1 as [|n i shape idx W _ IH]; [reflexivity|]. cbn [withinb]. rewrite IH. destruct (Z.leb_spec 0 i), (Z.ltb_spec i n); lia || reflexivity. Qed.
  (** reading the window of the data gives them back *)
  Lemma taken shape start (data a : nd V) : room shape start (shp data) -> shp a = shape -> (forall idx, within shape idx -> val a idx = placed zero data start idx) ->
    exists o, subarray V a (map (fun x => (fst x, snd x + 1)) (combine start (map (fun se => fst se + snd se - 1) (combine start (shp data))))) = Some o /\ same o data.
  Proof.
    intros R Sa Va. destruct (room_length _ _ _ R) as [L1 L2]. unfold subarray. rewrite Sa, (take_back _ _ _ R). cbn [bind]. eexists. split; [reflexivity|].
    rewrite snd_combine by exact L1. split; [reflexivity|]. cbn [shp val]. intros idx W. pose proof (within_length _ _ W) as Li.
    destruct (shifted_back start (shp data) idx L1 Li) as [B L]. rewrite Va; [unfold placed; rewrite B; now rewrite (within_b _ _ W)|].
    destruct R as (F & _ & _). clear -F W L1. revert start L1 W F. revert idx. generalize (shp data). induction shape as [|n shape IH]; intros l idx start L1 W F.
    - inversion F as [E|]. symmetry in E. destruct start, l; try discriminate. inversion W. constructor.
    - destruct start as [|s start], l as [|d l]; try discriminate; [inversion F|]. simpl in F. inversion F as [|? ? ? ? A T]; subst. inversion W as [|? i ? idx' Wi W']; subst. simpl in *.
      constructor; [lia|]. apply IH; lia || assumption.
  Qed.
  Lemma filter_mask (l : list Z) : forall idx, within (filter (fun n => negb (n =? 1)) l) idx -> within l (unsqueeze l idx).
  Proof.
    induction l as [|n l IH]; intros idx W; [inversion W; constructor|]. cbn [filter] in W. cbn [unsqueeze]. destruct (Z.eqb_spec n 1) as [->|Hn]; cbn [negb] in W.
    - constructor; [lia|now apply IH].
    - inversion W as [|? i ? idx' Wi W']; subst. constructor; [exact Wi|now apply IH].
  Qed.
  Lemma squeeze_same a b : same a b -> same (squeeze V a) (squeeze V b).
  Proof.
    intros [S E]. split; [cbn [squeeze shp]; now rewrite S|]. cbn [squeeze shp val]. intros idx W. rewrite <- S. apply E. now apply filter_mask.
  Qed.

  (** Three axes: what was loaded at (i, j, k) and is read from the window of its size comes back without its axes of length 1 *)
  Theorem C87_three maxshape (data : nd V) a b c i j k axis read_only full_shape : List.length maxshape = 3%nat -> shp data = [a; b; c] -> room maxshape [i; j; k] [a; b; c] ->
    exists st o, translate_make_storage_data V zero maxshape data i j k None axis read_only full_shape = Some st /\ dimensions st = [I; J; K] /\ shp (array st) = maxshape /\
      slice_output V (array st) (i, i + a - 1) (j, j + b - 1) (k, k + c - 1) = Some o /\ same o (squeeze V data).
  Proof.
    intros Hm Sd R. assert (Hr : rank data = 3%nat) by (unfold rank; now rewrite Sd).
    destruct (C86_three zero data maxshape [i; j; k] [i; j; k] axis None read_only Hm eq_refl ltac:(now rewrite Sd)) as (st & E & Sa & Va & _ & Di).
    destruct (taken maxshape [i; j; k] data (array st)) as (o & Eo & So); [now rewrite Sd|exact Sa|exact Va|].
    exists st, (squeeze V o). unfold translate_make_storage_data. cbn [truthy]. rewrite Hr. cbn [Nat.ltb Nat.leb Nat.eqb Nat.sub]. rewrite andb_false_r. cbn [andb bind]. rewrite E.
    split; [reflexivity|]. split; [exact Di|]. split; [exact Sa|]. split; [|now apply squeeze_same].
    unfold slice_output, rank. rewrite Sa, Hm. rewrite (skipn_all2 maxshape) by lia. cbn [Nat.min Nat.ltb Nat.leb map firstn app fst snd].
    rewrite Sd in Eo. cbn in Eo. cbn. rewrite Eo. reflexivity.
  Qed.
  (** Two axes, read-only, in the first two axes of the storage (the default) *)
  Theorem C87_two n m p (data : nd V) a b i j k w full_shape : shp data = [a; b] -> room [n; m] [i; j] [a; b] ->
    exists st o, translate_make_storage_data V zero [n; m; p] data i j k None 2 true full_shape = Some st /\ dimensions st = [I; J] /\ shp (array st) = [n; m] /\
      slice_output V (array st) (i, i + a - 1) (j, j + b - 1) w = Some o /\ same o (squeeze V data).
  Proof.
    intros Sd R. assert (Hr : rank data = 2%nat) by (unfold rank; now rewrite Sd).
    destruct (C86_two zero data n m [p] i j [k] i j [k] None ltac:(now rewrite Sd) (or_introl eq_refl) (or_intror eq_refl)) as (st & E & Sa & Va & _ & Di).
    destruct (taken [n; m] [i; j] data (array st)) as (o & Eo & So); [now rewrite Sd|exact Sa| |].
    { intros idx W. inversion W as [|? x ? ? Wx W2]; subst. inversion W2 as [|? y ? ? Wy W3]; subst. inversion W3; subst. now apply Va. }
    exists st, (squeeze V o). unfold translate_make_storage_data. cbn [truthy]. rewrite Hr. cbn [Nat.ltb Nat.leb Nat.eqb Nat.sub negb andb]. rewrite andb_false_r. cbn [andb bind]. rewrite E.
    split; [reflexivity|]. split; [exact Di|]. split; [exact Sa|]. split; [|now apply squeeze_same].
    unfold slice_output, rank. rewrite Sa. cbn [List.length Nat.min Nat.ltb Nat.leb map firstn skipn app fst snd].
    rewrite Sd in Eo. cbn in Eo. cbn. rewrite Eo. reflexivity.
  Qed.
  (** One axis of levels, read-only *)
  Theorem C87_one n m p (data : nd V) c i j k wi wj full_shape : shp data = [c] -> room [p] [k] [c] ->
    exists st o, translate_make_storage_data V zero [n; m; p] data i j k None 2 true full_shape = Some st /\ dimensions st = [K] /\ shp (array st) = [p] /\
      slice_output V (array st) wi wj (k, k + c - 1) = Some o /\ same o (squeeze V data).
  Proof.
    intros Sd R. assert (Hr : rank data = 1%nat) by (unfold rank; now rewrite Sd).
    destruct (C86_one zero data [n; m; p] i j k i j k p None 2%nat) as (st & E & Sa & Va & _ & Di); [right; split; [reflexivity|discriminate]|now left|reflexivity|now rewrite Sd|].
    destruct (Di eq_refl) as [_ Dk].
    destruct (taken [p] [k] data (array st)) as (o & Eo & So); [now rewrite Sd|exact Sa| |].
    { intros idx W. inversion W as [|? x ? ? Wx W2]; subst. inversion W2; subst. now apply Va. }
    exists st, (squeeze V o). unfold translate_make_storage_data. cbn [truthy]. rewrite Hr. cbn [Nat.ltb Nat.leb Nat.eqb Nat.sub negb andb]. rewrite andb_false_r. cbn [andb bind]. rewrite E.
    split; [reflexivity|]. split; [exact Dk|]. split; [exact Sa|]. split; [|now apply squeeze_same].
    unfold slice_output, rank. rewrite Sa. cbn [List.length Nat.min Nat.ltb Nat.leb map firstn skipn app fst snd].
    rewrite Sd in Eo. cbn in Eo. cbn. rewrite Eo. reflexivity.
  Qed.

  Lemma unsqueeze_two a b idx : within (filter (fun n => negb (n =? 1)) [a; b]) idx ->
    exists u v, 0 <= u < a /\ 0 <= v < b /\ unsqueeze [a; b] idx = [u; v] /\ unsqueeze [1; a; b] idx = [0; u; v] /\ unsqueeze [a; 1; b] idx = [u; 0; v] /\ unsqueeze [a; b; 1] idx = [u; v; 0].
  Proof.
    intros W. pose proof (filter_mask _ _ W) as W2. cbn [filter unsqueeze Z.eqb Pos.eqb] in *. destruct (Z.eqb_spec a 1), (Z.eqb_spec b 1); cbn [negb] in W.
    - inversion W; subst. exists 0, 0. repeat split; lia || reflexivity.
    - inversion W as [|? v ? l Wv W3]; subst. inversion W3; subst. exists 0, v. repeat split; lia || reflexivity.
    - inversion W as [|? v ? l Wv W3]; subst. inversion W3; subst. exists v, 0. repeat split; lia || reflexivity.
    - inversion W as [|? u ? l Wu W3]; subst. inversion W3 as [|? v ? l3 Wv W4]; subst. inversion W4; subst. exists u, v. repeat split; lia || reflexivity.
  Qed.
  (** Two axes with a dummy axis, read-only or not: one index along the dummy, the data at (i, j) along the two other axes *)
  Theorem C87_dummy n m p (data : nd V) a b i j k d axis read_only full_shape e : (d < 3)%nat -> shp data = [a; b] -> room (omit d [n; m; p]) [i; j] [a; b] -> 0 <= e ->
    exists st, translate_make_storage_data V zero [n; m; p] data i j k (Some [d]) axis read_only full_shape = Some st /\ dimensions st = [I; J; K] /\
      nth d (shp (array st)) 0 = 1 /\ omit d (shp (array st)) = omit d [n; m; p] /\
      exists o, same o (squeeze V data) /\
        (d = 0%nat -> slice_output V (array st) (0, e) (i, i + a - 1) (j, j + b - 1) = Some o) /\
        (d = 1%nat -> slice_output V (array st) (i, i + a - 1) (0, e) (j, j + b - 1) = Some o) /\
        (d = 2%nat -> slice_output V (array st) (i, i + a - 1) (j, j + b - 1) (0, e) = Some o).
  Proof.
    intros Hd Sd R He. assert (Hr : rank data = 2%nat) by (unfold rank; now rewrite Sd).
    set (us := match d with 0%nat => [1; m; p] | 1%nat => [n; 1; p] | _ => [n; m; 1] end).
    assert (Eset : set_item [n; m; p] d 1 = Some us) by (destruct d as [|[|[|]]]; try lia; reflexivity).
    assert (Eom : omit d us = omit d [n; m; p]) by (destruct d as [|[|[|]]]; try lia; reflexivity).
    assert (Ent : nth d us 0 = 1) by (destruct d as [|[|[|]]]; try lia; reflexivity).
    assert (Est : exists st, make_storage_data V zero data (Some us) [i; j; k] None [i; j; k] (Some [d]) d 3 read_only = Some st /\ shp (array st) = us /\
      (forall idx, within us idx -> val (array st) idx = placed zero data [i; j] (omit d idx)) /\ aligned_index st = [i; j; k] /\ dimensions st = [I; J; K]).
    { assert (Eus : exists x y z, us = [x; y; z]) by (destruct d as [|[|[|]]]; try lia; unfold us; eauto). destruct Eus as (x & y & z & Eus). rewrite Eus in *.
      destruct read_only.
      - apply C86_two_singleton; [left; eauto|exact Hd|exact Ent|rewrite Eom, Sd; exact R|reflexivity].
      - apply C86_two_full; [exact Hd|rewrite Eom, Sd; exact R|rewrite Ent; lia|reflexivity|reflexivity]. }
    destruct Est as (st & E & Sa & Va & _ & Di). exists st. unfold translate_make_storage_data. cbn [truthy]. rewrite Eset. cbn [bind]. rewrite Hr. cbn [Nat.eqb]. rewrite E.
    split; [reflexivity|]. split; [exact Di|]. rewrite Sa. split; [exact Ent|]. split; [exact Eom|].
    destruct R as (F & _ & _). assert (H4 : exists x y, omit d [n; m; p] = [x; y]) by (destruct d as [|[|[|]]]; try lia; simpl; eauto). destruct H4 as (x & y & Exy). rewrite Exy in F.
    inversion F as [|? ? ? ? A F2]; subst. inversion F2 as [|? ? ? ? B _]; subst. cbn [fst snd] in A, B.
    assert (C0 : forall f g h, shp (array st) = [f; g; h] -> forall w1 w2 w3, slice_output V (array st) w1 w2 w3 =
      Some (squeeze V (mkNd (map snd [slice_of f (fst w1) (snd w1 + 1); slice_of g (fst w2) (snd w2 + 1); slice_of h (fst w3) (snd w3 + 1)])
             (fun idx => val (array st) (shifted [slice_of f (fst w1) (snd w1 + 1); slice_of g (fst w2) (snd w2 + 1); slice_of h (fst w3) (snd w3 + 1)] idx))))).
    { intros f g h Sh w1 w2 w3. unfold slice_output, rank, subarray. rewrite Sh. reflexivity. }
    assert (Si : slice_of x i (i + a - 1 + 1) = (i, a)) by (unfold slice_of; rewrite !clip_in by lia; f_equal; lia).
    assert (Sj : slice_of y j (j + b - 1 + 1) = (j, b)) by (unfold slice_of; rewrite !clip_in by lia; f_equal; lia).
    assert (Se : slice_of 1 0 (e + 1) = (0, 1)) by (unfold slice_of, clip; destruct (Z.ltb_spec (e + 1) 0), (Z.ltb_spec 0 0); f_equal; lia).
    assert (Pl : forall u v, 0 <= u < a -> 0 <= v < b -> placed zero data [i; j] [i + u; j + v] = val data [u; v]).
    { intros u v Hu Hv. unfold placed. cbn [back]. replace (i + u - i) with u by lia. replace (j + v - j) with v by lia. rewrite Sd. rewrite within_b; [reflexivity|]. repeat constructor; lia. }
    destruct d as [|[|[|]]]; try lia; unfold us in *; simpl in Exy; assert (x = _ /\ y = _) as [Ex Ey] by (split; injection Exy; intros; symmetry; eassumption); subst x y.
    - pose proof (C0 1 m p Sa (0, e) (i, i + a - 1) (j, j + b - 1)) as C1. cbn [fst snd] in C1. rewrite Si, Sj, Se in C1. eexists. split; [|split; [intros _; exact C1|split; discriminate]].
      assert (Q : filter (fun z => negb (z =? 1)) (map snd [(0, 1); (i, a); (j, b)]) = filter (fun z => negb (z =? 1)) [a; b]) by (cbn [map snd filter Z.eqb Pos.eqb negb]; reflexivity).
      split; [cbn [squeeze shp]; now rewrite Q, Sd|]. cbn [squeeze shp val]. rewrite Q, Sd. intros idx W. destruct (unsqueeze_two a b idx W) as (u & v & Hu & Hv & U0 & U1 & U2 & U3).
      cbn [map snd]. rewrite U0, U1. cbn [shifted]. rewrite Va by (repeat constructor; lia). cbn [omit]. now apply Pl.
    - pose proof (C0 n 1 p Sa (i, i + a - 1) (0, e) (j, j + b - 1)) as C1. cbn [fst snd] in C1. rewrite Si, Sj, Se in C1. eexists. split; [|split; [discriminate|split; [intros _; exact C1|discriminate]]].
      assert (Q : filter (fun z => negb (z =? 1)) (map snd [(i, a); (0, 1); (j, b)]) = filter (fun z => negb (z =? 1)) [a; b]) by (cbn [map snd filter Z.eqb Pos.eqb negb]; reflexivity).
      split; [cbn [squeeze shp]; now rewrite Q, Sd|]. cbn [squeeze shp val]. rewrite Q, Sd. intros idx W. destruct (unsqueeze_two a b idx W) as (u & v & Hu & Hv & U0 & U1 & U2 & U3).
      cbn [map snd]. rewrite U0, U2. cbn [shifted]. rewrite Va by (repeat constructor; lia). cbn [omit]. now apply Pl.
    - pose proof (C0 n m 1 Sa (i, i + a - 1) (j, j + b - 1) (0, e)) as C1. cbn [fst snd] in C1. rewrite Si, Sj, Se in C1. eexists. split; [|split; [discriminate|split; [discriminate|intros _; exact C1]]].
      assert (Q : filter (fun z => negb (z =? 1)) (map snd [(i, a); (j, b); (0, 1)]) = filter (fun z => negb (z =? 1)) [a; b]) by (cbn [map snd filter Z.eqb Pos.eqb negb]; reflexivity).
      split; [cbn [squeeze shp]; now rewrite Q, Sd|]. cbn [squeeze shp val]. rewrite Q, Sd. intros idx W. destruct (unsqueeze_two a b idx W) as (u & v & Hu & Hv & U0 & U1 & U2 & U3).
      cbn [map snd]. rewrite U0, U3. cbn [shifted]. rewrite Va by (repeat constructor; lia). cbn [omit]. now apply Pl.
  Qed.

  (** One axis of at least two indices with any dummy axis is refused *)
  Theorem C87_dummy_one_refused n m p (data : nd V) c i j k d dummies axis read_only full_shape : shp data = [c] -> 2 <= c ->
    translate_make_storage_data V zero [n; m; p] data i j k (Some (d :: dummies)) axis read_only full_shape = None.
  Proof.
    intros Sd Hc. assert (Hr : rank data = 1%nat) by (unfold rank; now rewrite Sd). unfold translate_make_storage_data.
    set (go := fix go (dummies : list nat) (shape : list Z) (axis : nat) {struct dummies} : option (list Z * nat) := _).
    assert (G : forall ds shape ax us ax2, List.length shape = 3%nat -> nth_error shape ax = Some 1 -> go ds shape ax = Some (us, ax2) -> List.length us = 3%nat /\ nth_error us ax2 = Some 1).
    { assert (S : forall shape d0 us, set_item shape d0 1 = Some us -> List.length us = List.length shape /\ nth_error us d0 = Some 1).
      { induction shape as [|x shape IH]; intros [|d0] us Es; try discriminate; cbn [set_item] in Es.
        - assert (us = 1 :: shape) as -> by congruence. now split.
        - destruct (set_item shape d0 1) as [r|] eqn:E1; [cbn [bind] in Es|discriminate]. assert (us = x :: r) as -> by congruence. destruct (IH d0 r E1). simpl. split; [lia|assumption]. }
      induction ds as [|d0 ds IH]; intros shape ax us ax2 L N E; simpl in E.
      - assert (us = shape) as -> by congruence. assert (ax2 = ax) as -> by congruence. now split.
      - fold go in E. destruct (set_item shape d0 1) as [sh|] eqn:E1; [cbn [bind] in E|discriminate]. destruct (S _ _ _ E1) as [L1 N1]. apply (IH sh d0 us ax2); [lia|exact N1|exact E]. }
    destruct (if truthy (Some (d :: dummies)) then _ else _) as [[us ax]|] eqn:E; [cbn [bind]|reflexivity]. change (go (d :: dummies) [n; m; p] axis = Some (us, ax)) in E. rewrite Hr. cbn [Nat.eqb].
    assert (L : List.length us = 3%nat /\ nth_error us ax = Some 1).
    { change (bind (set_item [n; m; p] d 1) (fun sh => go dummies sh d) = Some (us, ax)) in E. destruct (set_item [n; m; p] d 1) as [sh|] eqn:E1; [cbn [bind] in E|discriminate].
      assert (List.length sh = 3%nat /\ nth_error sh d = Some 1) as [L1 N1] by (destruct d as [|[|[|d]]]; simpl in E1; try discriminate; assert (sh = _) as -> by (symmetry; injection E1; intros X; exact X); now split).
      exact (G dummies sh d us ax L1 N1 E). }
    destruct L as [L N]. assert (Hax : (ax < 3)%nat) by (rewrite <- L; apply nth_error_Some; congruence).
    assert (Z1 : forall shape2, nth_error shape2 (Nat.min ax (List.length shape2 - 1)) = Some 1 -> make_storage_data_1d V zero data shape2 [i; j; k] (Some (d :: dummies)) ax read_only = None).
    { intros shape2 N2. unfold make_storage_data_1d, item. rewrite N2. cbn [bind]. unfold zeros. cbn [forallb Z.leb Z.compare andb bind].
      destruct (if truthy (Some (d :: dummies)) then _ else _) as [ax3|]; [cbn [bind nth_error]|reflexivity]. unfold assign. cbn [shp]. rewrite Sd. cbn [slices map bind].
      cbn [List.length]. rewrite pad_same by reflexivity. cbn [bind fits].
      destruct (slice_of 1 k (k + c)) as [f g] eqn:Sl. assert (Hg : g <= 1).
      { apply (f_equal snd) in Sl. cbn [slice_of snd] in Sl. subst g. unfold clip. destruct (Z.ltb_spec k 0), (Z.ltb_spec (k + c) 0); lia. }
      replace (c =? g) with false by (symmetry; apply Z.eqb_neq; lia). replace (c =? 1) with false by (symmetry; apply Z.eqb_neq; lia). reflexivity. }
    unfold make_storage_data. rewrite Hr. cbn [Nat.eqb].
    destruct read_only; cbn [negb].
    - destruct (Nat.eqb_spec ax 1) as [->|Hn].
      + unfold item. rewrite N. cbn [bind]. rewrite Z1 by reflexivity. reflexivity.
      + cbn [bind]. rewrite Z1; [reflexivity|]. rewrite L. now rewrite Nat.min_l by lia.
    - cbn [bind]. rewrite Z1; [reflexivity|]. rewrite L. now rewrite Nat.min_l by lia.
  Qed.

  (** With the defaults of the grid: data of the whole domain come back from the default window *)
  Theorem C87_default is_ js nic njc npz e (data : nd V) axis read_only full_shape : 0 <= nic -> 0 <= njc -> 0 <= npz -> 0 <= e -> shp data = [nic + 6; njc + 6; npz] ->
    let '(i, j) := horizontal_starts is_ js nic njc (shp data) in
    exists st o, translate_make_storage_data V zero [nic + 6 + e; njc + 6 + e; npz + e] data i j 0 None axis read_only full_shape = Some st /\
      slice_output V (array st) (0, nic + 6 - 1) (0, njc + 6 - 1) (0, npz - 1) = Some o /\ same o (squeeze V data).
  Proof.
    intros Hi Hj Hk He Sd. rewrite Sd. unfold horizontal_starts. cbn [firstn].
    assert (D : forall x y, (x < 6 \/ y < 6) -> (if list_eq_dec Z.eq_dec [nic + 6; njc + 6] [nic + x; njc + y] then true else false) = false).
    { intros x y Hxy. destruct (list_eq_dec Z.eq_dec [nic + 6; njc + 6] [nic + x; njc + y]) as [Eq|]; [|reflexivity]. exfalso. apply (f_equal (fun l => (hd 0 l, hd 0 (List.tl l)))) in Eq. simpl in Eq.
      assert (nic + 6 = nic + x) by congruence. assert (njc + 6 = njc + y) by congruence. lia. }
    pose proof (D 0 0 ltac:(lia)) as D1. pose proof (D 1 0 ltac:(lia)) as D2. pose proof (D 0 1 ltac:(lia)) as D3. pose proof (D 1 1 ltac:(lia)) as D4. pose proof (D 2 2 ltac:(lia)) as D5.
    rewrite !Z.add_0_r in *. rewrite D1, D2, D3, D4, D5. cbn [orb].
    destruct (C87_three [nic + 6 + e; njc + 6 + e; npz + e] data (nic + 6) (njc + 6) npz 0 0 0 axis read_only full_shape eq_refl Sd) as (st & o & E & _ & _ & Eo & So).
    { split; [repeat constructor; simpl; lia|now split]. }
    exists st, o. rewrite !Z.add_0_l in Eo. split; [exact E|]. split; [exact Eo|exact So].
  Qed.
  (** ... and data of the compute domain, possibly with interfaces, start at its first cell *)
  Theorem C87_compute is_ js nic njc dx dy (data : nd V) rest : (dx = 0 \/ dx = 1) -> (dy = 0 \/ dy = 1) -> shp data = nic + dx :: njc + dy :: rest ->
    horizontal_starts is_ js nic njc (shp data) = (is_, js).
  Proof.
    intros Hx Hy Sd. rewrite Sd. unfold horizontal_starts. cbn [firstn].
    assert (D : forall x y, x = nic + dx -> y = njc + dy -> (if list_eq_dec Z.eq_dec [nic + dx; njc + dy] [x; y] then true else false) = true).
    { intros x y -> ->. now destruct (list_eq_dec Z.eq_dec [nic + dx; njc + dy] [nic + dx; njc + dy]). }
    destruct Hx as [-> | ->], Hy as [-> | ->]; [rewrite (D nic njc) by lia|rewrite (D nic (njc + 1)) by lia|rewrite (D (nic + 1) njc) by lia|rewrite (D (nic + 1) (njc + 1)) by lia]; now rewrite ?orb_true_r.
  Qed.
End Translate.

(** the levels of a field of I and K start at the start of J *)
Theorem C87_dummy_start_refuted : exists (data : nd Z) st o, translate_make_storage_data Z 0 [4; 4; 4] data 0 1 0 (Some [1%nat]) 2 true false = Some st /\
  shp data = [4; 3] /\ room [4; 4] [0; 0] (shp data) /\ slice_output Z (array st) (0, 3) (0, 0) (0, 2) = Some o /\ ~ same o (squeeze Z data).
Proof.
  exists (ramp [4; 3]). eexists. eexists. split; [reflexivity|]. split; [reflexivity|]. split; [split; [repeat constructor; simpl; lia|now split]|]. split; [reflexivity|].
  intros [_ H]. specialize (H [0; 0] ltac:(repeat constructor; simpl; lia)). vm_compute in H. discriminate.
Qed.

(** ** Cases *)
Example C86_case : room [4; 5; 6] [1; 1; 0] [2; 3; 6] /\ room (omit 1 [4; 5; 6]) [1; 2] [2; 3] /\ room [6] [2] [4] /\ ~ room [4; 5; 6] [3; 1; 0] [2; 3; 6].
Proof.
  repeat split; try (repeat constructor; simpl; lia). intros (H & _). inversion H as [|? ? ? ? A]; simpl in A; lia.
Qed.
Example C86_case_values : exists st, make_storage_data Z 0 (ramp [2; 2]) (Some [3; 3; 2]) [0; 0; 0] None [1; 0; 0] None 2 3 true = Some st /\
  map (fun i => map (fun j => val (array st) [i; j]) [0; 1; 2]) [0; 1; 2] = [[0; 0; 0]; [1; 2; 0]; [11; 12; 0]].
Proof. eexists. split; reflexivity. Qed.
Example C87_case : exists st o, translate_make_storage_data Z 0 [11; 11; 4] (ramp [4; 4; 3]) 3 3 0 None 2 false false = Some st /\
  slice_output Z (array st) (3, 6) (3, 6) (0, 2) = Some o /\ shp o = [4; 4; 3] /\ val o [1; 2; 1] = val (ramp [4; 4; 3]) [1; 2; 1].
Proof. eexists. eexists. split; [reflexivity|]. split; [reflexivity|]. now split. Qed.
Print Assumptions C86_three. Print Assumptions C86_more. Print Assumptions C86_more_refused. Print Assumptions C86_two. Print Assumptions C86_two_full.
Print Assumptions C86_two_singleton. Print Assumptions C86_one. Print Assumptions C86_one_row. Print Assumptions C86_one_full. Print Assumptions C86_three_refused.
Print Assumptions C86_dict. Print Assumptions C86_dict_refused. Print Assumptions C86_reshape. Print Assumptions C86_lost_refuted. Print Assumptions C86_dummy_refuted.
Print Assumptions C86_start_refuted. Print Assumptions C86_dict_refuted. Print Assumptions C86_reshape_refuted.
Print Assumptions C87_three. Print Assumptions C87_two. Print Assumptions C87_one. Print Assumptions C87_dummy. Print Assumptions C87_dummy_one_refused.
Print Assumptions C87_default. Print Assumptions C87_compute. Print Assumptions C87_dummy_start_refuted.
