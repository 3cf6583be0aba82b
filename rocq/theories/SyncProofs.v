(** Proofs about synchronizing vector interfaces: reading and writing one edge, and the exchange between two ranks. *)
From Verif Require Import Base PartModel DecompModel DecompSpec HaloModel HaloProofs HaloPack ViewModel ViewProofs GpuModel GpuProofs SyncModel.
Notation axis1 := ViewModel.ax.

Lemma dim_eqb_spec d e : reflect (d = e) (dim_eqb d e).
Proof.
  destruct d as [|[] []], e as [|[] []]; cbn; constructor; congruence.
Qed.

(** ** One edge *)
Fixpoint point (across : dim) (line : Z) (axs : list axis1) (p : index) : index :=
  match axs with
  | [] => []
  | a :: axs' =>
      if dim_eqb (a_dim a) across then a_origin a + line :: point across line axs' p
      else a_origin a + hd 0 p :: point across line axs' (tl p)
  end.
Fixpoint sizes (across : dim) (axs : list axis1) : list Z :=
  match axs with
  | [] => []
  | a :: axs' => if dim_eqb (a_dim a) across then sizes across axs' else a_extent a :: sizes across axs'
  end.
Fixpoint strip (across : dim) (axs : list axis1) (p : index) : index :=
  match axs, p with
  | a :: axs', x :: p' => if dim_eqb (a_dim a) across then strip across axs' p' else x - a_origin a :: strip across axs' p'
  | _, _ => []
  end.

(** the addresses selected *)
Definition addresses (across : dim) (line : Z) (axs : list axis1) : list (list Z) :=
  map (fun a => if dim_eqb (a_dim a) across then [a_origin a + line] else zrange (a_origin a) (a_origin a + a_extent a)) axs.

(** an edge: line [line] across, compute domain elsewhere *)
Record edge_ok (c : corner) (along across : dim) (z line : Z) (axs : list axis1) : Prop := {
  eo_ax : Forall ax_ok axs;
  eo_across : Forall (fun a => a_dim a = across -> corner_ref c (a_dim a) (a_extent a) + z = line /\ 0 <= line < a_extent a) axs;
  eo_other : Forall (fun a => a_dim a <> across -> corner_ref c (a_dim a) (a_extent a) = 0 /\ corner_stop c (a_dim a) (a_extent a) = 0) axs;
  eo_len : exists n, extent_of along axs = Some n /\ Forall (fun a => a_dim a = along -> a_extent a = n) axs
}.

Lemma edge_sel_eq c along across z line axs : edge_ok c along across z line axs ->
  exists n, edge_sel c along across z axs = Some (sel_entries along across z n axs, addresses across line axs).
Proof.
  intros [V HA HO (n & En & HL)]. exists n. unfold edge_sel. rewrite En. cbn [bind].
  assert (L : length (sel_entries along across z n axs) = length axs) by (unfold sel_entries; apply map_length).
  assert (P : forall a, In a axs -> exists e, e = (if dim_eqb (a_dim a) across then Int z
                else if dim_eqb (a_dim a) along then Slice (Some 0) (Some n) None else Slice None None None) /\
      inside (a_origin a) (a_extent a) (a_shape a) (corner_ref c (a_dim a) (a_extent a)) (corner_stop c (a_dim a) (a_extent a)) e /\
      map (fun i => a_origin a + i) (selected (a_origin a) (a_extent a) (a_shape a) (corner_ref c (a_dim a) (a_extent a)) (corner_stop c (a_dim a) (a_extent a)) e)
      = (if dim_eqb (a_dim a) across then [a_origin a + line] else zrange (a_origin a) (a_origin a + a_extent a))).
  { intros a Ha. rewrite Forall_forall in V, HA, HO, HL. specialize (V a Ha) as (O & E & S). specialize (HA a Ha). specialize (HO a Ha). specialize (HL a Ha).
    eexists. split; [reflexivity|]. destruct (dim_eqb_spec (a_dim a) across) as [D|D].
    - destruct (HA D) as [H1 H2]. cbn [inside selected map]. split; [lia|]. do 2 f_equal. lia.
    - destruct (HO D) as [-> ->]. destruct (dim_eqb_spec (a_dim a) along) as [D'|D'].
      + rewrite <- (HL D') in *. split; [cbn; lia|]. rewrite contiguous by lia. rewrite zrange_shift. f_equal; lia.
      + split; [cbn; auto|].
        change (selected (a_origin a) (a_extent a) (a_shape a) 0 0 (Slice None None None))
          with (selected (a_origin a) (a_extent a) (a_shape a) 0 0 (Slice (Some 0) (Some (a_extent a)) None)).
        rewrite contiguous by lia. rewrite zrange_shift. f_equal; lia. }
  rewrite corner_ok; [|exact V|lia|].
  - cbn [bind]. f_equal. f_equal. unfold pad. rewrite L, Nat.sub_diag. cbn [repeat]. rewrite app_nil_r.
    unfold sel_entries, addresses. clear - P. induction axs as [|a axs IH]; [reflexivity|]. cbn [map combine]. f_equal.
    + destruct (P a) as (e & -> & _ & E); [left; auto|]. exact E.
    + apply IH. intros b Hb. apply P. right; auto.
  - rewrite L, firstn_all. unfold sel_entries. clear - P. induction axs as [|a axs IH]; cbn [map]; constructor.
    + destruct (P a) as (e & -> & E & _); [left; auto|]. exact E.
    + apply IH. intros b Hb. apply P. right; auto.
Qed.

Lemma kept_sizes along across z n line axs : Forall ax_ok axs ->
  kept_shape (sel_entries along across z n axs) (addresses across line axs) = sizes across axs.
Proof.
  induction 1 as [|a axs V F IH]; [reflexivity|]. cbn [sel_entries addresses map sizes].
  destruct V as (O & E & S). destruct (dim_eqb (a_dim a) across).
  - cbn [kept_shape]. exact IH.
  - destruct (dim_eqb (a_dim a) along); cbn [kept_shape]; rewrite zrange_length; (f_equal; [lia|exact IH]).
Qed.

Lemma array_point along across z n line axs p : Forall ax_ok axs -> in_extent (sizes across axs) p ->
  array_index (sel_entries along across z n axs) (addresses across line axs) p = point across line axs p.
Proof.
  intros F. revert p. induction F as [|a axs V F IH]; intros p I; [reflexivity|]. cbn [sel_entries addresses map sizes point] in *.
  destruct V as (O & E & S). destruct (dim_eqb (a_dim a) across).
  - cbn [array_index hd]. f_equal. apply IH. exact I.
  - inversion I; subst. cbn [hd tl]. destruct (dim_eqb (a_dim a) along); cbn [array_index hd tl]; (f_equal; [rewrite zrange_nth by lia; lia|apply IH; auto]).
Qed.

Lemma strip_point across line axs p : in_extent (sizes across axs) p -> strip across axs (point across line axs p) = p.
Proof.
  revert p. induction axs as [|a axs IH]; intros p I; cbn [sizes point strip] in *.
  - inversion I. reflexivity.
  - destruct (dim_eqb (a_dim a) across) eqn:D.
    + cbn [strip]. rewrite ?D. apply IH; auto.
    + inversion I; subst. cbn [hd tl strip]. rewrite ?D. f_equal; [lia|]. apply IH; auto.
Qed.

(** the edge's points *)
Definition on_line (across : dim) (line : Z) (axs : list axis1) (p : index) : Prop :=
  in_domain axs p /\ Forall2 (fun a x => a_dim a = across -> x = a_origin a + line) axs p.

Lemma strip_in across axs p : in_domain axs p -> in_extent (sizes across axs) (strip across axs p).
Proof.
  induction 1 as [|a x axs p I F IH]; cbn [sizes strip]; [constructor|]. destruct (dim_eqb (a_dim a) across); auto.
  constructor; [lia|exact IH].
Qed.
Lemma point_strip across line axs p : on_line across line axs p -> point across line axs (strip across axs p) = p.
Proof.
  intros [D L]. unfold in_domain in D. revert D. induction L as [|a x axs p H L IH]; intros D; [reflexivity|]. inversion D; subst.
  cbn [strip point]. destruct (dim_eqb_spec (a_dim a) across) as [E|E].
  - f_equal; [symmetry; auto|]. apply IH; auto.
  - cbn [hd tl]. f_equal; [lia|]. apply IH; auto.
Qed.
Lemma point_on across line axs p : Forall (fun a => a_dim a = across -> 0 <= line < a_extent a) axs ->
  in_extent (sizes across axs) p -> on_line across line axs (point across line axs p).
Proof.
  intros F. revert p. induction F as [|a axs H F IH]; intros p I; cbn [sizes point] in *; [split; constructor|].
  destruct (dim_eqb_spec (a_dim a) across) as [E|E].
  - destruct (IH p I) as [I1 I2]. specialize (H E). split; constructor; auto; lia.
  - inversion I as [|? ? ? ? H1 H2]; subst. cbn [hd tl]. destruct (IH _ H2) as [I1 I2]. split; constructor; auto; [lia|tauto].
Qed.

Section Values.
  Context {A : Type}.

  Lemma edge_read_eq c along across z line axs (f : index -> A) : edge_ok c along across z line axs ->
    exists g, edge_read c along across z axs f = Some (sizes across axs, g) /\
      forall p, in_extent (sizes across axs) p -> g p = f (point across line axs p).
  Proof.
    intros E. destruct (edge_sel_eq _ _ _ _ _ _ E) as (n & S). unfold edge_read. rewrite S. cbn [bind fst snd].
    rewrite (kept_sizes _ _ _ _ _ _ (eo_ax _ _ _ _ _ _ E)). eexists. split; [reflexivity|].
    intros p I. cbn beta. rewrite array_point; auto. apply (eo_ax _ _ _ _ _ _ E).
  Qed.

  Lemma stores_map (kf : index -> index) (l : list (index * A)) (f : index -> A) :
    fold_left (fun g qv => store g (kf (fst qv)) (snd qv)) l f =
    stored (list_eq_dec Z.eq_dec) f (map (fun qv => (kf (fst qv), snd qv)) l).
  Proof. revert f. induction l as [|q l IH]; intros f; [reflexivity|]. cbn [fold_left map stored]. apply IH. Qed.

  Lemma edge_write_eq c along across z line axs (f : index -> A) (m : list A) : edge_ok c along across z line axs ->
    Z.of_nat (length m) = prod (sizes across axs) ->
    exists g, edge_write c along across z axs f m = Some g /\
      (forall p, on_line across line axs p -> forall d, g p = nth (Z.to_nat (flat_index (sizes across axs) (strip across axs p))) m d) /\
      (forall p, ~ on_line across line axs p -> g p = f p).
  Proof.
    intros E L. destruct (edge_sel_eq _ _ _ _ _ _ E) as (n & S). unfold edge_write. rewrite S. cbn [bind fst snd].
    pose proof (eo_ax _ _ _ _ _ _ E) as V.
    rewrite (kept_sizes _ _ _ _ _ _ V). rewrite (proj2 (Z.eqb_eq _ _) L). eexists. split; [reflexivity|].
    set (kf := array_index (sel_entries along across z n axs) (addresses across line axs)).
    change (fold_left (fun g qv => store g (array_index (sel_entries along across z n axs) (addresses across line axs) (fst qv)) (snd qv))
       (combine (indices (sizes across axs)) m) f) with (fold_left (fun g qv => store g (kf (fst qv)) (snd qv)) (combine (indices (sizes across axs)) m) f).
    rewrite stores_map.
    assert (NN : Forall (fun x => 0 <= x) (sizes across axs)).
    { clear - V. induction V as [|a axs V F IH]; cbn; [constructor|]. destruct (dim_eqb _ _); auto. constructor; auto. apply V. }
    pose proof (indices_length _ NN) as LI.
    assert (LL : length (indices (sizes across axs)) = length m) by lia.
    assert (K : forall q, In q (indices (sizes across axs)) -> kf q = point across line axs q).
    { intros q Hq. apply array_point; auto. apply in_indices, Hq. }
    assert (M : map fst (map (fun qv : index * A => (kf (fst qv), snd qv)) (combine (indices (sizes across axs)) m)) = map kf (indices (sizes across axs))).
    { rewrite map_map. cbn [fst]. rewrite <- (map_map fst kf). rewrite combine_fst by auto. reflexivity. }
    assert (ND : NoDup (map kf (indices (sizes across axs)))).
    { apply NoDup_map_inv with (f := strip across axs). rewrite map_map.
      rewrite (map_ext_in _ (fun q => q)).
      - rewrite map_id. apply indices_NoDup.
      - intros q Hq. rewrite K by auto. apply strip_point, in_indices, Hq. }
    split.
    - intros p Hp d. apply stored_in; [exact (eq_ind_r (fun l => NoDup l) ND M)|].
      pose proof (strip_in across axs p (proj1 Hp)) as Ip. destruct (flat_index_nth _ _ Ip) as [B N].
      apply in_map_iff. exists (strip across axs p, nth (Z.to_nat (flat_index (sizes across axs) (strip across axs p))) m d). cbn [fst snd].
      split.
      + f_equal. rewrite K by (apply in_extent_indices, Ip). apply point_strip, Hp.
      + pose proof (combine_nth_in (indices (sizes across axs)) m (Z.to_nat (flat_index (sizes across axs) (strip across axs p))) [] d LL ltac:(lia)) as X.
        unfold index in *. rewrite N in X. exact X.
    - intros p Hp. apply stored_out. intros X. apply (eq_ind _ (fun l => In p l) X _) in M. apply in_map_iff in M. clear X. rename M into X. destruct X as (q & <- & Hq). apply Hp.
      rewrite K by auto. apply point_on; [|apply in_indices, Hq]. eapply Forall_impl; [|apply (eo_across _ _ _ _ _ _ E)]. cbn. tauto.
  Qed.
End Values.

(** ** Components on the C grid *)
Lemma Forall2_len {T U} (R : T -> U -> Prop) l l' : Forall2 R l l' -> length l = length l'.
Proof. induction 1; cbn; congruence. Qed.

Definition vertical (a : axis1) : Prop := match a_dim a with Dim AV _ => True | _ => False end.
Definition horizontal (d : dim) : Prop := match d with Dim AV _ => False | _ => True end.

Lemma vertical_not d a : horizontal d -> vertical a -> dim_eqb (a_dim a) d = false.
Proof. unfold vertical. destruct d as [|[] ?], (a_dim a) as [|[] ?]; cbn; tauto. Qed.

Lemma level_horizontal a axs x p : horizontal (a_dim a) -> level (a :: axs) (x :: p) = level axs p.
Proof. cbn [level]. destruct (a_dim a) as [|[] ?]; cbn; tauto. Qed.
Lemma level_vertical a axs x p : vertical a -> level (a :: axs) (x :: p) = x - a_origin a :: level axs p.
Proof. unfold vertical. cbn [level]. destruct (a_dim a) as [|[] ?]; cbn; tauto. Qed.

Lemma vs_strip across vs p : horizontal across -> Forall vertical vs -> length p = length vs -> strip across vs p = level vs p.
Proof.
  intros H F. revert p. induction F as [|v vs V F IH]; intros [|x p] L; try discriminate; [reflexivity|].
  rewrite level_vertical by auto. cbn [strip]. rewrite vertical_not by auto. f_equal. apply IH. cbn in L. lia.
Qed.
Lemma vs_sizes across vs : horizontal across -> Forall vertical vs -> sizes across vs = map a_extent vs.
Proof. intros H. induction 1 as [|v vs V F IH]; [reflexivity|]. cbn [sizes map]. rewrite vertical_not by auto. f_equal; auto. Qed.

Lemma mid_strip across pre b post p : horizontal across -> a_dim b = across -> Forall vertical (pre ++ post) ->
  length p = length (pre ++ b :: post) -> strip across (pre ++ b :: post) p = level (pre ++ b :: post) p.
Proof.
  intros H B. revert p. induction pre as [|v pre IH]; intros [|x p] F L; try discriminate; cbn [app] in *.
  - rewrite level_horizontal by (rewrite B; auto). cbn [strip]. destruct (dim_eqb_spec (a_dim b) across); [|congruence]. apply vs_strip; auto.
  - inversion F; subst. rewrite level_vertical by auto. cbn [strip]. rewrite vertical_not by auto. f_equal. apply IH; auto; cbn in L; lia.
Qed.
Lemma mid_sizes across pre b post : horizontal across -> a_dim b = across -> Forall vertical (pre ++ post) ->
  sizes across (pre ++ b :: post) = map a_extent (pre ++ post).
Proof.
  intros H B. induction pre as [|v pre IH]; intros F; cbn [app] in *.
  - cbn [sizes]. destruct (dim_eqb_spec (a_dim b) across); [|congruence]. apply vs_sizes; auto.
  - inversion F; subst. cbn [sizes map]. rewrite vertical_not by auto. f_equal. apply IH; auto.
Qed.

Lemma pos_skip d a axs x p : a_dim a <> d -> pos d (a :: axs) (x :: p) = pos d axs p.
Proof. intros H. cbn [pos]. destruct (dim_eqb_spec (a_dim a) d); congruence. Qed.
Lemma pos_here d a axs x p : a_dim a = d -> pos d (a :: axs) (x :: p) = x - a_origin a.
Proof. intros H. cbn [pos]. destruct (dim_eqb_spec (a_dim a) d); congruence. Qed.
Lemma vertical_neq d a : horizontal d -> vertical a -> a_dim a <> d.
Proof. unfold vertical. intros H V E. rewrite E in V. destruct d as [|[] ?]; cbn in *; tauto. Qed.

Lemma none_line across line axs p : Forall (fun a => a_dim a <> across) axs -> length axs = length p ->
  Forall2 (fun (a : axis1) x => a_dim a = across -> x = a_origin a + line) axs p.
Proof. intros F. revert p. induction F as [|a axs H F IH]; intros [|x p] L; try discriminate; constructor; [tauto|]. apply IH. cbn in L; lia. Qed.

Lemma line_pos across line axs1 b axs2 p : Forall (fun a => a_dim a <> across) axs1 -> Forall (fun a => a_dim a <> across) axs2 ->
  a_dim b = across -> length (axs1 ++ b :: axs2) = length p ->
  (Forall2 (fun a x => a_dim a = across -> x = a_origin a + line) (axs1 ++ b :: axs2) p <-> pos across (axs1 ++ b :: axs2) p = line).
Proof.
  intros F. revert p. induction F as [|a axs1 H F IH]; intros [|x p] F2 B L; try discriminate; cbn [app] in *.
  - rewrite pos_here by auto. split; intros X.
    + inversion X as [|? ? ? ? X1 X2]. specialize (X1 B). lia.
    + constructor; [intros; lia|]. apply none_line; auto; cbn in L; lia.
  - rewrite pos_skip by auto. rewrite <- IH by (auto; cbn in L; lia). split; intros X; [inversion X; auto|constructor; auto; tauto].
Qed.

(** everything needed about a component's axes *)
Lemma component_facts along across axs len lines levels : horizontal along -> horizontal across -> along <> across ->
  edge_axes along across axs len lines levels ->
  sizes across axs = len :: levels /\
  (forall p, length p = length axs -> strip across axs p = pos along axs p :: level axs p) /\
  (forall line p, on_line across line axs p <-> in_domain axs p /\ pos across axs p = line) /\
  (forall p, in_domain axs p -> 0 <= pos along axs p < len /\ 0 <= pos across axs p < lines) /\
  (forall p, length p = length axs -> pos along axs p = hd 0 (strip across axs p)) /\
  has_dim along axs = true /\ has_dim across axs = true /\
  Forall ax_ok axs /\
  Forall (fun a => a_dim a = across -> a_extent a = lines) axs /\
  Forall (fun a => a_dim a <> across -> a_dim a = along \/ vertical a) axs /\
  extent_of along axs = Some len /\ Forall (fun a => a_dim a = along -> a_extent a = len) axs.
Proof.
  intros HA HC NE (pre & post & a & b & vs & -> & EP & Da & Db & El & Eb & FV & Ev & V).
  assert (FV' : Forall vertical vs) by exact FV. clear FV.
  assert (NV : forall d, horizontal d -> Forall (fun v => a_dim v <> d) vs).
  { intros d H. eapply Forall_impl; [|exact FV']. intros v Hv. apply vertical_neq; auto. }
  destruct pre as [|a' pre]; cbn [app] in EP.
  - subst post. cbn [app] in *.
    assert (Dab : dim_eqb (a_dim a) across = false) by (destruct (dim_eqb_spec (a_dim a) across); congruence).
    assert (Dba : dim_eqb (a_dim b) along = false) by (destruct (dim_eqb_spec (a_dim b) along); congruence).
    assert (Daa : dim_eqb (a_dim a) along = true) by (destruct (dim_eqb_spec (a_dim a) along); congruence).
    assert (Dbb : dim_eqb (a_dim b) across = true) by (destruct (dim_eqb_spec (a_dim b) across); congruence).
    assert (ST : forall p, length p = length (b :: a :: vs) -> strip across (b :: a :: vs) p = pos along (b :: a :: vs) p :: level (b :: a :: vs) p).
    { intros [|x [|y p]] L; try discriminate. rewrite level_horizontal by (rewrite Db; auto). rewrite level_horizontal by (rewrite Da; auto).
      cbn [strip pos]. rewrite Dbb, Dab, Dba, Daa. f_equal. apply vs_strip; auto. cbn in L; lia. }
    repeat match goal with |- _ /\ _ => split end.
    + cbn [sizes]. rewrite Dbb, Dab. f_equal; auto. rewrite vs_sizes; auto.
    + exact ST.
    + intros line p. unfold on_line. split; intros [I H]; (split; [exact I|]);
      assert (L := Forall2_len _ _ _ I); apply (line_pos across line [] b (a :: vs)); auto; constructor; auto; congruence.
    + intros p I. inversion I as [|? ? ? ? I1 I2]; subst. inversion I2 as [|? ? ? ? I3 I4]; subst. cbn [pos]. rewrite Dba, Daa, Dbb. lia.
    + intros p L. rewrite ST by auto. reflexivity.
    + cbn. rewrite Daa, orb_true_r. reflexivity.
    + cbn. rewrite Dbb. reflexivity.
    + exact V.
    + constructor; [auto|]. constructor; [congruence|]. eapply Forall_impl; [|apply (NV across HC)]. cbn. tauto.
    + constructor; [congruence|]. constructor; [auto|]. eapply Forall_impl; [|exact FV']. auto.
    + unfold extent_of. cbn. rewrite Dba, Daa. cbn. congruence.
    + constructor; [congruence|]. constructor; [auto|]. eapply Forall_impl; [|apply (NV along HA)]. cbn. tauto.
  - injection EP as -> <-.
    assert (Dab : dim_eqb (a_dim a) across = false) by (destruct (dim_eqb_spec (a_dim a) across); congruence).
    assert (Daa : dim_eqb (a_dim a) along = true) by (destruct (dim_eqb_spec (a_dim a) along); congruence).
    assert (Dbb : dim_eqb (a_dim b) across = true) by (destruct (dim_eqb_spec (a_dim b) across); congruence).
    cbn [app] in *.
    assert (FVs := FV'). apply Forall_app in FVs. destruct FVs as [Fp Fq].
    assert (ST : forall p, length p = length (a :: pre ++ b :: post) -> strip across (a :: pre ++ b :: post) p = pos along (a :: pre ++ b :: post) p :: level (a :: pre ++ b :: post) p).
    { intros [|y p] L; try discriminate. rewrite level_horizontal by (rewrite Da; auto).
      cbn [strip pos]. rewrite Dab, Daa. f_equal. apply mid_strip; auto. }
    assert (NVp : forall d, horizontal d -> Forall (fun v => a_dim v <> d) pre /\ Forall (fun v => a_dim v <> d) post).
    { intros d H. apply Forall_app. apply NV; auto. }
    assert (LP : forall p line, length (a :: pre ++ b :: post) = length p -> (Forall2 (fun a x => a_dim a = across -> x = a_origin a + line) (a :: pre ++ b :: post) p <-> pos across (a :: pre ++ b :: post) p = line)).
    { intros p line L. apply (line_pos across line (a :: pre) b post); auto; [constructor; [congruence|apply NVp; auto]|apply NVp; auto]. }
    repeat match goal with |- _ /\ _ => split end.
    + cbn [sizes]. rewrite Dab. f_equal; auto. rewrite mid_sizes; auto.
    + exact ST.
    + intros line p. unfold on_line. split; intros [I H]; (split; [exact I|]); apply LP; auto; exact (Forall2_len _ _ _ I).
    + intros p I. assert (L := Forall2_len _ _ _ I). split.
      * inversion I as [|? ? ? ? I1 I2]; subst. cbn [pos]. rewrite Daa. lia.
      * pose proof (proj2 (LP p _ L) eq_refl) as X. clear - I X Eb Db Da NE.
        assert (IN : In b (a :: pre ++ b :: post)) by (right; apply in_or_app; right; left; auto).
        remember (pos across (a :: pre ++ b :: post) p) as q. clear Heqq. revert IN. generalize dependent (a :: pre ++ b :: post).
        intros l I X IN. revert X IN. induction I as [|c x l p' Hc I IH]; intros X IN; [destruct IN|]. inversion X; subst.
        destruct IN as [->|IN]; [specialize (H2 eq_refl); lia|apply IH; auto].
    + intros p L. rewrite ST by auto. reflexivity.
    + cbn. rewrite Daa. reflexivity.
    + cbn. unfold has_dim. rewrite existsb_app. cbn. rewrite Dbb, !orb_true_r. reflexivity.
    + exact V.
    + constructor; [congruence|]. apply Forall_app. split; [eapply Forall_impl; [|apply (proj1 (NVp across HC))]; cbn; tauto|].
      constructor; [auto|]. eapply Forall_impl; [|apply (proj2 (NVp across HC))]. cbn. tauto.
    + constructor; [auto|]. apply Forall_app. split; [eapply Forall_impl; [|exact Fp]; auto|]. constructor; [congruence|]. eapply Forall_impl; [|exact Fq]; auto.
    + unfold extent_of. cbn. rewrite Daa. cbn. congruence.
    + constructor; [auto|]. apply Forall_app. split; [eapply Forall_impl; [|apply (proj1 (NVp along HA))]; cbn; tauto|].
      constructor; [congruence|]. eapply Forall_impl; [|apply (proj2 (NVp along HA))]. cbn. tauto.
Qed.

Lemma edge_ok_of c along across z line axs len lines levels : horizontal along -> horizontal across -> along <> across ->
  edge_axes along across axs len lines levels ->
  corner_ref c across lines + z = line -> 0 <= line < lines -> corner_ref c along len = 0 -> corner_stop c along len = 0 -> c <> INTERIOR ->
  edge_ok c along across z line axs.
Proof.
  intros HA HC NE E R L R1 R2 NI. destruct (component_facts _ _ _ _ _ _ HA HC NE E) as (_ & _ & _ & _ & _ & _ & _ & V & FL & FO & EX & FA).
  constructor; auto.
  - eapply Forall_impl; [|exact FL]. cbn. intros a H D. rewrite D, (H D). auto.
  - rewrite Forall_forall in *. intros a Ha D. destruct (FO a Ha D) as [D'|D'].
    + rewrite D', (FA a Ha D'). auto.
    + unfold vertical in D'. destruct (a_dim a) as [|[] ?]; try tauto. destruct c; cbn; auto; congruence.
  - exists len. auto.
Qed.

Section Exchange.
  Context {A : Type}.
  Variable neg : A -> A.

  Definition turned (flipped : bool) (len i : Z) : Z := if flipped then len - 1 - i else i.
  Definition signed (s : bool) (v : A) : A := if s then neg v else v.

  (** What a message holds: position i, level k of the edge line 0 of the sender's component, possibly reversed and negated *)
  Definition holds_edge (along across : dim) (axs : list axis1) (f : index -> A) (len : Z) (levels : list Z) (rev : bool) (m : list A) : Prop :=
    Z.of_nat (length m) = prod (len :: levels) /\
    forall i k, in_extent (len :: levels) (i :: k) -> forall d, exists p',
      in_domain axs p' /\ pos across axs p' = 0 /\ pos along axs p' = turned rev len i /\ level axs p' = k /\
      nth (Z.to_nat (flat_index (len :: levels) (i :: k))) m d = signed rev (f p').

  Lemma turned_in rev len i : 0 <= i < len -> 0 <= turned rev len i < len.
  Proof. unfold turned. destruct rev; lia. Qed.

  (** reading the first line, reversing axis 0 and negating when [rev] *)
  Lemma send_holds along across axs f len lines levels : horizontal along -> horizontal across -> along <> across ->
    edge_axes along across axs len lines levels -> 1 <= lines ->
    corner_ref SW across lines = 0 -> corner_ref SW along len = 0 ->
    exists m, edge_read SW along across 0 axs f = Some m /\ fst m = len :: levels /\
      holds_edge along across axs f len levels false (flatten m) /\
      holds_edge along across axs f len levels true (flatten (neg_arr neg (flip m 0))).
  Proof.
    intros HA HC NE E L R1 R2.
    assert (EO : edge_ok SW along across 0 0 axs) by (eapply edge_ok_of; [exact HA|exact HC|exact NE|exact E|lia|lia|exact R2|exact R2|discriminate]).
    destruct (component_facts _ _ _ _ _ _ HA HC NE E) as (SZ & ST & OL & DM & _ & _ & _ & V & FL & _).
    destruct (edge_read_eq SW along across 0 0 axs f EO) as (g & RD & G). rewrite SZ in *. exists (len :: levels, g).
    split; [exact RD|]. split; [reflexivity|].
    assert (NN : Forall (fun x => 0 <= x) (len :: levels)).
    { rewrite <- SZ. clear - V. induction V as [|a axs V F IH]; cbn; [constructor|]. destruct (dim_eqb _ _); auto. constructor; auto. apply V. }
    assert (PT : forall q, in_extent (len :: levels) q -> exists p', in_domain axs p' /\ pos across axs p' = 0 /\ pos along axs p' :: level axs p' = q /\ g q = f p').
    { intros q I. exists (point across 0 axs q). assert (O : on_line across 0 axs (point across 0 axs q)).
      { apply point_on; [|rewrite SZ; auto]. eapply Forall_impl; [|exact FL]. cbn. intros a H D. rewrite (H D). lia. }
      destruct (proj1 (OL _ _) O) as [O1 O2]. split; [exact O1|]. split; [exact O2|]. split; [|apply G; auto].
      rewrite <- ST by (symmetry; apply (Forall2_len _ _ _ O1)). apply strip_point. rewrite SZ. exact I. }
    split; (split; [|intros i k I d]).
    - apply (flatten_length (len :: levels, g) NN).
    - rewrite (flatten_nth (len :: levels, g)) by exact I. cbn [snd]. destruct (PT _ I) as (p' & P1 & P2 & P3 & P4). injection P3 as P3 P3'.
      exists p'. repeat split; auto.
    - apply (flatten_length (neg_arr neg (flip (len :: levels, g) 0)) NN).
    - rewrite (flatten_nth (neg_arr neg (flip (len :: levels, g) 0))) by exact I. cbn [neg_arr flip fst snd upd nth].
      assert (I' : in_extent (len :: levels) (len - 1 - i :: k)) by (inversion I; subst; constructor; [lia|auto]).
      destruct (PT _ I') as (p' & P1 & P2 & P3 & P4). injection P3 as P3 P3'. exists p'. repeat split; auto.
      cbn [signed]. f_equal. exact P4.
  Qed.

  Notation xc := (edge_axes I_DIM J_INTERFACE_DIM).
  Notation yc := (edge_axes J_DIM I_INTERFACE_DIM).

  Lemma hx : horizontal I_DIM /\ horizontal J_INTERFACE_DIM /\ I_DIM <> J_INTERFACE_DIM. Proof. repeat split; discriminate. Qed.
  Lemma hy : horizontal J_DIM /\ horizontal I_INTERFACE_DIM /\ J_DIM <> I_INTERFACE_DIM. Proof. repeat split; discriminate. Qed.

  Lemma sends_eq south west x y (fx fy : index -> A) lx ly levels hxl hyl :
    xc x lx hxl levels -> yc y ly hyl levels -> 1 <= hxl -> 1 <= hyl ->
    (b_rot south = 0 \/ b_rot south = 3) -> (b_rot west = 0 \/ b_rot west = 1) ->
    exists ms mw, shared_sends neg south west x y fx fy = Some [(b_to south, ms); (b_to west, mw)] /\
      holds_edge I_DIM J_INTERFACE_DIM x fx lx levels (b_rot south =? 3) ms /\
      holds_edge J_DIM I_INTERFACE_DIM y fy ly levels (b_rot west =? 1) mw.
  Proof.
    intros X Y Hx Hy RS RW. destruct hx as (H1 & H2 & H3), hy as (H4 & H5 & H6).
    destruct (component_facts _ _ _ _ _ _ H1 H2 H3 X) as (_ & _ & _ & _ & _ & X1 & X2 & _).
    destruct (component_facts _ _ _ _ _ _ H4 H5 H6 Y) as (_ & _ & _ & _ & _ & Y1 & Y2 & _).
    unfold shared_sends, on_c_grid. rewrite X1, X2, Y1, Y2. cbn [negb orb].
    destruct (send_holds _ _ _ fx _ _ _ H1 H2 H3 X Hx) as (mx & -> & FX & MX0 & MX1); auto.
    destruct (send_holds _ _ _ fy _ _ _ H4 H5 H6 Y Hy) as (my & -> & FY & MY0 & MY1); auto.
    cbn [bind]. do 2 eexists. split; [reflexivity|]. split.
    - destruct RS as [-> | ->]; [exact MX0|exact MX1].
    - destruct RW as [-> | ->]; [exact MY0|exact MY1].
  Qed.

  (** a received edge: every point of the last line is filled from the message, everything else unchanged *)
  Lemma recv_edge c along across axs f len lines levels m : horizontal along -> horizontal across -> along <> across ->
    edge_axes along across axs len lines levels -> 1 <= lines -> c <> INTERIOR ->
    corner_ref c across lines = lines -> corner_ref c along len = 0 -> corner_stop c along len = 0 ->
    Z.of_nat (length m) = prod (len :: levels) ->
    exists g, edge_write (A := A) c along across (-1) axs f m = Some g /\
      (forall p, in_domain axs p -> pos across axs p = lines - 1 -> in_extent (len :: levels) (pos along axs p :: level axs p) /\
         forall d, g p = nth (Z.to_nat (flat_index (len :: levels) (pos along axs p :: level axs p))) m d) /\
      (forall p, ~ (in_domain axs p /\ pos across axs p = lines - 1) -> g p = f p).
  Proof.
    intros HA HC NE E L NI R1 R2 R3 LM.
    assert (EO : edge_ok c along across (-1) (lines - 1) axs) by (eapply edge_ok_of; eauto; lia).
    destruct (component_facts _ _ _ _ _ _ HA HC NE E) as (SZ & ST & OL & DM & _ & _ & _ & V & FL & _).
    assert (LM' : Z.of_nat (length m) = prod (sizes across axs)) by (rewrite SZ; exact LM).
    destruct (edge_write_eq c along across (-1) (lines - 1) axs f m EO LM') as (g & W & IN & OUT). exists g. split; [exact W|]. split.
    - intros p I P. assert (O : on_line across (lines - 1) axs p) by (apply OL; auto).
      assert (Q : strip across axs p = pos along axs p :: level axs p) by (apply ST; symmetry; apply (Forall2_len _ _ _ I)).
      split; [rewrite <- Q, <- SZ; apply strip_in, I|].
      intros d. rewrite (IN p O d). rewrite SZ. do 3 f_equal. exact Q.
    - intros p NP. apply OUT. intros O. apply NP, OL, O.
  Qed.

  (** ** Two neighbours *)
  Variable bd : btype -> Z -> option (option boundary).
  Variables x y : Z -> list axis1.
  Variables fx fy : Z -> index -> A.

  (** what a rank needs from another one: either its first x line or its first y line *)
  Definition delivers (src dest : Z) (len : Z) (levels : list Z) (use_y rev : bool) : Prop :=
    exists sent m, rank_sends neg bd x y fx fy src = Some sent /\ inbox sent dest = [m] /\
      if use_y then holds_edge J_DIM I_INTERFACE_DIM (y src) (fy src) len levels rev m
      else holds_edge I_DIM J_INTERFACE_DIM (x src) (fx src) len levels rev m.

  (** the value of a neighbour's first line *)
  Definition from_edge (src : Z) (use_y rev : bool) (len i : Z) (k : list Z) (v : A) : Prop :=
    exists p', if use_y
      then in_domain (y src) p' /\ pos I_INTERFACE_DIM (y src) p' = 0 /\ pos J_DIM (y src) p' = turned rev len i /\ level (y src) p' = k /\ v = signed rev (fy src p')
      else in_domain (x src) p' /\ pos J_INTERFACE_DIM (x src) p' = 0 /\ pos I_DIM (x src) p' = turned rev len i /\ level (x src) p' = k /\ v = signed rev (fx src p').

  Lemma synchronize_eq r bn be lx ly hxl hyl levels uyn revn uye reve :
    (exists sent, rank_sends neg bd x y fx fy r = Some sent) ->
    edge_of bd NORTH r = Some bn -> edge_of bd EAST r = Some be -> b_to be <> b_to bn ->
    xc (x r) lx hxl levels -> yc (y r) ly hyl levels -> 1 <= hxl -> 1 <= hyl ->
    delivers (b_to bn) r lx levels uyn revn -> delivers (b_to be) r ly levels uye reve ->
    exists gx gy, synchronize neg bd x y fx fy r = Some (gx, gy) /\
      (forall p, in_domain (x r) p -> pos J_INTERFACE_DIM (x r) p = hxl - 1 ->
         from_edge (b_to bn) uyn revn lx (pos I_DIM (x r) p) (level (x r) p) (gx p)) /\
      (forall p, ~ (in_domain (x r) p /\ pos J_INTERFACE_DIM (x r) p = hxl - 1) -> gx p = fx r p) /\
      (forall p, in_domain (y r) p -> pos I_INTERFACE_DIM (y r) p = hyl - 1 ->
         from_edge (b_to be) uye reve ly (pos J_DIM (y r) p) (level (y r) p) (gy p)) /\
      (forall p, ~ (in_domain (y r) p /\ pos I_INTERFACE_DIM (y r) p = hyl - 1) -> gy p = fy r p).
  Proof.
    intros (sent & S0) BN BE NE X Y Hx Hy (sn & mn & SN & IN & VN) (se & me & SE' & IE & VE).
    destruct hx as (H1 & H2 & H3), hy as (H4 & H5 & H6).
    unfold synchronize. rewrite S0, BN, BE. cbn [bind]. rewrite SN, SE'. cbn [bind]. rewrite IN, IE. cbn [nth_error bind].
    destruct (Z.eqb_spec (b_to be) (b_to bn)); [contradiction|]. cbn [nth_error bind].
    assert (LN : Z.of_nat (length mn) = prod (lx :: levels)) by (destruct uyn; apply VN).
    assert (LE : Z.of_nat (length me) = prod (ly :: levels)) by (destruct uye; apply VE).
    destruct (recv_edge NW _ _ _ (fx r) _ _ _ mn H1 H2 H3 X Hx ltac:(discriminate) eq_refl eq_refl eq_refl LN) as (gx & -> & GX & GX').
    destruct (recv_edge SE _ _ _ (fy r) _ _ _ me H4 H5 H6 Y Hy ltac:(discriminate) eq_refl eq_refl eq_refl LE) as (gy & -> & GY & GY').
    cbn [bind]. exists gx, gy. split; [reflexivity|]. split; [|split; [exact GX'|split; [|exact GY']]].
    - intros p I P. destruct (GX p I P) as [Q V]. unfold from_edge. destruct uyn; destruct VN as [_ VN];
      destruct (VN _ _ Q (fx r p)) as (p' & P1 & P2 & P3 & P4 & P5); exists p'; repeat split; auto; rewrite <- P5; apply V.
    - intros p I P. destruct (GY p I P) as [Q V]. unfold from_edge. destruct uye; destruct VE as [_ VE];
      destruct (VE _ _ Q (fy r p)) as (p' & P1 & P2 & P3 & P4 & P5); exists p'; repeat split; auto; rewrite <- P5; apply V.
  Qed.
End Exchange.
