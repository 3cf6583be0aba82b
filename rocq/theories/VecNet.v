(** Packing, unpacking and the result of one vector exchange, in terms of views. *)
From Verif Require Import Base PartModel PartSpec DecompModel DecompSpec HaloModel HaloSpec HaloProofs HaloExchange HaloPack HaloNetSpec HaloNet HaloCube HaloNetEnd VecModel.
Open Scope Z_scope.

(** ** dimensions differing in staggering only *)
Lemma on_axis_centred a d : on_axis a (centred d) = on_axis a d.
Proof. destruct d as [|[] []]; reflexivity. Qed.
Lemma put_centred {T} D (l : list T) x y : put_xy (map centred D) l x y = put_xy D l x y.
Proof. revert l. induction D as [|d D IH]; intros [|v l]; cbn; auto. rewrite !on_axis_centred, IH. reflexivity. Qed.
Lemma coord_centred {T} a D (l : list T) d : coord a (map centred D) l d = coord a D l d.
Proof. revert l. induction D as [|m D IH]; intros [|v l]; cbn; auto. rewrite on_axis_centred, IH. reflexivity. Qed.
Lemma last_pos_centred p D i acc : (forall d, p (centred d) = p d) -> last_pos p (map centred D) i acc = last_pos p D i acc.
Proof. intros H. revert i acc. induction D as [|d D IH]; intros; cbn; auto. rewrite H. apply IH. Qed.
Lemma is_i_centred d : is_i_dim (centred d) = is_i_dim d. Proof. destruct d as [|[] []]; reflexivity. Qed.
Lemma is_j_centred d : is_j_dim (centred d) = is_j_dim d. Proof. destruct d as [|[] []]; reflexivity. Qed.
Lemma reverse_centred D s p : reverse_horizontal (map centred D) s p = reverse_horizontal D s p.
Proof. revert s p. induction D as [|d D IH]; intros [|n s] [|x p]; cbn; auto. rewrite is_i_centred, is_j_centred, IH. reflexivity. Qed.
Lemma reverse_same D D' s p : same_axes D D' -> reverse_horizontal D s p = reverse_horizontal D' s p.
Proof. intros E. rewrite <- (reverse_centred D), <- (reverse_centred D'), E. reflexivity. Qed.

Lemma rotate_shape_same {A} D D' (m : list Z * (index -> A)) n : same_axes D D' -> fst (rotate_scalar m D n) = fst (rotate_scalar m D' n).
Proof.
  intros E. unfold rotate_scalar, x_dim, y_dim.
  rewrite <- (last_pos_centred is_i_dim D), <- (last_pos_centred is_j_dim D), <- (last_pos_centred is_i_dim D'), <- (last_pos_centred is_j_dim D')
    by (apply is_i_centred || apply is_j_centred).
  rewrite E. destruct (_ =? 0); auto. destruct (_ || _); auto. destruct m. reflexivity.
Qed.
Lemma rotate_value_same {A} D D' (m : list Z * (index -> A)) n p : same_axes D D' -> snd (rotate_scalar m D n) p = snd (rotate_scalar m D' n) p.
Proof.
  intros E. unfold rotate_scalar, x_dim, y_dim.
  rewrite <- (last_pos_centred is_i_dim D), <- (last_pos_centred is_j_dim D), <- (last_pos_centred is_i_dim D'), <- (last_pos_centred is_j_dim D')
    by (apply is_i_centred || apply is_j_centred).
  rewrite E. destruct (_ =? 0); auto. destruct (_ || _); auto. destruct m. cbn. f_equal. apply reverse_same; auto.
Qed.
Lemma put_same {T} D D' (l : list T) x y : same_axes D D' -> put_xy D l x y = put_xy D' l x y.
Proof. intros E. rewrite <- (put_centred D), <- (put_centred D'), E. reflexivity. Qed.
Lemma cx_same D D' l : same_axes D D' -> cx D l = cx D' l.
Proof. intros E. unfold cx. rewrite <- (coord_centred AI D), <- (coord_centred AI D'), E. reflexivity. Qed.
Lemma cy_same D D' l : same_axes D D' -> cy D l = cy D' l.
Proof. intros E. unfold cy. rewrite <- (coord_centred AJ D), <- (coord_centred AJ D'), E. reflexivity. Qed.
Lemma len_same D D' : same_axes D D' -> length D = length D'.
Proof. intros E. apply (f_equal (@length dim)) in E. rewrite !map_length in E. exact E. Qed.
Lemma same_sym D D' : same_axes D D' -> same_axes D' D. Proof. unfold same_axes. auto. Qed.

(** ** transformers *)
Lemma add_vector_specs_eq b (sx sy : list spec) dx dy : ~ In (b_to b) (map fst dx) -> ~ In (b_to b) (map fst dy) -> sx <> [] -> length sx = length sy ->
  (forall s, In s sx \/ In s sy -> exchange_spec b s = Some (exspec_of b s)) ->
  add_vector_specs b sx sy dx dy = Some (dx ++ [(b_to b, map (exspec_of b) sx)], dy ++ [(b_to b, map (exspec_of b) sy)]).
Proof.
  intros Nx Ny NE L H.
  assert (G : forall sx sy vx vy, length sx = length sy -> (forall s, In s sx \/ In s sy -> exchange_spec b s = Some (exspec_of b s)) ->
     add_vector_specs b sx sy (dx ++ [(b_to b, vx)]) (dy ++ [(b_to b, vy)])
     = Some (dx ++ [(b_to b, vx ++ map (exspec_of b) sx)], dy ++ [(b_to b, vy ++ map (exspec_of b) sy)])).
  { clear -Nx Ny. induction sx as [|s sx IH]; intros [|t sy] vx vy L H; try discriminate; cbn [add_vector_specs map]; [now rewrite !app_nil_r|].
    rewrite !H by (cbn; auto). cbn [bind]. rewrite !dict_append_last by auto. rewrite IH.
    - rewrite <- !app_assoc. reflexivity.
    - cbn in L; lia.
    - intros s0 [I|I]; apply H; cbn; auto. }
  destruct sx as [|s sx]; [congruence|]. destruct sy as [|t sy]; [discriminate|]. cbn [add_vector_specs map]. rewrite !H by (cbn; auto). cbn [bind].
  rewrite !dict_append_new by auto. rewrite G; [reflexivity|cbn in L; lia|]. intros s0 [I|I]; apply H; cbn; auto.
Qed.

Lemma vector_dicts_eq bs sx sy : sx <> [] -> length sx = length sy -> forall dx dy,
  NoDup (map fst dx ++ map b_to bs) -> map fst dx = map fst dy ->
  (forall b s, In b bs -> In s sx \/ In s sy -> exchange_spec b s = Some (exspec_of b s)) ->
  vector_dicts bs sx sy dx dy = Some (dx ++ map (fun b => (b_to b, map (exspec_of b) sx)) bs, dy ++ map (fun b => (b_to b, map (exspec_of b) sy)) bs).
Proof.
  intros NE L. induction bs as [|b bs IH]; intros dx dy N E H; cbn [vector_dicts map]; [now rewrite !app_nil_r|].
  assert (K : ~ In (b_to b) (map fst dx)) by (cbn in N; apply NoDup_remove_2 in N; intros I; apply N, in_or_app; auto).
  rewrite add_vector_specs_eq; auto.
  - cbn [bind fst snd]. rewrite IH.
    + rewrite <- !app_assoc. reflexivity.
    + rewrite map_app. cbn. rewrite <- app_assoc. exact N.
    + rewrite !map_app, E. reflexivity.
    + intros; apply H; auto; right; auto.
  - rewrite <- E; auto.
  - intros; apply H; auto; left; auto.
Qed.

Lemma combine_map {X Y Z} (f : X -> Y) (g : X -> Z) l : combine (map f l) (map g l) = map (fun x => (f x, g x)) l.
Proof. induction l; cbn; congruence. Qed.

Lemma vector_transformers_eq bs sx sy : sx <> [] -> length sx = length sy -> NoDup (map b_to bs) ->
  (forall b s, In b bs -> In s sx \/ In s sy -> exchange_spec b s = Some (exspec_of b s)) ->
  vector_transformers bs sx sy = Some (map (fun b => (b_to b, (map (exspec_of b) sx, map (exspec_of b) sy))) bs).
Proof.
  intros NE L N H. unfold vector_transformers. rewrite vector_dicts_eq; auto. cbn [bind fst snd app].
  rewrite combine_map, map_map. reflexivity.
Qed.

(** ** packing *)
Section Pack.
  Context {A : Type}.
  Variable neg : A -> A.

  (** what rank data look like after rotation towards the receiver *)
  Definition vrot (b : boundary) (s : comp -> spec) (q : comp -> index -> A) (c : comp) : list Z * (index -> A) :=
    let v := rotate_vector neg (view (q CX) (region (s CX) (b_type b) true)) (view (q CY) (region (s CY) (b_type b) true)) (- b_rot b) (sp_dims (s CX)) in
    match c with CX => fst v | CY => snd v end.

  Lemma pack_vector_map {J} (b : boundary) (sp : J -> comp -> spec) (q : J -> comp -> index -> A) js :
    pack_vector neg (map (exspec_of b) (map (fun j => sp j CX) js)) (map (exspec_of b) (map (fun j => sp j CY) js)) (map (fun j => q j CX) js) (map (fun j => q j CY) js)
    = Some (flat_map (fun j => flatten (vrot b (sp j) (q j) CX) ++ flatten (vrot b (sp j) (q j) CY)) js).
  Proof.
    induction js as [|j js IH]; [reflexivity|]. cbn [map pack_vector flat_map exspec_of ex_pack ex_rot ex_spec].
    unfold vrot at 1 2. destruct (rotate_vector _ _ _ _ _) as [dx dy]. rewrite IH. cbn [bind fst snd]. rewrite app_assoc. reflexivity.
  Qed.

  Lemma unpack_vector_map {J} (b : boundary) (sp : J -> comp -> spec) (q : J -> comp -> index -> A) (seg : J -> comp -> list A) js :
    (forall j c, In j js -> Z.of_nat (length (seg j c)) = slices_size (region (sp j c) (b_type b) false)) ->
    unpack_vector (map (exspec_of b) (map (fun j => sp j CX) js)) (map (exspec_of b) (map (fun j => sp j CY) js)) (map (fun j => q j CX) js) (map (fun j => q j CY) js)
      (flat_map (fun j => seg j CX ++ seg j CY) js)
    = Some (map (fun j => unpack1 (exspec_of b (sp j CX)) (q j CX) (seg j CX)) js, map (fun j => unpack1 (exspec_of b (sp j CY)) (q j CY) (seg j CY)) js).
  Proof.
    intros W. induction js as [|j js IH]; [reflexivity|]. cbn [map unpack_vector flat_map exspec_of ex_unpack].
    rewrite <- (W j CX), <- (W j CY) by (left; auto). rewrite !Nat2Z.id. rewrite <- !app_assoc.
    rewrite firstn_app, Nat.sub_diag, firstn_all, firstn_O, app_nil_r, Nat.eqb_refl.
    rewrite skipn_app, Nat.sub_diag, skipn_all. cbn [skipn app].
    rewrite firstn_app, Nat.sub_diag, firstn_all, firstn_O, app_nil_r, Nat.eqb_refl.
    rewrite skipn_app, Nat.sub_diag, skipn_all. cbn [skipn app andb].
    rewrite IH by (intros; apply W; right; auto). reflexivity.
  Qed.
End Pack.

(** ** one vector exchange between ranks 0..R-1, for any topology *)
Section VNet.
  Context {A : Type}.
  Variable neg : A -> A.
  Variable R : Z.
  Variable bnds : Z -> list boundary.
  Variable nf : nat.
  Variable sp : Z -> nat -> comp -> spec.
  Variable q : Z -> nat -> comp -> index -> A.

  Let js := seq 0 nf.

  Record vnet_ok : Prop := mkVNet {
    v_to : forall r, 0 <= r < R -> NoDup (map b_to (bnds r));
    v_ty : forall r b b', 0 <= r < R -> In b (bnds r) -> In b' (bnds r) -> b_type b = b_type b' -> b = b';
    v_mate : forall r b, 0 <= r < R -> In b (bnds r) -> 0 <= b_to b < R /\ exists b', mates bnds r b b';
    v_wf : forall r j c, 0 <= r < R -> (j < nf)%nat -> wf_spec (sp r j c) /\ room (sp r j c);
    v_fit : forall r b b' j c, 0 <= r < R -> In b (bnds r) -> mates bnds r b b' -> (j < nf)%nat ->
      fst (vrot neg b' (sp (b_to b) j) (q (b_to b) j) c) = shape_of (region (sp r j c) (b_type b) false) }.
  Hypothesis N : vnet_ok.
  Hypothesis nf_pos : (0 < nf)%nat.

  Lemma vmate_unique r b b1 b2 : 0 <= r < R -> In b (bnds r) -> mates bnds r b b1 -> mates bnds r b b2 -> b1 = b2.
  Proof.
    intros Hr Hb [M1 E1] [M2 E2]. destruct (v_mate N r b Hr Hb) as [Ht _].
    pose proof (v_to N _ Ht) as U. revert M1 M2 U. generalize (bnds (b_to b)). induction l as [|c l IH]; intros M1 M2 U; [destruct M1|].
    cbn in U. inversion U as [|x xs H1 H2]. destruct M1 as [M1|M1], M2 as [M2|M2]; auto; try congruence.
    - exfalso. apply H1. rewrite M1, E1, <- E2. apply in_map. exact M2.
    - exfalso. apply H1. rewrite M2, E2, <- E1. apply in_map. exact M1.
  Qed.

  Lemma vback_mate r b b' : 0 <= r < R -> In b (bnds r) -> mates bnds r b b' -> back bnds (b_to b) r = Some b'.
  Proof.
    intros Hr Hb M. unfold back. destruct (find _ (bnds (b_to b))) as [c|] eqn:F.
    - apply find_some in F. destruct F as [F1 F2]. apply Z.eqb_eq in F2. f_equal.
      apply (vmate_unique r b); auto. split; auto.
    - destruct M as [M1 M2]. eapply find_none in F; [|exact M1]. cbn in F. rewrite M2, Z.eqb_refl in F. discriminate.
  Qed.
  Lemma vback_self r b : 0 <= r < R -> In b (bnds r) -> back bnds r (b_to b) = Some b.
  Proof.
    intros Hr Hb. unfold back. pose proof (v_to N r Hr) as U. clear nf_pos. revert Hb U. generalize (bnds r).
    induction l as [|c l IH]; intros Hb U; [destruct Hb|]. cbn in *. inversion U; subst.
    destruct (Z.eqb_spec (b_to c) (b_to b)) as [E|E].
    - destruct Hb as [->|Hb]; [reflexivity|]. exfalso. apply H1. rewrite E. apply in_map; auto.
    - destruct Hb as [->|Hb]; [congruence|]. apply IH; auto.
  Qed.

  Definition xs (r : Z) : list spec := map (fun j => sp r j CX) js.
  Definition ys (r : Z) : list spec := map (fun j => sp r j CY) js.
  Definition vtrans (r : Z) : list (Z * (list exspec * list exspec)) :=
    map (fun b => (b_to b, (map (exspec_of b) (xs r), map (exspec_of b) (ys r)))) (bnds r).

  Lemma vjs_in j : In j js <-> (j < nf)%nat.
  Proof. unfold js. rewrite in_seq. lia. Qed.

  Lemma vtrans_built r : 0 <= r < R -> vector_transformers (bnds r) (xs r) (ys r) = Some (vtrans r).
  Proof.
    intros Hr. apply vector_transformers_eq.
    - unfold xs, js. destruct nf; [lia|discriminate].
    - unfold xs, ys. now rewrite !map_length.
    - apply (v_to N); auto.
    - intros b s _ [Hs|Hs]; apply in_map_iff in Hs; destruct Hs as (j & <- & Hj); apply vjs_in in Hj;
      [destruct (v_wf N r j CX Hr Hj)|destruct (v_wf N r j CY Hr Hj)]; apply exchange_spec_eq; auto.
  Qed.

  Definition vsegs (s : Z) (b' : boundary) (j : nat) (c : comp) : list A := flatten (vrot neg b' (sp s j) (q s j) c).
  Definition vmsg (s d : Z) : list A :=
    match back bnds s d with Some b' => flat_map (fun j => vsegs s b' j CX ++ vsegs s b' j CY) js | None => [] end.
  Definition vfinal (r : Z) (j : nat) (c : comp) : index -> A :=
    after (sp r j c) (bnds r) (fun b => vsegs (b_to b) (mate_of bnds r b) j c) (q r j c).
  Definition both {X} (f : nat -> comp -> X) : list X * list X := (map (fun j => f j CX) js, map (fun j => f j CY) js).

  Lemma vseg_length r b j c : 0 <= r < R -> In b (bnds r) -> (j < nf)%nat ->
    Z.of_nat (length (vsegs (b_to b) (mate_of bnds r b) j c)) = slices_size (region (sp r j c) (b_type b) false).
  Proof.
    intros Hr Hb Hj. destruct (v_mate N r b Hr Hb) as [Ht (b' & M)]. unfold mate_of. rewrite (vback_mate r b b') by auto.
    unfold vsegs. pose proof (v_fit N r b b' j c Hr Hb M Hj) as Fit.
    destruct (v_wf N r j c Hr Hj) as [W1 _].
    rewrite flatten_length.
    - rewrite Fit. rewrite slices_size_prod by (apply region_le; auto). reflexivity.
    - rewrite Fit. apply shape_nonneg, region_le; auto.
  Qed.

  Lemma vtrans_fst r : map fst (vtrans r) = map b_to (bnds r).
  Proof. unfold vtrans. rewrite map_map. apply map_ext. reflexivity. Qed.

  Lemma vbufsize_eq r b : 0 <= r < R -> In b (bnds r) ->
    vector_bufsize (map (exspec_of b) (xs r), map (exspec_of b) (ys r)) =
    Z.of_nat (length (flat_map (fun j => vsegs (b_to b) (mate_of bnds r b) j CX ++ vsegs (b_to b) (mate_of bnds r b) j CY) js)).
  Proof.
    intros Hr Hb. unfold vector_bufsize, xs, ys. cbn [fst snd].
    assert (H : forall j, In j js -> (j < nf)%nat) by (intros; apply vjs_in; auto). revert H. generalize js. intros l.
    unfold scalar_bufsize. induction l as [|j l IH]; intros H; [reflexivity|]. cbn [map fold_right exspec_of ex_pack flat_map].
    rewrite !app_length, !Nat2Z.inj_add. rewrite <- IH by (intros; apply H; right; auto).
    rewrite !vseg_length by (auto; apply H; left; auto).
    rewrite !pack_size_eq by (apply (v_wf N); auto; apply H; left; auto). ring.
  Qed.

  Lemma unpack_all_vector r bs : 0 <= r < R -> (forall b, In b bs -> In b (bnds r)) -> forall qq : nat -> comp -> index -> A,
    unpack_all (@vunpack A) (map (fun b => (b_to b, (map (exspec_of b) (xs r), map (exspec_of b) (ys r)))) bs) (fun s => Some (vmsg s r)) (both qq)
    = Some (both (fun j c => after (sp r j c) bs (fun b => vsegs (b_to b) (mate_of bnds r b) j c) (qq j c))).
  Proof.
    intros Hr. induction bs as [|b bs IH]; intros Hin qq; [reflexivity|]. cbn [map unpack_all bind].
    assert (Hb : In b (bnds r)) by (apply Hin; left; auto).
    destruct (v_mate N r b Hr Hb) as [Ht (b' & M)].
    assert (Em : vmsg (b_to b) r = flat_map (fun j => vsegs (b_to b) (mate_of bnds r b) j CX ++ vsegs (b_to b) (mate_of bnds r b) j CY) js).
    { unfold vmsg, mate_of. rewrite (vback_mate r b b') by auto. reflexivity. }
    rewrite Em. unfold vunpack at 1, both at 1, xs, ys. cbn [fst snd].
    rewrite (unpack_vector_map b (sp r) qq (fun j c => vsegs (b_to b) (mate_of bnds r b) j c))
      by (intros j c Hj; apply vjs_in in Hj; apply vseg_length; auto). cbn [bind].
    apply (IH ltac:(intros; apply Hin; right; auto) (fun j c => unpack1 (exspec_of b (sp r j c)) (qq j c) (vsegs (b_to b) (mate_of bnds r b) j c))).
  Qed.

  Lemma vnet_consistent :
    consistent (vpack neg) (@vunpack A) vector_bufsize vtrans (fun r => both (q r)) vmsg (fun r => both (vfinal r)) R.
  Proof.
    repeat split.
    - intros r Hr. rewrite vtrans_fst. apply (v_to N); auto.
    - rewrite vtrans_fst in H0. apply in_map_iff in H0. destruct H0 as (b & <- & Hb). apply (v_mate N r b); auto.
    - rewrite vtrans_fst in H0. apply in_map_iff in H0. destruct H0 as (b & <- & Hb). apply (v_mate N r b); auto.
    - rewrite vtrans_fst in *. apply in_map_iff in H0. destruct H0 as (b & <- & Hb).
      destruct (v_mate N r b H Hb) as [_ (b' & M1 & M2)]. rewrite <- M2. apply in_map; auto.
    - intros r d e Hr I. apply in_map_iff in I. destruct I as (b & [= <- <-] & Hb).
      unfold vpack, both, xs, ys. cbn [fst snd]. rewrite (pack_vector_map neg b (sp r) (q r)).
      unfold vmsg. rewrite vback_self by auto. reflexivity.
    - intros r s e Hr I. apply in_map_iff in I. destruct I as (b & [= <- <-] & Hb).
      rewrite vbufsize_eq by auto. destruct (v_mate N r b Hr Hb) as [Ht (b' & M)].
      unfold vmsg, mate_of. rewrite (vback_mate r b b') by auto. reflexivity.
    - intros r Hr. apply unpack_all_vector; auto.
  Qed.

  Lemma vfinal_in r j c b b' p : 0 <= r < R -> (j < nf)%nat -> In b (bnds r) -> mates bnds r b b' ->
    inside (region (sp r j c) (b_type b) false) p ->
    vfinal r j c p = snd (vrot neg b' (sp (b_to b) j) (q (b_to b) j) c) (unshift (region (sp r j c) (b_type b) false) p).
  Proof.
    intros Hr Hj Hb M I. destruct (v_wf N r j c Hr Hj) as [W Rm]. destruct (v_mate N r b Hr Hb) as [Ht _].
    unfold vfinal.
    destruct (after_in (sp r j c) (bnds r) (fun b => vsegs (b_to b) (mate_of bnds r b) j c) (q r j c) p b) as (q' & E); auto.
    - eapply NoDup_map_inv. apply (v_to N r Hr).
    - intros b0 Hb0 I0. apply (v_ty N r); auto. eapply wf_disjoint; eauto.
    - rewrite E. clear E. pose proof (vseg_length r b j c Hr Hb Hj) as L. unfold mate_of in *. rewrite (vback_mate r b b') in * by auto.
      pose proof (v_fit N r b b' j c Hr Hb M Hj) as Fit. pose proof (unshift_in _ _ I) as U.
      pose proof (proj1 (flat_index_nth _ _ U)) as B.
      rewrite slices_size_prod in L by (apply region_le; auto).
      rewrite unpack1_in by (auto; lia). unfold vsegs. rewrite <- Fit at 1. apply flatten_nth. rewrite Fit. exact U.
  Qed.

  Lemma vfinal_out r j c p : (forall b, In b (bnds r) -> ~ inside (region (sp r j c) (b_type b) false) p) -> vfinal r j c p = q r j c p.
  Proof. intros H. apply after_out. auto. Qed.

  Lemma vnet_exchange : exists T, (forall r, 0 <= r < R -> vector_transformers (bnds r) (xs r) (ys r) = Some (T r)) /\
    forall evs st, valid_events R evs ->
      run (vpack neg) (@vunpack A) vector_bufsize T evs (initial (fun r => both (q r))) = Some st ->
      ((exists r, 0 <= r < R /\ sy_ph st r <> Finished) ->
        exists ev st', valid_events R [ev] /\ step (vpack neg) (@vunpack A) vector_bufsize T ev st = Some st') /\
      (forall r, 0 <= r < R -> sy_ph st r = Finished -> sy_q st r = both (vfinal r)).
  Proof.
    exists vtrans. split; [intros; apply vtrans_built; auto|].
    intros evs st V Rn. pose proof vnet_consistent as C. split.
    - intros Nf. destruct (exchange_progress _ _ _ _ _ _ _ _ C evs st V Rn Nf) as (ev & st' & V' & S). exists ev, st'. split; auto. repeat constructor; apply V'.
    - intros r Hr Ph. apply (exchange_confluent _ _ _ _ _ _ _ _ C evs st V Rn r Hr Ph).
  Qed.
End VNet.
