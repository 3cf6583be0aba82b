(** Packing, unpacking and the result of one scalar exchange, in terms of views. *)
From Verif Require Import Base PartModel PartSpec DecompModel DecompSpec HaloModel HaloSpec HaloProofs HaloExchange.
Open Scope Z_scope.

(** ** C-order *)
Lemma flat_map_nth {X Y} (g : X -> list Y) (L : nat) l k j d0 d :
  (forall x, In x l -> length (g x) = L) -> (k < length l)%nat -> (j < L)%nat ->
  nth (k * L + j) (flat_map g l) d = nth j (g (nth k l d0)) d.
Proof.
  revert k. induction l as [|a l IH]; intros k H Hk Hj; [cbn in Hk; lia|].
  cbn [flat_map]. assert (La : length (g a) = L) by (apply H; left; auto). destruct k as [|k].
  - cbn. rewrite app_nth1 by lia. reflexivity.
  - cbn [nth]. rewrite app_nth2 by (cbn; lia). rewrite La.
    replace (S k * L + j - L)%nat with (k * L + j)%nat by (cbn; lia).
    apply IH; auto; [intros; apply H; right; auto|cbn in Hk; lia].
Qed.

Lemma flat_map_len {X Y} (g : X -> list Y) (L : nat) l : (forall x, In x l -> length (g x) = L) ->
  length (flat_map g l) = (length l * L)%nat.
Proof.
  induction l as [|a l IH]; intros H; [reflexivity|]. cbn [flat_map length]. rewrite app_length, IH, (H a); [cbn; lia|left; auto|].
  intros; apply H; right; auto.
Qed.

Lemma prod_nonneg s : Forall (fun x => 0 <= x) s -> 0 <= prod s.
Proof. unfold prod. induction 1; cbn; [lia|]. nia. Qed.

Lemma indices_length s : Forall (fun x => 0 <= x) s -> Z.of_nat (length (indices s)) = prod s.
Proof.
  induction 1 as [|n s H F IH]; [reflexivity|]. cbn [indices].
  rewrite (flat_map_len _ (length (indices s))) by (intros; apply map_length).
  rewrite zrange_length. unfold prod in *. cbn. nia.
Qed.

Lemma zrange_nth a b x d : 0 <= x < b - a -> nth (Z.to_nat x) (zrange a b) d = a + x.
Proof.
  intros H. unfold zrange. rewrite nth_indep with (d' := a + Z.of_nat 0) by (rewrite map_length, seq_length; lia).
  rewrite (map_nth (fun k => a + Z.of_nat k)), seq_nth by lia. lia.
Qed.

Lemma in_extent_nonneg s p : in_extent s p -> Forall (fun x => 0 <= x) s.
Proof. unfold in_extent. induction 1; constructor; auto; lia. Qed.

Lemma flat_index_nth s p : in_extent s p ->
  0 <= flat_index s p < prod s /\ nth (Z.to_nat (flat_index s p)) (indices s) [] = p.
Proof.
  unfold in_extent. induction 1 as [|n x s p Hx F IH]; [cbn; split; [lia|reflexivity]|].
  destruct IH as [B N]. cbn [flat_index indices prod fold_right]. fold (prod s).
  split; [nia|].
  assert (Fs : Forall (fun x => 0 <= x) s) by (eapply in_extent_nonneg; exact F).
  pose proof (indices_length s Fs) as Li.
  replace (Z.to_nat (x * prod s + flat_index s p)) with (Z.to_nat x * length (indices s) + Z.to_nat (flat_index s p))%nat.
  - rewrite (flat_map_nth _ (length (indices s)) _ _ _ 0) by (try (intros; apply map_length); try rewrite zrange_length; lia).
    rewrite zrange_nth by lia. unfold index in *.
    rewrite nth_indep with (d' := cons x []) by (rewrite map_length; lia).
    replace (0 + x) with x by lia. rewrite (map_nth (cons x)). rewrite N. reflexivity.
  - rewrite Z2Nat.inj_add, Z2Nat.inj_mul by nia. lia.
Qed.

Lemma flatten_nth {A} (m : list Z * (index -> A)) p d : in_extent (fst m) p ->
  nth (Z.to_nat (flat_index (fst m) p)) (flatten m) d = snd m p.
Proof.
  intros H. destruct (flat_index_nth _ _ H) as [B N]. unfold flatten.
  pose proof (indices_length (fst m) (in_extent_nonneg _ _ H)) as Li.
  rewrite nth_indep with (d' := snd m []) by (rewrite map_length; lia).
  rewrite map_nth, N. reflexivity.
Qed.

Lemma flatten_length {A} (m : list Z * (index -> A)) : Forall (fun x => 0 <= x) (fst m) ->
  Z.of_nat (length (flatten m)) = prod (fst m).
Proof. intros H. unfold flatten. rewrite map_length. apply indices_length, H. Qed.

(** ** slices *)
Lemma in_slices_inside sl p : in_slices sl p = true <-> inside sl p.
Proof.
  unfold in_slices, inside. revert p. induction sl as [|[a b] sl IH]; intros [|x p]; cbn; try (split; [discriminate|intros H; inversion H]).
  - split; auto.
  - specialize (IH p). split.
    + intros H. apply andb_prop in H. destruct H as [L H]. apply andb_prop in H. destruct H as [X H].
      constructor; [cbn; lia|]. apply IH. rewrite L, H. reflexivity.
    + intros H. inversion H as [|? ? ? ? X Y]; subst. apply IH in Y. apply andb_prop in Y. destruct Y as [L Y]. cbn in X.
      rewrite L, Y, andb_true_r. cbn. lia.
Qed.

Lemma unshift_in sl p : inside sl p -> in_extent (shape_of sl) (unshift sl p).
Proof.
  unfold inside, in_extent, shape_of, unshift. induction 1 as [|s x sl p H F IH]; cbn; constructor; auto. cbn. lia.
Qed.

Lemma slices_size_prod sl : Forall (fun s => fst s <= snd s) sl -> slices_size sl = prod (shape_of sl).
Proof.
  unfold slices_size, prod, shape_of. induction 1 as [|s sl H F IH]; [reflexivity|]. cbn. rewrite IH. f_equal. lia.
Qed.
Lemma shape_nonneg sl : Forall (fun s => fst s <= snd s) sl -> Forall (fun x => 0 <= x) (shape_of sl).
Proof. unfold shape_of. induction 1; constructor; auto. cbn. lia. Qed.

Lemma prod_put dims s x y : plane dims -> length s = length dims ->
  prod (put_xy dims s x y) = x * y * prod (put_xy dims s 1 1).
Proof.
  intros [PJ PI] Ls. unfold prod.
  assert (G : forall dims s, (count_axis AI dims <= 1)%nat -> (count_axis AJ dims <= 1)%nat -> length s = length dims ->
    fold_right Z.mul 1 (put_xy dims s x y) = (if (count_axis AI dims =? 1)%nat then x else 1) * (if (count_axis AJ dims =? 1)%nat then y else 1) * fold_right Z.mul 1 (put_xy dims s 1 1)).
  { clear. induction dims as [|m dims IH]; intros [|v s] CI CJ L; try discriminate; [reflexivity|].
    cbn in L. rewrite !count_cons in *. cbn [put_xy fold_right].
    destruct (on_axis AI m) eqn:I, (on_axis AJ m) eqn:J.
    - exfalso; eapply axis_excl; eauto.
    - rewrite IH by lia. replace (count_axis AI dims) with 0%nat by lia. cbn [Nat.eqb plus]. ring.
    - rewrite IH by lia. replace (count_axis AJ dims) with 0%nat by lia. cbn [Nat.eqb plus]. ring.
    - rewrite IH by lia. cbn [plus]. ring. }
  rewrite G by lia. rewrite PI, PJ. cbn [Nat.eqb]. ring.
Qed.

Lemma prod_rot dims s k : plane dims -> length s = length dims -> prod (rot_shape dims s k) = prod s.
Proof.
  intros P L. unfold rot_shape. destruct (Z.even k); [reflexivity|]. rewrite prod_put by auto.
  rewrite <- (put_cxy dims P s) at 4. rewrite (prod_put dims s (cx dims s)) by auto. ring.
Qed.

Lemma rot_shape_nonneg dims s k : plane dims -> length s = length dims -> Forall (fun x => 0 <= x) s ->
  Forall (fun x => 0 <= x) (rot_shape dims s k).
Proof.
  intros P L F. unfold rot_shape. destruct (Z.even k); auto.
  assert (G : forall a, 0 <= coord a dims s 0).
  { clear -F. revert dims. induction F as [|v s H F IH]; intros [|m dims] a; cbn; try lia. destruct (on_axis a m); auto. }
  assert (K : forall x y, 0 <= x -> 0 <= y -> Forall (fun x => 0 <= x) (put_xy dims s x y)).
  { clear -F. intros x y Hx Hy. revert dims. induction F as [|v s H F IH]; intros [|m dims]; cbn; constructor; auto.
    destruct (on_axis AI m), (on_axis AJ m); auto. }
  apply K; apply G.
Qed.

(** ** transformers *)
Definition exspec_of (b : boundary) (s : spec) : exspec :=
  mkEx s (region s (b_type b) true) (b_rot b) (region s (b_type b) false).

Lemma dict_append_new {V} k (v : V) d : ~ In k (map fst d) -> dict_append k v d = d ++ [(k, [v])].
Proof.
  induction d as [|[k' vs] d IH]; cbn; intros H; [reflexivity|]. destruct (Z.eqb_spec k k'); [exfalso; auto|].
  rewrite IH; auto.
Qed.
Lemma dict_append_last {V} k (v : V) d vs : ~ In k (map fst d) -> dict_append k v (d ++ [(k, vs)]) = d ++ [(k, vs ++ [v])].
Proof.
  induction d as [|[k' vs'] d IH]; cbn; intros H; [now rewrite Z.eqb_refl|]. destruct (Z.eqb_spec k k'); [exfalso; auto|].
  rewrite IH; auto.
Qed.

Lemma add_specs_eq b specs d : ~ In (b_to b) (map fst d) -> specs <> [] ->
  (forall s, In s specs -> exchange_spec b s = Some (exspec_of b s)) ->
  add_specs b specs d = Some (d ++ [(b_to b, map (exspec_of b) specs)]).
Proof.
  intros N NE H.
  assert (G : forall specs vs, (forall s, In s specs -> exchange_spec b s = Some (exspec_of b s)) ->
     add_specs b specs (d ++ [(b_to b, vs)]) = Some (d ++ [(b_to b, vs ++ map (exspec_of b) specs)])).
  { clear -N. induction specs as [|s specs IH]; intros vs H; cbn [add_specs map]; [now rewrite app_nil_r|].
    rewrite H by (left; auto). cbn [bind]. rewrite dict_append_last by auto. rewrite IH by (intros; apply H; right; auto).
    rewrite <- app_assoc. reflexivity. }
  destruct specs as [|s specs]; [congruence|]. cbn [add_specs map]. rewrite H by (left; auto). cbn [bind].
  rewrite dict_append_new by auto. rewrite G by (intros; apply H; right; auto). reflexivity.
Qed.

Lemma scalar_transformers_eq bs specs : specs <> [] -> NoDup (map b_to bs) ->
  (forall b s, In b bs -> In s specs -> exchange_spec b s = Some (exspec_of b s)) ->
  scalar_transformers bs specs [] = Some (map (fun b => (b_to b, map (exspec_of b) specs)) bs).
Proof.
  intros NE N H.
  assert (G : forall bs d, NoDup (map fst d ++ map b_to bs) ->
     (forall b s, In b bs -> In s specs -> exchange_spec b s = Some (exspec_of b s)) ->
     scalar_transformers bs specs d = Some (d ++ map (fun b => (b_to b, map (exspec_of b) specs)) bs)).
  { clear -NE. induction bs as [|b bs IH]; intros d N H; cbn [scalar_transformers map]; [now rewrite app_nil_r|].
    rewrite add_specs_eq; auto.
    - cbn [bind]. rewrite IH.
      + rewrite <- app_assoc. reflexivity.
      + rewrite map_app. cbn. rewrite <- app_assoc. exact N.
      + intros; apply H; auto; right; auto.
    - cbn in N. apply NoDup_remove_2 in N. intros I. apply N. apply in_or_app. left; auto.
    - intros; apply H; auto; left; auto. }
  rewrite G; auto.
Qed.

(** ** regions are well formed *)
Definition room (s : spec) : Prop :=
  forall b, send_slice b s <> None /\ recv_slice b s <> None.

Lemma exchange_spec_eq b s : wf_spec s -> room s -> exchange_spec b s = Some (exspec_of b s).
Proof.
  intros W Rm. unfold exchange_spec. destruct (Rm (b_type b)) as [A1 A2].
  destruct (send_slice (b_type b) s) as [x|] eqn:E1; [|congruence]. destruct (recv_slice (b_type b) s) as [y|] eqn:E2; [|congruence].
  cbn [bind]. destruct (send_region _ _ _ W E1) as [-> _], (recv_region _ _ _ W E2) as [-> _]. reflexivity.
Qed.

Lemma range1_le d o e ov n i : 0 <= e -> 0 <= n -> fst (range1 d o e ov n i) <= snd (range1 d o e ov n i).
Proof. unfold range1. destruct (d =? 0), (d =? -1), i; cbn; lia. Qed.

Lemma region_le s b i : wf_spec s -> Forall (fun r => fst r <= snd r) (region s b i).
Proof.
  intros W. pose proof (wf_coords s W) as Wc. cbn zeta in Wc. unfold region.
  assert (F : Forall (fun r => fst r <= snd r) (compute_domain s)).
  { destruct W as (_ & _ & _ & _ & F). unfold compute_domain, box.
    revert F. generalize (sp_shape s). induction (combine (sp_origin s) (sp_extent s)) as [|[o e] l IH]; intros h F; cbn; constructor.
    - inversion F; subst. cbn in *. lia.
    - inversion F; subst. eapply IH; eauto. }
  assert (G : forall dims L x y, fst x <= snd x -> fst y <= snd y -> Forall (fun r : Z * Z => fst r <= snd r) L ->
     Forall (fun r => fst r <= snd r) (put_xy dims L x y)).
  { clear. induction dims as [|m dims IH]; intros L x y Hx Hy F; cbn; auto. destruct L as [|v L]; auto. inversion F; subst. constructor.
    - destruct (on_axis AI m), (on_axis AJ m); auto.
    - apply IH; auto. }
  apply G; auto; apply range1_le; lia.
Qed.

Lemma region_length s b i : wf_spec s -> length (region s b i) = length (sp_dims s).
Proof.
  intros W. destruct (wf_lengths s W) as (P & Lo & Le & Lh). unfold region, compute_domain. rewrite put_xy_length, box_length; lia.
Qed.

Lemma shape_of_length sl : length (shape_of sl) = length sl.
Proof. apply map_length. Qed.

Definition width1 (d e n : Z) : Z := if d =? 0 then e else n.
Lemma range1_width d o e ov n i : snd (range1 d o e ov n i) - fst (range1 d o e ov n i) = width1 d e n.
Proof. unfold range1, width1. destruct (d =? 0), (d =? -1), i; cbn; lia. Qed.

Lemma shape_box o e : length o = length e -> shape_of (box o e) = e.
Proof.
  unfold shape_of, box. revert e. induction o as [|x o IH]; intros [|y e] H; try discriminate; [reflexivity|].
  cbn. rewrite IH by (cbn in H; lia). f_equal. lia.
Qed.

Lemma region_shape s b i : wf_spec s -> shape_of (region s b i) =
  put_xy (sp_dims s) (sp_extent s) (width1 (dx b) (cx (sp_dims s) (sp_extent s)) (sp_n s)) (width1 (dy b) (cy (sp_dims s) (sp_extent s)) (sp_n s)).
Proof.
  intros W. destruct (wf_lengths s W) as (P & Lo & Le & Lh). unfold region.
  unfold shape_of at 1. rewrite put_map. rewrite !range1_width. f_equal. unfold compute_domain. apply shape_box. lia.
Qed.

Lemma pack_size_eq s b : wf_spec s -> slices_size (region s b true) = slices_size (region s b false).
Proof.
  intros W. rewrite !slices_size_prod by (apply region_le; auto). rewrite !region_shape by auto. reflexivity.
Qed.

Section Scalar.
  Context {A : Type}.
  Implicit Types (q : index -> A).

  Definition rotated (b : boundary) (s : spec) q : list Z * (index -> A) :=
    rotate_scalar (view q (region s (b_type b) true)) (sp_dims s) (- b_rot b).

  Lemma pack1_eq b s q : pack1 (exspec_of b s) q = flatten (rotated b s q).
  Proof. reflexivity. Qed.

  Lemma rotated_shape b s q : wf_spec s ->
    fst (rotated b s q) = rot_shape (sp_dims s) (shape_of (region s (b_type b) true)) ((- b_rot b) mod 4).
  Proof.
    intros W. destruct (wf_lengths s W) as (P & Lo & Le & Lh). unfold rotated, view.
    apply rotate_coords; auto. rewrite shape_of_length, region_length; auto.
  Qed.

  Lemma pack1_length b s q : wf_spec s -> Z.of_nat (length (pack1 (exspec_of b s) q)) = slices_size (region s (b_type b) true).
  Proof.
    intros W. destruct (wf_lengths s W) as (P & Lo & Le & Lh). rewrite pack1_eq.
    assert (Ln : length (shape_of (region s (b_type b) true)) = length (sp_dims s)) by (rewrite shape_of_length, region_length; auto).
    rewrite flatten_length; rewrite rotated_shape by auto.
    - rewrite prod_rot by auto. rewrite slices_size_prod by (apply region_le; auto). reflexivity.
    - apply rot_shape_nonneg; auto. apply shape_nonneg, region_le; auto.
  Qed.

  Lemma pack_scalar_map {J} (b : boundary) (sp : J -> spec) (q : J -> index -> A) js :
    (forall j, In j js -> wf_spec (sp j)) ->
    pack_scalar (map (exspec_of b) (map sp js)) (map q js) = Some (flat_map (fun j => pack1 (exspec_of b (sp j)) (q j)) js).
  Proof.
    intros W. induction js as [|j js IH]; [reflexivity|]. cbn [map pack_scalar flat_map].
    rewrite pack1_length by (apply W; left; auto). cbn [exspec_of ex_pack]. rewrite Z.eqb_refl.
    rewrite IH by (intros; apply W; right; auto). reflexivity.
  Qed.

  Lemma unpack_scalar_map {J} (b : boundary) (sp : J -> spec) (q : J -> index -> A) (seg : J -> list A) js :
    (forall j, In j js -> Z.of_nat (length (seg j)) = slices_size (region (sp j) (b_type b) false)) ->
    unpack_scalar (map (exspec_of b) (map sp js)) (map q js) (flat_map seg js)
    = Some (map (fun j => unpack1 (exspec_of b (sp j)) (q j) (seg j)) js).
  Proof.
    intros W. induction js as [|j js IH]; [reflexivity|]. cbn [map unpack_scalar flat_map exspec_of ex_unpack].
    rewrite <- (W j) by (left; auto). rewrite Nat2Z.id.
    rewrite firstn_app, Nat.sub_diag, firstn_all, firstn_O, app_nil_r, Nat.eqb_refl.
    rewrite skipn_app, Nat.sub_diag, skipn_all. cbn [skipn app]. rewrite IH by (intros; apply W; right; auto). reflexivity.
  Qed.

  (** contents after all boundaries are unpacked *)
  Definition after (s : spec) (bs : list boundary) (seg : boundary -> list A) q : index -> A :=
    fold_left (fun q b => unpack1 (exspec_of b s) q (seg b)) bs q.

  Lemma unpack1_in b s q seg p : inside (region s (b_type b) false) p ->
    (Z.to_nat (flat_index (shape_of (region s (b_type b) false)) (unshift (region s (b_type b) false) p)) < length seg)%nat ->
    unpack1 (exspec_of b s) q seg p =
    nth (Z.to_nat (flat_index (shape_of (region s (b_type b) false)) (unshift (region s (b_type b) false) p))) seg (q p).
  Proof.
    intros I L. unfold unpack1, put_slice. cbn [exspec_of ex_unpack]. apply in_slices_inside in I. rewrite I.
    apply nth_indep. exact L.
  Qed.
  Lemma unpack1_out b s q seg p : ~ inside (region s (b_type b) false) p -> unpack1 (exspec_of b s) q seg p = q p.
  Proof.
    intros I. unfold unpack1, put_slice. cbn [exspec_of ex_unpack].
    destruct (in_slices (region s (b_type b) false) p) eqn:E; [|reflexivity]. apply in_slices_inside in E. contradiction.
  Qed.

  Lemma after_out s bs seg q p : (forall b, In b bs -> ~ inside (region s (b_type b) false) p) -> after s bs seg q p = q p.
  Proof.
    unfold after. revert q. induction bs as [|b bs IH]; intros q H; [reflexivity|]. cbn [fold_left].
    rewrite IH by (intros; apply H; right; auto). apply unpack1_out. apply H. left; auto.
  Qed.

  Lemma after_in s bs seg q p b : NoDup bs -> In b bs -> inside (region s (b_type b) false) p ->
    (forall b', In b' bs -> inside (region s (b_type b') false) p -> b' = b) ->
    exists q', after s bs seg q p = unpack1 (exspec_of b s) q' (seg b) p.
  Proof.
    unfold after. revert q. induction bs as [|c bs IH]; intros q N I P U; [destruct I|]. inversion N; subst. cbn [fold_left].
    destruct I as [->|I].
    - exists q. apply after_out. intros b' Hb' K. assert (b' = b) by (apply U; [right; auto|auto]). subst. contradiction.
    - apply IH; auto. intros b' Hb'. apply U. right; auto.
  Qed.
End Scalar.

(** ** one scalar exchange between ranks 0..R-1, for any topology *)
Section Net.
  Context {A : Type}.
  Variable R : Z.
  Variable bnds : Z -> list boundary.
  Variable nf : nat.
  Variable sp : Z -> nat -> spec.
  Variable q : Z -> nat -> index -> A.

  Let js := seq 0 nf.

  (** boundary b of rank r, and the boundary of the neighbour that leads back *)
  Definition mates (r : Z) (b b' : boundary) : Prop := In b' (bnds (b_to b)) /\ b_to b' = r.

  Record net_ok : Prop := mkNet {
    n_to : forall r, 0 <= r < R -> NoDup (map b_to (bnds r));
    n_ty : forall r b b', 0 <= r < R -> In b (bnds r) -> In b' (bnds r) -> b_type b = b_type b' -> b = b';
    n_mate : forall r b, 0 <= r < R -> In b (bnds r) -> 0 <= b_to b < R /\ exists b', mates r b b';
    n_wf : forall r j, 0 <= r < R -> (j < nf)%nat -> wf_spec (sp r j) /\ room (sp r j);
    n_fit : forall r b b' j, 0 <= r < R -> In b (bnds r) -> mates r b b' -> (j < nf)%nat ->
      fst (rotated b' (sp (b_to b) j) (q (b_to b) j)) = shape_of (region (sp r j) (b_type b) false) }.
  Hypothesis N : net_ok.
  Hypothesis nf_pos : (0 < nf)%nat.

  Lemma mate_unique r b b1 b2 : 0 <= r < R -> In b (bnds r) -> mates r b b1 -> mates r b b2 -> b1 = b2.
  Proof.
    intros Hr Hb [M1 E1] [M2 E2]. destruct (n_mate N r b Hr Hb) as [Ht _].
    pose proof (n_to N _ Ht) as U. revert M1 M2 U. generalize (bnds (b_to b)). induction l as [|c l IH]; intros M1 M2 U; [destruct M1|].
    cbn in U. inversion U as [|x xs H1 H2]. destruct M1 as [M1|M1], M2 as [M2|M2]; auto; try congruence.
    - exfalso. apply H1. rewrite M1, E1, <- E2. apply in_map. exact M2.
    - exfalso. apply H1. rewrite M2, E2, <- E1. apply in_map. exact M1.
  Qed.

  Definition trans (r : Z) : list (Z * list exspec) := map (fun b => (b_to b, map (exspec_of b) (map (sp r) js))) (bnds r).

  Lemma js_in j : In j js <-> (j < nf)%nat.
  Proof. unfold js. rewrite in_seq. lia. Qed.

  Lemma trans_built r : 0 <= r < R -> scalar_transformers (bnds r) (map (sp r) js) [] = Some (trans r).
  Proof.
    intros Hr. apply scalar_transformers_eq.
    - unfold js. destruct nf; [lia|discriminate].
    - apply (n_to N); auto.
    - intros b s _ Hs. apply in_map_iff in Hs. destruct Hs as (j & <- & Hj). apply js_in in Hj.
      destruct (n_wf N r j Hr Hj). apply exchange_spec_eq; auto.
  Qed.

  Definition segs (s : Z) (b' : boundary) (j : nat) : list A := pack1 (exspec_of b' (sp s j)) (q s j).
  (** the boundary of s that leads to d *)
  Definition back (s d : Z) : option boundary := find (fun b => b_to b =? d) (bnds s).
  Definition msg_of (s d : Z) : list A := match back s d with Some b' => flat_map (segs s b') js | None => [] end.

  Lemma back_mate r b b' : 0 <= r < R -> In b (bnds r) -> mates r b b' -> back (b_to b) r = Some b'.
  Proof.
    intros Hr Hb M. unfold back. destruct (find _ (bnds (b_to b))) as [c|] eqn:F.
    - apply find_some in F. destruct F as [F1 F2]. apply Z.eqb_eq in F2. f_equal.
      apply (mate_unique r b); auto. split; auto.
    - destruct M as [M1 M2]. eapply find_none in F; [|exact M1]. cbn in F. rewrite M2, Z.eqb_refl in F. discriminate.
  Qed.
  Lemma back_self r b : 0 <= r < R -> In b (bnds r) -> back r (b_to b) = Some b.
  Proof.
    intros Hr Hb. unfold back. pose proof (n_to N r Hr) as U. clear nf_pos. revert Hb U. generalize (bnds r).
    induction l as [|c l IH]; intros Hb U; [destruct Hb|]. cbn in *. inversion U; subst.
    destruct (Z.eqb_spec (b_to c) (b_to b)) as [E|E].
    - destruct Hb as [->|Hb]; [reflexivity|]. exfalso. apply H1. rewrite E. apply in_map; auto.
    - destruct Hb as [->|Hb]; [congruence|]. apply IH; auto.
  Qed.

  Definition mate_of (r : Z) (b : boundary) : boundary := match back (b_to b) r with Some b' => b' | None => b end.
  Definition final (r : Z) (j : nat) : index -> A :=
    after (sp r j) (bnds r) (fun b => segs (b_to b) (mate_of r b) j) (q r j).

  Lemma seg_length r b j : 0 <= r < R -> In b (bnds r) -> (j < nf)%nat ->
    Z.of_nat (length (segs (b_to b) (mate_of r b) j)) = slices_size (region (sp r j) (b_type b) false).
  Proof.
    intros Hr Hb Hj. destruct (n_mate N r b Hr Hb) as [Ht (b' & M)]. unfold mate_of. rewrite (back_mate r b b') by auto.
    unfold segs. pose proof (n_fit N r b b' j Hr Hb M Hj) as Fit.
    destruct (n_wf N r j Hr Hj) as [W1 _], (n_wf N (b_to b) j Ht Hj) as [W2 _].
    rewrite pack1_eq, flatten_length.
    - rewrite Fit. rewrite slices_size_prod by (apply region_le; auto). reflexivity.
    - rewrite Fit. apply shape_nonneg, region_le; auto.
  Qed.

  Lemma trans_fst r : map fst (trans r) = map b_to (bnds r).
  Proof. unfold trans. rewrite map_map. apply map_ext. reflexivity. Qed.

  Lemma bufsize_eq r b : 0 <= r < R -> In b (bnds r) ->
    scalar_bufsize (map (exspec_of b) (map (sp r) js)) = fold_right Z.add 0 (map (fun j => slices_size (region (sp r j) (b_type b) false)) js).
  Proof.
    intros Hr Hb. assert (H : forall j, In j js -> (j < nf)%nat) by (intros; apply js_in; auto). revert H. generalize js. intros l.
    unfold scalar_bufsize. induction l as [|j l IH]; intros H; [reflexivity|]. cbn [map fold_right exspec_of ex_pack].
    rewrite IH by (intros; apply H; right; auto). rewrite pack_size_eq by (apply (n_wf N); auto; apply H; left; auto). reflexivity.
  Qed.

  Lemma flat_map_size r b : 0 <= r < R -> In b (bnds r) ->
    Z.of_nat (length (flat_map (segs (b_to b) (mate_of r b)) js)) = fold_right Z.add 0 (map (fun j => slices_size (region (sp r j) (b_type b) false)) js).
  Proof.
    intros Hr Hb. assert (H : forall j, In j js -> (j < nf)%nat) by (intros; apply js_in; auto). revert H. generalize js as l.
    induction l as [|j l IH]; intros H; [reflexivity|]. cbn [flat_map map fold_right].
    rewrite app_length, Nat2Z.inj_add, IH, seg_length by (auto; try (apply H; left; auto); intros; apply H; right; auto). reflexivity.
  Qed.

  Lemma unpack_all_scalar r bs : 0 <= r < R -> (forall b, In b bs -> In b (bnds r)) -> forall qq : nat -> index -> A,
    unpack_all unpack_scalar (map (fun b => (b_to b, map (exspec_of b) (map (sp r) js))) bs) (fun s => Some (msg_of s r)) (map qq js)
    = Some (map (fun j => after (sp r j) bs (fun b => segs (b_to b) (mate_of r b) j) (qq j)) js).
  Proof.
    intros Hr. induction bs as [|b bs IH]; intros Hin qq; [reflexivity|]. cbn [map unpack_all bind].
    assert (Hb : In b (bnds r)) by (apply Hin; left; auto).
    destruct (n_mate N r b Hr Hb) as [Ht (b' & M)].
    assert (Em : msg_of (b_to b) r = flat_map (segs (b_to b) (mate_of r b)) js).
    { unfold msg_of, mate_of. rewrite (back_mate r b b') by auto. reflexivity. }
    rewrite Em. rewrite unpack_scalar_map by (intros j Hj; apply js_in in Hj; apply seg_length; auto). cbn [bind].
    rewrite IH by (intros; apply Hin; right; auto). reflexivity.
  Qed.

  Lemma net_consistent :
    consistent pack_scalar unpack_scalar scalar_bufsize trans (fun r => map (q r) js) msg_of (fun r => map (final r) js) R.
  Proof.
    repeat split.
    - intros r Hr. rewrite trans_fst. apply (n_to N); auto.
    - rewrite trans_fst in H0. apply in_map_iff in H0. destruct H0 as (b & <- & Hb). apply (n_mate N r b); auto.
    - rewrite trans_fst in H0. apply in_map_iff in H0. destruct H0 as (b & <- & Hb). apply (n_mate N r b); auto.
    - rewrite trans_fst in *. apply in_map_iff in H0. destruct H0 as (b & <- & Hb).
      destruct (n_mate N r b H Hb) as [_ (b' & M1 & M2)]. rewrite <- M2. apply in_map; auto.
    - intros r d e Hr I. apply in_map_iff in I. destruct I as (b & [= <- <-] & Hb).
      rewrite pack_scalar_map by (intros j Hj; apply js_in in Hj; apply (n_wf N); auto).
      unfold msg_of. rewrite back_self by auto. reflexivity.
    - intros r s e Hr I. apply in_map_iff in I. destruct I as (b & [= <- <-] & Hb).
      rewrite bufsize_eq, <- flat_map_size by auto. destruct (n_mate N r b Hr Hb) as [Ht (b' & M)].
      unfold msg_of, mate_of. rewrite (back_mate r b b') by auto. reflexivity.
    - intros r Hr. apply unpack_all_scalar; auto.
  Qed.

  Lemma wf_disjoint s b1 b2 p : wf_spec s -> room s -> inside (region s b1 false) p -> inside (region s b2 false) p -> b1 = b2.
  Proof.
    intros W Rm I1 I2. destruct (Rm b1) as [_ X1], (Rm b2) as [_ X2].
    destruct (recv_slice b1 s) as [s1|] eqn:E1; [|congruence]. destruct (recv_slice b2 s) as [s2|] eqn:E2; [|congruence].
    destruct (recv_region _ _ _ W E1) as [R1 _], (recv_region _ _ _ W E2) as [R2 _].
    apply (recv_disjoint s b1 b2 s1 s2 p); auto; congruence.
  Qed.

  Lemma NoDup_bnds r : 0 <= r < R -> NoDup (bnds r).
  Proof. intros Hr. eapply NoDup_map_inv. apply (n_to N r Hr). Qed.

  Lemma final_in r j b b' p : 0 <= r < R -> (j < nf)%nat -> In b (bnds r) -> mates r b b' ->
    inside (region (sp r j) (b_type b) false) p ->
    final r j p = snd (rotated b' (sp (b_to b) j) (q (b_to b) j)) (unshift (region (sp r j) (b_type b) false) p).
  Proof.
    intros Hr Hj Hb M I. destruct (n_wf N r j Hr Hj) as [W Rm]. destruct (n_mate N r b Hr Hb) as [Ht _].
    unfold final.
    destruct (after_in (sp r j) (bnds r) (fun b => segs (b_to b) (mate_of r b) j) (q r j) p b) as (q' & E); auto.
    - apply NoDup_bnds; auto.
    - intros b0 Hb0 I0. apply (n_ty N r); auto. eapply wf_disjoint; eauto.
    - rewrite E. clear E. pose proof (seg_length r b j Hr Hb Hj) as L. unfold mate_of in *. rewrite (back_mate r b b') in * by auto.
      pose proof (n_fit N r b b' j Hr Hb M Hj) as Fit. pose proof (unshift_in _ _ I) as U.
      pose proof (proj1 (flat_index_nth _ _ U)) as B.
      rewrite slices_size_prod in L by (apply region_le; auto).
      rewrite unpack1_in by (auto; lia). unfold segs. rewrite pack1_eq. rewrite <- Fit at 1. apply flatten_nth. rewrite Fit. exact U.
  Qed.

  Lemma final_out r j p : 0 <= r < R -> (forall b, In b (bnds r) -> ~ inside (region (sp r j) (b_type b) false) p) -> final r j p = q r j p.
  Proof. intros Hr H. apply after_out. auto. Qed.
End Net.
