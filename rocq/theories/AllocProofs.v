(** Proofs about allocation (AllocModel.v). *)
From Verif Require Import Base Dict PartModel DecompModel HaloModel GridModel ViewModel AllocModel.

Lemma zrange_cons a b : a < b -> zrange a b = a :: zrange (a + 1) b.
Proof.
  intros L. unfold zrange. replace (Z.to_nat (b - a)) with (S (Z.to_nat (b - (a + 1)))) by lia. cbn [seq map]. f_equal; [lia|].
  rewrite <- seq_shift, map_map. apply map_ext. intros i. lia.
Qed.

Lemma index_zrange i a b : index_of i (zrange a b) = if (a <=? i) && (i <? b) then Some (i - a) else None.
Proof.
  remember (Z.to_nat (b - a)) as n eqn:E. revert a E. induction n as [|n IH]; intros a E.
  - rewrite zrange_nil by lia. cbn. destruct (Z.leb_spec a i), (Z.ltb_spec i b); cbn; auto; lia.
  - rewrite zrange_cons by lia. cbn [index_of]. rewrite (IH (a + 1)) by lia. destruct (Z.eqb_spec i a) as [->|N].
    + destruct (Z.leb_spec a a), (Z.ltb_spec a b); cbn; try lia. f_equal. lia.
    + destruct (Z.leb_spec (a + 1) i), (Z.ltb_spec i b), (Z.leb_spec a i); cbn; try lia; auto. f_equal. lia.
Qed.

Lemma py_range_one a b : py_range a b 1 = zrange a b.
Proof.
  unfold py_range, zrange. change (1 <? 0) with false. cbn iota. rewrite Z.div_1_r. replace (b - a + 1 - 1) with (b - a) by lia.
  apply map_ext. intros i. lia.
Qed.
Lemma resolve1_all n : 0 <= n -> resolve1 n (Slice None None None) = Some (zrange 0 n).
Proof. intros L. cbn. rewrite py_range_one. reflexivity. Qed.
Lemma resolve1_part n a b : 0 <= a <= n -> 0 <= b <= n -> resolve1 n (Slice (Some a) (Some b) None) = Some (zrange a b).
Proof.
  intros L M. cbn. destruct (Z.ltb_spec a 0), (Z.ltb_spec b 0); try lia. rewrite !Z.min_l by lia. rewrite py_range_one. reflexivity.
Qed.

(** one axis: origin, extent, size *)
Record axis3 := Ax { o3 : Z; e3 : Z; n3 : Z }.
Definition ok3 (a : axis3) : Prop := 0 <= o3 a /\ 0 <= e3 a /\ o3 a + e3 a <= n3 a.

Lemma resolve_full axs : Forall ok3 axs ->
  resolve (map n3 axs) (compute_entries (repeat (Slice None None None) (length axs)) (map o3 axs) (map e3 axs)) =
  Some (map (fun a => zrange (o3 a) (o3 a + e3 a)) axs).
Proof.
  induction 1 as [|b l (H1 & H2 & H3) F IH]; [reflexivity|].
  cbn [length repeat map compute_entries resolve compute_entry or_default shift_index].
  rewrite resolve1_part by lia. rewrite IH. reflexivity.
Qed.
Lemma fill_colon (sh : list Z) : sh <> [] -> fill colon (length sh) = repeat (Slice None None None) (length sh).
Proof. destruct sh as [|n sh]; [intros N; destruct (N eq_refl)|]. intros _. unfold fill, colon. cbn [length]. rewrite Nat.sub_succ, Nat.sub_0_r. reflexivity. Qed.
Lemma view_colon axs : axs <> [] -> Forall ok3 axs ->
  view (map n3 axs) (map o3 axs) (map e3 axs) colon = Some (map (fun a => zrange (o3 a) (o3 a + e3 a)) axs).
Proof.
  intros N F. unfold view, compute_index. rewrite fill_colon by (destruct axs; [destruct (N eq_refl)|discriminate]).
  rewrite map_length. destruct (Nat.ltb_spec (length axs) (length colon)) as [L|_]; [destruct axs; [destruct (N eq_refl)|cbn in L; lia]|].
  apply resolve_full, F.
Qed.
Lemma resolve_colon sh : sh <> [] -> Forall (fun n => 0 <= n) sh -> resolve sh colon = Some (map (zrange 0) sh).
Proof. intros N F. destruct F as [|n l H F]; [destruct (N eq_refl)|]. unfold colon. cbn [resolve]. rewrite resolve1_all by exact H. reflexivity. Qed.

Lemma locate_part axs p : length p = length axs ->
  locate (map (fun a => zrange (o3 a) (o3 a + e3 a)) axs) p =
  if forallb (fun '(a, i) => (o3 a <=? i) && (i <? o3 a + e3 a)) (combine axs p)
  then Some (map (fun '(a, i) => i - o3 a) (combine axs p)) else None.
Proof.
  revert p. induction axs as [|a axs IH]; intros [|i p] L; try discriminate; [reflexivity|].
  cbn [map locate combine forallb]. rewrite index_zrange, IH by (cbn in L; lia).
  destruct ((o3 a <=? i) && (i <? o3 a + e3 a)); cbn [andb]; [|reflexivity]. destruct (forallb _ _); reflexivity.
Qed.

Lemma fits_rev_refl t : fits_rev t t = true.
Proof. induction t as [|n t IH]; [reflexivity|]. cbn. rewrite Z.eqb_refl, IH, Bool.orb_true_r. reflexivity. Qed.
Lemma fits_refl t : fits t t = true.
Proof. apply fits_rev_refl. Qed.
Lemma Forall2_rev {X Y} (P : X -> Y -> Prop) l m : Forall2 P l m -> Forall2 P (rev l) (rev m).
Proof. induction 1; cbn; [constructor|]. apply Forall2_app; auto. Qed.
Lemma spread_rev_same t k : Forall2 (fun n i => 0 <= i < n) t k -> spread_rev t k = k.
Proof. induction 1 as [|n i t k H F IH]; [reflexivity|]. cbn. rewrite IH. destruct (Z.eqb_spec n 1); f_equal. lia. Qed.
Lemma spread_same t k : within t k -> spread t k = k.
Proof. intros F. unfold spread. rewrite spread_rev_same by (apply Forall2_rev; exact F). apply rev_involutive. Qed.
Lemma spread_nil p : spread [] p = [].
Proof. unfold spread. cbn. destruct (rev p); reflexivity. Qed.

Lemma lens_part axs : Forall ok3 axs -> lens (map (fun a => zrange (o3 a) (o3 a + e3 a)) axs) = map e3 axs.
Proof.
  intros F. unfold lens. rewrite map_map. apply map_ext_in. intros a Ia. rewrite Forall_forall in F. destruct (F a Ia) as (_ & H & _).
  rewrite zrange_length. lia.
Qed.

(** positions inside the compute domain, and outside *)
Lemma locate_in axs p : within (map e3 axs) p ->
  locate (map (fun a => zrange (o3 a) (o3 a + e3 a)) axs) (plus (map o3 axs) p) = Some p.
Proof.
  revert p. induction axs as [|a axs IH]; intros p W; inversion W as [|? i ? q Hi W']; subst; [reflexivity|].
  unfold plus. cbn [map combine locate]. rewrite index_zrange. destruct (Z.leb_spec (o3 a) (o3 a + i)), (Z.ltb_spec (o3 a + i) (o3 a + e3 a)); try lia.
  cbn [andb]. change (map _ (combine (map o3 axs) q)) with (plus (map o3 axs) q). rewrite IH by exact W'. replace (o3 a + i - o3 a) with i by lia. reflexivity.
Qed.
Lemma locate_some axs p k : locate (map (fun a => zrange (o3 a) (o3 a + e3 a)) axs) p = Some k ->
  p = plus (map o3 axs) k /\ within (map e3 axs) k.
Proof.
  revert p k. induction axs as [|a axs IH]; intros [|i p] k E; cbn [map locate] in E; try discriminate.
  - injection E as <-. split; [reflexivity|constructor].
  - rewrite index_zrange in E. destruct (Z.leb_spec (o3 a) i), (Z.ltb_spec i (o3 a + e3 a)); cbn [andb] in E; try discriminate.
    destruct (locate _ p) as [r|] eqn:Er; [|discriminate]. injection E as <-. destruct (IH p r Er) as [-> W].
    split; [unfold plus; cbn; f_equal; lia|]. constructor; [lia|exact W].
Qed.

(** assigning an array of the very shape *)
Lemma assign_same {A} (a v : arr A) axs : Forall ok3 axs -> shape v = map e3 axs ->
  exists d, assign a (map (fun a => zrange (o3 a) (o3 a + e3 a)) axs) v = Some d /\ shape d = shape a /\ dt d = dt a /\
    (forall i, within (map e3 axs) i -> elt d (plus (map o3 axs) i) = elt v i) /\
    (forall p, (forall i, within (map e3 axs) i -> p <> plus (map o3 axs) i) -> elt d p = elt a p).
Proof.
  intros F E. unfold assign. rewrite lens_part by exact F. rewrite E, fits_refl. eexists. split; [reflexivity|].
  split; [reflexivity|]. split; [reflexivity|]. cbn [elt]. split.
  - intros i W. rewrite locate_in by exact W. rewrite spread_same by exact W. reflexivity.
  - intros p O. destruct (locate _ p) as [k|] eqn:El; [|reflexivity]. destruct (locate_some _ _ _ El) as [-> W]. destruct (O k W eq_refl).
Qed.
(** a number *)
Lemma assign_scalar {A} (a : arr A) axs x d : Forall ok3 axs ->
  exists r, assign a (map (fun a => zrange (o3 a) (o3 a + e3 a)) axs) (Arr [] (fun _ => x) d) = Some r /\ shape r = shape a /\ dt r = dt a /\
    (forall i, within (map e3 axs) i -> elt r (plus (map o3 axs) i) = x).
Proof.
  intros F. unfold assign. cbn [shape]. unfold fits. cbn [rev fits_rev]. eexists. split; [reflexivity|].
  split; [reflexivity|]. split; [reflexivity|]. cbn [elt]. intros i W. rewrite locate_in by exact W. reflexivity.
Qed.

(** the axes of a factory's quantities *)
Lemma axes_of s ds ns : sizes_ok s -> map (points s) ds = map Some ns ->
  exists axs, Forall ok3 axs /\ map o3 axs = get_origin s ds /\ get_extent s ds = Some (map e3 axs) /\ get_shape s ds = Some (map n3 axs) /\
    map e3 axs = ns /\ map o3 axs = map (before s) ds /\ map n3 axs = map (fun '(d, n) => before s d + n + behind s d) (combine ds ns).
Proof.
  intros (Hx & Hy & Hz & Hh & Hd). revert ns. unfold get_origin, get_extent, get_shape.
  induction ds as [|d ds IH]; intros [|n ns] E; try discriminate.
  - exists []. repeat split; try reflexivity. constructor.
  - cbn [map] in E. injection E as E1 E2. destruct (IH ns E2) as (axs & F & A1 & A2 & A3 & A4 & A5 & A6).
    assert (P : extent1 s d = Some n /\ 0 <= n).
    { destruct d as [[| |] []|m]; cbn in *; unfold one; try (injection E1 as <-; split; [f_equal|]; lia).
      split; [exact E1|apply (Hd m n E1)]. }
    assert (Q : shape1 s d = Some (before s d + n + behind s d)).
    { destruct d as [[| |] []|m]; cbn [shape1 before behind points cells] in *; try rewrite E1; try injection E1 as <-; destruct (fortran s); f_equal; lia. }
    destruct P as [P1 P2]. assert (B : origin1 s d = before s d) by (destruct d as [[| |] []|m]; reflexivity).
    assert (B0 : 0 <= before s d) by (destruct d as [[| |] []|m]; cbn; lia).
    assert (B1 : 0 <= behind s d) by (destruct d as [[| |] []|m]; cbn; destruct (fortran s); lia).
    exists (Ax (before s d) n (before s d + n + behind s d) :: axs). cbn [map combine all_some o3 e3 n3].
    split; [constructor; [unfold ok3; cbn; lia|exact F]|]. split; [rewrite A1, B; reflexivity|].
    split; [rewrite P1, A2; reflexivity|]. split; [rewrite Q, A3; reflexivity|]. split; [rewrite A4; reflexivity|].
    split; [rewrite A5; reflexivity|rewrite A6; reflexivity].
Qed.
