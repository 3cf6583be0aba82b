(** Proofs about MergeModel. *)
From Verif Require Import Base MergeModel.
From Coq Require Import ZArith Lia.

Section NodeInd.
  Variable P : node -> Prop.
  Hypothesis HT : forall t, P (Task t).
  Hypothesis HM : forall s r cs, Forall P cs -> P (Map s r cs).
  Hypothesis HI : forall c cs, Forall P cs -> P (If c cs).
  Fixpoint node_ind2 (n : node) : P n :=
    match n with
    | Task t => HT t
    | Map s r cs => HM s r cs ((fix go l : Forall P l := match l with [] => Forall_nil _ | x :: l' => Forall_cons x (node_ind2 x) (go l') end) cs)
    | If c cs => HI c cs ((fix go l : Forall P l := match l with [] => Forall_nil _ | x :: l' => Forall_cons x (node_ind2 x) (go l') end) cs)
    end.
End NodeInd.

Lemma existsb_false : forall {A} (f : A -> bool) l, existsb f l = false -> forall x, In x l -> f x = false.
Proof.
  intros A f l H x Hx. destruct (f x) eqn:E; auto. rewrite <- H. symmetry. apply existsb_exists. exists x; auto.
Qed.
Lemma flat_map_ext_in : forall {A B} (f g : A -> list B) l, (forall x, In x l -> f x = g x) -> flat_map f l = flat_map g l.
Proof.
  intros A B f g l H. induction l as [|a l IH]; cbn; auto. rewrite (H a), IH; auto; intros; try apply H; cbn; auto.
Qed.
Lemma flat_map_nil : forall {A B} (f : A -> list B) l, (forall x, In x l -> f x = []) -> flat_map f l = [].
Proof.
  intros A B f l H. induction l as [|a l IH]; cbn; auto. rewrite (H a), IH; auto; intros; try apply H; cbn; auto.
Qed.
Lemma flat_map_flat : forall {A B C} (f : A -> B) (g : B -> list C) l, flat_map g (map f l) = flat_map (fun x => g (f x)) l.
Proof. intros A B C f g l. induction l; cbn; congruence. Qed.

(** ** iterations *)
Lemma in_iterations : forall r k, r_step r >= 1 ->
  (In k (iterations r) <-> c_test (guard_cond "" r) k = true).
Proof.
  intros r k Hs. unfold iterations, guard_cond; cbn [c_test]. rewrite in_map_iff. split.
  - intros (n & <- & Hn). apply in_seq in Hn.
    assert (Z.of_nat n <= (r_hi r - r_lo r) / r_step r) by lia.
    assert (r_step r * ((r_hi r - r_lo r) / r_step r) <= r_hi r - r_lo r) by (apply Z.mul_div_le; lia).
    assert (Z.of_nat n * r_step r <= r_hi r - r_lo r) by nia.
    replace (r_lo r + Z.of_nat n * r_step r - r_lo r) with (Z.of_nat n * r_step r) by lia.
    rewrite Z_mod_mult. apply andb_true_intro; split; [apply andb_true_intro; split|]; try apply Z.leb_le; nia.
  - intros H. apply andb_prop in H as [H Hm]. apply andb_prop in H as [H1 H2].
    apply Z.leb_le in H1. apply Z.leb_le in H2. apply Z.eqb_eq in Hm.
    exists (Z.to_nat ((k - r_lo r) / r_step r)).
    assert (0 <= (k - r_lo r) / r_step r) by (apply Z.div_pos; lia).
    assert ((k - r_lo r) / r_step r <= (r_hi r - r_lo r) / r_step r) by (apply Z.div_le_mono; lia).
    split.
    + rewrite Z2Nat.id by lia. pose proof (Z.div_mod (k - r_lo r) (r_step r) ltac:(lia)). nia.
    + apply in_seq. lia.
Qed.
Lemma guard_cond_test : forall s s' r, c_test (guard_cond s r) = c_test (guard_cond s' r).
Proof. reflexivity. Qed.

Lemma iterations_step1 : forall lo hi, iterations (mkRange lo hi 1) = zrange lo (hi + 1).
Proof.
  intros lo hi. unfold iterations, zrange; cbn [r_lo r_hi r_step]. rewrite Z.div_1_r.
  replace (hi - lo + 1) with (hi + 1 - lo) by lia. apply map_ext. intros; lia.
Qed.

(** running through the merged range and skipping what is not an iteration runs through the iterations in order *)
Lemma flat_map_steps : forall {B} (f : Z -> list B) st n lo hi, st >= 1 -> lo <= hi + 1 ->
  (hi - lo) / st + 1 = Z.of_nat n ->
  flat_map (fun k => if (k <=? hi) && ((k - lo) mod st =? 0) then f k else []) (zrange lo (hi + 1)) =
  flat_map f (map (fun i => lo + Z.of_nat i * st) (seq 0 n)).
Proof.
  intros B f st n. induction n as [|n IH]; intros lo hi Hs Hle Hn.
  - cbn. assert (hi < lo).
    { destruct (Z_lt_le_dec hi lo); auto. pose proof (Z.div_pos (hi - lo) st ltac:(lia) ltac:(lia)). lia. }
    apply flat_map_nil. intros k Hk. apply in_zrange in Hk. lia.
  - assert (Hlo : lo <= hi).
    { destruct (Z_lt_le_dec hi lo) as [L|]; auto. exfalso.
      assert ((hi - lo) / st < 0) by (apply Z.div_lt_upper_bound; lia). lia. }
    assert (Hn' : (hi - (lo + st)) / st + 1 = Z.of_nat n).
    { replace (hi - (lo + st)) with ((hi - lo) + (-1) * st) by lia. rewrite Z.div_add by lia. lia. }
    change (seq 0 (S n)) with (0%nat :: seq 1 n). cbn [map flat_map]. rewrite <- seq_shift, map_map.
    replace (lo + Z.of_nat 0 * st) with lo by lia.
    rewrite zrange_cons by lia. cbn [flat_map].
    replace (lo <=? hi) with true by (symmetry; apply Z.leb_le; lia).
    replace (lo - lo) with 0 by lia. rewrite Z.mod_0_l by lia. cbn [andb Z.eqb]. f_equal.
    assert (E : map (fun x => lo + Z.of_nat (S x) * st) (seq 0 n) = map (fun i => lo + st + Z.of_nat i * st) (seq 0 n)).
    { apply map_ext. intros; lia. }
    rewrite E.
    destruct (Z_le_gt_dec (lo + st) (hi + 1)) as [Hm|Hm].
    + rewrite <- (IH (lo + st) hi Hs Hm Hn').
      rewrite (zrange_app (lo + 1) (lo + st) (hi + 1)) by lia. rewrite flat_map_app.
      rewrite flat_map_nil.
      * cbn [app]. apply flat_map_ext_in. intros k Hk.
        replace (k - (lo + st)) with ((k - lo) + (-1) * st) by lia. rewrite Z_mod_plus_full. reflexivity.
      * intros k Hk. apply in_zrange in Hk. rewrite (Z.mod_small (k - lo) st) by lia.
        replace (k - lo =? 0) with false by (symmetry; apply Z.eqb_neq; lia). rewrite andb_false_r. reflexivity.
    + assert (n = 0%nat).
      { assert ((hi - (lo + st)) / st < 0) by (apply Z.div_lt_upper_bound; lia). lia. }
      subst n. cbn. apply flat_map_nil. intros k Hk. apply in_zrange in Hk. rewrite (Z.mod_small (k - lo) st) by lia.
      replace (k - lo =? 0) with false by (symmetry; apply Z.eqb_neq; lia). rewrite andb_false_r. reflexivity.
Qed.

Lemma flat_map_guarded : forall {B} (f : Z -> list B) r lo hi s, r_step r >= 1 -> lo <= r_lo r -> r_hi r <= hi ->
  flat_map (fun k => if c_test (guard_cond s r) k then f k else []) (zrange lo (hi + 1)) = flat_map f (iterations r).
Proof.
  intros B f r lo hi s Hs Hlo Hhi. cbn [guard_cond c_test]. unfold iterations.
  destruct (Z_lt_le_dec (r_hi r) (r_lo r)) as [L|L].
  - replace (Z.to_nat ((r_hi r - r_lo r) / r_step r + 1)) with 0%nat.
    2:{ assert ((r_hi r - r_lo r) / r_step r < 0) by (apply Z.div_lt_upper_bound; lia). lia. }
    cbn. apply flat_map_nil. intros k _. destruct (r_lo r <=? k) eqn:E1; cbn; auto.
    destruct (k <=? r_hi r) eqn:E2; cbn; auto. apply Z.leb_le in E1. apply Z.leb_le in E2. lia.
  - assert (0 <= (r_hi r - r_lo r) / r_step r) by (apply Z.div_pos; lia).
    rewrite <- (flat_map_steps f (r_step r) _ (r_lo r) (r_hi r)); try lia.
    rewrite (zrange_app lo (r_lo r) (hi + 1)) by lia. rewrite (zrange_app (r_lo r) (r_hi r + 1) (hi + 1)) by lia.
    rewrite !flat_map_app. rewrite flat_map_nil.
    2:{ intros k Hk. apply in_zrange in Hk. replace (r_lo r <=? k) with false by (symmetry; apply Z.leb_gt; lia). reflexivity. }
    rewrite (flat_map_nil _ (zrange (r_hi r + 1) (hi + 1))).
    2:{ intros k Hk. apply in_zrange in Hk. replace (k <=? r_hi r) with false by (symmetry; apply Z.leb_gt; lia).
        rewrite andb_false_r. reflexivity. }
    rewrite app_nil_r. cbn [app]. apply flat_map_ext_in. intros k Hk. apply in_zrange in Hk.
    replace (r_lo r <=? k) with true by (symmetry; apply Z.leb_le; lia). reflexivity.
Qed.

(** ** guards *)
Lemma bind_same : forall e s k, bind_sym e s k s = Some k.
Proof. intros. unfold bind_sym. now rewrite String.eqb_refl. Qed.
Lemma bind_other : forall e s k x, x <> s -> bind_sym e s k x = e x.
Proof. intros. unfold bind_sym. destruct (String.eqb_spec x s); congruence. Qed.

Lemma range_eqb_eq : forall a b, range_eqb a b = true -> a = b.
Proof.
  intros [a1 a2 a3] [b1 b2 b3] H. unfold range_eqb in H; cbn in H. apply andb_prop in H as [H H3]. apply andb_prop in H as [H1 H2].
  apply Z.eqb_eq in H1. apply Z.eqb_eq in H2. apply Z.eqb_eq in H3. now subst.
Qed.

(** the children of a guarded map run exactly when the guard holds *)
Lemma guard_children : forall s m r n e k, is_map n = true ->
  existsb (loops_over s) (children_of n) = false ->
  e s = Some k -> (range_eqb m r = true -> c_test (guard_cond s r) k = true) ->
  traces e (children_of (guard s m r n)) = if c_test (guard_cond s r) k then traces e (children_of n) else [].
Proof.
  intros s m r n. unfold traces. induction n as [t|p pr cs IH|c cs IH] using node_ind2; intros e k Hmap Hl He Hr; try discriminate.
  cbn [guard children_of] in *. destruct (forallb is_map cs) eqn:EM.
  - cbn [children_of]. rewrite flat_map_flat.
    assert (A : forall x, In x cs -> trace e (guard s m r x) = if c_test (guard_cond s r) k then trace e x else []).
    { intros x Hx. pose proof (existsb_false _ _ Hl x Hx) as Hlx.
      rewrite forallb_forall in EM. specialize (EM x Hx). rewrite Forall_forall in IH. specialize (IH x Hx).
      destruct x as [|q qr qcs|]; try discriminate.
      cbn [loops_over] in Hlx. apply orb_false_elim in Hlx as [Hq Hlx]. apply String.eqb_neq in Hq.
      assert (B : forall k', flat_map (trace (bind_sym e q k')) (children_of (guard s m r (Map q qr qcs))) =
                  if c_test (guard_cond s r) k then flat_map (trace (bind_sym e q k')) qcs else []).
      { intros k'. apply IH; auto. rewrite bind_other; auto. }
      assert (C : guard s m r (Map q qr qcs) = Map q qr (children_of (guard s m r (Map q qr qcs)))).
      { cbn [guard]. destruct (forallb is_map qcs); auto. destruct (range_eqb m r); auto. }
      rewrite C. cbn [trace]. destruct (c_test (guard_cond s r) k).
      - apply flat_map_ext_in. intros k' _. apply B.
      - apply flat_map_nil. intros k' _. apply B. }
    destruct (c_test (guard_cond s r) k) eqn:ET.
    + apply flat_map_ext_in. intros x Hx. apply A; auto.
    + apply flat_map_nil. intros x Hx. apply A; auto.
  - destruct (range_eqb m r) eqn:ER.
    + cbn [children_of]. rewrite Hr; auto.
    + cbn [children_of flat_map trace]. cbn [guard_cond c_sym]. rewrite He. rewrite app_nil_r. reflexivity.
Qed.

(** guards test only the symbol of the merged loop *)
Lemma guard_facts : forall s m r n,
  (forall x, x <> s -> tests_or_computes_with x (guard s m r n) = tests_or_computes_with x n) /\
  (forall x, indexes_with x (guard s m r n) = indexes_with x n) /\
  (forall x, loops_over x (guard s m r n) = loops_over x n).
Proof.
  intros s m r n. induction n as [t|p pr cs IH|c cs IH] using node_ind2; try (cbn [guard]; auto; fail).
  cbn [guard]. destruct (forallb is_map cs).
  - cbn [tests_or_computes_with indexes_with loops_over].
    assert (L : forall f, (forall x, In x cs -> f (guard s m r x) = f x) -> existsb f (map (guard s m r) cs) = existsb f cs).
    { intros f. clear. induction cs as [|c cs IH]; intros H; cbn; auto. rewrite H, IH; cbn; auto. intros; apply H; cbn; auto. }
    rewrite Forall_forall in IH. repeat split; intros.
    + apply L. intros y Hy. apply (IH y Hy); auto.
    + apply L. intros y Hy. apply (IH y Hy); auto.
    + f_equal. apply L. intros y Hy. apply (IH y Hy); auto.
  - destruct (range_eqb m r); auto.
    cbn [tests_or_computes_with indexes_with loops_over existsb]. repeat split; intros; rewrite ?orb_false_r; auto.
    cbn [guard_cond c_sym]. destruct (String.eqb_spec x s); try congruence. reflexivity.
Qed.

(** ** renaming *)
Lemma all_some_ext : forall {A B} (f g : A -> option B) l, (forall x, In x l -> f x = g x) -> all_some (map f l) = all_some (map g l).
Proof. intros A B f g l H. f_equal. apply map_ext_in. auto. Qed.

Lemma eval_ext : forall e e' i, (forall x, idx_uses x i = true -> e x = e' x) -> eval e i = eval e' i.
Proof.
  intros e e' [[s|] c] H; unfold eval; cbn; auto. rewrite (H s); auto. unfold idx_uses; cbn. apply String.eqb_refl.
Qed.
Lemma resolve_ext : forall e e' m, (forall x, memlet_uses x m = true -> e x = e' x) -> resolve e m = resolve e' m.
Proof.
  intros e e' m H. unfold resolve. f_equal. apply all_some_ext. intros p Hp.
  rewrite (eval_ext e e' (fst p)), (eval_ext e e' (snd p)); auto; intros x Hx; apply H; apply existsb_exists; exists p; split; auto; rewrite Hx; auto using orb_true_r.
Qed.

(** a trace depends only on the symbols the tree mentions *)
Lemma trace_ext : forall n e e',
  (forall x, indexes_with x n = true \/ tests_or_computes_with x n = true -> e x = e' x) -> trace e n = trace e' n.
Proof.
  induction n as [t|p r cs IH|c cs IH] using node_ind2; intros e e' H.
  - cbn [trace]. f_equal. unfold run_task. cbn [indexes_with tests_or_computes_with] in H.
    rewrite (all_some_ext (resolve e) (resolve e') (t_in t)), (all_some_ext (resolve e) (resolve e') (t_out t)), (all_some_ext e e' (t_code t)); auto.
    + intros x Hx. apply H. right. apply existsb_exists. exists x. split; auto. apply String.eqb_refl.
    + intros m Hm. apply resolve_ext. intros x Hx. apply H. left. apply existsb_exists. exists m. split; auto. apply in_or_app; auto.
    + intros m Hm. apply resolve_ext. intros x Hx. apply H. left. apply existsb_exists. exists m. split; auto. apply in_or_app; auto.
  - cbn [trace]. apply flat_map_ext_in. intros k _. apply flat_map_ext_in. intros y Hy. rewrite Forall_forall in IH. apply IH; auto.
    intros x Hx. unfold bind_sym. destruct (String.eqb x p); auto. apply H. cbn [indexes_with tests_or_computes_with].
    destruct Hx as [Hx|Hx]; [left|right]; apply existsb_exists; exists y; auto.
  - cbn [trace]. rewrite (H (c_sym c)). 2:{ right. cbn. now rewrite String.eqb_refl. }
    destruct (e' (c_sym c)); auto. destruct (c_test c z); auto. apply flat_map_ext_in. intros y Hy. rewrite Forall_forall in IH. apply IH; auto.
    intros x Hx. apply H. cbn [indexes_with tests_or_computes_with].
    destruct Hx as [Hx|Hx]; [left|right; apply orb_true_iff; right]; apply existsb_exists; exists y; auto.
Qed.

Lemma eval_rename : forall old new e e' i, (forall x, x <> old -> e' x = e x) -> e old = e new -> old <> new ->
  eval e' (rename_idx old new i) = eval e i.
Proof.
  intros old new e e' [[s|] c] H H2 Hn; unfold eval, rename_idx; cbn; auto.
  destruct (String.eqb_spec s old) as [E|E]; [subst s|].
  - rewrite H, H2; auto.
  - rewrite H; auto.
Qed.
Lemma resolve_rename : forall old new e e' m, (forall x, x <> old -> e' x = e x) -> e old = e new -> old <> new ->
  resolve e' (rename_memlet old new m) = resolve e m.
Proof.
  intros. unfold resolve, rename_memlet; cbn [m_data m_sub]. rewrite map_map. f_equal. apply all_some_ext. intros p _. cbn [fst snd].
  now rewrite !(eval_rename old new e e').
Qed.
Lemma trace_rename : forall old new n e e', old <> new ->
  (forall x, x <> old -> e' x = e x) -> e old = e new ->
  tests_or_computes_with old n = false -> loops_over old n = false -> loops_over new n = false ->
  trace e' (rename old new n) = trace e n.
Proof.
  intros old new n. induction n as [t|p r cs IH|c cs IH] using node_ind2; intros e e' Hon He Heq Ht Ho Hn.
  - cbn [rename trace]. f_equal. unfold run_task, rename_task; cbn [t_in t_out t_code t_id]. rewrite !map_map.
    rewrite (all_some_ext (fun x => resolve e' (rename_memlet old new x)) (resolve e) (t_in t)) by (intros; now apply resolve_rename).
    rewrite (all_some_ext (fun x => resolve e' (rename_memlet old new x)) (resolve e) (t_out t)) by (intros; now apply resolve_rename).
    rewrite (all_some_ext e' e (t_code t)); auto. intros x Hx. apply He. intros ->. cbn in Ht.
    pose proof (existsb_false _ _ Ht old Hx) as F. rewrite String.eqb_refl in F. discriminate.
  - cbn [rename]. cbn [loops_over] in Ho, Hn. apply orb_false_elim in Ho as [Hop Ho]. apply orb_false_elim in Hn as [Hnp Hn].
    apply String.eqb_neq in Hop. apply String.eqb_neq in Hnp.
    destruct (String.eqb_spec p old) as [E|E]; [congruence|].
    cbn [trace]. apply flat_map_ext_in. intros k _. rewrite flat_map_flat. apply flat_map_ext_in. intros y Hy.
    rewrite Forall_forall in IH. apply IH; auto.
    + intros x Hx. unfold bind_sym. destruct (String.eqb x p); auto.
    + rewrite !bind_other by auto. auto.
    + apply (existsb_false _ _ Ht y Hy).
    + apply (existsb_false _ _ Ho y Hy).
    + apply (existsb_false _ _ Hn y Hy).
  - cbn [rename trace]. cbn [tests_or_computes_with] in Ht. apply orb_false_elim in Ht as [Hc Ht]. apply String.eqb_neq in Hc.
    rewrite He by auto. destruct (e (c_sym c)); auto. destruct (c_test c z); auto.
    rewrite flat_map_flat. apply flat_map_ext_in. intros y Hy.
    rewrite Forall_forall in IH. cbn [loops_over] in Ho, Hn. apply IH; auto; eapply existsb_false; eauto.
Qed.

(** ** the merged loop *)
Record mergeable_bodies (s1 s2 : string) (cs1 cs2 : list node) : Prop := {
  (* neither body loops over one of the two symbols again *)
  mb_loops : forall n, In n (cs1 ++ cs2) -> loops_over s1 n = false /\ loops_over s2 n = false;
  (* each body only mentions the symbol of its own loop *)
  mb_first : s1 <> s2 -> forall n, In n cs1 -> indexes_with s2 n = false /\ tests_or_computes_with s2 n = false;
  mb_second : s1 <> s2 -> forall n, In n cs2 -> indexes_with s1 n = false /\ tests_or_computes_with s1 n = false;
  (* and the second uses it only to index memory *)
  mb_plain : s1 <> s2 -> forall n, In n cs2 -> tests_or_computes_with s2 n = false }.

(** what C42 asks for: at each point of the merged range, the iteration of the first loop, if it has one there, then that of the second *)
Definition interleaved (e : env) (s1 s2 : string) (r1 r2 : range) (cs1 cs2 : list node) (k : Z) : list (option event) :=
  (if c_test (guard_cond s1 r1) k then traces (bind_sym e s1 k) cs1 else []) ++
  (if c_test (guard_cond s2 r2) k then traces (bind_sym e s2 k) cs2 else []).

Lemma traces_ext : forall l e e',
  (forall n x, In n l -> indexes_with x n = true \/ tests_or_computes_with x n = true -> e x = e' x) -> traces e l = traces e' l.
Proof. intros l e e' H. apply flat_map_ext_in. intros n Hn. apply trace_ext. intros x Hx. eapply H; eauto. Qed.

Lemma loops_existsb : forall s cs, (forall n, In n cs -> loops_over s n = false) -> existsb (loops_over s) cs = false.
Proof.
  intros s cs H. destruct (existsb (loops_over s) cs) eqn:E; auto. apply existsb_exists in E as (n & Hn & E). rewrite H in E; auto.
Qed.
Lemma guard_children_fact : forall s m r p pr cs n, In n (children_of (guard s m r (Map p pr cs))) ->
  (forall x, x <> s -> (forall n', In n' cs -> tests_or_computes_with x n' = false) -> tests_or_computes_with x n = false) /\
  (forall x, (forall n', In n' cs -> indexes_with x n' = false) -> indexes_with x n = false) /\
  (forall x, (forall n', In n' cs -> loops_over x n' = false) -> loops_over x n = false).
Proof.
  intros s m r p pr cs n Hn.
  assert (G : exists b, guard s m r (Map p pr cs) = Map p pr b /\ In n b).
  { cbn [guard] in *. destruct (forallb is_map cs); [eexists; split; [reflexivity|auto]|]. destruct (range_eqb m r); eexists; split; try reflexivity; auto. }
  destruct G as (b & Eg & Hb). pose proof (guard_facts s m r (Map p pr cs)) as (F1 & F2 & F3). rewrite Eg in F1, F2, F3.
  cbn [tests_or_computes_with indexes_with loops_over] in F1, F2, F3.
  assert (K : forall f : node -> bool, (forall n', In n' cs -> f n' = false) -> existsb f b = existsb f cs -> f n = false).
  { intros f Hf E. destruct (f n) eqn:En; auto. assert (existsb f b = true) by (apply existsb_exists; exists n; auto).
    rewrite E in H. apply existsb_exists in H as (y & Hy & E2). rewrite Hf in E2; auto. }
  repeat split; intros x.
  - intros Hx H. apply (K (tests_or_computes_with x)); auto.
  - intros H. apply (K (indexes_with x)); auto.
  - intros H. destruct (String.eqb_spec x p) as [E|E].
    + subst x. destruct (loops_over p n) eqn:El; auto. exfalso.
      (* the two bodies have the same loops whatever the parameter is called *)
      cbn [guard] in Eg. destruct (forallb is_map cs).
      * injection Eg as <-. apply in_map_iff in Hb as (y & <- & Hy). destruct (guard_facts s m r y) as (_ & _ & F). rewrite F, H in El; auto. discriminate.
      * destruct (range_eqb m r); injection Eg as <-; [rewrite H in El; auto; discriminate|].
        destruct Hb as [<-|[]]. cbn [loops_over] in El. apply existsb_exists in El as (y & Hy & El). rewrite H in El; auto. discriminate.
    + apply (K (loops_over x)); auto. specialize (F3 x). destruct (String.eqb_spec x p); try congruence. exact F3.
Qed.

Lemma in_merged_test : forall m r s k, r_step m = 1 -> range_eqb m r = true -> In k (iterations m) -> c_test (guard_cond s r) k = true.
Proof.
  intros m r s k Hs E Hk. apply range_eqb_eq in E. subst r. rewrite (guard_cond_test s ""). apply in_iterations; auto. lia.
Qed.

Theorem merge_body : forall a s1 r1 cs1 s2 r2 cs2 m,
  merge (Map s1 r1 cs1) (Map s2 r2 cs2) a = Some m ->
  mergeable_bodies s1 s2 cs1 cs2 ->
  exists cs, m = Map s1 (merged_range r1 r2) cs /\
    (forall e k, In k (iterations (merged_range r1 r2)) -> traces (bind_sym e s1 k) cs = interleaved e s1 s2 r1 r2 cs1 cs2 k).
Proof.
  intros a s1 r1 cs1 s2 r2 cs2 m Hm [ML MF MS MP]. unfold merge in Hm. cbv zeta in Hm.
  destruct (can_merge _ _ _); try discriminate. injection Hm as <-.
  set (mr := merged_range r1 r2) in *. assert (Hs : r_step mr = 1) by reflexivity.
  assert (L11 : existsb (loops_over s1) (children_of (Map s1 r1 cs1)) = false)
    by (apply loops_existsb; intros n Hn; apply ML; apply in_or_app; auto).
  assert (L12 : existsb (loops_over s1) (children_of (Map s2 r2 cs2)) = false)
    by (apply loops_existsb; intros n Hn; apply ML; apply in_or_app; auto).
  destruct (String.eqb_spec s2 s1) as [E|E].
  - subst s2. eexists; split; [reflexivity|]. intros e k Hk. unfold interleaved, traces at 1.
    rewrite flat_map_app. f_equal.
    + apply (guard_children s1 mr r1 (Map s1 r1 cs1) (bind_sym e s1 k) k); auto using bind_same. intros; eapply in_merged_test; eauto.
    + apply (guard_children s1 mr r2 (Map s1 r2 cs2) (bind_sym e s1 k) k); auto using bind_same. intros; eapply in_merged_test; eauto.
  - cbn [rename]. destruct (String.eqb_spec s1 s2) as [E2|_]; [congruence|].
    eexists; split; [reflexivity|]. intros e k Hk. unfold interleaved, traces at 1. rewrite flat_map_flat.
    set (e1 := bind_sym e s1 k). set (e2 := bind_sym e1 s2 k).
    assert (R : forall n, In n (children_of (guard s1 mr r1 (Map s1 r1 cs1)) ++ children_of (guard s1 mr r2 (Map s2 r2 cs2))) ->
                trace e1 (rename s2 s1 n) = trace e2 n).
    { intros n Hn.
      assert (T : tests_or_computes_with s2 n = false /\ loops_over s2 n = false /\ loops_over s1 n = false).
      { apply in_app_or in Hn as [Hn|Hn]; apply guard_children_fact in Hn as (F1 & F2 & F3); split.
        - apply F1; auto. intros; apply MF; auto.
        - split; apply F3; intros; apply ML; apply in_or_app; auto.
        - apply F1; auto.
        - split; apply F3; intros; apply ML; apply in_or_app; auto. }
      destruct T as (T1 & T2 & T3). apply trace_rename; auto.
      - intros x Hx. unfold e2. rewrite bind_other; auto.
      - unfold e2. rewrite bind_same, bind_other by congruence. unfold e1. now rewrite bind_same. }
    transitivity (traces e2 (children_of (guard s1 mr r1 (Map s1 r1 cs1)) ++ children_of (guard s1 mr r2 (Map s2 r2 cs2)))).
    { apply flat_map_ext_in. exact R. }
    unfold traces at 1. rewrite flat_map_app.
    assert (Ee : e2 s1 = Some k) by (unfold e2; rewrite bind_other by congruence; apply bind_same).
    f_equal.
    + change (flat_map (trace e2) (children_of (guard s1 mr r1 (Map s1 r1 cs1)))) with (traces e2 (children_of (guard s1 mr r1 (Map s1 r1 cs1)))).
      rewrite (guard_children s1 mr r1 (Map s1 r1 cs1) e2 k); auto. 2:{ intros; eapply in_merged_test; eauto. }
      destruct (c_test (guard_cond s1 r1) k); auto. cbn [children_of]. apply traces_ext. intros n x Hn Hx.
      unfold e2. apply bind_other. intros ->. destruct (MF (not_eq_sym E) n Hn) as [A B]. rewrite A, B in Hx. destruct Hx; discriminate.
    + change (flat_map (trace e2) (children_of (guard s1 mr r2 (Map s2 r2 cs2)))) with (traces e2 (children_of (guard s1 mr r2 (Map s2 r2 cs2)))).
      rewrite (guard_children s1 mr r2 (Map s2 r2 cs2) e2 k); auto. 2:{ intros; eapply in_merged_test; eauto. }
      rewrite (guard_cond_test s1 s2).
      destruct (c_test (guard_cond s2 r2) k); auto. cbn [children_of]. apply traces_ext. intros n x Hn Hx.
      unfold e2. unfold bind_sym. destruct (String.eqb_spec x s2); auto. unfold e1. apply bind_other. intros ->.
      destruct (MS (not_eq_sym E) n Hn) as [A B]. rewrite A, B in Hx. destruct Hx; discriminate.
Qed.

Theorem merge_trace : forall a s1 r1 cs1 s2 r2 cs2 m e,
  merge (Map s1 r1 cs1) (Map s2 r2 cs2) a = Some m ->
  mergeable_bodies s1 s2 cs1 cs2 ->
  trace e m = flat_map (interleaved e s1 s2 r1 r2 cs1 cs2) (iterations (merged_range r1 r2)).
Proof.
  intros. destruct (merge_body _ _ _ _ _ _ _ _ H H0) as (cs & -> & E). cbn [trace]. apply flat_map_ext_in. intros k Hk. now apply E.
Qed.

(** ** projections *)
Lemma filter_flat_map : forall {A B} (p : B -> bool) (f : A -> list B) l, filter p (flat_map f l) = flat_map (fun x => filter p (f x)) l.
Proof. intros A B p f l. induction l; cbn; auto. rewrite filter_app. congruence. Qed.
Lemma filter_true : forall {A} (p : A -> bool) l, (forall x, In x l -> p x = true) -> filter p l = l.
Proof. intros A p l H. induction l as [|a l IH]; cbn; auto. rewrite (H a), IH; cbn; auto. intros; apply H; cbn; auto. Qed.
Lemma filter_false : forall {A} (p : A -> bool) l, (forall x, In x l -> p x = false) -> filter p l = [].
Proof. intros A p l H. induction l as [|a l IH]; cbn; auto. rewrite (H a), IH; cbn; auto. intros; apply H; cbn; auto. Qed.
Lemma trace_map : forall e s r cs, trace e (Map s r cs) = flat_map (fun k => traces (bind_sym e s k) cs) (iterations r).
Proof. reflexivity. Qed.
Lemma in_guarded : forall e s r cs k x, r_step r >= 1 -> In x (if c_test (guard_cond s r) k then traces (bind_sym e s k) cs else []) ->
  In x (trace e (Map s r cs)).
Proof.
  intros e s r cs k x Hs H. destruct (c_test (guard_cond s r) k) eqn:E; [|destruct H]. rewrite trace_map. apply in_flat_map. exists k. split; auto.
  apply in_iterations; auto.
Qed.
Lemma merge_select : forall a s1 r1 cs1 s2 r2 cs2 m e (p : option event -> bool),
  merge (Map s1 r1 cs1) (Map s2 r2 cs2) a = Some m ->
  mergeable_bodies s1 s2 cs1 cs2 -> r_step r1 >= 1 -> r_step r2 >= 1 ->
  (forall x, In x (trace e (Map s1 r1 cs1)) -> p x = true) -> (forall x, In x (trace e (Map s2 r2 cs2)) -> p x = false) ->
  filter p (trace e m) = trace e (Map s1 r1 cs1) /\ filter (fun x => negb (p x)) (trace e m) = trace e (Map s2 r2 cs2).
Proof.
  intros a s1 r1 cs1 s2 r2 cs2 m e p Hm Hb S1 S2 P1 P2. rewrite (merge_trace _ _ _ _ _ _ _ _ e Hm Hb). rewrite !filter_flat_map.
  change (merged_range r1 r2) with (mkRange (Z.min (r_lo r1) (r_lo r2)) (Z.max (r_hi r1) (r_hi r2)) 1). rewrite iterations_step1.
  rewrite !trace_map. split.
  - rewrite <- (flat_map_guarded _ r1 (Z.min (r_lo r1) (r_lo r2)) (Z.max (r_hi r1) (r_hi r2)) s1) by lia.
    apply flat_map_ext_in. intros k _. unfold interleaved. rewrite filter_app.
    rewrite filter_true by (intros x Hx; apply P1; eapply in_guarded; eauto).
    rewrite filter_false by (intros x Hx; apply P2; eapply in_guarded; eauto). apply app_nil_r.
  - rewrite <- (flat_map_guarded _ r2 (Z.min (r_lo r1) (r_lo r2)) (Z.max (r_hi r1) (r_hi r2)) s2) by lia.
    apply flat_map_ext_in. intros k _. unfold interleaved. rewrite filter_app.
    rewrite filter_false by (intros x Hx; rewrite P1; auto; eapply in_guarded; eauto).
    rewrite filter_true by (intros x Hx; rewrite P2; auto; eapply in_guarded; eauto). reflexivity.
Qed.
