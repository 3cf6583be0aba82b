(** Proofs about the buffer pool. *)
From Coq Require Import Permutation.
From Verif Require Import Base PoolModel.

Section Proofs.
  Context {K : Type} (K_dec : forall a b : K, {a = b} + {a <> b}).
  Notation pool := (@pool K). Notation st := (@st K). Notation op := (@op K).

  (** the buffers held [h] and cached are all different, were all allocated, and have the keys they are listed under *)
  Definition good (h : list (K * nat)) (p : pool) : Prop :=
    NoDup (map snd (h ++ cache p)) /\ forall k b, In (k, b) (h ++ cache p) -> key_of p b = k /\ (b < fresh p)%nat.

  Lemma good_perm h h' p : Permutation h h' -> good h p -> good h' p.
  Proof.
    intros P [G1 G2]. assert (P' : Permutation (h ++ cache p) (h' ++ cache p)) by (apply Permutation_app_tail; auto). split.
    - eapply Permutation_NoDup; [|exact G1]. apply Permutation_map. auto.
    - intros k b I. apply G2. eapply Permutation_in; [apply Permutation_sym; exact P'|auto].
  Qed.

  Lemma take_perm k (c : list (K * nat)) b r : take K_dec k c = Some (b, r) -> Permutation c ((k, b) :: r).
  Proof.
    revert b r. induction c as [|[k' b'] c IH]; intros b r H; cbn in H; [discriminate|].
    destruct (K_dec k k') as [->|N]; [inversion H; subst; auto|].
    destruct (take K_dec k c) as [[x y]|]; [|discriminate]. inversion H; subst. specialize (IH _ _ eq_refl).
    rewrite IH. apply perm_swap.
  Qed.

  Lemma pop_good k h p : good h p -> let '(b, p') := pop K_dec k p in good ((k, b) :: h) p'.
  Proof.
    intros [G1 G2]. unfold pop. destruct (take K_dec k (cache p)) as [[b c]|] eqn:E.
    - apply take_perm in E. assert (P : Permutation (h ++ cache p) (((k, b) :: h) ++ c)) by (rewrite E; cbn; symmetry; apply Permutation_middle).
      split; cbn [cache key_of fresh].
      + eapply Permutation_NoDup; [apply Permutation_map; exact P|auto].
      + intros k' b' I. apply G2. eapply Permutation_in; [apply Permutation_sym; exact P|auto].
    - assert (NF : forall k' b', In (k', b') (h ++ cache p) -> b' <> fresh p) by (intros k' b' I; apply G2 in I; lia).
      split; cbn [cache key_of fresh app map snd].
      + constructor; auto. intros I. apply in_map_iff in I. destruct I as ([k' b'] & E1 & I). cbn in E1. subst. apply NF in I. auto.
      + intros k' b' [I|I].
        * inversion I; subst. rewrite Nat.eqb_refl. auto.
        * destruct (G2 _ _ I) as [H1 H2]. destruct (Nat.eqb_spec b' (fresh p)); [lia|]. auto.
  Qed.

  Lemma push_good k b h p : good ((k, b) :: h) p -> good h (push b p).
  Proof.
    intros [G1 G2]. assert (E : key_of p b = k) by (apply (G2 k b); left; auto). unfold push. rewrite E.
    assert (P : Permutation (((k, b) :: h) ++ cache p) (h ++ (k, b) :: cache p)) by (cbn; apply Permutation_middle).
    split; cbn [cache key_of fresh].
    - eapply Permutation_NoDup; [apply Permutation_map; exact P|auto].
    - intros k' b' I. apply G2. eapply Permutation_in; [apply Permutation_sym; exact P|auto].
  Qed.

  Lemma drop_good k b h p : good ((k, b) :: h) p -> good h p.
  Proof. intros [G1 G2]. split; [inversion G1; auto|]. intros; apply G2; right; auto. Qed.

  Lemma pop_all_good ks h p : good h p -> let '(bs, p') := pop_all K_dec ks p in good (bs ++ h) p'.
  Proof.
    revert h p. induction ks as [|k ks IH]; intros h p G; cbn [pop_all]; auto.
    pose proof (pop_good k h p G) as G1. destruct (pop K_dec k p) as [b p1].
    pose proof (IH _ _ G1) as G2. destruct (pop_all K_dec ks p1) as [bs p2].
    eapply good_perm; [|exact G2]. symmetry. cbn. apply Permutation_middle.
  Qed.

  Lemma push_all_good bs h p : good (bs ++ h) p -> good h (push_all bs p).
  Proof.
    unfold push_all. revert p. induction bs as [|[k b] bs IH]; intros p G; cbn [fold_left]; auto. apply IH. apply (push_good k). exact G.
  Qed.

  Lemma replace_split i (c c' : client (K := K)) l : nth_error l i = Some c ->
    exists l1 l2, l = l1 ++ c :: l2 /\ replace i c' l = l1 ++ c' :: l2.
  Proof.
    revert l. induction i as [|i IH]; intros [|x l] H; try discriminate; cbn in *.
    - inversion H; subst. exists [], l. auto.
    - destruct (IH _ H) as (l1 & l2 & -> & ->). exists (x :: l1), l2. auto.
  Qed.

  Lemma in_use_app (p : pool) l1 l2 : in_use (mkSt p (l1 ++ l2)) = in_use (mkSt p l1) ++ in_use (mkSt p l2).
  Proof. apply flat_map_app. Qed.

  Definition ok (s : st) : Prop := good (in_use s) (pl s).

  Lemma replace_use i c c' (s : st) p : nth_error (clients s) i = Some c ->
    exists rest, Permutation (in_use s) (holds c ++ rest) /\ Permutation (in_use (mkSt p (replace i c' (clients s)))) (holds c' ++ rest).
  Proof.
    intros H. destruct (replace_split i c c' _ H) as (l1 & l2 & E1 & E2). exists (flat_map holds l1 ++ flat_map holds l2).
    unfold in_use. cbn [clients]. rewrite E2, E1, !flat_map_app. cbn [flat_map]. split; rewrite !app_assoc; apply Permutation_app_tail, Permutation_app_comm.
  Qed.

  Lemma waited_mono (s : st) o : waited_once (step K_dec o s) -> waited_once s.
  Proof.
    intros W i bs w H. destruct o; cbn [step] in W.
    - destruct (pop _ _ _) as [a p1], (pop K_dec k p1) as [b p2]. apply (W i bs). cbn [clients]. rewrite nth_error_app1; auto. apply nth_error_Some. congruence.
    - destruct (nth_error (clients s) i0) as [[k a b| |]|] eqn:E; try (eapply W; eauto; fail).
      apply (W i bs). cbn [clients]. destruct (replace_split _ _ (Transformer k None None) _ E) as (l1 & l2 & E1 & E2). rewrite E2. rewrite E1 in H.
      destruct (Nat.lt_ge_cases i (length l1)); [rewrite nth_error_app1 in * by auto; auto|]. rewrite nth_error_app2 in * by auto.
      destruct (i - length l1)%nat; cbn in *; [discriminate|auto].
    - destruct (pop _ _ _) as [a p1]. apply (W i bs). cbn [clients]. rewrite nth_error_app1; auto. apply nth_error_Some. congruence.
    - destruct (nth_error (clients s) i0) as [[ |k a [] |]|] eqn:E; try (eapply W; eauto; fail).
      apply (W i bs). cbn [clients]. destruct (replace_split _ _ (Context k a false) _ E) as (l1 & l2 & E1 & E2). rewrite E2. rewrite E1 in H.
      destruct (Nat.lt_ge_cases i (length l1)); [rewrite nth_error_app1 in * by auto; auto|]. rewrite nth_error_app2 in * by auto.
      destruct (i - length l1)%nat; cbn in *; [discriminate|auto].
    - destruct (pop_all _ _ _) as [a p1]. apply (W i bs). cbn [clients]. rewrite nth_error_app1; auto. apply nth_error_Some. congruence.
    - destruct (nth_error (clients s) i0) as [[ | |bs' w']|] eqn:E; try (eapply W; eauto; fail).
      destruct (replace_split _ _ (Request bs' (S w')) _ E) as (l1 & l2 & E1 & E2). unfold waited_once in W. cbn [clients] in W. rewrite E2 in W. rewrite E1 in H.
      destruct (Nat.lt_ge_cases i (length l1)); [apply (W i bs); rewrite nth_error_app1 in * by auto; auto|]. rewrite nth_error_app2 in H by auto.
      destruct (i - length l1)%nat eqn:Ei; cbn in H.
      + inversion H; subst. specialize (W i bs (S w)). rewrite nth_error_app2, Ei in W by auto. specialize (W eq_refl). lia.
      + apply (W i bs). rewrite nth_error_app2, Ei by auto. cbn. auto.
  Qed.

  Lemma step_ok s o : waited_once (step K_dec o s) -> ok s -> ok (step K_dec o s).
  Proof.
    unfold ok. intros W G. destruct o; cbn [step].
    - pose proof (pop_good k _ _ G) as G1. destruct (pop K_dec k (pl s)) as [a p1].
      pose proof (pop_good k _ _ G1) as G2. destruct (pop K_dec k p1) as [b p2]. cbn [pl].
      eapply good_perm; [|exact G2]. rewrite in_use_app. cbn. rewrite Permutation_app_comm. apply perm_swap.
    - destruct (nth_error (clients s) i) as [[k a b| |]|] eqn:E; auto.
      destruct (replace_use i _ (Transformer k None None) s (push_opt b (push_opt a (pl s))) E) as (rest & P1 & P2).
      cbn [pl]. eapply good_perm; [symmetry; exact P2|]. apply (good_perm _ _ _ P1) in G. clear -G.
      destruct a as [a|], b as [b|]; cbn in *; auto; repeat (eapply push_good; eauto).
    - pose proof (pop_good k _ _ G) as G1. destruct (pop K_dec k (pl s)) as [a p1]. cbn [pl].
      eapply good_perm; [|exact G1]. rewrite in_use_app. cbn. apply (Permutation_cons_append).
    - destruct (nth_error (clients s) i) as [[ |k a [] |]|] eqn:E; auto.
      destruct (replace_use i _ (Context k a false) s (if normal then push a (pl s) else pl s) E) as (rest & P1 & P2).
      cbn [pl]. eapply good_perm; [symmetry; exact P2|]. apply (good_perm _ _ _ P1) in G. cbn in *.
      destruct normal; [eapply push_good; eauto|eapply drop_good; eauto].
    - pose proof (pop_all_good ks _ _ G) as G1. destruct (pop_all K_dec ks (pl s)) as [bs p1]. cbn [pl].
      eapply good_perm; [|exact G1]. rewrite in_use_app. cbn. rewrite app_nil_r. apply Permutation_app_comm.
    - cbn [step] in W. destruct (nth_error (clients s) i) as [[ | |bs w]|] eqn:E; auto.
      destruct (replace_use i _ (Request bs (S w)) s (push_all bs (pl s)) E) as (rest & P1 & P2).
      cbn [pl]. eapply good_perm; [symmetry; exact P2|]. apply (good_perm _ _ _ P1) in G.
      assert (w = 0%nat).
      { destruct (replace_split _ _ (Request bs (S w)) _ E) as (l1 & l2 & E1 & E2). unfold waited_once in W. cbn [clients] in W. rewrite E2 in W.
        specialize (W (length l1) bs (S w)). rewrite nth_error_app2, Nat.sub_diag in W by auto. specialize (W eq_refl). lia. }
      subst w. cbn in *. apply push_all_good. exact G.
  Qed.

  Lemma run_ok k0 ops : waited_once (run K_dec ops (start k0)) -> ok (run K_dec ops (start k0)).
  Proof.
    assert (G : forall ops s, waited_once (run K_dec ops s) -> ok s -> ok (run K_dec ops s) /\ waited_once s).
    { clear. unfold run. induction ops as [|o ops IH]; intros s W Ok; cbn [fold_left] in *; auto.
      assert (W1 : waited_once (step K_dec o s)).
      { clear -W. revert s o W. induction ops as [|o' ops IH]; intros s o W; cbn [fold_left] in *; auto. apply waited_mono with (o := o'). apply IH. exact W. }
      split; [|eapply waited_mono; eauto]. apply IH; auto. apply step_ok; auto. }
    intros W. apply G; auto. split; [constructor|]. intros k b [].
  Qed.

  Lemma no_sharing k0 ops : waited_once (run K_dec ops (start k0)) ->
    let s := run K_dec ops (start k0) in
    NoDup (map snd (in_use s)) /\
    (forall k b, In (k, b) (in_use s) -> key_of (pl s) b = k /\ ~ In b (map snd (cache (pl s)))) /\
    (forall k b, In (k, b) (cache (pl s)) -> key_of (pl s) b = k).
  Proof.
    intros W s. destruct (run_ok k0 ops W) as [G1 G2]. fold s in G1, G2. rewrite map_app in G1.
    assert (D : forall b, In b (map snd (in_use s)) -> ~ In b (map snd (cache (pl s)))).
    { revert G1. generalize (map snd (in_use s)) (map snd (cache (pl s))). clear. induction l as [|x l IH]; intros l' N b []; subst.
      - inversion N; subst. intros I. apply H1. apply in_or_app. auto.
      - inversion N; subst. apply IH; auto. }
    split.
    { revert G1. generalize (map snd (in_use s)) (map snd (cache (pl s))). clear. induction l as [|x l IH]; intros l' N; [constructor|].
      inversion N; subst. constructor; [intros I; apply H1; apply in_or_app; auto|eapply IH; eauto]. }
    split.
    - intros k b I. split; [apply G2; apply in_or_app; auto|]. apply D. apply in_map_iff. exists (k, b). auto.
    - intros k b I. apply G2. apply in_or_app. auto.
  Qed.
End Proofs.
