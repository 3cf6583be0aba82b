(** Proofs about column algorithms. *)
From Coq Require Import Field.
From Coq Require Import Sorted.
From Verif Require Import Base Dict ColumnModel.
Open Scope nat_scope.

(** ** tridiagonal solve *)
Section Tridiag.
Variable F : Type.
Variables (zero one : F) (add mul sub : F -> F -> F) (opp : F -> F) (div : F -> F -> F) (inv : F -> F).
Hypothesis Fth : field_theory zero one add mul sub opp div inv eq.
Add Field Ff : Fth.
Infix "+!" := add (at level 50, left associativity).
Infix "*!" := mul (at level 40, left associativity).
Infix "-!" := sub (at level 50, left associativity).
Infix "/!" := div (at level 40, left associativity).
Variables (a b c d : column F).
Notation minor := (minor F one mul sub a b c).
Notation solves := (solves F zero add mul a b c d).
Notation fwd := (fwd F mul sub div a b c d).
Notation fwd_first := (fwd_first F div b c d).
Notation bwd := (bwd F mul sub).

(** what the forward sweep computes *)
Fixpoint cp (k : nat) : F := match k with O => c 0 /! b 0 | S k' => c k /! (b k -! a k *! cp k') end.
Fixpoint dp (k : nat) : F := match k with O => d 0 /! b 0 | S k' => (d k -! a k *! dp k') /! (b k -! a k *! cp k') end.
Definition piv (k : nat) : F := match k with O => b 0 | S k' => b k -! a k *! cp k' end.

Lemma put_same f k v : put_level F f k v k = v.
Proof. unfold put_level. now rewrite Nat.eqb_refl. Qed.
Lemma put_other f k v j : j <> k -> put_level F f k v j = f j.
Proof. intros H. unfold put_level. destruct (Nat.eqb_spec j k); congruence. Qed.

Lemma forward_ok m x0 e0 x e : fold_left fwd (seq 1 m) (fwd_first (x0, e0)) = (x, e) ->
  (forall k, k <= m -> x k = cp k /\ e k = dp k) /\ (forall k, m < k -> x k = x0 k /\ e k = e0 k).
Proof.
  revert x e. induction m as [|m IH]; intros x e E.
  - cbn in E. injection E as <- <-. split; intros k Hk.
    + replace k with 0 by lia. rewrite !put_same. auto.
    + rewrite !put_other by lia. auto.
  - rewrite seq_S, fold_left_app in E. destruct (fold_left fwd (seq 1 m) (fwd_first (x0, e0))) as [x1 e1]. destruct (IH x1 e1 eq_refl) as [I1 I2].
    cbn [fold_left] in E. unfold ColumnModel.fwd in E. replace (1 + m - 1) with m in E by lia. apply pair_equal_spec in E. destruct E as [<- <-]. change (1 + m) with (S m).
    destruct (I1 m (le_n m)) as [X1 X2]. split; intros k Hk.
    + destruct (Nat.eq_dec k (S m)) as [->|N].
      * rewrite !put_same. rewrite (put_other _ (S m) _ m) by lia. rewrite X1, X2. auto.
      * rewrite !put_other by lia. apply I1. lia.
    + rewrite !put_other by lia. apply I2. lia.
Qed.

Lemma backward_ok m e x : forall x', fold_left (bwd e) (rev (seq 0 m)) x = x' ->
  (forall k, k < m -> x' k = e k -! x k *! x' (S k)) /\ (forall k, m <= k -> x' k = x k).
Proof.
  revert x. induction m as [|m IH]; intros x x' E.
  - cbn in E. subst. split; [lia|auto].
  - rewrite seq_S, rev_app_distr in E. cbn [rev app fold_left plus] in E. destruct (IH _ _ E) as [I1 I2].
    assert (Em : x' m = e m -! x m *! x (S m)) by (rewrite I2 by lia; unfold ColumnModel.bwd; now rewrite put_same).
    assert (Eo : forall k, m < k -> x' k = x k) by (intros k Hk; rewrite I2 by lia; unfold ColumnModel.bwd; now rewrite put_other by lia).
    split.
    + intros k Hk. destruct (Nat.eq_dec k m) as [->|N].
      * rewrite Em, Eo by lia. auto.
      * rewrite I1 by lia. unfold ColumnModel.bwd. now rewrite put_other by lia.
    + intros k Hk. apply Eo. lia.
Qed.

Lemma solve_shape n x0 e0 x e : 1 <= n -> tridiag_solve F mul sub div a b c d n x0 e0 = (x, e) ->
  (forall k, k < n - 1 -> x k = dp k -! cp k *! x (S k)) /\ x (n - 1) = dp (n - 1) /\
  (forall k, n <= k -> x k = x0 k /\ e k = e0 k).
Proof.
  intros Hn. unfold tridiag_solve. destruct (fold_left fwd (seq 1 (n - 1)) (fwd_first (x0, e0))) as [x1 e1] eqn:E1.
  destruct (forward_ok _ _ _ _ _ E1) as [F1 F2]. intros E. apply pair_equal_spec in E. destruct E as [E <-].
  destruct (backward_ok _ _ _ _ E) as [B1 B2]. split; [|split].
  - intros k Hk. rewrite B1 by lia. rewrite put_other by lia. destruct (F1 k) as [-> ->]; [lia|]. auto.
  - rewrite B2 by lia. rewrite put_same. destruct (F1 (n - 1)) as [_ ->]; auto; lia.
  - intros k Hk. rewrite B2 by lia. rewrite put_other by lia. apply F2. lia.
Qed.

Lemma cp_piv k : cp k = c k /! piv k.
Proof. destruct k; auto. Qed.
Lemma dp_piv k : dp (S k) = (d (S k) -! a (S k) *! dp k) /! piv (S k).
Proof. auto. Qed.

(** pivots are quotients of consecutive minors *)
Lemma piv_minor n : (forall k, 1 <= k <= n -> minor k <> zero) -> forall k, k < n -> piv k *! minor k = minor (S k) /\ piv k <> zero.
Proof.
  intros M. assert (P : forall k, k < n -> piv k *! minor k = minor (S k)).
  { induction k as [|k IH]; intros Hk; [cbn; ring|].
    specialize (IH ltac:(lia)).
    change (minor (S (S k))) with (b (S k) *! minor (S k) -! a (S k) *! c k *! minor k). unfold piv at 1. rewrite cp_piv.
    assert (N : piv k <> zero). { intros Z0. apply (M (S k)); [lia|]. rewrite <- IH, Z0. ring. }
    rewrite <- IH. field. auto. }
  intros k Hk. split; auto. intros Z0. apply (M (S k)); [lia|]. rewrite <- P, Z0 by auto. ring.
Qed.

Lemma solve_ok n x0 e0 x e : 1 <= n -> (forall k, 1 <= k <= n -> minor k <> zero) ->
  tridiag_solve F mul sub div a b c d n x0 e0 = (x, e) -> solves n x /\ (forall k, n <= k -> x k = x0 k /\ e k = e0 k).
Proof.
  intros Hn M E. destruct (solve_shape _ _ _ _ _ Hn E) as (S1 & S2 & S3). split; auto.
  assert (P : forall k, k < n -> piv k <> zero) by (intros k Hk; now apply (piv_minor n M)).
  (* piv_k x_k + c_k x_{k+1} = piv_k dp_k *)
  assert (G : forall k, k < n -> piv k *! x k +! (if Nat.eqb k (n - 1) then zero else c k *! x (S k)) = piv k *! dp k).
  { intros k Hk. destruct (Nat.eqb_spec k (n - 1)) as [->|N]; [rewrite S2; ring|]. rewrite S1 by lia. rewrite cp_piv. field. auto. }
  intros k Hk. specialize (G k Hk). destruct k as [|k].
  - change (Nat.eqb 0 0) with true. cbv iota. cbn [piv dp] in G. set (t := if 0 =? n - 1 then zero else c 0 *! x 1) in *. assert (D : b 0 *! (d 0 /! b 0) = d 0) by (field; apply (P 0); lia). rewrite <- D, <- G. ring.
  - change (Nat.eqb (S k) 0) with false. cbv iota. replace (S k - 1) with k by lia. rewrite (S1 k) by lia.
    set (t := if S k =? n - 1 then zero else c (S k) *! x (S (S k))) in *.
    assert (D : piv (S k) *! dp (S k) = d (S k) -! a (S k) *! dp k) by (rewrite dp_piv; field; auto).
    rewrite D in G. unfold piv in G. 
    replace (a (S k) *! (dp k -! cp k *! x (S k)) +! b (S k) *! x (S k))
      with (a (S k) *! dp k +! (b (S k) -! a (S k) *! cp k) *! x (S k)) by ring.
    transitivity (a (S k) *! dp k +! ((b (S k) -! a (S k) *! cp k) *! x (S k) +! t)); [ring|].
    rewrite G. ring.
Qed.

Lemma solve_unique n x y : (forall k, 1 <= k <= n -> minor k <> zero) -> solves n x -> solves n y -> forall k, k < n -> x k = y k.
Proof.
  intros M Sx Sy.
  assert (P : forall k, k < n -> piv k <> zero) by (intros k Hk; now apply (piv_minor n M)).
  assert (G : forall z, solves n z -> forall k, k < n -> piv k *! z k +! (if Nat.eqb k (n - 1) then zero else c k *! z (S k)) = piv k *! dp k).
  { intros z Sz k. induction k as [|k IH]; intros Hk; pose proof (Sz _ Hk) as E.
    - change (Nat.eqb 0 0) with true in E. cbv iota in E. cbn [piv dp].
      assert (D : b 0 *! (d 0 /! b 0) = d 0) by (field; apply (P 0); lia). rewrite D, <- E.
      set (t := if 0 =? n - 1 then zero else c 0 *! z 1). ring.
    - change (Nat.eqb (S k) 0) with false in E. cbv iota in E. replace (S k - 1) with k in E by lia. specialize (IH ltac:(lia)).
      destruct (Nat.eqb_spec k (n - 1)); [lia|].
      set (t := if S k =? n - 1 then zero else c (S k) *! z (S (S k))) in *.
      assert (D : piv (S k) *! dp (S k) = d (S k) -! a (S k) *! dp k) by (rewrite dp_piv; field; auto).
      rewrite D, <- E. unfold piv at 1. rewrite cp_piv.
      assert (Z1 : z k = dp k -! c k /! piv k *! z (S k)).
      { assert (P1 : piv k <> zero) by (apply P; lia).
        transitivity ((piv k *! z k +! c k *! z (S k)) /! piv k -! c k /! piv k *! z (S k)); [field; auto|]. rewrite IH. field. auto. }
      rewrite Z1. ring. }
  assert (B : forall m k, k + m = n - 1 -> k < n -> x k = y k).
  { induction m as [|m IH]; intros k Hm Hk; pose proof (G x Sx k Hk) as Gx; pose proof (G y Sy k Hk) as Gy.
    - destruct (Nat.eqb_spec k (n - 1)); [|lia].
      transitivity ((piv k *! x k +! zero) /! piv k); [field; auto|]. rewrite Gx, <- Gy. field. auto.
    - destruct (Nat.eqb_spec k (n - 1)); [lia|]. rewrite (IH (S k)) in Gx by lia.
      transitivity ((piv k *! x k +! c k *! y (S k) -! c k *! y (S k)) /! piv k); [field; auto|]. rewrite Gx, <- Gy. field. auto. }
  intros k Hk. apply (B (n - 1 - k)); lia.
Qed.

Lemma masked_ok mask n x e : masked_tridiag_solve F mul sub div a b c d mask n x e = if mask then tridiag_solve F mul sub div a b c d n x e else (x, e).
Proof.
  assert (I : forall A B (l : list B) (v : A), fold_left (fun v _ => v) l v = v) by (induction l; auto).
  unfold masked_tridiag_solve, tridiag_solve. destruct mask; [reflexivity|rewrite !I; reflexivity].
Qed.
End Tridiag.

(** ** column extremum *)
Open Scope Z_scope.
Section Extremum.
Variable V : Type.
Variable better : V -> V -> bool.
Hypothesis irrefl : forall x, better x x = false.
Hypothesis asym : forall x y, better x y = true -> better y x = false.
Hypothesis neg_trans : forall x y z, better x y = false -> better y z = false -> better x z = false.
Variable field : Z -> V.

Lemma trans_l x y z : better y x = true -> better y z = false -> better z x = true.
Proof. intros A B. destruct (better z x) eqn:E; auto. rewrite (neg_trans y z x B E) in A. discriminate. Qed.

Lemma scan_ok fuel level last best index start : (Z.to_nat (last - level + 1) <= fuel)%nat -> start <= index < level \/ (start = index /\ level = start) ->
  start <= last -> best = field index ->
  (forall k, start <= k < level -> better (field k) best = false) -> (forall k, start <= k < index -> better best (field k) = true) ->
  let '(v, i) := scan V better field fuel level last best index in
  start <= i /\ (i <= last \/ i = index) /\ v = field i /\ (forall k, start <= k < level \/ level <= k <= last -> better (field k) v = false) /\
  (forall k, start <= k < i -> better v (field k) = true).
Proof.
  revert level best index. induction fuel as [|fuel IH]; intros level best index Fu Hi Hs -> A B.
  - cbn. repeat split; auto; try lia. intros k [Hk|Hk]; [auto|lia].
  - cbn [scan]. destruct (Z.leb_spec level last).
    + destruct (better (field level) (field index)) eqn:E.
      * pose proof (IH (level + 1) (field level) level ltac:(lia) ltac:(lia) Hs eq_refl) as G.
        destruct (scan V better field fuel (level + 1) last (field level) level) as [v i].
        assert (G1 : forall k, start <= k < level + 1 -> better (field k) (field level) = false).
        { intros k Hk. destruct (Z.eq_dec k level) as [->|]; [apply irrefl|].
          apply (neg_trans _ (field index)); [apply A; lia|]. now apply asym. }
        assert (G2 : forall k, start <= k < level -> better (field level) (field k) = true).
        { intros k Hk. destruct (better (field level) (field k)) eqn:E2; auto.
          rewrite (neg_trans _ (field k) (field index) E2) in E; [discriminate|]. apply A. lia. }
        destruct (G G1 G2) as (P1 & P2 & P3 & P4 & P5). repeat split; auto; try lia. intros k Hk. apply P4. lia.
      * pose proof (IH (level + 1) (field index) index ltac:(lia) ltac:(lia) Hs eq_refl) as G.
        destruct (scan V better field fuel (level + 1) last (field index) index) as [v i].
        assert (G1 : forall k, start <= k < level + 1 -> better (field k) (field index) = false).
        { intros k Hk. destruct (Z.eq_dec k level) as [->|]; [auto|]. apply A. lia. }
        destruct (G G1 B) as (P1 & P2 & P3 & P4 & P5). repeat split; auto; try lia. intros k Hk. apply P4. lia.
    + repeat split; auto; try lia. intros k [Hk|Hk]; [auto|lia].
Qed.

Lemma extremum_ok start last : start <= last ->
  let '(v, i) := column_extremum V better field start last in
  start <= i <= last /\ v = field i /\ (forall k, start <= k <= last -> better (field k) v = false) /\
  (forall k, start <= k < i -> better v (field k) = true).
Proof.
  intros H. unfold column_extremum.
  pose proof (scan_ok (Z.to_nat (last - start + 2)) start last (field start) start start ltac:(lia) ltac:(lia) H eq_refl) as G.
  destruct (scan V better field _ start last (field start) start) as [v i].
  destruct G as (P1 & P2 & P3 & P4 & P5); [intros k Hk; lia|intros k Hk; lia|]. repeat split; auto; try lia; try (intros k Hk; apply P4; lia).
Qed.
End Extremum.

Lemma scan_ext V better f g fuel level last best index : (forall k, level <= k <= last -> f k = g k) ->
  scan V better f fuel level last best index = scan V better g fuel level last best index.
Proof.
  revert level best index. induction fuel as [|fuel IH]; intros level best index E; auto. cbn [scan].
  destruct (Z.leb_spec level last); auto. rewrite <- (E level) by lia. destruct (better (f level) best); apply IH; intros; apply E; lia.
Qed.
Lemma extremum_ext V better f g start last : start <= last -> (forall k, start <= k <= last -> f k = g k) ->
  column_extremum V better f start last = column_extremum V better g start last.
Proof. intros H E. unfold column_extremum. rewrite (E start) by lia. apply scan_ext. auto. Qed.

(** ** splitting columns *)
Open Scope nat_scope.
Section KSplit.
Variable V : Type.
Variable eqb : V -> V -> bool.
Hypothesis eqb_spec : forall x y, eqb x y = true <-> x = y.
Notation vals := (column_vals V).

Lemma dict_eqb_spec a b : dict_eqb V eqb a b = true <-> a = b.
Proof.
  revert b. induction a as [|[q x] a IH]; intros [|[q' y] b]; cbn; try (split; congruence).
  rewrite !andb_true_iff, String.eqb_eq, eqb_spec, IH. split; [intros [[-> ->] ->]; auto|intros [= -> -> ->]; auto].
Qed.

(** blocks of the levels k .. npz-1, given the start s of the block level k belongs to *)
Fixpoint good (info : dict (list V)) (bs : list (nat * nat)) (k npz : nat) : Prop :=
  match bs with
  | [] => k = npz
  | (s, n) :: bs' => s = k /\ 1 <= n /\ k + n <= npz /\ (forall j, k <= j < k + n -> vals info j = vals info k) /\
                     (match bs' with [] => True | _ => vals info (k + n) <> vals info (k + n - 1) end) /\ good info bs' (k + n) npz
  end.

Lemma starts_ok info npz m : forall k s, s < k -> k + m = npz -> (forall j, s <= j < k -> vals info j = vals info s) ->
  match starts V eqb info (seq k m) (Some (vals info s)) with
  | [] => forall j, s <= j < npz -> vals info j = vals info s
  | k' :: _ => k <= k' < npz /\ (forall j, s <= j < k' -> vals info j = vals info s) /\ vals info k' <> vals info s
  end /\ good info (blocks (s :: starts V eqb info (seq k m) (Some (vals info s))) npz) s npz.
Proof.
  induction m as [|m IH]; intros k s Hs Hm C.
  - cbn. replace npz with k by lia. split; auto. repeat split; auto; try lia. intros j Hj. apply C. lia.
  - cbn [seq starts]. destruct (dict_eqb V eqb (vals info k) (vals info s)) eqn:E; cbn [negb].
    + apply dict_eqb_spec in E. destruct (IH (S k) s) as [A B]; [lia|lia| |].
      { intros j Hj. destruct (Nat.eq_dec j k) as [->|]; auto. apply C. lia. }
      split; auto. destruct (starts V eqb info (seq (S k) m) (Some (vals info s))); auto. destruct A as (A1 & A2 & A3). repeat split; auto; lia.
    + assert (N : vals info k <> vals info s) by (intros X; apply dict_eqb_spec in X; congruence).
      split; [repeat split; auto; lia|].
      destruct (IH (S k) k) as [A B]; [lia|lia| |].
      { intros j Hj. replace j with k by lia. auto. }
      set (r := starts V eqb info (seq (S k) m) (Some (vals info k))) in *.
      change (blocks (s :: k :: r) npz) with ((s, k - s) :: blocks (k :: r) npz). cbn [good].
      replace (s + (k - s)) with k by lia. repeat split; auto; try lia.
      destruct (blocks (k :: r) npz) eqn:Eb; auto. intros X. apply N. rewrite X. apply C. lia.
Qed.

Lemma kstarts_good info npz : 1 <= npz -> exists bs, get_kstarts V eqb info npz = Some bs /\ bs <> [] /\ good info bs 0 npz.
Proof.
  intros H. destruct npz as [|m]; [lia|]. unfold get_kstarts. cbn [seq starts].
  destruct (starts_ok info (S m) m 1 0) as [A B]; [lia|lia|intros j Hj; replace j with 0 by lia; auto|].
  eexists. split; [reflexivity|]. split; auto.
  destruct (starts V eqb info (seq 1 m) (Some (vals info 0))); cbn; congruence.
Qed.

Lemma good_covers info bs : forall k npz, good info bs k npz -> forall j, k <= j < npz -> exists! i, exists p, nth_error bs i = Some p /\ covers p j.
Proof.
  induction bs as [|[s n] bs IH]; intros k npz G j Hj; cbn [good] in G; [lia|].
  destruct G as (-> & G1 & G2 & G3 & G4 & G5).
  assert (Hge : forall i p, nth_error bs i = Some p -> k + n <= fst p).
  { clear - G5. revert G5. generalize (k + n) as x. induction bs as [|[s' n'] bs IH]; intros x G i p E; [destruct i; discriminate|].
    cbn [good] in G. destruct G as (-> & A1 & A2 & A3 & A4 & A5). destruct i; cbn in E; [injection E as <-; cbn; lia|].
    specialize (IH _ A5 i p E). lia. }
  destruct (Nat.lt_ge_cases j (k + n)) as [L|L].
  - exists 0. split; [exists (k, n); split; [auto|unfold covers; cbn; lia]|]. intros i (p & E & C). destruct i; auto. cbn in E. apply Hge in E. unfold covers in C. lia.
  - destruct (IH _ _ G5 j ltac:(lia)) as (i & (p & E & C) & U). exists (S i). split; [exists p; auto|].
    intros i' (p' & E' & C'). destruct i'; [cbn in E'; injection E' as <-; unfold covers in C'; cbn in C'; lia|]. f_equal. apply U. eauto.
Qed.

Lemma good_blocks info bs : forall k npz, good info bs k npz -> forall i s n, nth_error bs i = Some (s, n) ->
  1 <= n /\ k <= s /\ s + n <= npz /\ (forall j, s <= j < s + n -> vals info j = vals info s) /\
  (forall s' n', nth_error bs (S i) = Some (s', n') -> s' = s + n /\ vals info s' <> vals info s).
Proof.
  induction bs as [|[s n] bs IH]; intros k npz G i s' n' E; [destruct i; discriminate|].
  cbn [good] in G. destruct G as (-> & G1 & G2 & G3 & G4 & G5). destruct i as [|i].
  - cbn in E. injection E as <- <-. repeat split; auto; try lia; cbn [nth_error] in *; destruct bs as [|[s2 n2] bs]; try discriminate; cbn in H; injection H as <- <-.
    + cbn [good] in G5. tauto.
    + cbn [good] in G5. destruct G5 as (-> & _). intros X. apply G4. rewrite X. symmetry. apply G3. lia.
  - cbn [nth_error] in E. destruct (IH _ _ G5 i s' n' E) as (A1 & A2 & A3 & A4 & A5). repeat split; auto; try lia; apply (A5 _ _ H).
Qed.
End KSplit.

(** ** eta *)
Section Eta.
Variable F : Type.
Variables (add mul div : F -> F -> F) (leb : F -> F -> bool) (is_zero : F -> bool) (half ps : F) (vc : F -> F).

Lemma non_decreasing_spec (l : list F) : non_decreasing F leb l = true <-> forall i x y, nth_error l i = Some x -> nth_error l (S i) = Some y -> leb x y = true.
Proof.
  unfold non_decreasing, pairs. induction l as [|x l IH]; [cbn; split; auto; intros _ [] ? ?; discriminate|].
  destruct l as [|y l]; [cbn; split; auto; intros _ [|[]] ? ?; discriminate|].
  cbn [tl combine forallb]. rewrite andb_true_iff. cbn [tl] in IH. rewrite IH. split.
  - intros [A B] [|i] u v; cbn [nth_error]; [intros [= <-] [= <-]; auto|]. apply B.
  - intros H. split; [apply (H 0 x y); auto|]. intros i u v E1 E2. apply (H (S i) u v); auto.
Qed.

Lemma zero_levels_spec bk i : In i (zero_levels F is_zero bk) <-> exists x, nth_error bk i = Some x /\ is_zero x = true.
Proof.
  unfold zero_levels. rewrite in_map_iff. 
  assert (G : forall (l : list F) o i x, In (i, x) (combine (seq o (length l)) l) <-> o <= i /\ nth_error l (i - o) = Some x).
  { induction l as [|y l IH]; intros o j x; cbn; [split; [tauto|]; intros [_ E]; destruct (j - o); discriminate|].
    rewrite IH. split.
    - intros [[= -> ->]|[A B]]; [split; [lia|]; rewrite Nat.sub_diag; auto|]. split; [lia|]. replace (j - o) with (S (j - S o)) by lia. auto.
    - intros [A B]. destruct (Nat.eq_dec j o) as [->|]; [left; rewrite Nat.sub_diag in B; cbn in B; congruence|]. right. split; [lia|].
      replace (j - o) with (S (j - S o)) in B by lia. auto. }
  split.
  - intros ([j x] & E & I). cbn in E. subst j. apply filter_In in I. destruct I as [I Z0]. apply G in I. rewrite Nat.sub_0_r in I. exists x. tauto.
  - intros (x & E & Z0). exists (i, x). split; auto. apply filter_In. split; auto. apply G. rewrite Nat.sub_0_r. split; auto. lia.
Qed.

Lemma zero_levels_sorted bk : StronglySorted lt (zero_levels F is_zero bk).
Proof.
  unfold zero_levels. generalize 0 as o. induction bk as [|x bk IH]; intros o; cbn; [constructor|].
  assert (A : forall o', Forall (fun i => o' <= i) (map fst (filter (fun '(_, x) => is_zero x) (combine (seq o' (length bk)) bk)))).
  { clear. induction bk as [|y bk IH]; intros o'; cbn; [constructor|]. specialize (IH (S o')).
    destruct (is_zero y); cbn; [constructor; auto|]; (eapply Forall_impl; [|exact IH]; cbn; intros; lia). }
  destruct (is_zero x); cbn; [|apply IH]. constructor; [apply IH|]. eapply Forall_impl; [|apply (A (S o))]. cbn. intros; lia.
Qed.

Lemma last_cons {T} (y z : T) zs : last (y :: zs) z = last zs y.
Proof.
  revert y z. induction zs as [|w zs IH]; intros y z; auto.
  change (last (y :: w :: zs) z) with (last (w :: zs) z). now rewrite !IH.
Qed.
Lemma last_max z zs : StronglySorted lt (z :: zs) -> forall i, In i (z :: zs) -> i <= last zs z.
Proof.
  revert z. induction zs as [|y zs IH]; intros z S i I; [destruct I as [->|[]]; auto|].
  inversion S as [|? ? S' Fa]; subst. rewrite last_cons. destruct I as [->|I]; [|apply IH; auto].
  inversion Fa; subst. specialize (IH y S' y (or_introl eq_refl)). lia.
Qed.
Lemma last_in {T} (z : T) zs : In (last zs z) (z :: zs).
Proof. revert z. induction zs as [|y zs IH]; intros z; [left; auto|]. rewrite last_cons. right. apply IH. Qed.

Lemma coefficients_ok km ak bk ks p : set_coefficients F add mul div leb is_zero half ps vc km ak bk = Some (ks, p) ->
  Z.of_nat (length ak) = (km + 1)%Z /\ Z.of_nat (length bk) = (km + 1)%Z /\
  non_decreasing F leb (compute_eta F add mul div half ps ak bk) = true /\
  non_decreasing F leb (map vc (compute_eta F add mul div half ps ak bk)) = true /\
  (exists i x, nth_error bk i = Some x /\ is_zero x = true) /\ nth_error ak 0 = Some p /\
  (km <> 91%Z -> (exists x, nth_error bk ks = Some x /\ is_zero x = true) /\ forall i x, nth_error bk i = Some x -> is_zero x = true -> i <= ks).
Proof.
  unfold set_coefficients. destruct (Z.eqb_spec (Z.of_nat (length ak) - 1) km); cbn [negb]; [|discriminate].
  destruct (Z.eqb_spec (Z.of_nat (length bk) - 1) km); cbn [negb]; [|discriminate].
  destruct (non_decreasing F leb _) eqn:N1; cbn [negb]; [|discriminate].
  destruct (non_decreasing F leb (map vc _)) eqn:N2; cbn [negb]; [|discriminate].
  pose proof (zero_levels_spec bk) as Z0. pose proof (zero_levels_sorted bk) as ZS. destruct (zero_levels F is_zero bk) as [|z zs]; [discriminate|].
  destruct ak as [|a0 ak]; [discriminate|]. cbn [hd_error]. intros E. apply some_inj in E. apply pair_equal_spec in E. destruct E as [E1 E2]. subst a0.
  split; [lia|]. split; [lia|]. split; auto. split; auto. split; [exists z; apply Z0; left; auto|]. split; auto.
  intros Hk. destruct (Z.eqb_spec km 91); [congruence|]. subst ks. split; [apply Z0, last_in|].
  intros i x E Z1. apply last_max; auto. apply Z0. eauto.
Qed.

Lemma coefficients_accepted km ak bk p : Z.of_nat (length ak) = (km + 1)%Z -> Z.of_nat (length bk) = (km + 1)%Z ->
  non_decreasing F leb (compute_eta F add mul div half ps ak bk) = true ->
  non_decreasing F leb (map vc (compute_eta F add mul div half ps ak bk)) = true ->
  (exists i x, nth_error bk i = Some x /\ is_zero x = true) -> nth_error ak 0 = Some p ->
  exists ks, set_coefficients F add mul div leb is_zero half ps vc km ak bk = Some (ks, p).
Proof.
  intros L1 L2 N1 N2 (i & x & E & Z1) Hp. unfold set_coefficients.
  destruct (Z.eqb_spec (Z.of_nat (length ak) - 1) km); [|lia]. destruct (Z.eqb_spec (Z.of_nat (length bk) - 1) km); [|lia].
  cbn [negb]. rewrite N1, N2. cbn [negb]. pose proof (zero_levels_spec bk i) as Z0.
  destruct (zero_levels F is_zero bk) as [|z zs]; [destruct (proj2 Z0); exists x; auto|].
  destruct ak as [|a0 ak]; [discriminate|]. cbn in Hp. apply some_inj in Hp. subst a0. cbn [hd_error]. eexists. reflexivity.
Qed.

Lemma eta_nth ak bk i : nth_error (compute_eta F add mul div half ps ak bk) i =
  match nth_error ak i, nth_error ak (S i), nth_error bk i, nth_error bk (S i) with
  | Some a0, Some a1, Some b0, Some b1 => Some (mul half (add (add (div (add a0 a1) ps) b0) b1))
  | _, _, _, _ => None
  end.
Proof.
  assert (C : forall A B (l : list A) (m : list B) i, nth_error (combine l m) i = match nth_error l i, nth_error m i with Some x, Some y => Some (x, y) | _, _ => None end).
  { induction l as [|x l IH]; intros [|y m] [|j]; cbn; auto; destruct (nth_error l j); auto. }
  assert (P : forall (l : list F) i, nth_error (pairs l) i = match nth_error l i, nth_error l (S i) with Some x, Some y => Some (x, y) | _, _ => None end).
  { intros l j. unfold pairs. rewrite C. destruct l; [now destruct j|reflexivity]. }
  unfold compute_eta. rewrite nth_error_map, C, !P.
  destruct (nth_error ak i), (nth_error ak (S i)), (nth_error bk i), (nth_error bk (S i)); auto.
Qed.
End Eta.
