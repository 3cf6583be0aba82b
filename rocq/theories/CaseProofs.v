(** Proofs about the selection of translate tests. *)
From Coq Require Import Ascii Permutation Sorted OrderedTypeEx.
From Verif Require Import Base Dict VerdModel CaseModel.
Local Open Scope nat_scope.

(** strings joined by commas *)
Fixpoint join (l : list string) : string := match l with [] => EmptyString | [x] => x | x :: l' => (x ++ String "," (join l'))%string end.
Fixpoint comma_free (s : string) : Prop := match s with EmptyString => True | String c s' => c <> ","%char /\ comma_free s' end.

Lemma split_nonempty s : split s <> [].
Proof. induction s as [|c s IH]; cbn; [discriminate|]. destruct (Ascii.eqb c ","); [discriminate|]. destruct (split s); [congruence|discriminate]. Qed.
Lemma join_cons c h t : join (String c h :: t) = String c (join (h :: t)).
Proof. destruct t; reflexivity. Qed.
Lemma join_split s : join (split s) = s.
Proof.
  induction s as [|c s IH]; [reflexivity|]. cbn [split]. destruct (Ascii.eqb_spec c ",") as [->|N].
  - destruct (split s) as [|h t] eqn:E; [now destruct (split_nonempty s)|]. cbn [join append]. cbn [join] in IH. now rewrite IH.
  - destruct (split s) as [|h t] eqn:E; [now destruct (split_nonempty s)|]. now rewrite join_cons, IH.
Qed.
Lemma split_free s : Forall comma_free (split s).
Proof.
  induction s as [|c s IH]; cbn; [repeat constructor|]. destruct (Ascii.eqb_spec c ",") as [->|N]; [constructor; [exact I|exact IH]|].
  destruct (split s) as [|h t]; [constructor|]. inversion IH; subst. constructor; [split; assumption|assumption].
Qed.
Lemma split_app h s : comma_free h -> split (h ++ String "," s) = h :: split s.
Proof.
  induction h as [|c h IH]; cbn; [reflexivity|]. intros [N F]. destruct (Ascii.eqb_spec c ","); [congruence|]. now rewrite IH.
Qed.
Lemma split_self h : comma_free h -> split h = [h].
Proof. induction h as [|c h IH]; cbn; [reflexivity|]. intros [N F]. destruct (Ascii.eqb_spec c ","); [congruence|]. now rewrite IH. Qed.
Lemma split_join l : l <> [] -> Forall comma_free l -> split (join l) = l.
Proof.
  induction l as [|h t IH]; [congruence|]. intros _ F. inversion F; subst. destruct t as [|h' t]; [now apply split_self|].
  change (join (h :: h' :: t)) with (h ++ String "," (join (h' :: t)))%string. rewrite split_app by assumption. rewrite IH; [reflexivity|discriminate|assumption].
Qed.
Lemma in_split s n : In n (split s) <-> exists l, join l = s /\ Forall comma_free l /\ In n l.
Proof.
  split.
  - intros H. exists (split s). split; [apply join_split|]. split; [apply split_free|exact H].
  - intros (l & <- & F & I). rewrite split_join; [exact I| |exact F]. intros ->. destruct I.
Qed.

Lemma savepoint_of_spec file n : savepoint_of file = Some n <-> file = (n ++ "-In.nc")%string.
Proof.
  revert n. induction file as [|c f IH]; intros n.
  - cbn [savepoint_of String.eqb]. split; [discriminate|]. destruct n; discriminate.
  - cbn [savepoint_of]. destruct (String.eqb_spec (String c f) "-In.nc") as [E|N].
    + split.
      * intros [= <-]. exact E.
      * rewrite E. intros H. destruct n as [|c0 n]; [reflexivity|]. exfalso. cbn [append] in H. injection H as _ H. apply (f_equal String.length) in H. cbn in H.
        assert (L : forall a b, String.length (a ++ b) = String.length a + String.length b) by (induction a as [|? a IHa]; intros b; cbn; [reflexivity|now rewrite IHa]).
        rewrite L in H. cbn in H. lia.
    + split.
      * destruct (savepoint_of f) as [r|] eqn:E; cbn [bind]; [|discriminate]. intros [= <-]. cbn [append]. f_equal. now apply IH.
      * destruct n as [|c' n]; [cbn [append]; congruence|]. cbn [append]. intros [= -> H]. apply IH in H. rewrite H. reflexivity.
Qed.

(** sorting *)
Definition sle (a b : string) : Prop := (a <=? b)%string = true.
Lemma compare_trans a b c : String.compare a b = Lt -> String.compare b c = Lt -> String.compare a c = Lt.
Proof. intros H1 H2. apply (String_as_OT.cmp_lt a c). apply (String_as_OT.cmp_lt a b) in H1. apply (String_as_OT.cmp_lt b c) in H2. exact (String_as_OT.lt_trans a b c H1 H2). Qed.
Lemma sle_trans a b c : sle a b -> sle b c -> sle a c.
Proof.
  unfold sle, String.leb. destruct (String.compare a b) eqn:E; try discriminate; destruct (String.compare b c) eqn:F; try discriminate; intros _ _.
  - apply String.compare_eq_iff in E. subst. now rewrite F.
  - apply String.compare_eq_iff in E. subst. now rewrite F.
  - apply String.compare_eq_iff in F. subst. now rewrite E.
  - now rewrite (compare_trans _ _ _ E F).
Qed.
Lemma insert_perm x l : Permutation (insert x l) (x :: l).
Proof.
  induction l as [|y l IH]; cbn; [reflexivity|]. destruct (x <=? y)%string; [reflexivity|]. rewrite IH. apply perm_swap.
Qed.
Lemma sorted_perm l : Permutation (sorted l) l.
Proof. induction l as [|x l IH]; cbn; [reflexivity|]. rewrite insert_perm. now constructor. Qed.
Lemma insert_sorted x l : StronglySorted sle l -> StronglySorted sle (insert x l).
Proof.
  induction 1 as [|y l H IH F]; cbn; [repeat constructor|]. destruct (x <=? y)%string eqn:E.
  - constructor; [constructor; assumption|]. constructor; [exact E|]. eapply Forall_impl; [|exact F]. intros z. apply sle_trans. exact E.
  - constructor; [exact IH|]. assert (sle y x) by (unfold sle; destruct (String.leb_total x y); congruence).
    apply Forall_forall. intros z Hz. apply (Permutation_in _ (insert_perm x l)) in Hz. destruct Hz as [<-|Hz]; [assumption|]. rewrite Forall_forall in F. auto.
Qed.
Lemma sorted_sorted l : StronglySorted sle (sorted l).
Proof. induction l as [|x l IH]; cbn; [constructor|]. now apply insert_sorted. Qed.
Lemma sorted_unique l l' : StronglySorted sle l -> StronglySorted sle l' -> Permutation l l' -> l = l'.
Proof.
  intros H. revert l'. induction H as [|x l H IH F]; intros l' H' P; [symmetry; now apply Permutation_nil|].
  destruct H' as [|y l' H' F'].
  - apply Permutation_sym, Permutation_nil in P. discriminate.
  - assert (x = y) as <-.
    { assert (I : In x (y :: l')) by (apply (Permutation_in _ P); now left). assert (J : In y (x :: l)) by (apply (Permutation_in _ (Permutation_sym P)); now left).
      destruct I as [->|I]; [reflexivity|]. destruct J as [->|J]; [reflexivity|]. rewrite Forall_forall in F, F'. apply String.leb_antisym; [now apply F|now apply F']. }
    f_equal. apply IH; [assumption|]. now apply Permutation_cons_inv in P.
Qed.
Lemma sorted_same l l' : Permutation l l' -> sorted l = sorted l'.
Proof. intros P. apply sorted_unique; [apply sorted_sorted..|]. rewrite !sorted_perm. exact P. Qed.

(** choosing *)
Lemma choose_inv p l r : choose p l = Some r -> r = filter (fun x => match p x with Some b => b | None => false end) l /\ forall x, In x l -> p x <> None.
Proof.
  revert r. induction l as [|x l IH]; intros r; cbn [choose filter]; [intros [= <-]; split; [reflexivity|intros ? []]|].
  destruct (p x) as [b|] eqn:E; cbn [bind]; [|discriminate]. destruct (choose p l) as [q|]; cbn [bind]; [|discriminate].
  destruct (IH q eq_refl) as [-> H]. intros [= <-]. split; [destruct b; reflexivity|]. intros y [<-|I]; [congruence|auto].
Qed.
Lemma choose_total p l : (forall x, In x l -> p x <> None) -> exists r, choose p l = Some r.
Proof.
  induction l as [|x l IH]; intros H; cbn [choose]; [eauto|]. destruct (p x) as [b|] eqn:E; [|now destruct (H x (or_introl eq_refl))].
  destruct IH as [r ->]; [intros y I; apply H; now right|]. cbn [bind]. eauto.
Qed.
Lemma choose_perm p l l' : Permutation l l' -> forall r, choose p l = Some r -> exists r', choose p l' = Some r' /\ Permutation r r'.
Proof.
  intros P r H. destruct (choose_inv _ _ _ H) as [-> N]. destruct (choose_total p l') as [r' H'].
  { intros x I. apply N. now apply (Permutation_in _ (Permutation_sym P)). }
  exists r'. split; [exact H'|]. destruct (choose_inv _ _ _ H') as [-> _]. clear - P. set (f := fun x => _). clearbody f.
  induction P; cbn; try (destruct (f x)); try (destruct (f y)); try constructor; auto. eapply Permutation_trans; eassumption.
Qed.

Lemma nodup_app {X} (l r : list X) : NoDup l -> NoDup r -> (forall x, In x l -> ~ In x r) -> NoDup (l ++ r).
Proof.
  intros H K. induction H as [|c l NC H IH]; intros D; [exact K|]. cbn. constructor.
  - rewrite in_app_iff. intros [I|I]; [auto|]. exact (D c (or_introl eq_refl) I).
  - apply IH. intros x I. apply D. now right.
Qed.
Section P.
Context (classes : string -> option bool) (d : directory).
Lemma cases_of_names_inv replay rank names l : cases_of_names classes d replay rank names = Some l ->
  (forall c, In c l <-> c_rank c = rank /\ In (c_name c) names /\ exists k, n_calls d (c_name c ++ "-In.nc") = Some k /\ match replay with Some i => c_call c = i | None => c_call c < k end)
  /\ (NoDup names -> NoDup l).
Proof.
  revert l. induction names as [|n names IH]; intros l; cbn [cases_of_names].
  - intros [= <-]. split; [|constructor]. intros c. split; [intros []|]. intros (_ & [] & _).
  - destruct (classes (class_name n)); cbn [bind]; [|discriminate]. destruct (n_calls d (n ++ "-In.nc")) as [k|] eqn:K; cbn [bind]; [|discriminate].
    destruct (cases_of_names classes d replay rank names) as [r|]; cbn [bind]; [|discriminate]. intros [= <-]. destruct (IH r eq_refl) as [H ND]. clear IH.
    set (calls := match replay with Some i => seq i 1 | None => seq 0 k end).
    assert (HC : forall i, In i calls <-> match replay with Some j => i = j | None => i < k end).
    { intros i. unfold calls. destruct replay; rewrite in_seq; lia. }
    assert (NC : NoDup calls) by (unfold calls; destruct replay; apply seq_NoDup).
    split.
    + intros c. rewrite in_app_iff, in_map_iff, H. split.
      * intros [(i & <- & I)|(R & I & X)]; [|repeat split; [exact R|now right|exact X]]. cbn [c_rank c_name c_call]. repeat split; [now left|]. exists k. split; [exact K|]. now apply HC.
      * intros (R & [E|I] & (k' & K' & X)); [|right; repeat split; eauto]. left. rewrite <- E, K in K'. injection K' as <-. exists (c_call c). split; [destruct c; cbn in *; congruence|]. now apply HC.
    + intros N. inversion N as [|? ? NI N']; subst. specialize (ND N').
      assert (NM : NoDup (map (Case rank n) calls)).
      { clear - NC. induction NC as [|i l NI NC IH]; cbn; constructor; [|exact IH]. rewrite in_map_iff. intros (j & [= ->] & I). auto. }
      clear - NM ND H NI. assert (D : forall c, In c (map (Case rank n) calls) -> ~ In c r).
      { intros c I J. apply H in J. destruct J as (_ & J & _). apply in_map_iff in I. destruct I as (i & <- & _). exact (NI J). }
      now apply nodup_app.
Qed.
Lemma savepoint_cases_inv names replay ranks l : savepoint_cases classes d names replay ranks = Some l ->
  (forall c, In c l <-> In (c_rank c) ranks /\ In (c_name c) names /\ exists k, n_calls d (c_name c ++ "-In.nc") = Some k /\ match replay with Some i => c_call c = i | None => c_call c < k end)
  /\ (NoDup names -> NoDup ranks -> NoDup l).
Proof.
  revert l. induction ranks as [|r ranks IH]; intros l; cbn [savepoint_cases].
  - intros [= <-]. split; [|constructor]. intros c. split; [intros []|]. intros ([] & _).
  - destruct (has_grid d r); cbn [bind]; [|discriminate]. destruct (cases_of_names classes d replay r (sorted names)) as [h|] eqn:H; cbn [bind]; [|discriminate].
    destruct (savepoint_cases classes d names replay ranks) as [q|]; cbn [bind]; [|discriminate]. intros [= <-]. destruct (IH q eq_refl) as [Q NQ]. clear IH.
    destruct (cases_of_names_inv _ _ _ _ H) as [C NC].
    assert (S' : forall x, In x (sorted names) <-> In x names) by (intros x; split; apply Permutation_in; [|apply Permutation_sym]; apply sorted_perm).
    split.
    + intros c. rewrite in_app_iff, C, Q, S'. cbn [In]. intuition.
    + intros N R. inversion R as [|? ? NR R']; subst. apply nodup_app; [apply NC|apply NQ; assumption|].
      * apply (Permutation_NoDup (Permutation_sym (sorted_perm names)) N).
      * intros c I J. apply C in I. apply Q in J. destruct I as (E & _), J as (J & _). rewrite E in J. exact (NR J).
Qed.
Lemma cases_of_names_total replay rank names : (forall n, In n names -> classes (class_name n) <> None /\ n_calls d (n ++ "-In.nc") <> None) ->
  exists l, cases_of_names classes d replay rank names = Some l.
Proof.
  induction names as [|n names IH]; intros H; cbn [cases_of_names]; [eauto|]. destruct (H n (or_introl eq_refl)) as [X Y].
  destruct (classes (class_name n)); [|congruence]. cbn [bind]. destruct (n_calls d (n ++ "-In.nc")); [|congruence]. cbn [bind].
  destruct IH as [l ->]; [intros m I; apply H; now right|]. cbn [bind]. eauto.
Qed.
Lemma savepoint_cases_total names replay ranks : (forall n, In n names -> classes (class_name n) <> None /\ n_calls d (n ++ "-In.nc") <> None) ->
  (forall r, In r ranks -> has_grid d r = true) -> exists l, savepoint_cases classes d names replay ranks = Some l.
Proof.
  intros H. induction ranks as [|r ranks IH]; intros G; cbn [savepoint_cases]; [eauto|]. rewrite (G r (or_introl eq_refl)). cbn [bind].
  destruct (cases_of_names_total replay r (sorted names)) as [h ->]; [intros n I; apply H; now apply (Permutation_in _ (sorted_perm names))|]. cbn [bind].
  destruct IH as [l ->]; [intros q I; apply G; now right|]. cbn [bind]. eauto.
Qed.
Lemma cases_rank replay r r' names l : cases_of_names classes d replay r names = Some l -> cases_of_names classes d replay r' names = Some (map (fun c => Case r' (c_name c) (c_call c)) l).
Proof.
  revert l. induction names as [|n names IH]; intros l; cbn [cases_of_names]; [intros [= <-]; reflexivity|].
  destruct (classes (class_name n)); cbn [bind]; [|discriminate]. destruct (n_calls d (n ++ "-In.nc")); cbn [bind]; [|discriminate].
  destruct (cases_of_names classes d replay r names) as [q|]; cbn [bind]; [|discriminate]. rewrite (IH q eq_refl). cbn [bind]. intros [= <-].
  rewrite map_app, map_map. cbn [c_name c_call]. reflexivity.
Qed.
(** the cases of one test on one rank, in order *)
Definition of_test (r : nat) (n : string) (c : case) : bool := (c_rank c =? r) && (c_name c =? n)%string.
Definition calls_of (replay : option nat) (k : nat) : list nat := match replay with Some i => [i] | None => seq 0 k end.
Lemma filter_none {X} (f : X -> bool) l : (forall x, In x l -> f x = false) -> filter f l = [].
Proof. induction l as [|x l IH]; intros H; [reflexivity|]. cbn. rewrite (H x (or_introl eq_refl)). apply IH. intros y I. apply H. now right. Qed.
Lemma filter_every {X} (f : X -> bool) l : (forall x, In x l -> f x = true) -> filter f l = l.
Proof. induction l as [|x l IH]; intros H; [reflexivity|]. cbn. rewrite (H x (or_introl eq_refl)). f_equal. apply IH. intros y I. apply H. now right. Qed.
Lemma cases_of_names_order replay rank names l n k : NoDup names -> In n names -> n_calls d (n ++ "-In.nc") = Some k -> cases_of_names classes d replay rank names = Some l ->
  filter (of_test rank n) l = map (Case rank n) (calls_of replay k).
Proof.
  revert l. induction names as [|m names IH]; intros l N I K; [destruct I|]. cbn [cases_of_names].
  destruct (classes (class_name m)); cbn [bind]; [|discriminate]. destruct (n_calls d (m ++ "-In.nc")) as [k'|] eqn:K'; cbn [bind]; [|discriminate].
  destruct (cases_of_names classes d replay rank names) as [q|] eqn:Q; cbn [bind]; [|discriminate]. intros [= <-]. inversion N as [|? ? NI N']; subst.
  rewrite filter_app. destruct (string_dec m n) as [->|D].
  - rewrite K in K'. injection K' as <-. rewrite filter_every. 2:{ intros c J. apply in_map_iff in J. destruct J as (i & <- & _). unfold of_test. cbn. now rewrite Nat.eqb_refl, String.eqb_refl. }
    rewrite filter_none; [rewrite app_nil_r; unfold calls_of; destruct replay; reflexivity|]. intros c J. destruct (cases_of_names_inv _ _ _ _ Q) as [C _]. apply C in J. destruct J as (_ & J & _).
    unfold of_test. destruct (String.eqb_spec (c_name c) n) as [E|]; [exfalso; apply NI; now rewrite <- E|apply andb_false_r].
  - destruct I as [I|I]; [congruence|]. rewrite filter_none; [now apply IH|]. intros c J. apply in_map_iff in J. destruct J as (i & <- & _). unfold of_test. cbn [c_rank c_name].
    destruct (String.eqb_spec m n); [congruence|apply andb_false_r].
Qed.
Lemma savepoint_cases_order names replay ranks l r n k : NoDup names -> NoDup ranks -> In n names -> In r ranks -> n_calls d (n ++ "-In.nc") = Some k ->
  savepoint_cases classes d names replay ranks = Some l -> filter (of_test r n) l = map (Case r n) (calls_of replay k).
Proof.
  intros N R I J K. revert l. induction ranks as [|q ranks IH]; intros l; [destruct J|]. cbn [savepoint_cases].
  destruct (has_grid d q); cbn [bind]; [|discriminate]. destruct (cases_of_names classes d replay q (sorted names)) as [h|] eqn:H; cbn [bind]; [|discriminate].
  destruct (savepoint_cases classes d names replay ranks) as [w|] eqn:W; cbn [bind]; [|discriminate]. intros [= <-]. inversion R as [|? ? NR R']; subst. rewrite filter_app.
  destruct (cases_of_names_inv _ _ _ _ H) as [C _]. destruct (savepoint_cases_inv _ _ _ _ W) as [D _].
  destruct (Nat.eq_dec q r) as [->|E].
  - rewrite (cases_of_names_order replay r (sorted names) h n k); [|apply (Permutation_NoDup (Permutation_sym (sorted_perm names)) N)|apply (Permutation_in _ (Permutation_sym (sorted_perm names)) I)|exact K|exact H].
    rewrite filter_none; [apply app_nil_r|]. intros c X. apply D in X. destruct X as (X & _). unfold of_test. destruct (Nat.eqb_spec (c_rank c) r) as [Y|]; [|reflexivity]. exfalso. apply NR. now rewrite <- Y.
  - destruct J as [J|J]; [congruence|]. rewrite filter_none; [now apply IH|]. intros c X. apply C in X. destruct X as (X & _). unfold of_test. rewrite X. destruct (Nat.eqb_spec q r); [congruence|reflexivity].
Qed.
End P.
