(** Proofs about the factory model. *)
From Verif Require Import Base Dict FactoryModel.
Local Open Scope nat_scope.

Lemma set_nth_length {A} (l : list A) n x : length (set_nth l n x) = length l.
Proof. revert n. induction l as [|y l IH]; destruct n; cbn; auto. Qed.
Lemma nth_set_nth {A} (l : list A) n m x d :
  nth m (set_nth l n x) d = if Nat.eqb m n && Nat.ltb n (length l) then x else nth m l d.
Proof.
  revert n m. induction l as [|y l IH]; intros n m.
  - cbn [set_nth length]. replace (Nat.ltb n 0) with false by (symmetry; apply Nat.ltb_ge; lia). now rewrite andb_false_r.
  - destruct n, m; cbn [set_nth nth length Nat.eqb andb]; [reflexivity|reflexivity|reflexivity|].
    rewrite IH. reflexivity.
Qed.
Lemma set_nth_same {A} (l : list A) n d : set_nth l n (nth n l d) = l.
Proof. revert n. induction l as [|y l IH]; destruct n; cbn; auto. now rewrite IH. Qed.
Lemma set_nth_twice {A} (l : list A) n x y : set_nth (set_nth l n x) n y = set_nth l n y.
Proof. revert n. induction l as [|z l IH]; destruct n; cbn; auto. now rewrite IH. Qed.
Lemma set_nth_app {A} (l l' : list A) n x : n < length l -> set_nth (l ++ l') n x = set_nth l n x ++ l'.
Proof. revert n. induction l as [|z l IH]; destruct n; cbn; intros H; try lia; auto. now rewrite IH by lia. Qed.

Definition wf (h : heap) : Prop :=
  NoDup (sizers h) /\ (forall t, In t (sizers h) -> t < length (dicts h)) /\ (forall s, In s (facs h) -> s < length (sizers h)).

(** what any program leaves alone *)
Definition ext (h h' : heap) : Prop :=
  (exists l, sizers h' = sizers h ++ l) /\ (exists l, facs h' = facs h ++ l) /\ length (dicts h) <= length (dicts h') /\
  (forall t, t < length (dicts h) -> ~ In t (sizers h) -> nth t (dicts h') [] = nth t (dicts h) []).

Lemma ext_refl h : ext h h.
Proof. unfold ext. split; [exists []; now rewrite app_nil_r|]. split; [exists []; now rewrite app_nil_r|]. auto. Qed.

Lemma in_nth {A} (l : list A) n d : n < length l -> In (nth n l d) l.
Proof. intros; now apply nth_In. Qed.

Lemma nodup_nth_inj (l : list nat) i j d : NoDup l -> i < length l -> j < length l -> nth i l d = nth j l d -> i = j.
Proof. intros N Hi Hj E. eapply NoDup_nth; eauto. Qed.

Lemma live_sizer h f : wf h -> dead h f = false -> sizer_of h f < length (sizers h).
Proof.
  intros (_ & _ & W) D. apply W. unfold sizer_of. apply nth_In. unfold dead in D. apply Nat.leb_gt in D. exact D.
Qed.
Lemma live_table h f : wf h -> dead h f = false -> In (table_ref h f) (sizers h).
Proof. intros W D. apply nth_In. now apply live_sizer. Qed.

Lemma update_ext h f d : wf h -> dead h f = false -> wf (do_update h f d) /\ ext h (do_update h f d).
Proof.
  intros W D. pose proof (live_table h f W D) as L. destruct W as (W1 & W2 & W3). split.
  - unfold wf, do_update; cbn. rewrite set_nth_length. auto.
  - unfold ext, do_update; cbn. rewrite set_nth_length.
    split; [exists []; now rewrite app_nil_r|]. split; [exists []; now rewrite app_nil_r|]. split; [lia|].
    intros t Ht N. rewrite nth_set_nth. destruct (Nat.eqb_spec t (table_ref h f)) as [->|]; [contradiction|reflexivity].
Qed.

Lemma in_set_nth {A} (l : list A) n x y : In y (set_nth l n x) -> y = x \/ In y l.
Proof.
  revert n. induction l as [|z l IH]; intros n H; [destruct n; cbn in H; tauto|].
  destruct n; cbn in *; [intuition congruence|]. destruct H as [H|H]; [tauto|]. apply IH in H. tauto.
Qed.
Lemma nodup_set_nth (l : list nat) n x : NoDup l -> ~ In x l -> NoDup (set_nth l n x).
Proof.
  intros N. revert n. induction N as [|z l Hz N IH]; intros n H; [destruct n; constructor|].
  destruct n; cbn.
  - constructor; auto. intros I. apply H. now right.
  - constructor.
    + intros I. apply in_set_nth in I. destruct I as [->|I]; [apply H; now left|contradiction].
    + apply IH. intros I. apply H. now right.
Qed.
Lemma not_in_set_nth (l : list nat) n x d : NoDup l -> n < length l -> x <> nth n l d -> ~ In (nth n l d) (set_nth l n x).
Proof.
  intros N. revert n. induction N as [|z l Hz N IH]; intros n Hn Hx; [cbn in Hn; lia|].
  destruct n; cbn in *.
  - intros [->|I]; [congruence|contradiction].
  - intros [E|I].
    + apply Hz. rewrite E. apply nth_In. lia.
    + revert I. apply IH; auto. lia.
Qed.

Lemma ext_trans h1 h2 h3 : wf h2 -> ext h1 h2 -> ext h2 h3 -> (forall t, t < length (dicts h1) -> ~ In t (sizers h1) -> ~ In t (sizers h2)) -> ext h1 h3.
Proof.
  intros W (( l1 & E1) & (k1 & F1) & D1 & T1) ((l2 & E2) & (k2 & F2) & D2 & T2) N.
  split; [exists (l1 ++ l2); now rewrite E2, E1, app_assoc|].
  split; [exists (k1 ++ k2); now rewrite F2, F1, app_assoc|]. split; [lia|].
  intros t Ht Hn. rewrite T2; [now apply T1|lia|]. now apply N.
Qed.

(** new sizers refer to new dictionaries *)
Definition fresh_refs (h h' : heap) : Prop := forall t, t < length (dicts h) -> ~ In t (sizers h) -> ~ In t (sizers h').

Lemma nodup_snoc {A} (l : list A) x : NoDup l -> ~ In x l -> NoDup (l ++ [x]).
Proof.
  intros N H. rewrite <- (rev_involutive (l ++ [x])). apply NoDup_rev. rewrite rev_app_distr. cbn. constructor.
  - now rewrite <- in_rev.
  - now apply NoDup_rev.
Qed.

(** entering the override *)
Definition entered (h : heap) (f : nat) (d : dict Z) : heap :=
  mkHeap (dicts h ++ [d]) (set_nth (sizers h) (sizer_of h f) (length (dicts h))) (facs h).
Lemma entered_wf h f d : wf h -> wf (entered h f d).
Proof.
  intros (W1 & W2 & W3). unfold wf, entered; cbn. rewrite app_length, set_nth_length; cbn. split; [|split].
  - apply nodup_set_nth; auto. intros I. apply W2 in I. lia.
  - intros t I. apply in_set_nth in I. destruct I as [->|I]; [lia|]. apply W2 in I. lia.
  - exact W3.
Qed.

Lemma exec_ext sp p : forall h out h' out' r,
  wf h -> exec sp p h out = (h', out', r) -> wf h' /\ ext h h' /\ fresh_refs h h'.
Proof.
  assert (R : forall h, wf h -> wf h /\ ext h h /\ fresh_refs h h).
  { intros h W. split; [auto|]. split; [apply ext_refl|unfold fresh_refs; auto]. }
  assert (U : forall h f d, wf h -> dead h f = false -> wf (do_update h f d) /\ ext h (do_update h f d) /\ fresh_refs h (do_update h f d)).
  { intros h f d W D. destruct (update_ext h f d W D) as [A B]. split; [auto|]. split; [auto|]. intros t _ H. exact H. }
  induction p as [ | |p IHp q IHq|d|f d|f d|f d|f dims|f d p IHp|p IHp]; intros h out h' out' r W E; cbn [exec] in E.
  - injection E as <- <- <-. auto.
  - injection E as <- <- <-. auto.
  - destruct (exec sp p h out) as [[h1 o1] r1] eqn:E1. destruct (IHp _ _ _ _ _ W E1) as (W1 & X1 & F1).
    destruct r1; [injection E as <- <- <-; auto|].
    destruct (IHq _ _ _ _ _ W1 E) as (W2 & X2 & F2). split; [auto|]. split; [exact (ext_trans h h1 h' W1 X1 X2 F1)|].
    intros t Ht Hn. apply F2; [destruct X1 as (_ & _ & L & _); lia|]. now apply F1.
  - injection E as <- <- <-. destruct W as (W1 & W2 & W3). split; [|split].
    + unfold wf; cbn. rewrite !app_length; cbn. split; [|split].
      * apply nodup_snoc; auto. intros I. apply W2 in I. lia.
      * intros t I. apply in_app_or in I. destruct I as [I|[<-|[]]]; [apply W2 in I|]; lia.
      * intros t I. apply in_app_or in I. destruct I as [I|[<-|[]]]; [apply W3 in I|]; lia.
    + unfold ext; cbn. rewrite app_length; cbn. split; [eauto|]. split; [eauto|]. split; [lia|].
      intros t Ht _. now rewrite app_nth1.
    + intros t Ht Hn I. cbn in I. apply in_app_or in I. destruct I as [I|[<-|[]]]; [auto|lia].
  - destruct (dead h f) eqn:D; injection E as <- <- <-; auto.
  - destruct (dead h f) eqn:D; cbn [orb] in E; [injection E as <- <- <-; auto|].
    destruct (clash h f d); injection E as <- <- <-; auto.
  - destruct (dead h f) eqn:D; [injection E as <- <- <-; auto|].
    destruct (clash _ _ _); [injection E as <- <- <-; auto|].
    set (h1 := mkHeap (dicts h) (sizers h) (facs h ++ [sizer_of h f])) in *.
    assert (W1 : wf h1).
    { pose proof (live_sizer h f W D) as L. destruct W as (A & B & C). unfold wf, h1; cbn. split; [auto|]. split; [auto|].
      intros s I. apply in_app_or in I. destruct I as [I|[<-|[]]]; auto. }
    assert (D1 : dead h1 (length (facs h)) = false).
    { unfold dead, h1; cbn. rewrite app_length; cbn. apply Nat.leb_gt. lia. }
    destruct (U h1 (length (facs h)) d W1 D1) as (A & (B1 & B2 & B3 & B4) & C).
    injection E as <- <- <-. split; [exact A|]. split.
    + split; [exact B1|]. split; [|split; [exact B3|exact B4]]. exists [sizer_of h f]. reflexivity.
    + exact C.
  - destruct (dead h f) eqn:D; [injection E as <- <- <-; auto|].
    destruct (lookups _ _ _); injection E as <- <- <-; auto.
  - destruct (dead h f) eqn:D; [injection E as <- <- <-; auto|].
    fold (entered h f d) in E. destruct (exec sp p (entered h f d) out) as [[h2 o2] r2] eqn:E1. injection E as <- <- <-.
    pose proof (live_sizer h f W D) as L.
    destruct (IHp _ _ _ _ _ (entered_wf h f d W) E1) as (W2 & ((l & El) & (k & Ek) & Ld & T) & F).
    assert (Lo : nth (sizer_of h f) (sizers h) 0 < length (dicts h)). { apply W. now apply nth_In. }
    assert (No : ~ In (nth (sizer_of h f) (sizers h) 0) (sizers (entered h f d))).
    { unfold entered; cbn. apply not_in_set_nth; [apply W|exact L|lia]. }
    assert (Es : set_nth (sizers h2) (sizer_of h f) (nth (sizer_of h f) (sizers h) 0) = sizers h ++ l).
    { rewrite El, set_nth_app by (unfold entered; cbn; rewrite set_nth_length; exact L).
      unfold entered; cbn. now rewrite set_nth_twice, set_nth_same. }
    assert (Lt : length (dicts h) < length (dicts (entered h f d))) by (unfold entered; cbn; rewrite app_length; cbn; lia).
    split; [|split].
    + destruct W2 as (A & B & C). unfold wf; cbn. rewrite set_nth_length. split; [|split; [|exact C]].
      * apply nodup_set_nth; auto. apply F; [lia|exact No].
      * intros t I. apply in_set_nth in I. destruct I as [->|I]; [lia|auto].
    + unfold ext; cbn. split; [eauto|]. split; [eauto|]. split; [lia|].
      intros t Ht Hn. rewrite T; [|lia|].
      * unfold entered; cbn. now rewrite app_nth1.
      * unfold entered; cbn. intros I. apply in_set_nth in I. destruct I as [->|I]; [lia|contradiction].
    + intros t Ht Hn I. cbn in I. apply in_set_nth in I. destruct I as [->|I].
      * apply Hn. now apply nth_In.
      * revert I. apply F; [lia|]. unfold entered; cbn. intros I. apply in_set_nth in I. destruct I as [->|I]; [lia|contradiction].
  - destruct (exec sp p h out) as [[h1 o1] r1] eqn:E1. injection E as <- <- <-. eauto.
Qed.

(** leaving the override gives the table back *)
Lemma with_table sp f d p h out h' out' r : wf h -> exec sp (With f d p) h out = (h', out', r) ->
  table_ref h' f = table_ref h f /\ table h' f = table h f.
Proof.
  intros W E. cbn [exec] in E. destruct (dead h f) eqn:D; [now injection E as <- <- <-|].
  fold (entered h f d) in E. destruct (exec sp p (entered h f d) out) as [[h2 o2] r2] eqn:E1. injection E as <- <- <-.
  pose proof (live_sizer h f W D) as L.
  destruct (exec_ext sp p _ _ _ _ _ (entered_wf h f d W) E1) as (W2 & ((l & El) & (k & Ek) & Ld & T) & F).
  assert (Es : set_nth (sizers h2) (sizer_of h f) (nth (sizer_of h f) (sizers h) 0) = sizers h ++ l).
  { rewrite El, set_nth_app by (unfold entered; cbn; rewrite set_nth_length; exact L).
    unfold entered; cbn. now rewrite set_nth_twice, set_nth_same. }
  assert (Lf : f < length (facs h)) by (unfold dead in D; now apply Nat.leb_gt in D).
  assert (Ef : nth f (facs h2) 0 = nth f (facs h) 0). { rewrite Ek. now rewrite app_nth1. }
  assert (Er : table_ref (mkHeap (dicts h2) (set_nth (sizers h2) (sizer_of h f) (nth (sizer_of h f) (sizers h) 0)) (facs h2)) f = table_ref h f).
  { unfold table_ref at 1, sizer_of at 1. cbn [sizers facs]. rewrite Ef, Es. fold (sizer_of h f). now rewrite app_nth1. }
  split; [exact Er|]. unfold table. rewrite Er. cbn [dicts].
  assert (Lo : table_ref h f < length (dicts h)). { apply W. now apply live_table. }
  rewrite T.
  - unfold entered; cbn [dicts]. now rewrite app_nth1.
  - unfold entered; cbn [dicts]. rewrite app_length; cbn. lia.
  - unfold entered; cbn [sizers]. apply not_in_set_nth; [apply W|exact L|]. unfold table_ref in Lo. lia.
Qed.

(** heaps a program can get into are well formed *)
Lemma start_wf : wf start.
Proof. split; [constructor|]. split; cbn; tauto. Qed.
Lemma reachable_wf sp p h out r : exec sp p start [] = (h, out, r) -> wf h.
Proof. intros E. now apply (exec_ext sp p start [] h out r start_wf). Qed.

Lemma in_keys_dec d n : existsb (fun m => (n =? m)%string) (keys d) = true <-> In n (@keys Z d).
Proof.
  rewrite existsb_exists. split.
  - intros (m & I & E). apply String.eqb_eq in E. now subst.
  - intros I. exists n. split; auto. apply String.eqb_refl.
Qed.
Lemma clash_spec h f d : clash h f d = true <-> exists n, In n (keys d) /\ In n (keys (table h f)).
Proof.
  unfold clash. rewrite existsb_exists. split; intros (n & I & E); exists n; split; auto; now apply in_keys_dec.
Qed.

Lemma get_update (e : dict Z) : NoDup (keys e) -> forall d n,
  get (update d e) n = match get e n with Some v => Some v | None => get d n end.
Proof.
  unfold update. induction e as [|[k v] e IH]; cbn; intros N d n; [reflexivity|].
  apply NoDup_cons_iff in N. destruct N as [N1 N2]. rewrite IH by auto. rewrite get_put.
  destruct (String.eqb_spec n k) as [->|]; [|reflexivity].
  assert (G : get e k = None) by now apply get_none. now rewrite G.
Qed.

Lemma do_update_table h f d : wf h -> dead h f = false -> table (do_update h f d) f = update (table h f) d.
Proof.
  intros W D. unfold table at 1. change (table_ref (do_update h f d) f) with (table_ref h f). unfold do_update; cbn [dicts].
  rewrite nth_set_nth, Nat.eqb_refl. cbn [andb]. replace (Nat.ltb _ _) with true; [reflexivity|].
  symmetry. apply Nat.ltb_lt. apply W. now apply live_table.
Qed.
