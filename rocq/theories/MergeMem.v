(** Proofs about running traces on a memory (MergeModel). *)
From Verif Require Import Base MergeModel MergeProofs.
From Coq Require Import ZArith Lia.

Section Memory.
  Context {V : Type}.
  Variable sem : event -> @memory V -> @memory V.
  Hypothesis Hsem : reads_only_declared sem.
  Notation ex1 := (exec1 sem).
  Notation ex := (exec sem).

  Definition same (m m' : @memory V) : Prop := forall d i, m d i = m' d i.
  Lemma same_refl : forall m, same m m. Proof. congruence. Qed.
  Lemma same_sym : forall m m', same m m' -> same m' m. Proof. intros m m' H d i. now rewrite H. Qed.
  Lemma same_trans : forall a b c, same a b -> same b c -> same a c. Proof. intros a b c H H' d i. now rewrite H, H'. Qed.

  Lemma ex1_same : forall ev m m', same m m' -> same (ex1 m ev) (ex1 m' ev).
  Proof.
    intros ev m m' H d i. unfold exec1. destruct (in_boxes d i (ev_writes ev)); [apply Hsem|]; auto.
  Qed.
  Lemma ex_same : forall l m m', same m m' -> same (ex m l) (ex m' l).
  Proof. induction l as [|a l IH]; intros m m' H; cbn; auto. apply IH. now apply ex1_same. Qed.
  Lemma ex_app : forall l l' m, ex m (l ++ l') = ex (ex m l) l'.
  Proof. intros. apply fold_left_app. Qed.

  (** no cell one writes is read or written by the other *)
  Definition independent (a b : event) : Prop :=
    (forall d i, in_boxes d i (ev_writes a) = true -> in_boxes d i (ev_writes b) = false /\ in_boxes d i (ev_reads b) = false) /\
    (forall d i, in_boxes d i (ev_writes b) = true -> in_boxes d i (ev_reads a) = false).
  Lemma unread : forall a b m, (forall d i, in_boxes d i (ev_writes a) = true -> in_boxes d i (ev_reads b) = false) ->
    forall d i, sem b (ex1 m a) d i = sem b m d i.
  Proof.
    intros a b m H d i. apply Hsem. intros d' i' Hr. unfold exec1. destruct (in_boxes d' i' (ev_writes a)) eqn:E; auto.
    rewrite (H _ _ E) in Hr. discriminate.
  Qed.
  Lemma commute1 : forall a b m, independent a b -> same (ex1 (ex1 m a) b) (ex1 (ex1 m b) a).
  Proof.
    intros a b m [H1 H2] d i.
    pose proof (unread a b m (fun d i H => proj2 (H1 d i H)) d i) as Ub.
    pose proof (unread b a m H2 d i) as Ua.
    unfold exec1 at 1 3. rewrite Ub, Ua. unfold exec1.
    destruct (in_boxes d i (ev_writes a)) eqn:Ea; destruct (in_boxes d i (ev_writes b)) eqn:Eb; auto.
    destruct (H1 _ _ Ea). congruence.
  Qed.
  Lemma commute_list : forall l b m, (forall a, In a l -> independent a b) -> same (ex m (l ++ [b])) (ex m (b :: l)).
  Proof.
    induction l as [|a l IH]; intros b m H; cbn [app]; [apply same_refl|].
    cbn [exec fold_left]. apply (same_trans _ (ex (ex1 m a) (b :: l))).
    - apply IH. intros; apply H; cbn; auto.
    - cbn [exec fold_left]. apply (ex_same l). apply commute1. apply H; cbn; auto.
  Qed.
  Lemma commute_lists : forall l2 l1 m, (forall a b, In a l1 -> In b l2 -> independent a b) -> same (ex m (l1 ++ l2)) (ex m (l2 ++ l1)).
  Proof.
    induction l2 as [|b l2 IH]; intros l1 m H; [rewrite app_nil_r; apply same_refl|].
    replace (l1 ++ b :: l2) with ((l1 ++ [b]) ++ l2) by (rewrite <- app_assoc; reflexivity).
    rewrite ex_app. apply (same_trans _ (ex (ex m (b :: l1)) l2)).
    - apply ex_same. apply commute_list. intros; apply H; cbn; auto.
    - rewrite <- ex_app. cbn [app exec fold_left]. apply IH. intros; apply H; cbn; auto.
  Qed.

  (** running two loops point by point, or one after the other *)
  Lemma interleave : forall (f g : Z -> list event) ks m,
    (forall l1 k l2, ks = l1 ++ k :: l2 -> forall k', In k' l2 -> forall a b, In a (f k') -> In b (g k) -> independent a b) ->
    same (ex m (flat_map (fun k => f k ++ g k) ks)) (ex m (flat_map f ks ++ flat_map g ks)).
  Proof.
    intros f g ks. induction ks as [|k ks IH]; intros m H; cbn [flat_map]; [apply same_refl|].
    rewrite <- !app_assoc. rewrite !ex_app. apply (same_trans _ (ex (ex (ex m (f k)) (g k)) (flat_map f ks ++ flat_map g ks))).
    - apply IH. intros l1 k0 l2 E. apply (H (k :: l1) k0 l2). rewrite E. reflexivity.
    - rewrite !ex_app. apply (ex_same (flat_map g ks)). rewrite <- !ex_app. rewrite app_assoc. rewrite (app_assoc (f k)).
      rewrite <- app_assoc, ex_app. rewrite <- app_assoc. rewrite (ex_app (f k)). apply same_sym. apply commute_lists.
      intros a b Ha Hb. apply in_flat_map in Ha as (k' & Hk' & Ha). apply (H [] k ks eq_refl k' Hk'); auto.
  Qed.

  (** exchanging two nested loops *)
  Lemma exchange : forall (f : Z -> Z -> list event) ns ks m,
    (forall l1 k l2, ks = l1 ++ k :: l2 -> forall k', In k' l2 -> forall n n' a b, In a (f n k') -> In b (f n' k) -> independent a b) ->
    same (ex m (flat_map (fun k => flat_map (fun n => f n k) ns) ks)) (ex m (flat_map (fun n => flat_map (fun k => f n k) ks) ns)).
  Proof.
    intros f ns. induction ns as [|n ns IH]; intros ks m H; cbn [flat_map].
    - rewrite flat_map_nil by auto. apply same_refl.
    - apply (same_trans _ (ex m (flat_map (f n) ks ++ flat_map (fun k => flat_map (fun n => f n k) ns) ks))).
      + apply (interleave (f n) (fun k => flat_map (fun n => f n k) ns)). intros l1 k l2 E k' Hk' a b Ha Hb.
        apply in_flat_map in Hb as (n' & _ & Hb). eapply H; eauto.
      + rewrite !ex_app. apply IH. exact H.
  Qed.

  (** ** repeating an event *)
  Definition settled (ev : event) (m : memory) : Prop := same (ex1 m ev) m.
  Lemma settle : forall ev m, (forall d i, in_boxes d i (ev_writes ev) = true -> in_boxes d i (ev_reads ev) = false) -> settled ev (ex1 m ev).
  Proof.
    intros ev m H d i. pose proof (unread ev ev m H d i) as U. unfold exec1 at 1. rewrite U. unfold exec1.
    destruct (in_boxes d i (ev_writes ev)); auto.
  Qed.
  Definition leaves (b ev : event) : Prop := forall d i, in_boxes d i (ev_writes b) = true -> in_boxes d i (ev_reads ev) = false /\ in_boxes d i (ev_writes ev) = false.
  Lemma settled_step : forall b ev m, leaves b ev -> settled ev m -> settled ev (ex1 m b).
  Proof.
    intros b ev m H S d i. pose proof (unread b ev m (fun d i h => proj1 (H d i h)) d i) as U.
    unfold exec1 at 1. rewrite U. destruct (in_boxes d i (ev_writes ev)) eqn:E; auto.
    specialize (S d i). unfold exec1 in S at 1. rewrite E in S. rewrite S. unfold exec1.
    destruct (in_boxes d i (ev_writes b)) eqn:Eb; auto. destruct (H _ _ Eb). congruence.
  Qed.
  Lemma settled_list : forall l ev m, (forall b, In b l -> leaves b ev) -> settled ev m -> settled ev (ex m l).
  Proof.
    induction l as [|b l IH]; intros ev m H S; cbn; auto. apply IH; [intros; apply H; cbn; auto|]. apply settled_step; auto. apply H; cbn; auto.
  Qed.
  Lemma repeat_event : forall ev (f : Z -> list event) ks m,
    (forall k b, In k ks -> In b (f k) -> leaves b ev) -> settled ev m ->
    same (ex m (flat_map (fun k => ev :: f k) ks)) (ex m (flat_map f ks)).
  Proof.
    intros ev f ks. induction ks as [|k ks IH]; intros m H S; cbn [flat_map app]; [apply same_refl|].
    cbn [exec fold_left]. change (fold_left ex1 ?l ?m) with (ex m l). rewrite !ex_app.
    apply (same_trans _ (ex (ex m (f k)) (flat_map (fun k => ev :: f k) ks))).
    - apply ex_same. apply ex_same. exact S.
    - apply IH; [intros; eapply H; cbn; eauto|]. apply settled_list; auto. intros; eapply H; cbn; eauto.
  Qed.
End Memory.

(** ** events and undefined symbols *)
Lemma all_some_spec : forall {A} (l : list (option A)) r, all_some l = Some r <-> l = map Some r.
Proof.
  intros A l. induction l as [|[a|] l IH]; intros r; cbn.
  - destruct r; split; intros H; try discriminate; auto.
  - destruct (all_some l) as [q|] eqn:E.
    + destruct r as [|x r]; cbn; split; intros H; try discriminate.
      * injection H as <- <-. f_equal. now apply IH.
      * injection H as <- H. apply IH in H. injection H as <-. reflexivity.
    + split; intros H; try discriminate. destruct r as [|x r]; try discriminate. injection H as <- H. apply IH in H. discriminate.
  - split; intros H; try discriminate. destruct r; discriminate.
Qed.
Lemma all_some_none : forall {A} (l : list (option A)), all_some l = None <-> In None l.
Proof.
  intros A l. induction l as [|[a|] l IH]; cbn.
  - split; intros H; [discriminate|destruct H].
  - destruct (all_some l); split; intros H; try discriminate; auto.
    + destruct H as [H|H]; [discriminate|]. apply IH in H. discriminate.
    + right. now apply IH.
  - split; auto.
Qed.
Definition events_of (l : list (option event)) : list event := flat_map (fun o => match o with Some e => [e] | None => [] end) l.
Lemma all_some_events : forall l, ~ In None l -> all_some l = Some (events_of l).
Proof.
  induction l as [|[a|] l IH]; intros H; cbn; auto.
  - rewrite IH by (intros Hn; apply H; cbn; auto). reflexivity.
  - exfalso. apply H; cbn; auto.
Qed.
Lemma events_app : forall l l', events_of (l ++ l') = events_of l ++ events_of l'.
Proof. intros. apply flat_map_app. Qed.
Lemma events_flat : forall {A} (f : A -> list (option event)) l, events_of (flat_map f l) = flat_map (fun x => events_of (f x)) l.
Proof. intros A f l. induction l; cbn; auto. rewrite events_app. congruence. Qed.
Lemma in_events : forall l e, In e (events_of l) <-> In (Some e) l.
Proof.
  intros l e. unfold events_of. rewrite in_flat_map. split.
  - intros ([x|] & Hx & H); [|destruct H]. destruct H as [->|[]]. auto.
  - intros H. exists (Some e). split; auto. cbn; auto.
Qed.

(** where an event comes from *)
Lemma event_origin : forall n e ev s, In (Some ev) (trace e n) -> loops_over s n = false ->
  exists t e', e' s = e s /\ run_task e' t = Some ev /\
    (forall m, In m (t_in t) -> In m (reads_of n)) /\ (forall m, In m (t_out t) -> In m (writes_of n)).
Proof.
  induction n as [t|p r cs IH|c cs IH] using node_ind2; intros e ev s H Hl.
  - cbn [trace] in H. destruct H as [H|[]]. exists t, e. auto.
  - cbn [trace] in H. apply in_flat_map in H as (k & _ & H). apply in_flat_map in H as (n & Hn & H).
    cbn [loops_over] in Hl. apply orb_false_elim in Hl as [Hp Hl]. apply String.eqb_neq in Hp.
    rewrite Forall_forall in IH. destruct (IH n Hn _ _ s H (existsb_false _ _ Hl n Hn)) as (t & e' & E & R & I1 & I2).
    exists t, e'. rewrite bind_other in E by auto. repeat split; auto; intros m Hm; cbn [reads_of writes_of]; apply in_flat_map; exists n; auto.
  - cbn [trace] in H. destruct (e (c_sym c)); [|destruct H as [H|[]]; discriminate]. destruct (c_test c z); [|destruct H].
    apply in_flat_map in H as (n & Hn & H). cbn [loops_over] in Hl.
    rewrite Forall_forall in IH. destruct (IH n Hn _ _ s H (existsb_false _ _ Hl n Hn)) as (t & e' & E & R & I1 & I2).
    exists t, e'. repeat split; auto; intros m Hm; cbn [reads_of writes_of]; apply in_flat_map; exists n; auto.
Qed.
Lemma all_some_in : forall {A B} (f : A -> option B) l r b, all_some (map f l) = Some r -> In b r -> exists a, In a l /\ f a = Some b.
Proof.
  intros A B f l r b H Hb. apply all_some_spec in H. assert (In (Some b) (map f l)) by (rewrite H; apply in_map; auto).
  apply in_map_iff in H0 as (a & E & Ha). eauto.
Qed.
Lemma box_origin : forall e t ev, run_task e t = Some ev ->
  (forall b, In b (ev_reads ev) -> exists m, In m (t_in t) /\ resolve e m = Some b) /\
  (forall b, In b (ev_writes ev) -> exists m, In m (t_out t) /\ resolve e m = Some b).
Proof.
  intros e t ev H. unfold run_task in H.
  destruct (all_some (map (resolve e) (t_in t))) as [r|] eqn:Er; try discriminate.
  destruct (all_some (map (resolve e) (t_out t))) as [w|] eqn:Ew; try discriminate.
  destruct (all_some (map e (t_code t))) as [c|]; try discriminate.
  injection H as <-. cbn. split; intros b Hb; eapply all_some_in; eauto.
Qed.

(** a memlet which touches one point along the axis: the loop symbol plus [c] *)
Definition at_point (ax : nat) (s : string) (c : Z) (m : memlet) : Prop := nth_error (m_sub m) ax = Some ((Some s, c), (Some s, c)).

Lemma nth_error_map_some : forall {A B} (f : A -> B) l n x, nth_error l n = Some x -> nth_error (map f l) n = Some (f x).
Proof. intros. rewrite nth_error_map, H. reflexivity. Qed.
Lemma resolve_point : forall e ax s c m b k, at_point ax s c m -> e s = Some k -> resolve e m = Some b ->
  fst b = m_data m /\ nth_error (snd b) ax = Some (k + c, k + c).
Proof.
  intros e ax s c m b k Hp He Hr. unfold resolve in Hr.
  destruct (all_some _) as [l|] eqn:E; cbn in Hr; try discriminate. injection Hr as <-. cbn. split; auto.
  apply all_some_spec in E. unfold at_point in Hp. eapply nth_error_map_some in Hp. rewrite E in Hp.
  rewrite nth_error_map in Hp. destruct (nth_error l ax) as [x|]; cbn in Hp; try discriminate.
  unfold eval in Hp; cbn in Hp. rewrite He in Hp. cbn in Hp. congruence.
Qed.
Lemma in_box_nth : forall d i b ax lo hi, in_box d i b = true -> nth_error (snd b) ax = Some (lo, hi) ->
  fst b = d /\ exists v, nth_error i ax = Some v /\ lo <= v <= hi.
Proof.
  intros d i [bd bl] ax lo hi H Hn. unfold in_box in H; cbn [fst snd] in *.
  apply andb_prop in H as [H Hf]. apply andb_prop in H as [Hd Hl]. apply String.eqb_eq in Hd. apply Nat.eqb_eq in Hl. split; auto.
  clear Hd. revert bl ax Hl Hf Hn. induction i as [|v i IH]; intros bl ax Hl Hf Hn; destruct bl as [|x bl]; try discriminate.
  - destruct ax; discriminate.
  - cbn in Hf. apply andb_prop in Hf as [Hx Hf]. destruct ax as [|ax].
    + cbn in Hn. injection Hn as ->. cbn in *. apply andb_prop in Hx as [A B]. apply Z.leb_le in A. apply Z.leb_le in B. exists v. auto.
    + cbn in Hn |- *. apply (IH bl ax); auto.
Qed.
Lemma resolve_data : forall e m b, resolve e m = Some b -> fst b = m_data m.
Proof. intros e m b H. unfold resolve in H. destruct (all_some _); cbn in H; try discriminate. now injection H as <-. Qed.
Lemma in_box_data : forall d i b, in_box d i b = true -> fst b = d.
Proof. intros d i b H. unfold in_box in H. apply andb_prop in H as [H _]. apply andb_prop in H as [H _]. apply String.eqb_eq in H. auto. Qed.

(** two points of the loops which differ touch different cells *)
Lemma boxes_disjoint : forall ax s1 s2 m1 m2 e1 e2 k1 k2 b1 b2 d i,
  (m_data m1 = m_data m2 -> exists c, at_point ax s1 c m1 /\ at_point ax s2 c m2) ->
  e1 s1 = Some k1 -> e2 s2 = Some k2 -> k1 <> k2 ->
  resolve e1 m1 = Some b1 -> resolve e2 m2 = Some b2 -> in_box d i b1 = true -> in_box d i b2 = true -> False.
Proof.
  intros ax s1 s2 m1 m2 e1 e2 k1 k2 b1 b2 d i Hc E1 E2 Hk R1 R2 B1 B2.
  destruct Hc as (c & P1 & P2).
  { rewrite <- (resolve_data _ _ _ R1), <- (resolve_data _ _ _ R2), (in_box_data _ _ _ B1), (in_box_data _ _ _ B2). reflexivity. }
  destruct (resolve_point _ _ _ _ _ _ _ P1 E1 R1) as [_ N1]. destruct (resolve_point _ _ _ _ _ _ _ P2 E2 R2) as [_ N2].
  destruct (in_box_nth _ _ _ _ _ _ B1 N1) as (_ & v & V1 & L1). destruct (in_box_nth _ _ _ _ _ _ B2 N2) as (_ & v' & V2 & L2).
  rewrite V1 in V2. injection V2 as ->. lia.
Qed.

Lemma points_independent : forall ax s1 s2 cs1 cs2 e1 e2 k1 k2 a b,
  (forall n, In n cs1 -> loops_over s1 n = false) -> (forall n, In n cs2 -> loops_over s2 n = false) ->
  (forall x y, In x (flat_map writes_of cs1) -> In y (flat_map writes_of cs2 ++ flat_map reads_of cs2) -> m_data x = m_data y ->
               exists c, at_point ax s1 c x /\ at_point ax s2 c y) ->
  (forall x y, In x (flat_map reads_of cs1) -> In y (flat_map writes_of cs2) -> m_data x = m_data y ->
               exists c, at_point ax s1 c x /\ at_point ax s2 c y) ->
  k1 <> k2 -> In (Some a) (traces (bind_sym e1 s1 k1) cs1) -> In (Some b) (traces (bind_sym e2 s2 k2) cs2) -> independent a b.
Proof.
  intros ax s1 s2 cs1 cs2 e1 e2 k1 k2 a b L1 L2 W R Hk Ha Hb.
  unfold traces in *. apply in_flat_map in Ha as (n1 & H1 & Ha). apply in_flat_map in Hb as (n2 & H2 & Hb).
  destruct (event_origin _ _ _ s1 Ha (L1 _ H1)) as (t1 & e1' & E1 & T1 & I1 & O1).
  destruct (event_origin _ _ _ s2 Hb (L2 _ H2)) as (t2 & e2' & E2 & T2 & I2 & O2).
  rewrite bind_same in E1, E2.
  destruct (box_origin _ _ _ T1) as [BR1 BW1]. destruct (box_origin _ _ _ T2) as [BR2 BW2].
  assert (K : forall bs1 bs2, (forall b1 b2, In b1 bs1 -> In b2 bs2 -> exists m1 m2, resolve e1' m1 = Some b1 /\ resolve e2' m2 = Some b2 /\
              (m_data m1 = m_data m2 -> exists c, at_point ax s1 c m1 /\ at_point ax s2 c m2)) ->
              forall d i, in_boxes d i bs1 = true -> in_boxes d i bs2 = false).
  { intros bs1 bs2 H d i B1. destruct (in_boxes d i bs2) eqn:B2; auto. exfalso.
    apply existsb_exists in B1 as (b1 & Hb1 & B1). apply existsb_exists in B2 as (b2 & Hb2 & B2).
    destruct (H b1 b2 Hb1 Hb2) as (m1 & m2 & R1 & R2 & C). eapply boxes_disjoint with (m1 := m1) (m2 := m2); eauto. }
  assert (WW : forall d i, in_boxes d i (ev_writes a) = true -> in_boxes d i (ev_writes b) = false).
  { apply K. intros b1 b2 Hb1 Hb2. destruct (BW1 _ Hb1) as (m1 & M1 & Q1). destruct (BW2 _ Hb2) as (m2 & M2 & Q2).
    exists m1, m2. repeat split; auto. intros Hd. apply W; auto; [|apply in_or_app; left]; apply in_flat_map; eauto. }
  assert (WR : forall d i, in_boxes d i (ev_writes a) = true -> in_boxes d i (ev_reads b) = false).
  { apply K. intros b1 b2 Hb1 Hb2. destruct (BW1 _ Hb1) as (m1 & M1 & Q1). destruct (BR2 _ Hb2) as (m2 & M2 & Q2).
    exists m1, m2. repeat split; auto. intros Hd. apply W; auto; [|apply in_or_app; right]; apply in_flat_map; eauto. }
  assert (RW : forall d i, in_boxes d i (ev_reads a) = true -> in_boxes d i (ev_writes b) = false).
  { apply K. intros b1 b2 Hb1 Hb2. destruct (BR1 _ Hb1) as (m1 & M1 & Q1). destruct (BW2 _ Hb2) as (m2 & M2 & Q2).
    exists m1, m2. repeat split; auto. intros Hd. apply R; auto; apply in_flat_map; eauto. }
  split.
  - intros d i H. split; auto.
  - intros d i H. destruct (in_boxes d i (ev_reads a)) eqn:E; auto. rewrite (RW _ _ E) in H. discriminate.
Qed.

(** ** the two loops *)
Lemma none_merged : forall a s1 r1 cs1 s2 r2 cs2 m e,
  merge (Map s1 r1 cs1) (Map s2 r2 cs2) a = Some m -> mergeable_bodies s1 s2 cs1 cs2 -> r_step r1 >= 1 -> r_step r2 >= 1 ->
  (In None (trace e m) <-> In None (trace e (Map s1 r1 cs1) ++ trace e (Map s2 r2 cs2))).
Proof.
  intros a s1 r1 cs1 s2 r2 cs2 m e Hm Hb S1 S2. rewrite (merge_trace _ _ _ _ _ _ _ _ e Hm Hb).
  change (merged_range r1 r2) with (mkRange (Z.min (r_lo r1) (r_lo r2)) (Z.max (r_hi r1) (r_hi r2)) 1). rewrite iterations_step1.
  rewrite !trace_map.
  rewrite <- (flat_map_guarded (fun k => traces (bind_sym e s1 k) cs1) r1 (Z.min (r_lo r1) (r_lo r2)) (Z.max (r_hi r1) (r_hi r2)) s1) by lia.
  rewrite <- (flat_map_guarded (fun k => traces (bind_sym e s2 k) cs2) r2 (Z.min (r_lo r1) (r_lo r2)) (Z.max (r_hi r1) (r_hi r2)) s2) by lia.
  unfold interleaved. rewrite in_app_iff, !in_flat_map. split.
  - intros (k & Hk & H). apply in_app_or in H as [H|H]; [left|right]; exists k; auto.
  - intros [(k & Hk & H)|(k & Hk & H)]; exists k; split; auto; apply in_or_app; auto.
Qed.
