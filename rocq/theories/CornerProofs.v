(** Proofs about the model in CornerModel.v. *)
From Verif Require Import Base DecompModel GridModel CornerModel.

Definition tgt (a : asg) := (t_f a, t_i a, t_j a).
Definition srcp (a : asg) := (s_f a, s_i a, s_j a).
Definition clear_sources (l : list asg) : Prop := forall a b, In a l -> In b l -> srcp a <> tgt b.

Section Exec.
  Context {V : Type}.
  Variable mul : coef -> V -> V.
  Implicit Types (st : @fields V) (l : list asg).

  Lemma exec1_hit a st f i j : tgt a = (f, i, j) -> exec1 mul a st f i j = mul (s_c a) (st (s_f a) (s_i a) (s_j a)).
  Proof. intros [= <- <- <-]. unfold exec1. now rewrite Nat.eqb_refl, !Z.eqb_refl. Qed.
  Lemma exec1_miss a st f i j : tgt a <> (f, i, j) -> exec1 mul a st f i j = st f i j.
  Proof.
    intros N. unfold exec1. destruct ((f =? t_f a)%nat) eqn:E1; [|reflexivity]. destruct (i =? t_i a) eqn:E2; [|reflexivity].
    destruct (j =? t_j a) eqn:E3; [|reflexivity]. apply Nat.eqb_eq in E1. apply Z.eqb_eq in E2, E3. subst. now destruct N.
  Qed.
  Lemma exec_app l1 l2 st : exec mul (l1 ++ l2) st = exec mul l2 (exec mul l1 st).
  Proof. apply fold_left_app. Qed.
  Lemma exec_none l : forall st f i j, (forall a, In a l -> tgt a <> (f, i, j)) -> exec mul l st f i j = st f i j.
  Proof.
    induction l as [|a l IH]; intros st f i j N; [reflexivity|]. change (exec mul (a :: l) st) with (exec mul l (exec1 mul a st)).
    rewrite IH; [|intros b I; apply N; now right]. apply exec1_miss. apply N. now left.
  Qed.
  Lemma pos_dec (a b : nat * Z * Z) : {a = b} + {a <> b}.
  Proof. repeat decide equality. Qed.
  (** the last writer decides *)
  Lemma last_writer l t : (exists a, In a l /\ tgt a = t) -> exists l1 a l2, l = l1 ++ a :: l2 /\ tgt a = t /\ forall b, In b l2 -> tgt b <> t.
  Proof.
    induction l as [|x l IH]; intros (a & I & E); [destruct I|].
    destruct (in_dec pos_dec t (map tgt l)) as [M|M].
    - apply in_map_iff in M. destruct M as (b & E' & I'). destruct IH as (l1 & c & l2 & -> & Q & R); [exists b; auto|].
      exists (x :: l1), c, l2. auto.
    - destruct I as [->|I]; [|exfalso; apply M; apply in_map_iff; exists a; auto].
      exists [], a, l. split; [reflexivity|]. split; [exact E|]. intros b I' E'. apply M. apply in_map_iff. exists b. auto.
  Qed.
  Lemma exec_writer l st f i j : clear_sources l -> (exists a, In a l /\ tgt a = (f, i, j)) ->
    exists l1 a l2, l = l1 ++ a :: l2 /\ tgt a = (f, i, j) /\ (forall b, In b l2 -> tgt b <> (f, i, j)) /\
      exec mul l st f i j = mul (s_c a) (st (s_f a) (s_i a) (s_j a)).
  Proof.
    intros C X. destruct (last_writer l _ X) as (l1 & a & l2 & E & T & L). exists l1, a, l2. split; [exact E|]. split; [exact T|]. split; [exact L|].
    rewrite E, exec_app. change (exec mul (a :: l2) (exec mul l1 st)) with (exec mul l2 (exec1 mul a (exec mul l1 st))).
    rewrite exec_none by exact L. rewrite exec1_hit by exact T. f_equal. apply exec_none. intros b I Eb.
    apply (C a b); [rewrite E; apply in_or_app; right; now left|rewrite E; apply in_or_app; now left|]. symmetry. exact Eb.
  Qed.
End Exec.

(** ** from good assignments to the specification *)
Section Good.
  Variables (g : grid) (ni nj : Z).
  (** for each field: stagger, direction, the field it is filled from, the coefficient *)
  Variables (sg : nat -> stagger) (dr : nat -> bool) (sf : nat -> nat) (cof : nat -> bool -> bool -> turn -> coef).
  Hypothesis Hi : ni <= g_i g /\ nj <= g_i g.
  Hypothesis Hj : ni <= g_j g /\ nj <= g_j g.
  Hypothesis Hp : 0 <= g_i g /\ 0 <= g_j g.

  Definition good (a : asg) : Prop :=
    exists e n r, has_corner g e n = true /\ in_corner g ni nj (sg (t_f a)) e n (t_i a) (t_j a) /\ s_f a = sf (t_f a) /\
      s_c a = cof (t_f a) e n r /\
      filled_from g (dr (t_f a)) (sg (t_f a)) (sg (sf (t_f a))) e n (t_i a) (t_j a) r (s_i a) (s_j a).

  Lemma corner_unique s e n e' n' i j : in_corner g ni nj s e n i j -> in_corner g ni nj s e' n' i j -> e = e' /\ n = n'.
  Proof.
    unfold in_corner, rel, beyond, corner_pos. cbn [fst snd]. intros [A B] [A' B'].
    destruct e, e', n, n'; split; try reflexivity; lia.
  Qed.
  Lemma source_clear x s s' e n i j r i' j' e' n' :
    in_corner g ni nj s e n i j -> filled_from g x s s' e n i j r i' j' -> ~ in_corner g ni nj s' e' n' i' j'.
  Proof.
    unfold in_corner, filled_from, beside. intros [A B] [E F]. unfold rel, corner_pos in *.
    intros [A' B']. cbn [fst snd] in *.
    assert (E1 := f_equal fst E). assert (E2 := f_equal snd E). unfold turned in E1, E2. cbn [fst snd] in E1, E2. clear E.
    generalize (half (ci s)) (half (ci s')) (half (cj s)) (half (cj s')). unfold beyond in *.
    destruct x, e, n, r, e', n'; cbn [fst snd] in *; intros; lia.
  Qed.

  Lemma good_clear l : Forall good l -> clear_sources l.
  Proof.
    intros G a b Ia Ib E. rewrite Forall_forall in G. pose proof (G a Ia) as (e & n & r & _ & Ca & Fa & _ & Q).
    pose proof (G b Ib) as (e' & n' & r' & _ & Cb & _). unfold srcp, tgt in E. injection E as E1 E2 E3.
    apply (source_clear _ _ _ _ _ _ _ _ _ _ e' n' Ca Q). rewrite E2, E3. rewrite <- Fa, E1. exact Cb.
  Qed.

  Context {V : Type}.
  Variable mul : coef -> V -> V.

  (** in general: from some point on every writer of the target is good, and there is one *)
  Lemma late_good_fills f l (st : @fields V) (inside : Z -> Z -> Prop) :
    clear_sources l ->
    (forall e n i j, has_corner g e n = true -> in_corner g ni nj (sg f) e n i j -> inside i j ->
       exists l1 l2, l = l1 ++ l2 /\ (exists a, In a l2 /\ tgt a = (f, i, j)) /\ (forall a, In a l2 -> tgt a = (f, i, j) -> good a)) ->
    (forall i j a, In a l -> tgt a = (f, i, j) -> exists e n, has_corner g e n = true /\ in_corner g ni nj (sg f) e n i j) ->
    fills g ni nj (dr f) (sg f) (sg (sf f)) (fun e n r => mul (cof f e n r)) inside (st (sf f)) (st f) (exec mul l st f).
  Proof.
    intros C K Z0. split.
    - intros e n i j HC IC IN. destruct (K e n i j HC IC IN) as (L1 & L2 & E & W & G).
      assert (C2 : clear_sources L2) by (intros a b Ia Ib; apply C; rewrite E; apply in_or_app; now right).
      destruct (exec_writer mul L2 (exec mul L1 st) f i j C2 W) as (l1 & a & l2 & E2 & T & N & R).
      assert (Ia : In a L2) by (rewrite E2; apply in_or_app; right; now left).
      destruct (G a Ia T) as (e' & n' & r & HC' & IC' & F & O & Q). injection T as T1 T2 T3. rewrite T1, T2, T3 in *.
      destruct (corner_unique _ _ _ _ _ _ _ IC IC') as [-> ->]. exists r, (s_i a), (s_j a). split; [exact Q|].
      rewrite E, exec_app, R, <- F, <- O. f_equal. apply exec_none. intros b Ib Eb. apply (C a b).
      + rewrite E. apply in_or_app. now right.
      + rewrite E. apply in_or_app. now left.
      + symmetry. exact Eb.
    - intros i j IN N. apply exec_none. intros a I T. destruct (Z0 i j a I T) as (e & n & HC & IC). exact (N e n HC IC).
  Qed.

  Theorem good_fills f l (st : @fields V) (inside : Z -> Z -> Prop) :
    Forall good l ->
    (forall e n i j, has_corner g e n = true -> in_corner g ni nj (sg f) e n i j -> inside i j ->
       exists a, In a l /\ tgt a = (f, i, j)) ->
    fills g ni nj (dr f) (sg f) (sg (sf f)) (fun e n r => mul (cof f e n r)) inside (st (sf f)) (st f) (exec mul l st f).
  Proof.
    intros G K. apply late_good_fills; [apply good_clear; exact G| |].
    - intros e n i j HC IC IN. exists [], l. split; [reflexivity|]. split; [eauto|]. intros a I _. rewrite Forall_forall in G. auto.
    - intros i j a I [= <- <- <-]. rewrite Forall_forall in G. destruct (G a I) as (e & n & r & HC & IC & _). exists e, n. auto.
  Qed.
End Good.

(** the specification determines the result *)
Definition beyondb (e : bool) (cells u : Z) : bool :=
  if e then (0 <? u) && (u <=? 2 * cells) else (- (2 * cells) <=? u) && (u <? 0).
Lemma beyondb_spec e c u : beyondb e c u = true <-> beyond e c u.
Proof. unfold beyondb, beyond. destruct e; rewrite andb_true_iff; lia. Qed.
Definition in_cornerb g ni nj s e n i j : bool := beyondb e ni (fst (rel g s e n i j)) && beyondb n nj (snd (rel g s e n i j)).
Lemma in_cornerb_spec g ni nj s e n i j : in_cornerb g ni nj s e n i j = true <-> in_corner g ni nj s e n i j.
Proof. unfold in_cornerb, in_corner. now rewrite andb_true_iff, !beyondb_spec. Qed.
Lemma some_corner g ni nj s i j :
  (exists e n, has_corner g e n = true /\ in_corner g ni nj s e n i j) \/ (forall e n, has_corner g e n = true -> ~ in_corner g ni nj s e n i j).
Proof.
  destruct (existsb (fun e => existsb (fun n => has_corner g e n && in_cornerb g ni nj s e n i j) [true; false]) [true; false]) eqn:E.
  - left. apply existsb_exists in E. destruct E as (e & _ & E). apply existsb_exists in E. destruct E as (n & _ & E).
    apply andb_true_iff in E. destruct E as [A B]. apply in_cornerb_spec in B. exists e, n. auto.
  - right. intros e n A B. apply in_cornerb_spec in B.
    assert (X : existsb (fun e => existsb (fun n => has_corner g e n && in_cornerb g ni nj s e n i j) [true; false]) [true; false] = true).
    { apply existsb_exists. exists e. split; [destruct e; cbn; auto|]. apply existsb_exists. exists n. split; [destruct n; cbn; auto|]. now rewrite A, B. }
    congruence.
Qed.
Lemma filled_from_unique g ni nj x s s' e n i j r i1 j1 r' i2 j2 : in_corner g ni nj s e n i j ->
  filled_from g x s s' e n i j r i1 j1 -> filled_from g x s s' e n i j r' i2 j2 -> r = r' /\ i1 = i2 /\ j1 = j2.
Proof.
  unfold in_corner, filled_from, beside. intros [A B] [E F] [E' F']. unfold rel, corner_pos in *. cbn [fst snd] in *.
  assert (E1 := f_equal fst E). assert (E2 := f_equal snd E). assert (E3 := f_equal fst E'). assert (E4 := f_equal snd E').
  unfold turned in E1, E2, E3, E4. cbn [fst snd] in *. clear E E'. unfold beyond in *.
  destruct x, e, n, r, r'; cbn [fst snd] in *; split; try reflexivity; try lia.
Qed.
Lemma fills_unique {V} g ni nj x s s' (op : bool -> bool -> turn -> V -> V) inside src old new1 new2 :
  fills g ni nj x s s' op inside src old new1 -> fills g ni nj x s s' op inside src old new2 ->
  forall i j, inside i j -> new1 i j = new2 i j.
Proof.
  intros [A1 B1] [A2 B2] i j IN. destruct (some_corner g ni nj s i j) as [(e & n & HC & IC)|N].
  - destruct (A1 e n i j HC IC IN) as (r & i1 & j1 & F1 & ->). destruct (A2 e n i j HC IC IN) as (r' & i2 & j2 & F2 & ->).
    destruct (filled_from_unique _ _ _ _ _ _ _ _ _ _ _ _ _ _ _ _ IC F1 F2) as (-> & -> & ->). reflexivity.
  - now rewrite (B1 i j IN N), (B2 i j IN N).
Qed.
Lemma fills_inside {V} g ni nj x s s' (op : bool -> bool -> turn -> V -> V) (inside inside' : Z -> Z -> Prop) src old new :
  (forall i j, inside' i j -> inside i j) -> fills g ni nj x s s' op inside src old new -> fills g ni nj x s s' op inside' src old new.
Proof. intros S [A B]. split; [intros; now apply A; auto|]. intros; apply B; auto. Qed.

(** ** loops *)
Lemma in_pairs n i j : In (i, j) (pairs n) <-> 1 <= i <= n /\ 1 <= j <= n.
Proof.
  unfold pairs. rewrite in_flat_map. split.
  - intros (i' & I & M). apply in_map_iff in M. destruct M as (j' & [= <- <-] & J). apply in_zrange in I, J. lia.
  - intros [I J]. exists i. split; [apply in_zrange; lia|]. apply in_map_iff. exists j. split; [reflexivity|]. apply in_zrange. lia.
Qed.
Lemma in_loop g sw nw se ne a : In a (loop g sw nw se ne) <->
  exists i j, (1 <= i <= g_halo g /\ 1 <= j <= g_halo g) /\
    ((has_corner g false false = true /\ In a (sw i j)) \/ (has_corner g false true = true /\ In a (nw i j)) \/
     (has_corner g true false = true /\ In a (se i j)) \/ (has_corner g true true = true /\ In a (ne i j))).
Proof.
  unfold loop, has_corner, sw_corner, nw_corner, se_corner, ne_corner. rewrite in_flat_map.
  rewrite (andb_comm (south g) (west g)), (andb_comm (north g) (west g)), (andb_comm (south g) (east g)), (andb_comm (north g) (east g)).
  split.
  - intros ([i j] & P & I). apply in_pairs in P. exists i, j. split; [exact P|]. rewrite !in_app_iff in I.
    destruct I as [I|[I|[I|I]]].
    + left. destruct (west g && south g); [auto|destruct I].
    + right. left. destruct (west g && north g); [auto|destruct I].
    + right. right. left. destruct (east g && south g); [auto|destruct I].
    + right. right. right. destruct (east g && north g); [auto|destruct I].
  - intros (i & j & P & I). exists (i, j). split; [now apply in_pairs|]. rewrite !in_app_iff.
    destruct I as [[-> I]|[[-> I]|[[-> I]|[-> I]]]]; auto.
Qed.

(** a list of assignments is good for fields filled in these ways if each corner's are *)
Section Loop.
  Variables (g : grid) (sg : nat -> stagger) (dr : nat -> bool) (sf : nat -> nat) (cof : nat -> bool -> bool -> turn -> coef).
  Definition corner_good (e n : bool) (l : Z -> Z -> list asg) : Prop := forall i j a,
    1 <= i <= g_halo g -> 1 <= j <= g_halo g -> In a (l i j) ->
    in_corner g (g_halo g) (g_halo g) (sg (t_f a)) e n (t_i a) (t_j a) /\ s_f a = sf (t_f a) /\
    exists r, s_c a = cof (t_f a) e n r /\ filled_from g (dr (t_f a)) (sg (t_f a)) (sg (sf (t_f a))) e n (t_i a) (t_j a) r (s_i a) (s_j a).
  Definition corner_complete (f : nat) (e n : bool) (l : Z -> Z -> list asg) : Prop := forall i j,
    in_corner g (g_halo g) (g_halo g) (sg f) e n i j ->
    exists a b x, (1 <= a <= g_halo g /\ 1 <= b <= g_halo g) /\ In x (l a b) /\ tgt x = (f, i, j).
  Lemma loop_good sw nw se ne :
    corner_good false false sw -> corner_good false true nw -> corner_good true false se -> corner_good true true ne ->
    Forall (good g (g_halo g) (g_halo g) sg dr sf cof) (loop g sw nw se ne).
  Proof.
    intros A B C D. apply Forall_forall. intros a I. apply in_loop in I. destruct I as (i & j & [P Q] & I).
    destruct I as [[H I]|[[H I]|[[H I]|[H I]]]].
    - destruct (A i j a P Q I) as (X & Y & r & Z0 & T). exists false, false, r. auto.
    - destruct (B i j a P Q I) as (X & Y & r & Z0 & T). exists false, true, r. auto.
    - destruct (C i j a P Q I) as (X & Y & r & Z0 & T). exists true, false, r. auto.
    - destruct (D i j a P Q I) as (X & Y & r & Z0 & T). exists true, true, r. auto.
  Qed.
  Lemma loop_complete f sw nw se ne :
    corner_complete f false false sw -> corner_complete f false true nw -> corner_complete f true false se -> corner_complete f true true ne ->
    forall e n i j, has_corner g e n = true -> in_corner g (g_halo g) (g_halo g) (sg f) e n i j ->
    exists a, In a (loop g sw nw se ne) /\ tgt a = (f, i, j).
  Proof.
    intros A B C D e n i j HC IC.
    assert (K : exists a b x, (1 <= a <= g_halo g /\ 1 <= b <= g_halo g) /\
      In x ((if e then if n then ne else se else if n then nw else sw) a b) /\ tgt x = (f, i, j)) by (destruct e, n; auto).
    destruct K as (a & b & x & P & I & T). exists x. split; [|exact T]. apply in_loop. exists a, b. split; [exact P|].
    destruct e, n; auto.
  Qed.
End Loop.

(** vectors: field 0 is x, field 1 is y *)
Definition vec_sf (f : nat) : nat := match f with O => 1%nat | _ => O end.
Definition vec_cof (f : nat) (e n : bool) (r : turn) : coef :=
  match f, r with O, CW => Cms | O, CCW => C1 | _, CW => C1 | _, CCW => Cms end.
Definition vec_sg (sx sy : stagger) (f : nat) : stagger := match f with O => sx | _ => sy end.
Definition vec_dr (x_first : bool) (f : nat) : bool := match f with O => x_first | _ => negb x_first end.

Ltac corner_unfold :=
  unfold in_corner, filled_from, beside, beyond, rel, corner_pos, turned, isc, iec, jsc, jec, half in *;
  cbn [fst snd ci cj centre vertex x_face y_face vec_sf vec_sg vec_dr negb] in *.
Ltac good_with r :=
  split; [corner_unfold; lia|]; split; [reflexivity|]; exists r; split; [reflexivity|]; corner_unfold; split; [f_equal; lia|lia].
Ltac good_one := first [solve [good_with CW] | solve [good_with CCW]].
Ltac each_asg I := repeat (destruct I as [<-|I]; [cbn [t_f t_i t_j s_c s_f s_i s_j]; good_one|]); destruct I.
Ltac here := first [now left | right; here].
Ltac complete_with a b :=
  exists a, b;
  first [ solve [eexists; split; [corner_unfold; lia|]; split; [left; reflexivity|]; unfold tgt; cbn [t_f t_i t_j]; corner_unfold; repeat f_equal; lia]
        | solve [eexists; split; [corner_unfold; lia|]; split; [right; left; reflexivity|]; unfold tgt; cbn [t_f t_i t_j]; corner_unfold; repeat f_equal; lia]].

Definition scalar_cof : nat -> bool -> bool -> turn -> coef := fun _ _ _ _ => C1.

Section Agrid.
  Variables (g : grid) (x : bool) (q : nat).
  Notation sg := (fun _ : nat => centre).
  Notation dr := (fun _ : nat => x).
  Notation sf := (fun f : nat => f).
  Lemma agrid_good : Forall (good g (g_halo g) (g_halo g) sg dr sf scalar_cof) (fill_2d_agrid g x q).
  Proof.
    apply loop_good; intros i j a Pi Pj I; unfold sw_agrid, nw_agrid, se_agrid, ne_agrid in I; destruct x; each_asg I.
  Qed.
  Lemma agrid_complete e n i j : has_corner g e n = true -> in_corner g (g_halo g) (g_halo g) centre e n i j ->
    exists a, In a (fill_2d_agrid g x q) /\ tgt a = (q, i, j).
  Proof.
    revert e n i j. refine (loop_complete g sg q _ _ _ _ _ _ _ _);
      intros i j IC; unfold sw_agrid, nw_agrid, se_agrid, ne_agrid; destruct x.
    - complete_with (isc g - i) (jsc g - j).
    - complete_with (jsc g - j) (isc g - i).
    - complete_with (isc g - i) (j - jec g).
    - complete_with (j - jec g) (isc g - i).
    - complete_with (i - iec g) (jsc g - j).
    - complete_with (jsc g - j) (i - iec g).
    - complete_with (i - iec g) (j - jec g).
    - complete_with (j - jec g) (i - iec g).
  Qed.
End Agrid.

(** B grid: the other three corners, in either direction *)
Section Bgrid.
  Variables (g : grid) (x : bool) (q : nat).
  Notation sg := (fun _ : nat => vertex).
  Notation dr := (fun _ : nat => x).
  Notation sf := (fun f : nat => f).
  Lemma sw_bgrid_good : corner_good g sg dr sf scalar_cof false false (sw_bgrid g x q).
  Proof. intros i j a Pi Pj I; unfold sw_bgrid in I; destruct x; each_asg I. Qed.
  Lemma nw_bgrid_good : corner_good g sg dr sf scalar_cof false true (nw_bgrid g x q).
  Proof. intros i j a Pi Pj I; unfold nw_bgrid in I; destruct x; each_asg I. Qed.
  Lemma se_bgrid_good : corner_good g sg dr sf scalar_cof true false (se_bgrid g x q).
  Proof. intros i j a Pi Pj I; unfold se_bgrid in I; destruct x; each_asg I. Qed.
  Lemma sw_bgrid_complete : corner_complete g sg q false false (sw_bgrid g x q).
  Proof. intros i j IC; unfold sw_bgrid; destruct x; [complete_with (isc g - i) (jsc g - j)|complete_with (jsc g - j) (isc g - i)]. Qed.
  Lemma nw_bgrid_complete : corner_complete g sg q false true (nw_bgrid g x q).
  Proof. intros i j IC; unfold nw_bgrid; destruct x; [complete_with (isc g - i) (j - jec g - 1)|complete_with (j - jec g - 1) (isc g - i)]. Qed.
  Lemma se_bgrid_complete : corner_complete g sg q true false (se_bgrid g x q).
  Proof. intros i j IC; unfold se_bgrid; destruct x; [complete_with (i - iec g - 1) (jsc g - j)|complete_with (jsc g - j) (i - iec g - 1)]. Qed.
End Bgrid.

(** the loops in lexicographic order *)
Lemma pairs_split n i j : 1 <= i <= n -> 1 <= j <= n -> exists P1 P2, pairs n = P1 ++ (i, j) :: P2 /\
  forall i' j', In (i', j') P2 -> i < i' \/ (i' = i /\ j < j').
Proof.
  intros Hi Hj. unfold pairs.
  assert (S : forall k, 1 <= k <= n -> zrange 1 (1 + n) = zrange 1 k ++ k :: zrange (k + 1) (1 + n)).
  { intros k Hk. rewrite (zrange_app 1 k (1 + n)) by lia. f_equal. apply zrange_cons. lia. }
  set (row := fun a => map (fun b => (a, b)) (zrange 1 (1 + n))). rewrite (S i Hi), flat_map_app. cbn [flat_map].
  unfold row at 2. rewrite (S j Hj), map_app. cbn [map].
  exists (flat_map row (zrange 1 i) ++ map (fun b => (i, b)) (zrange 1 j)), (map (fun b => (i, b)) (zrange (j + 1) (1 + n)) ++ flat_map row (zrange (i + 1) (1 + n))).
  split; [rewrite <- !app_assoc; reflexivity|]. intros i' j' I. apply in_app_or in I. destruct I as [I|I].
  - apply in_map_iff in I. destruct I as (b & [= <- <-] & I). apply in_zrange in I. right. lia.
  - apply in_flat_map in I. destruct I as (a & Ia & I). apply in_map_iff in I. destruct I as (b & [= <- <-] & I). apply in_zrange in Ia. left. lia.
Qed.

Section BgridX.
  Variables (g : grid) (q : nat).
  Notation n := (g_halo g).
  Notation rows := (2 * g_halo g + g_j g + 1).      (* the second size of an array of the full domain *)
  Notation sg := (fun _ : nat => vertex).
  Notation dr := (fun _ : nat => true).
  Notation sf := (fun f : nat => f).
  Notation goodx := (good g n n sg dr sf scalar_cof).

  (** every assignment writes a corner block and reads the source of some point of a corner block *)
  Lemma bgrid_x_weak a : In a (fill_2d_bgrid g rows true q) ->
    t_f a = q /\ s_f a = q /\ (exists e n', has_corner g e n' = true /\ in_corner g n n vertex e n' (t_i a) (t_j a)) /\
    (exists e n' i j r, in_corner g n n vertex e n' i j /\ filled_from g true vertex vertex e n' i j r (s_i a) (s_j a)).
  Proof.
    intros I. apply in_loop in I. destruct I as (i & j & [Pi Pj] & I). destruct I as [[H I]|[[H I]|[[H I]|[H I]]]].
    - destruct I as [<-|[]]. cbn [t_f t_i t_j s_f s_i s_j]. repeat split; auto.
      + exists false, false. split; [exact H|]. corner_unfold. lia.
      + exists false, false, (isc g - i), (jsc g - j), CW. corner_unfold. repeat split; try lia. f_equal; lia.
    - destruct I as [<-|[]]. cbn [t_f t_i t_j s_f s_i s_j]. repeat split; auto.
      + exists false, true. split; [exact H|]. corner_unfold. lia.
      + exists false, true, (isc g - i), (jec g + 1 + j), CCW. corner_unfold. repeat split; try lia. f_equal; lia.
    - destruct I as [<-|[]]. cbn [t_f t_i t_j s_f s_i s_j]. repeat split; auto.
      + exists true, false. split; [exact H|]. corner_unfold. lia.
      + exists true, false, (iec g + 1 + i), (jsc g - j), CCW. corner_unfold. repeat split; try lia. f_equal; lia.
    - unfold ne_bgrid in I. apply in_map_iff in I. destruct I as (r & <- & R). apply in_zrange in R. cbn [t_f t_i t_j s_f s_i s_j].
      repeat split; auto.
      + exists true, true. split; [exact H|]. corner_unfold. lia.
      + exists true, true, (iec g + 1 + i), (jec g + 1 + j), CW. corner_unfold. repeat split; try lia. f_equal; lia.
  Qed.

  Hypothesis Hi : n <= g_i g.
  Hypothesis Hj : n <= g_j g.
  Hypothesis Hn : 0 <= n.

  Lemma bgrid_x_clear : clear_sources (fill_2d_bgrid g rows true q).
  Proof.
    intros a b Ia Ib E. destruct (bgrid_x_weak a Ia) as (_ & _ & _ & e & n' & i & j & r & IC & F).
    destruct (bgrid_x_weak b Ib) as (_ & _ & (e' & n'' & _ & IC') & _). unfold srcp, tgt in E. injection E as _ E2 E3.
    refine (source_clear g n n _ _ _ true vertex vertex e n' i j r (s_i a) (s_j a) e' n'' IC F _); try lia. rewrite E2, E3. exact IC'.
  Qed.

  Lemma bgrid_x_late e n' i j : has_corner g e n' = true -> in_corner g n n vertex e n' i j ->
    exists l1 l2, fill_2d_bgrid g rows true q = l1 ++ l2 /\ (exists a, In a l2 /\ tgt a = (q, i, j)) /\
      (forall a, In a l2 -> tgt a = (q, i, j) -> goodx a).
  Proof.
    intros HC IC.
    set (a := if e then i - iec g - 1 else isc g - i). set (b := if n' then j - jec g - 1 else jsc g - j).
    assert (Pa : 1 <= a <= n) by (subst a; corner_unfold; destruct e; lia).
    assert (Pb : 1 <= b <= n) by (subst b; corner_unfold; destruct n'; lia).
    destruct (pairs_split n a b Pa Pb) as (P1 & P2 & E & L). unfold fill_2d_bgrid, loop.
    rewrite E. rewrite flat_map_app. eexists _, _. split; [reflexivity|].
    assert (SW : (sw_corner g = has_corner g false false) /\ (nw_corner g = has_corner g false true) /\
                 (se_corner g = has_corner g true false) /\ (ne_corner g = has_corner g true true)).
    { unfold sw_corner, nw_corner, se_corner, ne_corner, has_corner. repeat split; apply andb_comm. }
    destruct SW as (S1 & S2 & S3 & S4). rewrite S1, S2, S3, S4. split.
    - (* the iteration (a, b) writes it *)
      exists (if e then if n' then mkAsg q (iec g + 1 + a) (jec g + 1 + b) C1 q (iec g + 1 + b) (jec g + 1 - a)
                        else mkAsg q (iec g + 1 + a) (jsc g - b) C1 q (iec g + 1 + b) (jsc g + a)
              else if n' then mkAsg q (isc g - a) (jec g + 1 + b) C1 q (isc g - b) (jec g + 1 - a)
                        else mkAsg q (isc g - a) (jsc g - b) C1 q (isc g - b) (jsc g + a)).
      split.
      + apply in_flat_map. exists (a, b). split; [now left|]. rewrite !in_app_iff. destruct e, n'; rewrite HC.
        * right. right. right. unfold ne_bgrid. apply in_map_iff. exists (jec g + 1 + b). split; [reflexivity|]. apply in_zrange. corner_unfold. lia.
        * right. right. left. now left.
        * right. left. now left.
        * left. now left.
      + unfold tgt. destruct e, n'; cbn [t_f t_i t_j]; subst a b; cbn iota in *; repeat f_equal; lia.
    - intros x I T. apply in_flat_map in I. destruct I as ([a' b'] & M & I). injection T as T1 T2 T3.
      assert (Ma : 1 <= a' <= n /\ 1 <= b' <= n).
      { apply in_pairs. rewrite E. apply in_or_app. now right. }
      rewrite !in_app_iff in I. destruct I as [I|[I|[I|I]]].
      + destruct (has_corner g false false) eqn:H; [|destruct I].
        destruct (sw_bgrid_good g true q a' b' x) as (X & Y & r & Z0 & W); try tauto. exists false, false, r. auto.
      + destruct (has_corner g false true) eqn:H; [|destruct I].
        destruct (nw_bgrid_good g true q a' b' x) as (X & Y & r & Z0 & W); try tauto. exists false, true, r. auto.
      + destruct (has_corner g true false) eqn:H; [|destruct I].
        destruct (se_bgrid_good g true q a' b' x) as (X & Y & r & Z0 & W); try tauto. exists true, false, r. auto.
      + destruct (has_corner g true true) eqn:H; [|destruct I]. unfold ne_bgrid in I. apply in_map_iff in I.
        destruct I as (r & <- & R). apply in_zrange in R. cbn [t_f t_i t_j] in *.
        assert (B : a' = a /\ r = jec g + 1 + b' /\ e = true /\ n' = true).
        { assert (E1 : e = true) by (destruct e; [reflexivity|]; subst a; corner_unfold; lia).
          assert (E2 : n' = true) by (destruct n'; [reflexivity|]; subst b; corner_unfold; lia).
          subst e n'. subst a b. destruct M as [M|M].
          - injection M as M1 M2. repeat split; corner_unfold; lia.
          - apply L in M. corner_unfold. lia. }
        destruct B as (-> & -> & -> & ->). exists true, true, CW. split; [exact H|]. cbn [t_f t_i t_j s_f s_c s_i s_j].
        split; [corner_unfold; lia|]. split; [reflexivity|]. split; [reflexivity|]. corner_unfold. split; [f_equal; lia|lia].
  Qed.
End BgridX.

Section Vector.
  Variable g : grid.
  Lemma agrid_v_good : Forall (good g (g_halo g) (g_halo g) (vec_sg centre centre) (vec_dr true) vec_sf vec_cof) (fill_agrid g 0 1).
  Proof. apply loop_good; (intros i j a Pi Pj IN; each_asg IN). Qed.
  Lemma dgrid_good : g_halo g = 3 ->
    Forall (good g (g_halo g) (g_halo g) (vec_sg y_face x_face) (vec_dr true) vec_sf vec_cof) (fill_dgrid g 0 1).
  Proof. intros H. apply loop_good; (intros i j a Pi Pj IN; each_asg IN). Qed.
  Lemma cgrid_good : g_halo g = 3 ->
    Forall (good g (g_halo g) (g_halo g) (vec_sg x_face y_face) (vec_dr false) vec_sf vec_cof) (fill_cgrid g 0 1).
  Proof. intros H. apply loop_good; (intros i j a Pi Pj IN; each_asg IN). Qed.
  Lemma agrid_v_complete f e n i j : (f < 2)%nat -> has_corner g e n = true -> in_corner g (g_halo g) (g_halo g) centre e n i j ->
    exists a, In a (fill_agrid g 0 1) /\ tgt a = (f, i, j).
  Proof.
    intros F. revert e n i j. refine (loop_complete g (fun _ => centre) f _ _ _ _ _ _ _ _);
      intros i j IC; (destruct f as [|[|]]; [| |lia]).
    - complete_with (isc g - i) (jsc g - j).
    - complete_with (jsc g - j) (isc g - i).
    - complete_with (isc g - i) (j - jec g).
    - complete_with (j - jec g) (isc g - i).
    - complete_with (i - iec g) (jsc g - j).
    - complete_with (jsc g - j) (i - iec g).
    - complete_with (i - iec g) (j - jec g).
    - complete_with (j - jec g) (i - iec g).
  Qed.
  Lemma dgrid_complete f e n i j : (f < 2)%nat -> has_corner g e n = true ->
    in_corner g (g_halo g) (g_halo g) (vec_sg y_face x_face f) e n i j -> exists a, In a (fill_dgrid g 0 1) /\ tgt a = (f, i, j).
  Proof.
    intros F. revert e n i j. refine (loop_complete g (vec_sg y_face x_face) f _ _ _ _ _ _ _ _);
      intros i j IC; (destruct f as [|[|]]; [| |lia]); cbn [vec_sg] in IC.
    - complete_with (isc g - i) (jsc g - j).
    - complete_with (isc g - i) (jsc g - j).
    - complete_with (isc g - i) (j - jec g - 1).
    - complete_with (isc g - i) (j - jec g).
    - complete_with (i - iec g) (jsc g - j).
    - complete_with (i - iec g - 1) (jsc g - j).
    - complete_with (i - iec g) (j - jec g - 1).
    - complete_with (i - iec g - 1) (j - jec g).
  Qed.
  Lemma cgrid_complete f e n i j : (f < 2)%nat -> has_corner g e n = true ->
    in_corner g (g_halo g) (g_halo g) (vec_sg x_face y_face f) e n i j -> exists a, In a (fill_cgrid g 0 1) /\ tgt a = (f, i, j).
  Proof.
    intros F. revert e n i j. refine (loop_complete g (vec_sg x_face y_face) f _ _ _ _ _ _ _ _);
      intros i j IC; (destruct f as [|[|]]; [| |lia]); cbn [vec_sg] in IC.
    - complete_with (isc g - i) (jsc g - j).
    - complete_with (isc g - i) (jsc g - j).
    - complete_with (isc g - i) (j - jec g).
    - complete_with (isc g - i) (j - jec g - 1).
    - complete_with (i - iec g - 1) (jsc g - j).
    - complete_with (i - iec g) (jsc g - j).
    - complete_with (i - iec g - 1) (j - jec g).
    - complete_with (i - iec g) (j - jec g - 1).
  Qed.
End Vector.

(** ** stencils: checking a table of statements *)
Definition coef_eqb (a b : coef) : bool :=
  match a, b with C1, C1 | Cms, Cms | Csw, Csw | Cse, Cse | Cnw, Cnw | Cne, Cne => true | _, _ => false end.
Lemma coef_eqb_eq a b : coef_eqb a b = true -> a = b.
Proof. destruct a, b; (reflexivity || discriminate). Qed.
Definition is_end (b : bnd) : bool := match b with St _ => false | En _ => true end.
(** position relative to the corner, for a field at the centres of cells or not *)
Definition brel (c : bool) (b : bnd) : Z := match b with St d => 2 * d + half c | En d => 2 * d - 2 + half c end.
Definition besideb (x e n : bool) (p : Z * Z) : bool :=
  if x then (if e then 0 <? fst p else fst p <? 0) && (if n then snd p <? 0 else 0 <? snd p)
  else (if e then fst p <? 0 else 0 <? fst p) && (if n then 0 <? snd p else snd p <? 0).

Section Table.
  Variables (ni nj : Z) (sg : nat -> stagger) (dr : nat -> bool) (sf : nat -> nat) (cof : nat -> bool -> bool -> turn -> coef).

  Definition turn_ok (s : stmt) (r : bnd * bnd) (t : turn) : bool :=
    let f := to s in
    let e := is_end (fst r) in let n := is_end (snd r) in
    let p := (brel (ci (sg f)) (fst r), brel (cj (sg f)) (snd r)) in
    let p' := (brel (ci (sg (sf f))) (fst r) + 2 * oi s, brel (cj (sg (sf f))) (snd r) + 2 * oj s) in
    (fst p' =? fst (turned t p)) && (snd p' =? snd (turned t p)) && besideb (dr f) e n p' && coef_eqb (cf s) (cof f e n t).
  Definition region_ok (s : stmt) (r : bnd * bnd) : bool :=
    let f := to s in
    beyondb (is_end (fst r)) ni (brel (ci (sg f)) (fst r)) && beyondb (is_end (snd r)) nj (brel (cj (sg f)) (snd r)) &&
    (from s =? sf f)%nat && (turn_ok s r CW || turn_ok s r CCW).
  Definition stmts_ok (l : list stmt) : bool := forallb (fun s => forallb (region_ok s) (regs s)) l.

  Definition bnd_eqb (a b : bnd) : bool := match a, b with St x, St y | En x, En y => x =? y | _, _ => false end.
  Definition wanted (c e : bool) (a : Z) : bnd := if e then En (a + (if c then 0 else 1)) else St (- a).
  Definition covers (f : nat) (l : list stmt) : bool :=
    forallb (fun e => forallb (fun n => forallb (fun a => forallb (fun b =>
      existsb (fun s => (to s =? f)%nat &&
        existsb (fun r => bnd_eqb (fst r) (wanted (ci (sg f)) e a) && bnd_eqb (snd r) (wanted (cj (sg f)) n b)) (regs s)) l)
      (zrange 1 (1 + nj))) (zrange 1 (1 + ni))) [true; false]) [true; false].

End Table.

Definition off (b : bnd) : Z := match b with St d => d | En d => d end.
Lemma bnd_here c b (e0 e1 : bool) (gs ge start stop lo num cells : Z) :
  start = (if e0 then gs else lo - big) -> stop = (if e1 then ge - 1 else lo + num - 1 + big) ->
  beyond (is_end b) cells (brel c b) -> lo <= at_bnd start stop b < lo + num ->
  (if is_end b then e1 else e0) = true /\ at_bnd start stop b = (if is_end b then ge - 1 else gs) + off b.
Proof.
  intros -> -> B W. unfold big in *. destruct b; cbn [is_end at_bnd brel off] in *; unfold beyond in B.
  - destruct e0; [split; [reflexivity|lia]|]. destruct c; unfold half in B; lia.
  - destruct e1; [split; [reflexivity|lia]|]. destruct c; unfold half in B; lia.
Qed.
Lemma window_bounds g a c b d : let w := window_at g a c b d in
  w_i w = a /\ w_ni w = c /\ w_j w = b /\ w_nj w = d /\
  i_start w = (if west g then g_halo g else a - big) /\ i_end w = (if east g then (g_halo g + g_i g) - 1 else a + c - 1 + big) /\
  j_start w = (if south g then g_halo g else b - big) /\ j_end w = (if north g then (g_halo g + g_j g) - 1 else b + d - 1 + big).
Proof.
  cbv zeta. unfold window_at, axis_offsets, start_of, end_of. cbn [fst snd w_i w_ni w_j w_nj i_start i_end j_start j_end g_origin g_domain].
  repeat split; destruct (west g), (east g), (south g), (north g); unfold place; lia.
Qed.
Lemma in_window_spec w i j : in_window w i j = true <-> w_i w <= i < w_i w + w_ni w /\ w_j w <= j < w_j w + w_nj w.
Proof. unfold in_window. rewrite !andb_true_iff. lia. Qed.

Section TableSound.
  Variables (ni nj : Z) (sg : nat -> stagger) (dr : nat -> bool) (sf : nat -> nat) (cof : nat -> bool -> bool -> turn -> coef).
  Variables (g : grid) (wi wni wj wnj : Z).
  Notation w := (window_at g wi wni wj wnj).

  Lemma rel_bnd c b gs ge i : i = (if is_end b then ge - 1 else gs) + off b ->
    2 * i + half c - 2 * (if is_end b then ge else gs) = brel c b.
  Proof. intros ->. destruct b; cbn [is_end off brel]; lia. Qed.

  Lemma table_good l : stmts_ok ni nj sg dr sf cof l = true -> Forall (good g ni nj sg dr sf cof) (stencil_asgs w l).
  Proof.
    intros K. apply Forall_forall. intros a I. unfold stencil_asgs in I. apply in_flat_map in I. destruct I as (s & Is & I).
    unfold stmt_asgs in I. apply in_flat_map in I. destruct I as ([bi bj] & Ir & I). cbn [fst snd] in I.
    destruct (in_window w (at_bnd (i_start w) (i_end w) bi) (at_bnd (j_start w) (j_end w) bj)) eqn:W; [|destruct I]. destruct I as [<-|[]].
    unfold stmts_ok in K. rewrite forallb_forall in K. specialize (K s Is). rewrite forallb_forall in K. specialize (K _ Ir).
    unfold region_ok in K. cbn [fst snd] in K. rewrite !andb_true_iff, !beyondb_spec in K. destruct K as (((B1 & B2) & F) & T).
    apply Nat.eqb_eq in F. apply in_window_spec in W. destruct W as [W1 W2].
    destruct (window_bounds g wi wni wj wnj) as (E1 & E2 & E3 & E4 & E5 & E6 & E7 & E8). cbv zeta in *. rewrite E1, E2 in W1. rewrite E3, E4 in W2.
    destruct (bnd_here _ _ _ _ _ _ _ _ _ _ _ E5 E6 B1 W1) as [C1 P1]. destruct (bnd_here _ _ _ _ _ _ _ _ _ _ _ E7 E8 B2 W2) as [C2 P2].
    set (i := at_bnd (i_start w) (i_end w) bi) in *. set (j := at_bnd (j_start w) (j_end w) bj) in *.
    assert (R : forall sx, rel g sx (is_end bi) (is_end bj) i j = (brel (ci sx) bi, brel (cj sx) bj)).
    { intros sx. unfold rel, corner_pos. cbn [fst snd]. f_equal; apply rel_bnd; assumption. }
    assert (R' : forall sx, rel g sx (is_end bi) (is_end bj) (i + oi s) (j + oj s) = (brel (ci sx) bi + 2 * oi s, brel (cj sx) bj + 2 * oj s)).
    { intros sx. specialize (R sx). unfold rel in R |- *. assert (X1 := f_equal fst R). assert (X2 := f_equal snd R). cbn [fst snd] in *. f_equal; lia. }
    assert (G : forall t, turn_ok sg dr sf cof s (bi, bj) t = true -> good g ni nj sg dr sf cof (mkAsg (to s) i j (cf s) (from s) (i + oi s) (j + oj s))).
    { intros t X. unfold turn_ok in X. cbn [fst snd] in X. rewrite !andb_true_iff in X. destruct X as (((X1 & X2) & X3) & X4).
      apply Z.eqb_eq in X1, X2. exists (is_end bi), (is_end bj), t. cbn [t_f t_i t_j s_f s_c s_i s_j]. split; [|split; [|split; [|split]]].
      - unfold has_corner. rewrite C1, C2. reflexivity.
      - unfold in_corner. rewrite R. split; assumption.
      - exact F.
      - now apply coef_eqb_eq.
      - unfold filled_from. rewrite R, R'. split.
        + rewrite (surjective_pairing (turned t _)). now rewrite X1, X2.
        + unfold besideb, beside in *. destruct (dr (to s)), (is_end bi), (is_end bj); cbn [fst snd] in *; rewrite andb_true_iff in X3; lia. }
    apply orb_true_iff in T. destruct T as [T|T]; exact (G _ T).
  Qed.

  Lemma bnd_eqb_eq a b : bnd_eqb a b = true -> a = b.
  Proof. destruct a, b; cbn; intros E; try discriminate; apply Z.eqb_eq in E; now subst. Qed.
  Lemma cell_of c (e e0 e1 : bool) (gs ge start stop lo num cells i : Z) :
    start = (if e0 then gs else lo - big) -> stop = (if e1 then ge - 1 else lo + num - 1 + big) ->
    (if e then e1 else e0) = true -> beyond e cells (2 * i + half c - 2 * (if e then ge else gs)) ->
    exists a, 1 <= a < 1 + cells /\ at_bnd start stop (wanted c e a) = i.
  Proof.
    intros -> -> C B. unfold beyond, wanted, half in *. destruct e; rewrite C; cbn [at_bnd].
    - exists (i - ge + (if c then 1 else 0)). destruct c; lia.
    - exists (gs - i). destruct c; lia.
  Qed.
  Lemma table_complete f l : covers ni nj sg f l = true ->
    forall e n i j, has_corner g e n = true -> in_corner g ni nj (sg f) e n i j -> in_window w i j = true ->
    exists a, In a (stencil_asgs w l) /\ tgt a = (f, i, j).
  Proof.
    intros K e n i j HC [B1 B2] W. unfold has_corner in HC. apply andb_true_iff in HC. destruct HC as [HC1 HC2].
    unfold rel, corner_pos in B1, B2. cbn [fst snd] in B1, B2.
    destruct (window_bounds g wi wni wj wnj) as (E1 & E2 & E3 & E4 & E5 & E6 & E7 & E8). cbv zeta in *.
    destruct (cell_of _ _ _ _ _ _ _ _ _ _ _ _ E5 E6 HC1 B1) as (a & Ha & Pa). destruct (cell_of _ _ _ _ _ _ _ _ _ _ _ _ E7 E8 HC2 B2) as (b & Hb & Pb).
    unfold covers in K. rewrite forallb_forall in K. assert (K1 := K e ltac:(destruct e; cbn; auto)). clear K.
    rewrite forallb_forall in K1. assert (K2 := K1 n ltac:(destruct n; cbn; auto)). clear K1.
    rewrite forallb_forall in K2. assert (K3 := K2 a ltac:(apply in_zrange; lia)). clear K2.
    rewrite forallb_forall in K3. assert (K4 := K3 b ltac:(apply in_zrange; lia)). clear K3.
    apply existsb_exists in K4. destruct K4 as (s & Is & K). apply andb_true_iff in K. destruct K as [F K]. apply Nat.eqb_eq in F.
    apply existsb_exists in K. destruct K as ([bi bj] & Ir & K). cbn [fst snd] in K. apply andb_true_iff in K. destruct K as [K1 K2].
    apply bnd_eqb_eq in K1, K2. subst bi bj.
    exists (mkAsg (to s) i j (cf s) (from s) (i + oi s) (j + oj s)). split; [|unfold tgt; cbn; now rewrite F].
    unfold stencil_asgs. apply in_flat_map. exists s. split; [exact Is|]. unfold stmt_asgs. apply in_flat_map.
    exists (wanted (ci (sg f)) e a, wanted (cj (sg f)) n b). split; [exact Ir|]. cbn [fst snd]. rewrite Pa, Pb, W. now left.
  Qed.
End TableSound.

(** the whole of it *)
Lemma table_fills {V} (mul : coef -> V -> V) ni nj sg dr sf cof g wi wni wj wnj l f (st : @fields V) :
  stmts_ok ni nj sg dr sf cof l = true -> covers ni nj sg f l = true ->
  ni <= g_i g /\ nj <= g_i g -> ni <= g_j g /\ nj <= g_j g -> 0 <= g_i g /\ 0 <= g_j g ->
  let w := window_at g wi wni wj wnj in
  fills g ni nj (dr f) (sg f) (sg (sf f)) (fun e n r => mul (cof f e n r)) (fun i j => in_window w i j = true)
    (st (sf f)) (st f) (exec mul (stencil_asgs w l) st f).
Proof.
  intros K C Hi Hj Hp w. apply good_fills; auto; [now apply table_good|]. intros e n i j HC IC IN. eapply table_complete; eauto.
Qed.
