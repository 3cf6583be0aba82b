(** Proofs about the reports of the comparison metrics. *)
From Verif Require Import Base MetricModel TellModel.
From Coq Require Import Permutation Sorted Lia.
Import ListNotations.
Local Open Scope nat_scope.
Local Open Scope list_scope.

Lemma in_nonzero l : forall n i, In i (nonzero n l) <-> exists k, i = n + k /\ nth_error l k = Some true.
Proof.
  induction l as [|b l IH]; intros n i; cbn [nonzero].
  - split; [intros []|intros (k & _ & E); destruct k; discriminate].
  - destruct b; cbn [In]; rewrite IH; split.
    + intros [<-|(k & -> & E)]; [exists 0; split; [lia|reflexivity]|exists (S k); split; [lia|exact E]].
    + intros ([|k] & -> & E); [left; lia|right; exists k; split; [lia|exact E]].
    + intros (k & -> & E). exists (S k). split; [lia|exact E].
    + intros ([|k] & -> & E); [discriminate|exists k; split; [lia|exact E]].
Qed.
Lemma nonzero_sorted l : forall n, StronglySorted lt (nonzero n l).
Proof.
  induction l as [|b l IH]; intros n; cbn [nonzero]; [constructor|]. destruct b; [|apply IH]. constructor; [apply IH|].
  apply Forall_forall. intros i Hi. apply in_nonzero in Hi as (k & -> & _). lia.
Qed.
Lemma nonzero_length l : forall n, length (nonzero n l) = length (filter (fun b => b) l).
Proof. induction l as [|b l IH]; intros n; cbn [nonzero filter]; [reflexivity|]. destruct b; cbn [length]; rewrite IH; reflexivity. Qed.

Lemma in_failing l i : In i (failing l) <-> nth_error l i = Some false.
Proof.
  unfold failing. rewrite in_nonzero. split.
  - intros (k & -> & E). rewrite nth_error_map in E. cbn [Nat.add]. destruct (nth_error l k) as [[]|]; try discriminate. reflexivity.
  - intros E. exists i. split; [reflexivity|]. rewrite nth_error_map. rewrite E. reflexivity.
Qed.

(** ** the worst failure *)
Definition usual (x : fl) : Prop := x = NaN \/ fle (Num 0) x = true.
Lemma fabs_usual x : usual (fabs x).
Proof. destruct x as [|s|q]; cbn; [left; reflexivity|right; reflexivity|right; apply Qle_bool_iff, Qabs_nonneg]. Qed.
Lemma fabs_id x : usual x -> x = NaN \/ x = Inf false \/ exists q, x = Num q /\ (0 <= q)%Q.
Proof. intros [->|E]; [auto|]. destruct x as [|[]|q]; cbn in E; try discriminate; auto. right; right. exists q. split; [reflexivity|now apply Qle_bool_iff]. Qed.
Lemma flt_abs w e : usual w -> usual e -> w <> NaN -> e <> NaN -> flt (fabs w) (fabs e) = flt w e.
Proof.
  intros Hw He Nw Ne. destruct (fabs_id w Hw) as [?|[->|(a & -> & A)]]; try contradiction; destruct (fabs_id e He) as [?|[->|(b & -> & B)]]; try contradiction; cbn; try reflexivity.
  unfold qlt. f_equal. apply Bool.eq_true_iff_eq. rewrite !Qle_bool_iff, !Qabs_pos by assumption. reflexivity.
Qed.
Lemma not_flt w e : w <> NaN -> e <> NaN -> flt w e = false -> fle e w = true.
Proof.
  destruct w as [|[]|a], e as [|[]|b]; cbn; try congruence; try reflexivity. intros _ _. unfold qlt. destruct (Qle_bool b a); cbn; congruence.
Qed.
Lemma flt_fle w e : flt w e = true -> fle w e = true.
Proof.
  destruct w as [|[]|a], e as [|[]|b]; cbn; try congruence. unfold qlt. destruct (Qle_bool b a) eqn:E; cbn; [discriminate|]. intros _.
  apply Qle_bool_iff. apply Qlt_le_weak. apply Qnot_le_lt. intros H. apply Qle_bool_iff in H. congruence.
Qed.
Lemma fle_trans x y z : fle x y = true -> fle y z = true -> fle x z = true.
Proof.
  destruct x as [|[]|a], y as [|[]|b], z as [|[]|c]; cbn; try congruence. rewrite !Qle_bool_iff. intros; eapply Qle_trans; eassumption.
Qed.
Lemma fle_refl x : x <> NaN -> fle x x = true.
Proof. destruct x as [|[]|a]; cbn; try congruence; try reflexivity. intros _. apply Qle_bool_iff, Qle_refl. Qed.

(** what the loop keeps: the value is that of the failure kept, or still 0 with none; NaN is kept; all seen are at most it *)
Lemma worst_loop l : forall w o seen, Forall (fun f => usual (f_metric f)) l -> usual w ->
  match o with Some f => f_metric f = w /\ In f seen | None => w = Num 0%Q end ->
  (w = NaN \/ forall f, In f seen -> fle (f_metric f) w = true) ->
  let r := fold_left update_worst l (w, o) in
  usual (fst r) /\
  match snd r with Some f => f_metric f = fst r /\ In f (seen ++ l) | None => fst r = Num 0%Q end /\
  (fst r = NaN \/ forall f, In f (seen ++ l) -> fle (f_metric f) (fst r) = true).
Proof.
  induction l as [|f l IH]; intros w o seen U Uw O S; cbn [fold_left].
  - cbn [fst snd]. rewrite app_nil_r. destruct o; auto.
  - inversion_clear U as [|? ? Uf U'].
    assert (A : seen ++ f :: l = (seen ++ [f]) ++ l) by now rewrite <- app_assoc. rewrite A.
    assert (St : update_worst (w, o) f = if isnan (f_metric f) || flt (fabs w) (fabs (f_metric f)) then (f_metric f, Some f) else (w, o)) by reflexivity.
    rewrite St. clear St. destruct (isnan (f_metric f)) eqn:N; cbn [orb].
    + destruct (IH (f_metric f) (Some f) (seen ++ [f]) U' Uf) as (R1 & R2 & R3).
      * split; [reflexivity|]. apply in_or_app. right. now left.
      * left. destruct (f_metric f); try discriminate. reflexivity.
      * exact (conj R1 (conj R2 R3)).
    + assert (Ne : f_metric f <> NaN) by (destruct (f_metric f); discriminate || congruence).
      destruct (flt (fabs w) (fabs (f_metric f))) eqn:L.
      * assert (Nw : w <> NaN) by (destruct w; cbn in L; discriminate || congruence). rewrite flt_abs in L by assumption.
        destruct (IH (f_metric f) (Some f) (seen ++ [f]) U' Uf) as (R1 & R2 & R3).
        -- split; [reflexivity|]. apply in_or_app. right. now left.
        -- right. intros g Hg. apply in_app_or in Hg as [Hg|[<-|[]]]; [|now apply fle_refl].
           destruct S as [?|S]; [contradiction|]. eapply fle_trans; [apply S, Hg|now apply flt_fle].
        -- exact (conj R1 (conj R2 R3)).
      * destruct (IH w o (seen ++ [f]) U' Uw) as (R1 & R2 & R3).
        -- destruct o as [g|]; [|exact O]. destruct O as [O1 O2]. split; [exact O1|]. apply in_or_app. now left.
        -- destruct S as [->|S]; [now left|]. destruct (isnan w) eqn:Nw; [left; destruct w; discriminate || reflexivity|]. right.
           intros g Hg. apply in_app_or in Hg as [Hg|[<-|[]]]; [now apply S|].
           assert (w <> NaN) by (destruct w; discriminate || congruence). rewrite flt_abs in L by assumption. now apply not_flt.
        -- exact (conj R1 (conj R2 R3)).
Qed.

(** ** order *)
Lemma ssorted_app {A} (R : A -> A -> Prop) l1 l2 : StronglySorted R l1 -> StronglySorted R l2 -> (forall x y, In x l1 -> In y l2 -> R x y) -> StronglySorted R (l1 ++ l2).
Proof.
  intros S1 S2 H. induction S1 as [|x l1 S1 IH F]; cbn [app]; [exact S2|]. constructor.
  - apply IH. intros a b Ha Hb. apply H; [now right|exact Hb].
  - apply Forall_app. split; [exact F|]. apply Forall_forall. intros y Hy. apply H; [now left|exact Hy].
Qed.
Lemma ssorted_rev {A} (R : A -> A -> Prop) l : StronglySorted R l -> StronglySorted (fun x y => R y x) (rev l).
Proof.
  induction 1 as [|x l S IH F]; cbn [rev]; [constructor|]. apply ssorted_app; [exact IH|repeat constructor|].
  intros a b Ha [<-|[]]. rewrite Forall_forall in F. apply F. now apply in_rev.
Qed.
Lemma ssorted_map {A B} (f : A -> B) (R : B -> B -> Prop) l : StronglySorted R (map f l) -> StronglySorted (fun x y => R (f x) (f y)) l.
Proof.
  induction l as [|x l IH]; cbn [map]; intros S; [constructor|]. apply StronglySorted_inv in S as [S F]. constructor; [auto|].
  apply Forall_forall. intros y Hy. rewrite Forall_forall in F. apply F, in_map, Hy.
Qed.
Lemma ssorted_flat {A B} (f : A -> list B) (R : A -> A -> Prop) (R' : B -> B -> Prop) l :
  StronglySorted R l -> (forall x, length (f x) <= 1) -> (forall x y a b, In x l -> In y l -> R x y -> In a (f x) -> In b (f y) -> R' a b) -> StronglySorted R' (flat_map f l).
Proof.
  intros S L. induction S as [|x l S IH F]; intros H; cbn [flat_map]; [constructor|]. apply ssorted_app.
  - specialize (L x). destruct (f x) as [|a [|b m]]; cbn in L; try lia; repeat constructor.
  - apply IH. intros y z a b Hy Hz. apply H; now right.
  - intros a b Ha Hb. apply in_flat_map in Hb as (y & Hy & Hb). rewrite Forall_forall in F. apply (H x y); auto; [now left|now right].
Qed.
Lemma filter_flat_length {A B} (f : A -> list B) (g : B -> bool) (h : A -> bool) l :
  (forall x, In x l -> length (filter g (f x)) = if h x then 1 else 0) -> length (filter g (flat_map f l)) = length (filter h l).
Proof.
  induction l as [|x l IH]; intros H; cbn [flat_map filter]; [reflexivity|]. rewrite filter_app, app_length, IH by (intros y Hy; apply H; now right).
  rewrite H by now left. destruct (h x); reflexivity.
Qed.
Lemma perm_filter {A} (g : A -> bool) l l' : Permutation l l' -> Permutation (filter g l) (filter g l').
Proof.
  induction 1 as [|x l l' P IH|x y l|l l' l'' P1 IH1 P2 IH2]; cbn [filter].
  - constructor.
  - destruct (g x); [now constructor|exact IH].
  - destruct (g x), (g y); try apply Permutation_refl. constructor.
  - now transitivity (filter g l').
Qed.
Lemma filter_map_length {A B} (f : A -> B) (g : B -> bool) l : length (filter g (map f l)) = length (filter (fun x => g (f x)) l).
Proof. induction l as [|x l IH]; cbn [map filter]; [reflexivity|]. destruct (g (f x)); cbn [length]; rewrite IH; reflexivity. Qed.
Lemma filter_nth_length {A} (g : A -> bool) d l : length (filter g l) = length (filter (fun i => g (nth i l d)) (seq 0 (length l))).
Proof.
  induction l as [|x l IH]; [reflexivity|].
  assert (E : length (filter (fun i => g (nth i (x :: l) d)) (seq 1 (length l))) = length (filter g l)) by (rewrite <- seq_shift, filter_map_length; symmetry; exact IH).
  change (seq 0 (length (x :: l))) with (0 :: seq 1 (length l)). cbn [filter]. change (nth 0 (x :: l) d) with x. destruct (g x); cbn [length]; rewrite E; reflexivity.
Qed.
