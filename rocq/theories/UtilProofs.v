(** Proofs about the utilities. *)
From Coq Require Import Ring Permutation.
From Verif Require Import Base Dict UtilModel.

Section Namelist.
Variable V : Type.
Notation nml := (nml V).

Lemma nml_rect' (P : nml -> Prop) : (forall v, P (Setting v)) -> (forall es, (forall k n, In (k, n) es -> P n) -> P (Group es)) -> forall n, P n.
Proof.
  intros HS HG. fix IH 1. intros [v|es]; [apply HS|]. apply HG. induction es as [|[k n] es IHes]; intros k' n' []; [injection H as _ <-; apply IH|eapply IHes; eauto].
Qed.

(** the inner loop of [flatten], named *)
Fixpoint go (entries : list (string * nml)) (acc : dict V) : option (dict V) :=
  match entries with
  | [] => Some acc
  | (k, n') :: entries' =>
      match n' with
      | Setting v => go entries' (put acc k v)
      | Group _ => do sub <- flatten V n'; do acc' <- enter V sub acc; go entries' acc'
      end
  end.
Lemma flatten_go es : flatten V (Group es) = go es [].
Proof.
  cbn [flatten]. generalize (@nil (string * V)) as acc. induction es as [|[k [v|g]] es IH]; intros acc; [reflexivity|apply IH|].
  cbn [go]. destruct (flatten V (Group g)) as [sub|]; [|reflexivity]. cbn [bind]. destruct (enter V sub acc); [|reflexivity]. cbn [bind]. apply IH.
Qed.

Lemma put_new (d : dict V) k v : ~ In k (keys d) -> put d k v = d ++ [(k, v)].
Proof.
  induction d as [|[j w] d IH]; intros N; auto. cbn in *. destruct (String.eqb_spec k j) as [->|]; [tauto|]. rewrite IH; tauto.
Qed.
Lemma keys_app (a b : dict V) : keys (a ++ b) = keys a ++ keys b.
Proof. apply map_app. Qed.

Lemma enter_ok (sub : dict V) : forall acc, NoDup (keys acc) -> NoDup (keys sub) ->
  (NoDup (keys (acc ++ sub)) -> enter V sub acc = Some (acc ++ sub)) /\ (~ NoDup (keys (acc ++ sub)) -> enter V sub acc = None).
Proof.
  induction sub as [|[k v] sub IH]; intros acc Na Ns; cbn [enter].
  - rewrite app_nil_r. split; auto. tauto.
  - inversion Ns; subst. destruct (get acc k) eqn:G.
    + split; auto. intros N. exfalso. rewrite keys_app in N. cbn in N. apply NoDup_remove_2 in N. apply N, in_or_app. left. apply get_some. eauto.
    + apply get_none in G. rewrite put_new by auto. destruct (IH (acc ++ [(k, v)])) as [A B]; auto.
      * rewrite keys_app. cbn. apply NoDup_rev in Na. rewrite <- (rev_involutive (keys acc ++ [k])). apply NoDup_rev. rewrite rev_app_distr. cbn. constructor; auto. rewrite <- in_rev. auto.
      * rewrite <- app_assoc in A, B. cbn in A, B. auto.
Qed.

(** any depth: distinct names throughout *)
Lemma nodup_app_l {A} (a b : list A) : NoDup (a ++ b) -> NoDup a.
Proof. induction b as [|x b IH] in a |- *; [now rewrite app_nil_r|]. intros H. apply NoDup_remove_1 in H. auto. Qed.
Lemma nodup_app_r {A} (a b : list A) : NoDup (a ++ b) -> NoDup b.
Proof. induction a; auto. cbn. intros H. inversion H; auto. Qed.

Lemma go_distinct es : (forall k n, In (k, n) es -> NoDup (keys (settings V n)) -> match n with Setting _ => True | Group _ => flatten V n = Some (settings V n) end) ->
  forall acc, NoDup (keys (acc ++ settings V (Group es))) -> go es acc = Some (acc ++ settings V (Group es)).
Proof.
  induction es as [|[k n] es IH]; intros H acc N.
  - cbn. now rewrite app_nil_r.
  - cbn [settings flat_map snd fst] in *. fold (settings V (Group es)) in *. destruct n as [v|g]; cbn [go].
    + rewrite put_new.
      * rewrite IH; [now rewrite <- app_assoc|intros; eapply H; eauto; right; eauto|]. rewrite <- app_assoc. exact N.
      * intros I. rewrite keys_app in N. cbn in N. apply NoDup_remove_2 in N. apply N, in_or_app. auto.
    + change (flat_map _ es) with (settings V (Group es)) in N. rewrite (H k (Group g)); [|left; auto|].
      * cbn [bind]. destruct (enter_ok (settings V (Group g)) acc) as [A _].
        { rewrite keys_app in N. now apply nodup_app_l in N. }
        { rewrite !keys_app in N. apply nodup_app_r in N. now apply nodup_app_l in N. }
        rewrite app_assoc in N. rewrite A by (rewrite keys_app in N; now apply nodup_app_l in N). cbn [bind].
        rewrite IH; [now rewrite app_assoc|intros; eapply H; eauto; right; eauto|exact N].
      * rewrite !keys_app in N. apply nodup_app_r in N. now apply nodup_app_l in N.
Qed.

Lemma flatten_distinct n : NoDup (keys (settings V n)) -> match n with Setting _ => True | Group _ => flatten V n = Some (settings V n) end.
Proof.
  induction n as [v|es IH] using nml_rect'; auto. intros N. rewrite flatten_go. rewrite (go_distinct es); auto.
Qed.

(** two levels *)
Definition inner (s : dict V) : nml := Group (map (fun '(k, v) => (k, Setting v)) s).
Lemma settings_inner s : settings V (inner s) = s.
Proof. unfold inner. cbn [settings]. induction s as [|[k v] s IH]; auto. cbn. now rewrite IH. Qed.
Lemma settings_two groups : settings V (Group (two_level V groups)) = flat_map snd groups.
Proof.
  induction groups as [|[g s] groups IH]; auto. cbn [two_level map settings flat_map snd fst] in *. fold (two_level V groups). f_equal; [|exact IH].
  exact (settings_inner s).
Qed.
Lemma flatten_inner s : NoDup (keys s) -> flatten V (inner s) = Some s.
Proof. intros N. pose proof (flatten_distinct (inner s)) as F. rewrite settings_inner in F. exact (F N). Qed.

Lemma go_dup groups : Forall (fun '(g, s) => NoDup (keys s)) groups -> forall acc, NoDup (keys acc) -> ~ NoDup (keys (acc ++ flat_map snd groups)) -> go (two_level V groups) acc = None.
Proof.
  induction 1 as [|[g s] groups N F IH]; intros acc Na D; [cbn in D; rewrite app_nil_r in D; tauto|].
  cbn [two_level map go]. fold (inner s). rewrite flatten_inner by auto. cbn [bind]. destruct (enter_ok s acc Na N) as [A B].
  destruct (ListDec.NoDup_dec string_dec (keys (acc ++ s))) as [Y|Y]; [|now rewrite B].
  rewrite A by auto. cbn [bind]. apply IH; auto. rewrite <- app_assoc. exact D.
Qed.

Lemma two_level_flatten groups : Forall (fun '(g, s) => NoDup (keys s)) groups ->
  (NoDup (keys (flat_map snd groups)) -> flatten V (Group (two_level V groups)) = Some (flat_map snd groups)) /\
  (~ NoDup (keys (flat_map snd groups)) -> flatten V (Group (two_level V groups)) = None).
Proof.
  intros F. split; intros N.
  - pose proof (flatten_distinct (Group (two_level V groups))) as D. rewrite settings_two in D. auto.
  - rewrite flatten_go. apply go_dup; auto. constructor.
Qed.

Lemma nodup_concat_iff (l : list (list string)) : Forall (@NoDup string) l ->
  (NoDup (concat l) <-> forall i j x, In x (nth i l []) -> In x (nth j l []) -> i = j).
Proof.
  induction 1 as [|a l Na F IH]; [split; [intros _ [] [] x []|constructor]|]. cbn [concat]. split.
  - intros N i j x Hi Hj. destruct i as [|i], j as [|j]; auto; cbn [nth] in *.
    + exfalso. assert (I : In x (concat l)). { apply in_concat. exists (nth j l []). split; auto. destruct (Nat.lt_ge_cases j (length l)); [now apply nth_In|]. rewrite nth_overflow in Hj by auto. destruct Hj. }
      clear - N Hi I. induction a as [|y a IHa]; [destruct Hi|]. inversion N; subst. destruct Hi as [->|Hi]; [apply H1, in_or_app; auto|auto].
    + exfalso. assert (I : In x (concat l)). { apply in_concat. exists (nth i l []). split; auto. destruct (Nat.lt_ge_cases i (length l)); [now apply nth_In|]. rewrite nth_overflow in Hi by auto. destruct Hi. }
      clear - N Hj I. induction a as [|y a IHa]; [destruct Hj|]. inversion N; subst. destruct Hj as [->|Hj]; [apply H1, in_or_app; auto|auto].
    + f_equal. apply nodup_app_r in N. apply (proj1 IH N i j x); auto.
  - intros H. assert (D : forall x, In x a -> ~ In x (concat l)).
    { intros x Ia Ic. apply in_concat in Ic. destruct Ic as (b & Ib & Ix). destruct (In_nth l b [] Ib) as (j & _ & E). specialize (H 0%nat (S j) x Ia). cbn in H. rewrite E in H. specialize (H Ix). discriminate. }
    assert (Nl : NoDup (concat l)) by (apply IH; intros i j x Hi Hj; specialize (H (S i) (S j) x Hi Hj); congruence).
    clear - Na D Nl. induction a as [|y a IHa]; auto. inversion Na; subst. cbn. constructor.
    + intros I. apply in_app_iff in I. destruct I as [I|I]; [tauto|]. apply (D y); [left; auto|auto].
    + apply IHa; auto. intros x I. apply D. right; auto.
Qed.
End Namelist.

Section Rotation.
Variables (R angle : Type) (zero one : R) (add mul sub : R -> R -> R) (opp : R -> R).
Hypothesis Rth : ring_theory zero one add mul sub opp eq.
Add Ring Rr : Rth.
Variables (cos sin : angle -> R) (neg : angle -> angle).
Hypothesis pythagoras : forall a, add (mul (cos a) (cos a)) (mul (sin a) (sin a)) = one.
Hypothesis cos_neg : forall a, cos (neg a) = cos a.
Hypothesis sin_neg : forall a, sin (neg a) = opp (sin a).

Lemma rot_dot axis p q a p' q' : rot_3d R angle add mul opp cos sin axis p a = Some p' -> rot_3d R angle add mul opp cos sin axis q a = Some q' ->
  dot R add mul p' q' = dot R add mul p q.
Proof.
  destruct p as [[p0 p1] p2], q as [[q0 q1] q2]. unfold rot_3d. pose proof (pythagoras a) as P. set (c := cos a) in *. set (s := sin a) in *.
  destruct (axis =? 1); [|destruct (axis =? 2); [|destruct (axis =? 3); [|discriminate]]]; intros E1 E2; apply some_inj in E1, E2; subst p' q'; unfold dot.
  - transitivity (add (mul p0 q0) (mul (add (mul c c) (mul s s)) (add (mul p1 q1) (mul p2 q2)))); [ring|]. rewrite P. ring.
  - transitivity (add (mul p1 q1) (mul (add (mul c c) (mul s s)) (add (mul p0 q0) (mul p2 q2)))); [ring|]. rewrite P. ring.
  - transitivity (add (mul p2 q2) (mul (add (mul c c) (mul s s)) (add (mul p0 q0) (mul p1 q1)))); [ring|]. rewrite P. ring.
Qed.

Lemma rot_back axis p a p' : rot_3d R angle add mul opp cos sin axis p a = Some p' -> rot_3d R angle add mul opp cos sin axis p' (neg a) = Some p.
Proof.
  destruct p as [[p0 p1] p2]. unfold rot_3d. pose proof (pythagoras a) as P. rewrite cos_neg, sin_neg. set (c := cos a) in *. set (s := sin a) in *.
  assert (X : forall u v, u = mul (add (mul c c) (mul s s)) v -> u = v) by (intros u v ->; rewrite P; ring).
  destruct (axis =? 1); [|destruct (axis =? 2); [|destruct (axis =? 3); [|discriminate]]]; intros E; apply some_inj in E; subst p'; do 2 f_equal; try f_equal; apply X; ring.
Qed.
End Rotation.
