(** Lemmas about TrapModel.v *)
From Coq Require Import Relations Operators_Properties String Ascii.
From Verif Require Import Base TrapModel.
Local Open Scope list_scope.
Local Open Scope nat_scope.

Definition arrow (es : list edge) (a b : nat) : Prop := exists e, In e es /\ src e = a /\ dst e = b.
Definition before (es : list edge) : nat -> nat -> Prop := clos_trans nat (arrow es).

Lemma contains_spec sub s : contains sub s = true <-> exists a b, s = (a ++ sub ++ b)%string.
Proof.
  assert (P : forall x y, String.prefix x y = true <-> exists b, y = (x ++ b)%string).
  { induction x as [|c x IH]; intros y; cbn [String.prefix append].
    - split; [eauto|]. destruct y; reflexivity.
    - destruct y as [|d y]; [split; [discriminate|intros [b E]; discriminate]|]. cbn [String.prefix]. destruct (Ascii.ascii_dec c d) as [->|N].
      + rewrite IH. split; intros [b E]; exists b; congruence.
      + split; [discriminate|intros [b E]; congruence]. }
  induction s as [|c s IH]; cbn [contains]; rewrite orb_true_iff, P.
  - split; [intros [[b E]|E]; [exists EmptyString, b; exact E|discriminate]|]. intros (a & b & E). left. destruct a; [exists b; exact E|discriminate].
  - rewrite IH. split.
    + intros [[b E]|(a & b & E)]; [exists EmptyString, b; exact E|]. exists (String c a), b. cbn [append]. now rewrite E.
    + intros (a & b & E). destruct a as [|d a]; [left; exists b; exact E|]. right. exists a, b. cbn [append] in E. congruence.
Qed.

(** one check *)
Section Step.
Context (es : list edge) (n N : nat).
Hypothesis bound : forall e, In e es -> src e < N /\ dst e < N.
Hypothesis n_old : n < N.
Let es' := map (move n N) es ++ [Edge n (S N) false []; Edge (S N) N false []].
Let pi (x : nat) : nat := if Nat.ltb x N then x else n.

Lemma step_there a b : arrow es a b -> before es' a b.
Proof.
  intros (e & I & <- & <-). assert (M : In (move n N e) es') by (apply in_or_app; left; now apply in_map).
  unfold move in M. destruct (Nat.eqb_spec (src e) n) as [->|NE].
  - apply t_trans with (S N); [apply t_step; eexists; split; [apply in_or_app; right; left; reflexivity|auto]|].
    apply t_trans with N; [apply t_step; eexists; split; [apply in_or_app; right; right; left; reflexivity|auto]|]. apply t_step. eexists. split; [exact M|auto].
  - apply t_step. exists e. auto.
Qed.
Lemma before_there a b : before es a b -> before es' a b.
Proof. induction 1 as [a b H|a b c _ IH1 _ IH2]; [now apply step_there|]. eapply t_trans; eauto. Qed.
Lemma step_back a b : arrow es' a b -> arrow es (pi a) (pi b) \/ (a = n /\ b = S N) \/ (a = S N /\ b = N).
Proof.
  intros (e & I & <- & <-). apply in_app_or in I. destruct I as [I|[<-|[<-|[]]]]; [|right; left; auto|right; right; auto].
  apply in_map_iff in I. destruct I as (f & <- & I). left. destruct (bound f I) as [B1 B2]. exists f. split; [exact I|]. unfold move, pi.
  destruct (Nat.eqb_spec (src f) n) as [E|E]; cbn [src dst].
  - rewrite Nat.ltb_irrefl. split; [exact E|]. destruct (Nat.ltb_spec (dst f) N); lia.
  - destruct (Nat.ltb_spec (src f) N), (Nat.ltb_spec (dst f) N); lia.
Qed.
Lemma before_back a b : before es' a b -> before es (pi a) (pi b) \/ (a = n /\ b = S N) \/ (a = S N /\ b = N) \/ (a = n /\ b = N).
Proof.
  assert (PN : pi n = n) by (unfold pi; destruct (Nat.ltb_spec n N); lia).
  assert (PS : pi (S N) = n) by (unfold pi; destruct (Nat.ltb_spec (S N) N); lia).
  assert (PNN : pi N = n) by (unfold pi; now rewrite Nat.ltb_irrefl).
  intros H. apply clos_trans_t1n in H. induction H as [a b H|a b c H _ IH].
  - destruct (step_back a b H) as [X|[X|X]]; [left; now apply t_step|tauto|tauto].
  - destruct (step_back a b H) as [X|[[-> ->]|[-> ->]]].
    + destruct IH as [IH|[[-> ->]|[[-> ->]|[-> ->]]]]; left; rewrite ?PN, ?PS, ?PNN in *; try (now apply t_step). eapply t_trans; [apply t_step; exact X|exact IH].
    + destruct IH as [IH|[[E ->]|[[_ ->]|[E ->]]]]; [left; now rewrite PN, PS in *|lia|auto|lia].
    + destruct IH as [IH|[[E ->]|[[E ->]|[E ->]]]]; [left; now rewrite PNN, PS in *|lia|lia|lia].
Qed.
Lemma before_step x y : x < N -> y < N -> (before es' x y <-> before es x y).
Proof.
  intros X Y. split; [|apply before_there]. intros H. destruct (before_back x y H) as [B|[B|[B|B]]]; [|lia|lia|lia].
  unfold pi in B. destruct (Nat.ltb_spec x N), (Nat.ltb_spec y N); try lia. exact B.
Qed.
Lemma check_after : before es' n (S N).
Proof. apply t_step. eexists. split; [apply in_or_app; right; left; reflexivity|auto]. Qed.
Lemma check_between y : before es n y -> before es' (S N) y.
Proof.
  intros H. apply clos_trans_t1n in H. apply t_trans with N; [apply t_step; eexists; split; [apply in_or_app; right; right; left; reflexivity|auto]|].
  assert (F : forall b, arrow es n b -> arrow es' N b).
  { intros b (e & I & E & <-). exists (move n N e). split; [apply in_or_app; left; now apply in_map|]. unfold move. rewrite E, Nat.eqb_refl. auto. }
  inversion H as [b A|b c A B]; subst; [now apply t_step, F|]. eapply t_trans; [apply t_step, F; exact A|]. apply before_there, clos_t1n_trans, B.
Qed.
Lemma step_bound e : In e es' -> src e < S (S N) /\ dst e < S (S N).
Proof.
  intros I. apply in_app_or in I. destruct I as [I|[<-|[<-|[]]]]; [|cbn; lia|cbn; lia]. apply in_map_iff in I. destruct I as (f & <- & I).
  destruct (bound f I). unfold move. destruct (Nat.eqb_spec (src f) n); cbn [src dst]; lia.
Qed.
End Step.

Definition bounded (st : state) : Prop := forall e, In e (edges st) -> src e < List.length (nodes st) /\ dst e < List.length (nodes st).
Lemma before_bound st x y : bounded st -> before (edges st) x y -> x < List.length (nodes st) /\ y < List.length (nodes st).
Proof. intros B. induction 1 as [a b (e & I & <- & <-)|a b c _ IH1 _ IH2]; [now apply B|]. tauto. Qed.

Section Fold.
Context (code comment : string) (assert_out : bool) (array_range : option (list range)).
Definition the_check (st : state) (name : string) (e : edge) : check :=
  NewCheck name code comment assert_out (firstn (a_rank (arrays st name)) (match array_range with Some (x :: l) => x :: l | _ => subset e end)).
Lemma check_node_gpu st n e name : nth_error (nodes st) n = Some (Access name) -> a_storage (arrays st name) <> Elsewhere ->
  check_node code comment assert_out array_range st (n, e) =
  State (nodes st ++ [Access name; Check (the_check st name e)])
        (map (move n (List.length (nodes st))) (edges st) ++ [Edge n (S (List.length (nodes st))) false []; Edge (S (List.length (nodes st))) (List.length (nodes st)) false []]) (arrays st).
Proof. intros E G. unfold check_node. rewrite E. destruct (a_storage (arrays st name)); [reflexivity|reflexivity|congruence]. Qed.
Lemma nth_old {X} (l r : list X) i x : nth_error l i = Some x -> nth_error (l ++ r) i = Some x.
Proof. intros H. rewrite nth_error_app1; [exact H|]. apply nth_error_Some. congruence. Qed.

Lemma fold_checks l : forall st, bounded st ->
  (forall n e, In (n, e) l -> exists name, nth_error (nodes st) n = Some (Access name) /\ a_storage (arrays st name) <> Elsewhere) ->
  let st' := fold_left (check_node code comment assert_out array_range) l st in
  bounded st' /\ arrays st' = arrays st /\ (exists extra, nodes st' = nodes st ++ extra)
  /\ (forall x y, x < List.length (nodes st) -> y < List.length (nodes st) -> (before (edges st') x y <-> before (edges st) x y))
  /\ (forall n e name, In (n, e) l -> nth_error (nodes st) n = Some (Access name) -> exists c, nth_error (nodes st') c = Some (Check (the_check st name e))
        /\ before (edges st') n c /\ forall y, before (edges st) n y -> before (edges st') c y)
  /\ (forall c k, nth_error (nodes st') c = Some (Check k) -> nth_error (nodes st) c = Some (Check k) \/
        exists n e name, In (n, e) l /\ nth_error (nodes st) n = Some (Access name) /\ k = the_check st name e).
Proof.
  induction l as [|[n e] l IH]; intros st B H; cbn [fold_left].
  - split; [exact B|]. split; [reflexivity|]. split; [exists []; now rewrite app_nil_r|]. split; [tauto|]. split; [intros n e name []|auto].
  - destruct (H n e (or_introl eq_refl)) as (name & E & G). rewrite (check_node_gpu st n e name E G). set (N := List.length (nodes st)) in *.
    set (st1 := State _ _ _). assert (NO : n < N) by (apply nth_error_Some; congruence).
    assert (L1 : List.length (nodes st1) = S (S N)) by (cbn [nodes st1]; rewrite app_length; cbn; fold N; lia).
    assert (B1 : bounded st1). { unfold bounded. rewrite L1. intros f I. exact (step_bound (edges st) n N B NO f I). }
    assert (H1 : forall m f, In (m, f) l -> exists x, nth_error (nodes st1) m = Some (Access x) /\ a_storage (arrays st1 x) <> Elsewhere).
    { intros m f I. destruct (H m f (or_intror I)) as (x & X & Y). exists x. split; [now apply nth_old|exact Y]. }
    destruct (IH st1 B1 H1) as (R1 & R2 & (extra & R3) & R4 & R5 & R6). set (st' := fold_left _ l st1) in *.
    assert (ORD := before_step (edges st) n N B NO). assert (UP : forall x y, before (edges st) x y -> before (edges st1) x y) by (apply before_there).
    split; [exact R1|]. split; [now rewrite R2|]. split; [exists ([Access name; Check (the_check st name e)] ++ extra); rewrite R3; cbn [nodes st1]; now rewrite <- app_assoc|]. split; [|split].
    + intros x y X Y. rewrite R4 by lia. now apply ORD.
    + intros m f x [[= <- <-]|I] X.
      * rewrite E in X. injection X as <-. exists (S N). split; [|split].
        -- rewrite R3. apply nth_old. cbn [nodes st1]. rewrite nth_error_app2 by (fold N; lia). fold N. replace (S N - N) with 1 by lia. reflexivity.
        -- apply R4; [lia|lia|]. apply (check_after (edges st) n N).
        -- intros y Y. destruct (before_bound st n y B Y) as [Q1 Q2]. fold N in Q2. apply R4; [lia|lia|]. now apply (check_between (edges st) n N).
      * destruct (R5 m f x I (nth_old _ _ _ _ X)) as (c & C1 & C2 & C3). exists c. split; [exact C1|]. split; [exact C2|]. intros y Y. apply C3, UP, Y.
    + intros c k C. destruct (R6 c k C) as [X|(m & f & x & I & X & ->)].
      * cbn [nodes st1] in X. destruct (Nat.lt_ge_cases c N) as [L|L]; [left; now rewrite nth_error_app1 in X|]. rewrite nth_error_app2 in X by exact L.
        fold N in X. destruct (c - N) as [|[|j]]; cbn in X; [discriminate| |destruct j; discriminate]. injection X as <-. right. exists n, e, name. auto using in_eq.
      * right. exists m, f, x. split; [now right|]. split; [|reflexivity]. destruct (H m f (or_intror I)) as (z & Z1 & _). assert (Z2 := nth_old _ [Access name; Check (the_check st name e)] _ _ Z1).
        cbn [nodes st1] in X. congruence.
Qed.
End Fold.
