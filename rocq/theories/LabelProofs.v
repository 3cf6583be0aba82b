(** Proofs about LabelModel.v. *)
From Coq Require Import String List Lia PeanoNat.
From Verif Require Import LabelModel.
Import ListNotations.
Local Open Scope nat_scope.

Section Label.
Context {D : Type}.
Implicit Types g : graph D.

Lemma in_nil g s : is_nil (in_edges g s) = true <-> no_way_in g s.
Proof.
  unfold in_edges, no_way_in. split.
  - intros H e I E. assert (J : In e (filter (fun e => Nat.eqb (dst e) s) (edges g))) by (apply filter_In; split; [exact I|now apply Nat.eqb_eq]).
    destruct (filter _ _); [destruct J|discriminate].
  - intros H. destruct (filter _ _) as [|e l] eqn:E; [reflexivity|]. exfalso. assert (J : In e (e :: l)) by (left; reflexivity). rewrite <- E in J.
    apply filter_In in J. destruct J as [I J]. apply Nat.eqb_eq in J. exact (H e I J).
Qed.
Lemma out_nil g s : is_nil (out_edges g s) = true <-> no_way_out g s.
Proof.
  unfold out_edges, no_way_out. split.
  - intros H e I E. assert (J : In e (filter (fun e => Nat.eqb (src e) s) (edges g))) by (apply filter_In; split; [exact I|now apply Nat.eqb_eq]).
    destruct (filter _ _); [destruct J|discriminate].
  - intros H. destruct (filter _ _) as [|e l] eqn:E; [reflexivity|]. exfalso. assert (J : In e (e :: l)) by (left; reflexivity). rewrite <- E in J.
    apply filter_In in J. destruct J as [I J]. apply Nat.eqb_eq in J. exact (H e I J).
Qed.

Lemma before_edges g s k e : In e (edges (fst (add_state_before g s k))) <->
  (In e (edges g) /\ dst e <> s) \/ (exists p d, In (p, s, d) (edges g) /\ e = (p, length (nodes g), d)) \/ e = (length (nodes g), s, None).
Proof.
  unfold add_state_before. cbn [fst edges]. rewrite in_app_iff, in_map_iff. cbn [In]. split.
  - intros [([[p q] d] & E & I)|[E|[]]]; [|auto]. unfold src, dst, data in E. cbn [fst snd] in E. destruct (Nat.eqb_spec q s) as [->|N].
    + right; left. exists p, d. auto.
    + left. subst e. auto.
  - intros [[I N]|[(p & d & I & ->)|E]]; [| |right; left; auto].
    + left. exists e. apply Nat.eqb_neq in N. rewrite N. auto.
    + left. exists (p, s, d). unfold src, dst, data. cbn [fst snd]. rewrite Nat.eqb_refl. auto.
Qed.
Lemma after_edges g s k e : In e (edges (fst (add_state_after g s k))) <->
  (In e (edges g) /\ src e <> s) \/ (exists q d, In (s, q, d) (edges g) /\ e = (length (nodes g), q, d)) \/ e = (s, length (nodes g), None).
Proof.
  unfold add_state_after. cbn [fst edges]. rewrite in_app_iff, in_map_iff. cbn [In]. split.
  - intros [([[p q] d] & E & I)|[E|[]]]; [|auto]. unfold src, dst, data in E. cbn [fst snd] in E. destruct (Nat.eqb_spec p s) as [->|N].
    + right; left. exists q, d. auto.
    + left. subst e. auto.
  - intros [[I N]|[(q & d & I & ->)|E]]; [| |right; left; auto].
    + left. exists e. apply Nat.eqb_neq in N. rewrite N. auto.
    + left. exists (s, q, d). unfold src, dst, data. cbn [fst snd]. rewrite Nat.eqb_refl. auto.
Qed.
Lemma before_wf g s k : s < length (nodes g) -> well_formed g -> well_formed (fst (add_state_before g s k)).
Proof.
  intros S W e I. apply before_edges in I. unfold add_state_before. cbn [fst nodes]. rewrite app_length. cbn [length].
  destruct I as [[I _]|[(p & d & I & ->)| ->]]; [specialize (W _ I); lia|specialize (W _ I)|]; unfold src, dst in *; cbn [fst snd] in *; lia.
Qed.
Lemma after_wf g s k : s < length (nodes g) -> well_formed g -> well_formed (fst (add_state_after g s k)).
Proof.
  intros S W e I. apply after_edges in I. unfold add_state_after. cbn [fst nodes]. rewrite app_length. cbn [length].
  destruct I as [[I _]|[(p & d & I & ->)| ->]]; [specialize (W _ I); lia|specialize (W _ I)|]; unfold src, dst in *; cbn [fst snd] in *; lia.
Qed.

Lemma show_new n t : n <= t -> @show_state D n t = [].
Proof. intros H. unfold show_state. destruct (Nat.ltb_spec t n); [lia|reflexivity]. Qed.
Lemma run_app n g s l t l' u : run n g s l t -> run n g t l' u -> run n g s (l ++ l') u.
Proof. induction 1 as [|s t d l u' I R IH]; intros H; [exact H|]. rewrite <- !app_assoc. econstructor; eauto. Qed.

Lemma before_run n g s k x l y : n <= length (nodes g) -> well_formed g -> s < length (nodes g) -> x < length (nodes g) -> y < length (nodes g) ->
  (run n g x l y <-> run n (fst (add_state_before g s k)) x l y).
Proof.
  intros N W S X Y. split.
  - intros R. clear X. induction R as [x|x t d l u I R IH]; [constructor|]. destruct (Nat.eq_dec t s) as [->|T].
    + replace (show_data d ++ show_state n s ++ l) with (show_data d ++ show_state n (length (nodes g)) ++ (show_data None ++ show_state n s ++ l)) by (now rewrite (show_new n (length (nodes g)) N)).
      apply run_step; [apply before_edges; right; left; eauto|]. apply run_step; [apply before_edges; auto|]. apply IH, Y.
    + apply run_step; [apply before_edges; left; auto|]. apply IH, Y.
  - intros R. assert (G : (x < length (nodes g) -> run n g x l y) /\ (x = length (nodes g) -> exists l', l = show_state n s ++ l' /\ run n g s l' y)); [|tauto].
    clear X. induction R as [x|x t d l u I R IH].
    + split; [constructor|intros ->; lia].
    + specialize (IH Y). destruct IH as [IH1 IH2]. apply before_edges in I. split.
      * intros X. destruct I as [[I T]|[(p & d' & I & E)|E]].
        -- apply run_step; [exact I|]. apply IH1. apply W in I. tauto.
        -- injection E as -> -> ->. destruct (IH2 eq_refl) as (l' & -> & R'). rewrite (show_new n (length (nodes g)) N). cbn [app]. apply run_step; assumption.
        -- injection E as -> -> ->. lia.
      * intros ->. destruct I as [[I T]|[(p & d' & I & E)|E]].
        -- apply W in I. unfold src in I. cbn in I. lia.
        -- injection E as <- -> ->. apply W in I. unfold src in I. cbn in I. lia.
        -- injection E as -> ->. exists l. split; [reflexivity|]. apply IH1. exact S.
Qed.
Lemma after_run n g s k x l y : n <= length (nodes g) -> well_formed g -> s < length (nodes g) -> x < length (nodes g) -> y < length (nodes g) ->
  (run n g x l y <-> run n (fst (add_state_after g s k)) x l y).
Proof.
  intros N W S X Y. split.
  - intros R. clear X. induction R as [x|x t d l u I R IH]; [constructor|]. destruct (Nat.eq_dec x s) as [->|T].
    + replace (show_data d ++ show_state n t ++ l) with (show_data None ++ show_state n (length (nodes g)) ++ (show_data d ++ show_state n t ++ l)) by (now rewrite (show_new n (length (nodes g)) N)).
      apply run_step; [apply after_edges; auto|]. apply run_step; [apply after_edges; right; left; eauto|]. apply IH, Y.
    + apply run_step; [apply after_edges; left; auto|]. apply IH, Y.
  - intros R. assert (G : (x < length (nodes g) -> run n g x l y) /\ (x = length (nodes g) -> run n g s l y)); [|tauto].
    clear X. induction R as [x|x t d l u I R IH].
    + split; [constructor|intros ->; lia].
    + specialize (IH Y). destruct IH as [IH1 IH2]. apply after_edges in I. split.
      * intros X. destruct I as [[I T]|[(q & d' & I & E)|E]].
        -- apply run_step; [exact I|]. apply IH1. apply W in I. tauto.
        -- injection E as -> -> ->. lia.
        -- injection E as -> -> ->. rewrite (show_new n (length (nodes g)) N). cbn [app show_data]. apply IH2. reflexivity.
      * intros ->. destruct I as [[I T]|[(q & d' & I & E)|E]].
        -- apply W in I. unfold src in I. cbn in I. lia.
        -- injection E as -> ->. apply run_step; [exact I|]. apply IH1. apply W in I. tauto.
        -- injection E as <- -> ->. lia.
Qed.
Lemma before_len g s k : length (nodes (fst (add_state_before g s k))) = S (length (nodes g)).
Proof. unfold add_state_before. cbn. rewrite app_length. cbn. lia. Qed.
Lemma after_len g s k : length (nodes (fst (add_state_after g s k))) = S (length (nodes g)).
Proof. unfold add_state_after. cbn. rewrite app_length. cbn. lia. Qed.

(** one state keeps all runs *)
Definition same (n : nat) g g' : Prop :=
  length (nodes g) <= length (nodes g') /\ well_formed g' /\ forall x l y, x < length (nodes g) -> y < length (nodes g) -> (run n g x l y <-> run n g' x l y).
Lemma same_trans n g1 g2 g3 : same n g1 g2 -> same n g2 g3 -> same n g1 g3.
Proof.
  intros (A & B & C) (A' & B' & C'). split; [lia|]. split; [exact B'|]. intros x l y X Y. rewrite C by assumption. apply C'; lia.
Qed.
Lemma before_same n g s k : n <= length (nodes g) -> well_formed g -> s < length (nodes g) -> same n g (fst (add_state_before g s k)).
Proof. intros N W S. split; [rewrite before_len; lia|]. split; [apply before_wf; assumption|]. intros. apply before_run; assumption. Qed.
Lemma after_same n g s k : n <= length (nodes g) -> well_formed g -> s < length (nodes g) -> same n g (fst (add_state_after g s k)).
Proof. intros N W S. split; [rewrite after_len; lia|]. split; [apply after_wf; assumption|]. intros. apply after_run; assumption. Qed.
Lemma same_refl n g : well_formed g -> same n g g.
Proof. intros W. split; [lia|]. split; [exact W|]. tauto. Qed.
Lemma enter_same n q top g s : n <= length (nodes g) -> well_formed g -> s < length (nodes g) ->
  same n g (fst (enter q top g s)) /\ snd (enter q top g s) < length (nodes (fst (enter q top g s))).
Proof.
  intros N W S. unfold enter. destruct (is_nil (in_edges g s)); [|split; [apply same_refl, W|exact S]]. destruct top.
  - split; [apply after_same; assumption|]. rewrite after_len. unfold add_state_after. cbn. lia.
  - split; [apply before_same; assumption|]. rewrite before_len. unfold add_state_before. cbn. lia.
Qed.
Lemma label_same n q top g s : n <= length (nodes g) -> well_formed g -> s < length (nodes g) -> same n g (label_state q top g s).
Proof.
  intros N W S. destruct (enter_same n q top g s N W S) as [A B]. unfold label_state. destruct (enter q top g s) as [g' s']. cbn [fst snd] in A, B. unfold leave.
  destruct (is_nil (out_edges g' s')); [|exact A]. eapply same_trans; [exact A|]. destruct A as (A & W' & _). apply after_same; [lia|exact W'|exact B].
Qed.
Lemma fold_same n q top l : forall g, n <= length (nodes g) -> well_formed g -> (forall s, In s l -> s < length (nodes g)) -> same n g (fold_left (label_state q top) l g).
Proof.
  induction l as [|s l IH]; intros g N W S; [apply same_refl, W|]. cbn [fold_left].
  assert (A : same n g (label_state q top g s)) by (apply label_same; [exact N|exact W|apply S; left; reflexivity]).
  eapply same_trans; [exact A|]. destruct A as (A & W' & _). apply IH; [lia|exact W'|]. intros t T. specialize (S t (or_intror T)). lia.
Qed.

(** which ways in and out there are *)
Lemma before_in g s k x : well_formed g -> s < length (nodes g) -> x < length (nodes g) -> (no_way_in (fst (add_state_before g s k)) x <-> x <> s /\ no_way_in g x).
Proof.
  intros W S X. split.
  - intros H. assert (E : x <> s). { intros ->. apply (H (length (nodes g), s, None)); [apply before_edges; auto|reflexivity]. }
    split; [exact E|]. intros e I J. apply (H e); [|exact J]. apply before_edges. left. split; [exact I|congruence].
  - intros [E H] e I. apply before_edges in I. destruct I as [[I _]|[(p & d & I & ->)| ->]]; [apply H, I| |]; unfold dst; cbn; [lia|congruence].
Qed.
Lemma before_out g s k x : well_formed g -> s < length (nodes g) -> x < length (nodes g) -> (no_way_out (fst (add_state_before g s k)) x <-> no_way_out g x).
Proof.
  intros W S X. split; intros H e I.
  - destruct e as [[p q] d]. destruct (Nat.eq_dec q s) as [->|N].
    + apply (H (p, length (nodes g), d)). apply before_edges. right; left. eauto.
    + apply (H (p, q, d)). apply before_edges. left. split; [exact I|exact N].
  - apply before_edges in I. destruct I as [[I _]|[(p & d & I & ->)| ->]]; [apply H, I|apply (H _ I)|unfold src; cbn; lia].
Qed.
Lemma after_in g s k x : well_formed g -> s < length (nodes g) -> x < length (nodes g) -> (no_way_in (fst (add_state_after g s k)) x <-> no_way_in g x).
Proof.
  intros W S X. split; intros H e I.
  - destruct e as [[p q] d]. destruct (Nat.eq_dec p s) as [->|N].
    + apply (H (length (nodes g), q, d)). apply after_edges. right; left. eauto.
    + apply (H (p, q, d)). apply after_edges. left. split; [exact I|exact N].
  - apply after_edges in I. destruct I as [[I _]|[(p & d & I & ->)| ->]]; [apply H, I|apply (H _ I)|unfold dst; cbn; lia].
Qed.
Lemma after_out g s k x : well_formed g -> s < length (nodes g) -> x < length (nodes g) -> (no_way_out (fst (add_state_after g s k)) x <-> x <> s /\ no_way_out g x).
Proof.
  intros W S X. split.
  - intros H. assert (E : x <> s). { intros ->. apply (H (s, length (nodes g), None)); [apply after_edges; auto|reflexivity]. }
    split; [exact E|]. intros e I J. apply (H e); [|exact J]. apply after_edges. left. split; [exact I|congruence].
  - intros [E H] e I. apply after_edges in I. destruct I as [[I _]|[(p & d & I & ->)| ->]]; [apply H, I| |]; unfold src; cbn; [lia|congruence].
Qed.
Lemma before_new_in g s k : well_formed g -> s < length (nodes g) -> (no_way_in (fst (add_state_before g s k)) (length (nodes g)) <-> no_way_in g s).
Proof.
  intros W S. split; intros H e I.
  - intros E. destruct e as [[p q] d]. unfold dst in E. cbn in E. subst q. apply (H (p, length (nodes g), d)); [apply before_edges; right; left; eauto|reflexivity].
  - apply before_edges in I. destruct I as [[I _]|[(p & d & I & ->)| ->]]; [specialize (W _ I); lia|exfalso; apply (H _ I); reflexivity|unfold dst; cbn; lia].
Qed.
Lemma before_new_out g s k : ~ no_way_out (fst (add_state_before g s k)) (length (nodes g)).
Proof. intros H. apply (H (length (nodes g), s, None)); [apply before_edges; auto|reflexivity]. Qed.
Lemma after_new_in g s k : ~ no_way_in (fst (add_state_after g s k)) (length (nodes g)).
Proof. intros H. apply (H (s, length (nodes g), None)); [apply after_edges; auto|reflexivity]. Qed.
Lemma after_new_out g s k : well_formed g -> s < length (nodes g) -> (no_way_out (fst (add_state_after g s k)) (length (nodes g)) <-> no_way_out g s).
Proof.
  intros W S. split; intros H e I.
  - intros E. destruct e as [[p q] d]. unfold src in E. cbn in E. subst p. apply (H (length (nodes g), q, d)); [apply after_edges; right; left; eauto|reflexivity].
  - apply after_edges in I. destruct I as [[I _]|[(p & d & I & ->)| ->]]; [specialize (W _ I); lia|exfalso; apply (H _ I); reflexivity|unfold src; cbn; lia].
Qed.

(** the cases of one turn of the loop *)
Lemma step_other q top g s : ~ no_way_in g s -> label_state q top g s = if is_nil (out_edges g s) then fst (add_state_after g s (Exit q)) else g.
Proof.
  intros N. unfold label_state, enter. destruct (is_nil (in_edges g s)) eqn:E; [apply in_nil in E; tauto|]. reflexivity.
Qed.
Lemma step_source q g s : no_way_in g s -> label_state q false g s = fst (add_state_before g s (Enter q)).
Proof.
  intros N. apply in_nil in N. unfold label_state, enter. rewrite N. destruct (add_state_before g s (Enter q)) as [g' new] eqn:E. unfold leave.
  destruct (is_nil (out_edges g' new)) eqn:O; [|reflexivity]. apply out_nil in O. exfalso. apply (before_new_out g s (Enter q)). rewrite E. cbn [fst].
  unfold add_state_before in E. injection E as _ <-. exact O.
Qed.
Lemma step_top q g s : well_formed g -> s < length (nodes g) -> no_way_in g s ->
  label_state q true g s = if is_nil (out_edges g s) then fst (add_state_after (fst (add_state_after g s (Enter q))) (length (nodes g)) (Exit q)) else fst (add_state_after g s (Enter q)).
Proof.
  intros W S N. apply in_nil in N. unfold label_state, enter. rewrite N. destruct (add_state_after g s (Enter q)) as [g' new] eqn:E.
  assert (E' : new = length (nodes g)) by (unfold add_state_after in E; injection E as _ <-; reflexivity). subst new. cbn [fst]. unfold leave.
  assert (O : no_way_out g' (length (nodes g)) <-> no_way_out g s). { assert (H := after_new_out g s (Enter q) W S). rewrite E in H. exact H. }
  destruct (is_nil (out_edges g' (length (nodes g)))) eqn:A; destruct (is_nil (out_edges g s)) eqn:B; try reflexivity; exfalso.
  - apply out_nil, O, out_nil in A. congruence.
  - apply out_nil, O, out_nil in B. congruence.
Qed.
Lemma way_in_dec g s : no_way_in g s \/ ~ no_way_in g s.
Proof. destruct (is_nil (in_edges g s)) eqn:E; [left; now apply in_nil|right]. intros H. apply in_nil in H. congruence. Qed.
Lemma before_kind g s k x : x < length (nodes g) -> nth_error (nodes (fst (add_state_before g s k))) x = nth_error (nodes g) x.
Proof. intros H. cbn. now apply nth_error_app1. Qed.
Lemma after_kind g s k x : x < length (nodes g) -> nth_error (nodes (fst (add_state_after g s k))) x = nth_error (nodes g) x.
Proof. intros H. cbn. now apply nth_error_app1. Qed.
Lemma before_new g s k : nth_error (nodes (fst (add_state_before g s k))) (length (nodes g)) = Some k.
Proof. cbn. rewrite nth_error_app2 by lia. now rewrite Nat.sub_diag. Qed.
Lemma after_new g s k : nth_error (nodes (fst (add_state_after g s k))) (length (nodes g)) = Some k.
Proof. cbn. rewrite nth_error_app2 by lia. now rewrite Nat.sub_diag. Qed.

(** after m turns inside of another program *)
Record inner_inv (q : string) (g0 : graph D) (m : nat) (g : graph D) : Prop := {
  ii_len : length (nodes g0) <= length (nodes g);
  ii_wf : well_formed g;
  ii_in : forall x, x < length (nodes g0) -> (no_way_in g x <-> no_way_in g0 x /\ m <= x);
  ii_out : forall x, x < length (nodes g0) -> (no_way_out g x <-> no_way_out g0 x /\ (m <= x \/ no_way_in g0 x));
  ii_new : forall x, length (nodes g0) <= x < length (nodes g) -> (nth_error (nodes g) x = Some (Enter q) /\ no_way_in g x /\ ~ no_way_out g x) \/ (nth_error (nodes g) x = Some (Exit q) /\ no_way_out g x /\ ~ no_way_in g x) }.
Lemma inner_step q g0 m g : m < length (nodes g0) -> inner_inv q g0 m g -> inner_inv q g0 (S m) (label_state q false g m).
Proof.
  intros M [L W I O N]. assert (ML : m < length (nodes g)) by lia. destruct (way_in_dec g m) as [A|A].
  - assert (A0 : no_way_in g0 m) by (apply (I m M), A). rewrite step_source by exact A. constructor.
    + rewrite before_len. lia.
    + apply before_wf; assumption.
    + intros x X. rewrite before_in by (try assumption; lia). rewrite (I x X). split; [intros (E & F & G); split; [exact F|lia]|intros (F & G); split; [lia|]; split; [exact F|lia]].
    + intros x X. rewrite before_out by (try assumption; lia). rewrite (O x X). split; intros (F & G); split; try exact F; destruct G as [G|G]; try (right; exact G); [|left; lia].
      destruct (Nat.eq_dec x m) as [->|]; [right; exact A0|left; lia].
    + intros x X. rewrite before_len in X. destruct (Nat.eq_dec x (length (nodes g))) as [->|Y].
      * rewrite before_new. left. split; [reflexivity|]. split; [apply before_new_in; assumption|apply before_new_out].
      * rewrite before_kind by lia. rewrite before_in, before_out by (try assumption; lia). destruct (N x) as [N1|N1]; [lia| |]; [left|right]; intuition lia.
  - assert (A0 : ~ no_way_in g0 m) by (intros H; apply A, (I m M); auto). rewrite step_other by exact A. destruct (is_nil (out_edges g m)) eqn:E.
    + apply out_nil in E. constructor.
      * rewrite after_len. lia.
      * apply after_wf; assumption.
      * intros x X. rewrite after_in by (try assumption; lia). rewrite (I x X). split; intros (F & G); split; try exact F; [|lia]. destruct (Nat.eq_dec x m) as [->|]; [tauto|lia].
      * intros x X. rewrite after_out by (try assumption; lia). rewrite (O x X). split.
        -- intros (Y & F & G). split; [exact F|]. destruct G as [G|G]; [left; lia|right; exact G].
        -- intros (F & G). split; [intros ->; destruct G as [G|G]; [lia|tauto]|]. split; [exact F|]. destruct G as [G|G]; [left; lia|right; exact G].
      * intros x X. rewrite after_len in X. destruct (Nat.eq_dec x (length (nodes g))) as [->|Y].
        -- rewrite after_new. right. split; [reflexivity|]. split; [apply after_new_out; assumption|apply after_new_in].
        -- rewrite after_kind by lia. rewrite after_in, after_out by (try assumption; lia). destruct (N x) as [N1|N1]; [lia| |]; [left|right]; intuition lia.
    + assert (E' : ~ no_way_out g m) by (intros H; apply out_nil in H; congruence). constructor; [exact L|exact W| | |exact N].
      * intros x X. rewrite (I x X). split; intros (F & G); split; try exact F; [|lia]. destruct (Nat.eq_dec x m) as [->|]; [tauto|lia].
      * intros x X. rewrite (O x X). split; intros (F & G); (split; [exact F|]); destruct G as [G|G]; try (right; exact G); [|left; lia].
        destruct (Nat.eq_dec x m) as [->|]; [|left; lia]. exfalso. apply E'. apply (O m X). split; [exact F|left; lia].
Qed.
Lemma inner_fold q g0 k : forall m g, m + k <= length (nodes g0) -> inner_inv q g0 m g -> inner_inv q g0 (m + k) (fold_left (label_state q false) (seq m k) g).
Proof.
  induction k as [|k IH]; intros m g M H; [now rewrite Nat.add_0_r|]. cbn [seq fold_left]. rewrite Nat.add_succ_r. apply (IH (S m)); [lia|]. apply inner_step; [lia|exact H].
Qed.

(** after m turns in the topmost program *)
Record top_inv (q : string) (g0 : graph D) (m : nat) (g : graph D) : Prop := {
  ti_len : length (nodes g0) <= length (nodes g);
  ti_wf : well_formed g;
  ti_in : forall x, x < length (nodes g0) -> (no_way_in g x <-> no_way_in g0 x);
  ti_out : forall x, x < length (nodes g0) -> (no_way_out g x <-> no_way_out g0 x /\ m <= x);
  ti_next : forall x e, x < m -> x < length (nodes g0) -> no_way_in g0 x -> In e (edges g) -> src e = x -> nth_error (nodes g) (dst e) = Some (Enter q);
  ti_new : forall x, length (nodes g0) <= x < length (nodes g) -> ~ no_way_in g x /\ ((nth_error (nodes g) x = Some (Enter q) /\ ~ no_way_out g x) \/ (nth_error (nodes g) x = Some (Exit q) /\ no_way_out g x));
  ti_enter : forall e, In e (edges g) -> length (nodes g0) <= dst e -> nth_error (nodes g) (dst e) = Some (Enter q) -> src e < m /\ no_way_in g0 (src e) }.
(** the edges into labels for entering, when a state that is none of their sources gets a label for leaving *)
Lemma enter_after q g0 g s m : well_formed g -> (s < m -> False) -> s < length (nodes g) ->
  (forall e, In e (edges g) -> length (nodes g0) <= dst e -> nth_error (nodes g) (dst e) = Some (Enter q) -> src e < m /\ no_way_in g0 (src e)) ->
  forall e, In e (edges (fst (add_state_after g s (Exit q)))) -> length (nodes g0) <= dst e -> nth_error (nodes (fst (add_state_after g s (Exit q)))) (dst e) = Some (Enter q) -> src e < m /\ no_way_in g0 (src e).
Proof.
  intros W M S H e J L K. apply after_edges in J. destruct J as [[J _]|[(p & d & J & ->)| ->]].
  - rewrite after_kind in K by (apply W in J; tauto). apply H; assumption.
  - exfalso. apply M. refine (proj1 (H (s, p, d) J L _)). rewrite after_kind in K by (apply W in J; tauto). exact K.
  - unfold dst in K. cbn [fst snd] in K. rewrite after_new in K. discriminate.
Qed.
Lemma next_after q g s k x e : well_formed g -> s < length (nodes g) -> x <> s -> x < length (nodes g) -> (forall e, In e (edges g) -> src e = x -> nth_error (nodes g) (dst e) = Some (Enter q)) ->
  In e (edges (fst (add_state_after g s k))) -> src e = x -> nth_error (nodes (fst (add_state_after g s k))) (dst e) = Some (Enter q).
Proof.
  intros W S X L H I E. apply after_edges in I. destruct I as [[I _]|[(p & d & I & ->)| ->]].
  - rewrite after_kind by (apply W in I; tauto). apply H; assumption.
  - unfold src in E. cbn in E. lia.
  - unfold src in E. cbn in E. congruence.
Qed.
Lemma top_step q g0 m g : m < length (nodes g0) -> top_inv q g0 m g -> top_inv q g0 (S m) (label_state q true g m).
Proof.
  intros M [L W I O T N P]. assert (ML : m < length (nodes g)) by lia. destruct (way_in_dec g m) as [A|A].
  - assert (A0 : no_way_in g0 m) by (apply (I m M), A). rewrite step_top by assumption. set (g1 := fst (add_state_after g m (Enter q))).
    assert (L1 : length (nodes g1) = S (length (nodes g))) by apply after_len.
    assert (W1 : well_formed g1) by (apply after_wf; assumption).
    assert (I1 : forall x, x < length (nodes g0) -> (no_way_in g1 x <-> no_way_in g0 x)).
    { intros x X. unfold g1. rewrite after_in by (try assumption; lia). apply I, X. }
    assert (O1 : forall x, x < length (nodes g0) -> (no_way_out g1 x <-> no_way_out g0 x /\ S m <= x)).
    { intros x X. unfold g1. rewrite after_out by (try assumption; lia). rewrite (O x X). split; [intros (E & F & G); split; [exact F|lia]|intros (F & G); split; [lia|]; split; [exact F|lia]]. }
    assert (T1 : forall x e, x < S m -> x < length (nodes g0) -> no_way_in g0 x -> In e (edges g1) -> src e = x -> nth_error (nodes g1) (dst e) = Some (Enter q)).
    { intros x e X X0 F J E. destruct (Nat.eq_dec x m) as [Y|Y].
      - apply after_edges in J. destruct J as [[J K]|[(p & d & J & ->)| ->]]; [congruence|unfold src in E; cbn in E; lia|]. unfold dst. cbn [fst snd]. apply after_new.
      - apply (next_after q g m (Enter q) x e); try assumption; [lia|]. intros e' J' E'. apply (T x e'); try assumption. lia. }
    assert (N1 : forall x, length (nodes g0) <= x < length (nodes g) -> ~ no_way_in g1 x /\ ((nth_error (nodes g1) x = Some (Enter q) /\ ~ no_way_out g1 x) \/ (nth_error (nodes g1) x = Some (Exit q) /\ no_way_out g1 x))).
    { intros x X. unfold g1. rewrite after_kind, after_in, after_out by (try assumption; lia). destruct (N x X) as [N1 N2]. split; [exact N1|]. assert (x <> m) by lia. tauto. }
    assert (P1 : forall e, In e (edges g1) -> length (nodes g0) <= dst e -> nth_error (nodes g1) (dst e) = Some (Enter q) -> src e < S m /\ no_way_in g0 (src e)).
    { intros e J LE K. apply after_edges in J. destruct J as [[J _]|[(p & d & J & ->)| ->]].
      - unfold g1 in K. rewrite after_kind in K by (apply W in J; tauto). destruct (P e J LE K) as [Q R]. split; [lia|exact R].
      - exfalso. unfold g1 in K. rewrite after_kind in K by (apply W in J; tauto). destruct (P (m, p, d) J LE K) as [Q _]. unfold src in Q. cbn in Q. lia.
      - unfold src. cbn [fst]. split; [lia|exact A0]. }
    destruct (is_nil (out_edges g m)) eqn:E.
    + assert (S1 : length (nodes g) < length (nodes g1)) by lia. constructor.
      * rewrite after_len. lia.
      * apply after_wf; assumption.
      * intros x X. rewrite after_in by (try assumption; lia). apply I1, X.
      * intros x X. rewrite after_out by (try assumption; lia). rewrite (O1 x X). split; [tauto|]. intros H. split; [lia|exact H].
      * intros x e X X0 F J K. apply (next_after q g1 (length (nodes g)) (Exit q) x e); try assumption; [lia|lia|]. intros e' J' K'. apply (T1 x e'); assumption.
      * intros x X. rewrite after_len in X. destruct (Nat.eq_dec x (length (nodes g1))) as [->|Y].
        -- rewrite after_new. split; [apply after_new_in|]. right. split; [reflexivity|]. apply after_new_out; [exact W1|lia|]. apply after_new_out; [exact W|exact ML|]. apply out_nil, E.
        -- rewrite after_kind, after_in, after_out by (try assumption; lia). destruct (Nat.eq_dec x (length (nodes g))) as [->|Z].
           ++ split; [apply after_new_in|]. left. split; [apply after_new|]. tauto.
           ++ destruct (N1 x) as [N3 N4]; [lia|]. split; [exact N3|]. tauto.
      * apply enter_after; [exact W1|lia|lia|exact P1].
    + constructor; [lia|exact W1|exact I1|exact O1|exact T1| |exact P1]. intros x X. rewrite L1 in X. destruct (Nat.eq_dec x (length (nodes g))) as [->|Z]; [|apply N1; lia].
      split; [apply after_new_in|]. left. split; [apply after_new|]. intros H. apply (after_new_out g m (Enter q) W ML) in H. apply out_nil in H. congruence.
  - assert (A0 : ~ no_way_in g0 m) by (intros H; apply A, (I m M); auto). rewrite step_other by exact A. destruct (is_nil (out_edges g m)) eqn:E.
    + apply out_nil in E. constructor.
      * rewrite after_len. lia.
      * apply after_wf; assumption.
      * intros x X. rewrite after_in by (try assumption; lia). apply I, X.
      * intros x X. rewrite after_out by (try assumption; lia). rewrite (O x X). split; [intros (Y & F & G); split; [exact F|lia]|intros (F & G); split; [lia|]; split; [exact F|lia]].
      * intros x e X X0 F J K. destruct (Nat.eq_dec x m) as [Y|Y]; [rewrite Y in F; contradiction|]. apply (next_after q g m (Exit q) x e); try assumption; [lia|].  intros e' J' K'. apply (T x e'); try assumption. lia.
      * intros x X. rewrite after_len in X. destruct (Nat.eq_dec x (length (nodes g))) as [->|Y].
        -- rewrite after_new. split; [apply after_new_in|]. right. split; [reflexivity|]. apply after_new_out; assumption.
        -- rewrite after_kind by lia. rewrite after_in, after_out by (try assumption; lia). destruct (N x) as [N1 N2]; [lia|]. split; [exact N1|]. assert (x <> m) by lia. tauto.
      * intros e J LE K. destruct (enter_after q g0 g m m W ltac:(lia) ML P e J LE K) as [Q R]. split; [lia|exact R].
    + assert (E' : ~ no_way_out g m) by (intros H; apply out_nil in H; congruence). constructor; [exact L|exact W|exact I| | |exact N|intros e J LE K; destruct (P e J LE K); split; [lia|assumption]].
      * intros x X. rewrite (O x X). split; intros (F & G); (split; [exact F|]); [|lia].
        destruct (Nat.eq_dec x m) as [->|]; [|lia]. exfalso. apply E'. apply (O m X). split; [exact F|lia].
      * intros x e X X0 F J K. destruct (Nat.eq_dec x m) as [Y|Y]; [rewrite Y in F; contradiction|]. apply (T x e); try assumption. lia.
Qed.
Lemma top_fold q g0 k : forall m g, m + k <= length (nodes g0) -> top_inv q g0 m g -> top_inv q g0 (m + k) (fold_left (label_state q true) (seq m k) g).
Proof.
  induction k as [|k IH]; intros m g M H; [now rewrite Nat.add_0_r|]. cbn [seq fold_left]. rewrite Nat.add_succ_r. apply (IH (S m)); [lia|]. apply top_step; [lia|exact H].
Qed.
End Label.
