(** Proofs about HueModel.v. *)
From Coq Require Import List Bool String QArith Qminmax Qabs Lqa Lia Permutation.
From Verif Require Import HueModel.
Import ListNotations.
Local Open Scope Q_scope.
Local Open Scope list_scope.

Lemma nlt_spec a b : nlt (Some a) (Some b) = true <-> a < b.
Proof. cbn. rewrite negb_true_iff. rewrite <- not_true_iff_false, Qle_bool_iff. split; [apply Qnot_le_lt|apply Qlt_not_le]. Qed.
Lemma nlt_not a b : nlt (Some a) (Some b) = false <-> b <= a.
Proof. cbn. rewrite negb_false_iff. apply Qle_bool_iff. Qed.

Lemma smallest_le l : forall x y, In y (x :: l) -> smallest x l <= y.
Proof.
  induction l as [|z l IH]; intros x y I; cbn.
  - destruct I as [->|[]]. apply Qle_refl.
  - destruct I as [->|[->|I]].
    + apply Qle_trans with (Qmin y z); [apply IH; left; reflexivity|apply Q.le_min_l].
    + apply Qle_trans with (Qmin x y); [apply IH; left; reflexivity|apply Q.le_min_r].
    + apply IH. right. exact I.
Qed.
Lemma largest_ge l : forall x y, In y (x :: l) -> y <= largest x l.
Proof.
  induction l as [|z l IH]; intros x y I; cbn.
  - destruct I as [->|[]]. apply Qle_refl.
  - destruct I as [->|[->|I]].
    + apply Qle_trans with (Qmax y z); [apply Q.le_max_l|apply IH; left; reflexivity].
    + apply Qle_trans with (Qmax x y); [apply Q.le_max_r|apply IH; left; reflexivity].
    + apply IH. right. exact I.
Qed.
Lemma smallest_in l : forall x, exists y, In y (x :: l) /\ smallest x l == y.
Proof.
  induction l as [|z l IH]; intros x; cbn [smallest]; [exists x; split; [left; reflexivity|reflexivity]|].
  destruct (IH (Qmin x z)) as (y & [<-|I] & E); [|exists y; split; [right; right; exact I|exact E]].
  destruct (Q.min_spec x z) as [[_ M]|[_ M]]; [exists x; split; [left; reflexivity|now rewrite E]|exists z; split; [right; left; reflexivity|now rewrite E]].
Qed.
Lemma largest_in l : forall x, exists y, In y (x :: l) /\ largest x l == y.
Proof.
  induction l as [|z l IH]; intros x; cbn [largest]; [exists x; split; [left; reflexivity|reflexivity]|].
  destruct (IH (Qmax x z)) as (y & [<-|I] & E); [|exists y; split; [right; right; exact I|exact E]].
  destruct (Q.max_spec x z) as [[_ M]|[_ M]]; [exists z; split; [right; left; reflexivity|now rewrite E]|exists x; split; [left; reflexivity|now rewrite E]].
Qed.
Lemma valid_in x data : In (Some x) data <-> In x (valid data).
Proof.
  unfold valid. rewrite in_flat_map. split.
  - intros I. exists (Some x). split; [exact I|left; reflexivity].
  - intros ([y|] & I & J); [destruct J as [->|[]]; exact I|destruct J].
Qed.

(** sorting *)
Fixpoint sorted (l : list Q) : Prop := match l with [] => True | x :: l' => (forall y, In y l' -> x <= y) /\ sorted l' end.
Lemma insert_perm x l : Permutation (x :: l) (insert x l).
Proof. induction l as [|y l IH]; [reflexivity|]. cbn. destruct (Qle_bool x y); [reflexivity|]. rewrite perm_swap. now constructor. Qed.
Lemma sort_perm l : Permutation l (sort l).
Proof. induction l as [|x l IH]; [reflexivity|]. cbn. rewrite <- insert_perm. now constructor. Qed.
Lemma insert_sorted x l : sorted l -> sorted (insert x l).
Proof.
  induction l as [|y l IH]; [cbn; tauto|]. intros [A B]. cbn. destruct (Qle_bool x y) eqn:E.
  - apply Qle_bool_iff in E. cbn. split; [|split; assumption]. intros z [<-|Z]; [exact E|]. apply A in Z. lra.
  - cbn. split; [|apply IH, B]. intros z Z. apply (Permutation_in z (Permutation_sym (insert_perm x l))) in Z. destruct Z as [<-|Z]; [|apply A, Z].
    apply Qlt_le_weak, Qnot_le_lt. intros L. apply Qle_bool_iff in L. congruence.
Qed.
Lemma sort_sorted l : sorted (sort l).
Proof. induction l as [|x l IH]; [exact I|]. cbn. now apply insert_sorted. Qed.
Lemma sort_length l : List.length (sort l) = List.length l.
Proof. symmetry. apply Permutation_length, sort_perm. Qed.
Lemma sorted_nth l : sorted l -> forall i j d e, (i <= j < List.length l)%nat -> nth i l d <= nth j l e.
Proof.
  induction l as [|x l IH]; intros S i j d e H; cbn in H; [lia|]. destruct S as [A B]. destruct i as [|i], j as [|j]; cbn; [apply Qle_refl| |lia|apply IH; [exact B|lia]].
  apply A, nth_In. lia.
Qed.

(** percentiles *)
Section Percentile.
Context (l : list Q) (N : l <> []).
Notation s := (sort l).
Notation n := (List.length l).
Lemma n_pos : (0 < n)%nat.
Proof. destruct l; [congruence|cbn; lia]. Qed.
Lemma gamma k : 0 <= inject_Z (Z.of_nat (k mod 100)) / 100 /\ inject_Z (Z.of_nat (k mod 100)) / 100 <= 1.
Proof.
  assert (H : (k mod 100 < 100)%nat) by (apply Nat.mod_upper_bound; lia). split.
  - apply Qle_shift_div_l; [reflexivity|]. rewrite Qmult_0_l. change 0 with (inject_Z 0). rewrite <- Zle_Qle. lia.
  - apply Qle_shift_div_r; [reflexivity|]. rewrite Qmult_1_l. change 100 with (inject_Z 100). rewrite <- Zle_Qle. lia.
Qed.
Lemma place p : (p <= 100)%nat -> ((p * (n - 1)) / 100 <= n - 1)%nat.
Proof. intros P. apply Nat.div_le_upper_bound; [lia|]. nia. Qed.
Lemma next_ge j : (j <= n - 1)%nat -> nth j s 0 <= nth (S j) s (nth j s 0).
Proof.
  intros J. assert (P := n_pos). destruct (Nat.eq_dec j (n - 1)) as [->|D].
  - rewrite (nth_overflow s) with (n := S (n - 1)) by (rewrite sort_length; lia). apply Qle_refl.
  - apply sorted_nth; [apply sort_sorted|]. rewrite sort_length. lia.
Qed.
Lemma step a b g h : a <= b -> 0 <= g -> g <= h -> a + (b - a) * g <= a + (b - a) * h.
Proof. intros AB G GH. nra. Qed.
Lemma percentile_low p : (p <= 100)%nat -> nth ((p * (n - 1)) / 100) s 0 <= percentile l p.
Proof.
  intros P. unfold percentile. destruct (gamma (p * (n - 1))) as [G _]. assert (L := next_ge _ (place p P)). cbv zeta. set (g := inject_Z _ / 100) in *. set (a := nth _ s 0) in *. set (b := nth _ s a) in *. nra.
Qed.
Lemma percentile_high p : (p <= 100)%nat -> percentile l p <= nth (S ((p * (n - 1)) / 100)) s (nth ((p * (n - 1)) / 100) s 0).
Proof.
  intros P. unfold percentile. destruct (gamma (p * (n - 1))) as [G G']. assert (L := next_ge _ (place p P)). cbv zeta. set (g := inject_Z _ / 100) in *. set (a := nth _ s 0) in *. set (b := nth _ s a) in *. nra.
Qed.
Lemma percentile_mono p q : (p <= q <= 100)%nat -> percentile l p <= percentile l q.
Proof.
  intros [PQ Q]. assert (J : ((p * (n - 1)) / 100 <= (q * (n - 1)) / 100)%nat) by (apply Nat.div_le_mono; [lia|nia]).
  destruct (Nat.eq_dec ((p * (n - 1)) / 100) ((q * (n - 1)) / 100)) as [E|D].
  - unfold percentile. cbv zeta. rewrite E. apply step.
    + apply next_ge, place. exact Q.
    + apply gamma.
    + assert (M : ((p * (n - 1)) mod 100 <= (q * (n - 1)) mod 100)%nat).
      { assert (A := Nat.div_mod (p * (n - 1)) 100 ltac:(lia)). assert (B := Nat.div_mod (q * (n - 1)) 100 ltac:(lia)). nia. }
      unfold Qdiv. apply Qmult_le_compat_r; [|discriminate]. rewrite <- Zle_Qle. lia.
  - apply Qle_trans with (nth (S ((p * (n - 1)) / 100)) s (nth ((p * (n - 1)) / 100) s 0)); [apply percentile_high; lia|].
    apply Qle_trans with (nth ((q * (n - 1)) / 100) s 0); [|apply percentile_low, Q]. apply sorted_nth; [apply sort_sorted|]. rewrite sort_length. assert (P := place q Q). assert (NP := n_pos). lia.
Qed.
Lemma percentile_above p : (p <= 100)%nat -> exists x, In x l /\ x <= percentile l p.
Proof.
  intros P. exists (nth ((p * (n - 1)) / 100) s 0). split; [|apply percentile_low, P]. apply (Permutation_in _ (Permutation_sym (sort_perm l))), nth_In. rewrite sort_length. assert (A := place p P). assert (B := n_pos). lia.
Qed.
Lemma percentile_below p : (p <= 100)%nat -> exists x, In x l /\ percentile l p <= x.
Proof.
  intros P. assert (A := place p P). assert (B := n_pos). exists (nth (S ((p * (n - 1)) / 100)) s (nth ((p * (n - 1)) / 100) s 0)). split; [|apply percentile_high, P].
  apply (Permutation_in _ (Permutation_sym (sort_perm l))). destruct (Nat.eq_dec ((p * (n - 1)) / 100) (n - 1)) as [E|D].
  - rewrite nth_overflow by (rewrite sort_length; lia). apply nth_In. rewrite sort_length. lia.
  - apply nth_In. rewrite sort_length. lia.
Qed.
End Percentile.
