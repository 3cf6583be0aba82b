(** Proofs about BackModel.v. *)
From Coq Require Import String Ascii Arith Bool List Lia Permutation.
From Verif Require Import BackModel.
Import ListNotations.
Local Open Scope list_scope.
Local Open Scope nat_scope.

Lemma find_in t k g : find t k = Some g -> In (k, g) t.
Proof. induction t as [|[n x] t IH]; cbn; [discriminate|]. destruct (string_dec n k) as [->|N]; [intros [= ->]; left; reflexivity|right; auto]. Qed.

(** strides *)
Section Strides.
Context (shape : list nat).
Notation step := (fun (s : (nat -> nat) * nat) d => ((fun e => if Nat.eqb e d then snd s else fst s e), snd s * nth d shape 1)).
Lemma fold_other dims : forall s e, ~ In e dims -> fst (fold_left step dims s) e = fst s e.
Proof.
  induction dims as [|d dims IH]; intros s e N; [reflexivity|]. cbn [fold_left]. rewrite IH by (intros I; apply N; right; exact I). cbn [fst]. destruct (Nat.eqb_spec e d) as [->|D]; [exfalso; apply N; left; reflexivity|reflexivity].
Qed.
Lemma fold_total dims : forall s, snd (fold_left step dims s) = fold_left (fun t d => t * nth d shape 1) dims (snd s).
Proof. induction dims as [|d dims IH]; intros s; [reflexivity|]. cbn [fold_left]. now rewrite IH. Qed.
(** the stride of a dimension is the product of the sizes of those before it *)
Lemma fold_at a d b s : ~ In d b -> fst (fold_left step (a ++ d :: b) s) d = fold_left (fun t e => t * nth e shape 1) a (snd s).
Proof.
  intros N. rewrite fold_left_app. cbn [fold_left]. rewrite fold_other by exact N. cbn [fst]. rewrite Nat.eqb_refl. apply fold_total.
Qed.
Definition prod (l : list nat) : nat := fold_left (fun t e => t * nth e shape 1) l 1.
Lemma prod_last a d : prod (a ++ [d]) = prod a * nth d shape 1.
Proof. unfold prod. now rewrite fold_left_app. Qed.
Lemma stride_at a d b : ~ In d b -> fst (strides_from_layout shape (a ++ d :: b)) d = prod a.
Proof. intros N. unfold strides_from_layout. now rewrite fold_at. Qed.
Lemma total_is dims : snd (strides_from_layout shape dims) = prod dims.
Proof. unfold strides_from_layout. now rewrite fold_total. Qed.

(** the part of the address that the first dimensions make up *)
Definition part (st : nat -> nat) (l : list nat) (idx : nat -> nat) : nat := list_sum (map (fun d => idx d * st d) l).
Lemma part_app st a b idx : part st (a ++ b) idx = part st a idx + part st b idx.
Proof. unfold part. now rewrite map_app, list_sum_app. Qed.
Lemma part_bound st all idx : NoDup all -> (forall a d b, all = a ++ d :: b -> st d = prod a) -> (forall d, In d all -> idx d < nth d shape 1) ->
  forall a b, all = a ++ b -> part st a idx < prod a.
Proof.
  intros N S I a. induction a as [|d a IH] using rev_ind; intros b E; [cbn; lia|]. rewrite part_app, prod_last. rewrite <- app_assoc in E. cbn [app] in E.
  specialize (IH (d :: b) E). assert (B := I d ltac:(rewrite E; apply in_elt)). unfold part at 2. cbn [map list_sum fold_right]. rewrite (S a d b E). cbn. nia.
Qed.
Lemma part_inj st all i j : NoDup all -> (forall a d b, all = a ++ d :: b -> st d = prod a) -> (forall d, In d all -> i d < nth d shape 1) -> (forall d, In d all -> j d < nth d shape 1) ->
  forall a b, all = a ++ b -> part st a i = part st a j -> forall d, In d a -> i d = j d.
Proof.
  intros N S I J a. induction a as [|e a IH] using rev_ind; intros b E H d D; [destruct D|]. rewrite !part_app in H. rewrite <- app_assoc in E. cbn [app] in E.
  assert (Bi := part_bound st all i N S I a (e :: b) E). assert (Bj := part_bound st all j N S J a (e :: b) E).
  unfold part at 2 4 in H. cbn [map list_sum fold_right] in H. rewrite (S a e b E) in H. cbn in H.
  assert (K : i e = j e).
  { clear - H Bi Bj. revert H Bi Bj. generalize (part st a i), (part st a j), (i e), (j e), (prod a). intros x y u v p H X Y.
    destruct (Nat.lt_trichotomy u v) as [L|[L|L]]; [exfalso|exact L|exfalso].
    - assert (M : S u * p <= v * p) by (apply Nat.mul_le_mono_r; lia). cbn in M. lia.
    - assert (M : S v * p <= u * p) by (apply Nat.mul_le_mono_r; lia). cbn in M. lia. }
  rewrite K in H. apply in_app_iff in D. destruct D as [D|[<-|[]]]; [|exact K]. apply (IH (e :: b) E); [lia|exact D].
Qed.
Lemma part_perm st l l' idx : Permutation l l' -> part st l idx = part st l' idx.
Proof.
  intros P. unfold part. assert (Q : forall a b : list nat, Permutation a b -> list_sum a = list_sum b) by (clear; intros a b; induction 1; unfold list_sum in *; cbn in *; lia). apply Q, Permutation_map, P.
Qed.
End Strides.

Lemma layout_perm o rank : 3 <= rank -> Permutation (layout (as_layout_map o) rank) (seq 0 rank).
Proof.
  intros R. unfold layout. destruct (Nat.eqb_spec rank 3) as [->|N].
  - apply NoDup_Permutation; [destruct o; vm_compute; repeat constructor; cbn; intuition discriminate|apply seq_NoDup|]. intros x. destruct o; vm_compute; tauto.
  - set (n := rank - 3). replace rank with (n + 3) by lia. rewrite seq_app. cbn [Nat.add]. rewrite <- Permutation_rev. rewrite Permutation_app_comm. apply Permutation_app_head.
    replace (seq n 3) with (map (fun d => d + n) [0; 1; 2]) by reflexivity. apply Permutation_map.
    apply NoDup_Permutation; [destruct o; vm_compute; repeat constructor; cbn; intuition discriminate|vm_compute; repeat constructor; cbn; intuition discriminate|]. intros x. destruct o; vm_compute; tauto.
Qed.
