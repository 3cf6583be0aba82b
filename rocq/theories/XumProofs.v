(** Lemmas about XumModel.v *)
From Coq Require Import ZArith List Bool String Lia.
From Verif Require Import Base StorModel GridModel GridProofs XumModel.
Import ListNotations.
Local Open Scope Z_scope.

Definition within (shape idx : list Z) : Prop := Forall2 (fun n i => 0 <= i < n) shape idx.

Lemma in_places shape i : In i (places shape) <-> within shape i.
Proof.
  revert i. induction shape as [|n shape IH]; intros i; cbn [places].
  - split; [intros [<-|[]]; constructor|intros H; inversion H; now left].
  - rewrite in_flat_map. split.
    + intros (x & X & I). rewrite in_map_iff in I. destruct I as (l & <- & L). constructor; [now apply in_zrange in X|now apply IH].
    + intros H. inversion H as [|? x ? l X L]; subst. exists x. split; [now apply in_zrange|]. apply in_map, IH, L.
Qed.
Lemma nodup_flat {A} (f : Z -> list (list A)) (h : list A -> Z) l : NoDup l -> (forall x, In x l -> NoDup (f x)) -> (forall x y, In y (f x) -> h y = x) -> NoDup (flat_map f l).
Proof.
  induction l as [|x l IH]; intros N F H; cbn [flat_map]; [constructor|]. inversion N as [|? ? N1 N2]; subst.
  assert (A1 := F x (or_introl eq_refl)). assert (A2 := IH N2 (fun y I => F y (or_intror I)) H).
  assert (D : forall y, In y (f x) -> ~ In y (flat_map f l)).
  { intros y Y I. apply in_flat_map in I. destruct I as (z & Z1 & Z2). apply H in Y. apply H in Z2. subst. apply N1. congruence. }
  clear - A1 A2 D. revert A1 D. generalize (f x). induction l0 as [|y m IH]; intros A1 D; cbn [app]; [exact A2|]. inversion A1; subst. constructor.
  - rewrite in_app_iff. intros [I|I]; [tauto|]. apply (D y); [now left|exact I].
  - apply IH; [assumption|]. intros z Z1. apply D. now right.
Qed.
Lemma places_NoDup shape : NoDup (places shape).
Proof.
  induction shape as [|n shape IH]; cbn [places]; [constructor; [intros []|constructor]|].
  apply nodup_flat with (h := fun l => hd 0 l); [apply zrange_NoDup| |].
  - intros x _. clear - IH. induction IH as [|y l Y _ IH]; cbn [map]; constructor; [|exact IH]. rewrite in_map_iff. intros (z & E & I). congruence.
  - intros x y I. apply in_map_iff in I. destruct I as (z & <- & _). reflexivity.
Qed.

(** ** marks *)
Lemma fibre m : forall shape kept, List.length m = List.length shape -> within (unmarked m shape) kept ->
  forall i, In i (map (fun red => weave m red kept) (places (marked m shape))) <-> within shape i /\ unmarked m i = kept.
Proof.
  induction m as [|b m IH]; intros [|n shape] kept L W i; try discriminate L.
  - inversion W; subst. cbn. split; [intros [<-|[]]; split; [constructor|reflexivity]|intros [H _]; inversion H; now left].
  - cbn [List.length] in L. injection L as L. destruct b; cbn [marked unmarked] in *.
    + split.
      * intros I. apply in_map_iff in I. destruct I as (red & <- & I). apply in_places in I. inversion I as [|? x ? r X R]; subst. cbn [weave unmarked].
        assert (J : In (weave m r kept) (map (fun red => weave m red kept) (places (marked m shape)))) by (apply in_map_iff; exists r; split; [reflexivity|now apply in_places]).
        apply (IH shape kept L W) in J. destruct J as [J1 J2]. split; [now constructor|exact J2].
      * intros [H K]. inversion H as [|? x ? l X R]; subst. cbn [unmarked] in *.
        assert (J : In l (map (fun red => weave m red (unmarked m l)) (places (marked m shape)))) by now apply (IH shape _ L W).
        apply in_map_iff in J. destruct J as (r & E & J). apply in_map_iff. exists (x :: r). split; [cbn [weave]; now rewrite E|].
        apply in_places. constructor; [exact X|now apply in_places].
    + inversion W as [|? k0 ? kept' K0 KW]; subst. split.
      * intros I. apply in_map_iff in I. destruct I as (red & <- & I). cbn [weave unmarked].
        assert (J : In (weave m red kept') (map (fun red => weave m red kept') (places (marked m shape)))) by (apply in_map_iff; eauto).
        apply (IH shape kept' L KW) in J. destruct J as [J1 J2]. split; [now constructor|now rewrite J2].
      * intros [H K]. inversion H as [|? x ? l X R]; subst. cbn [unmarked] in K. injection K as -> K.
        assert (J : In l (map (fun red => weave m red kept') (places (marked m shape)))) by now apply (IH shape _ L KW).
        apply in_map_iff in J. destruct J as (r & E & J). apply in_map_iff. exists r. split; [cbn [weave]; now rewrite E|exact J].
Qed.
Lemma fibre_NoDup m : forall shape kept, List.length m = List.length shape -> within (unmarked m shape) kept -> NoDup (map (fun red => weave m red kept) (places (marked m shape))).
Proof.
  intros shape kept L W. assert (N := places_NoDup (marked m shape)).
  assert (J : forall r r', In r (places (marked m shape)) -> In r' (places (marked m shape)) -> weave m r kept = weave m r' kept -> r = r').
  { intros r r'. rewrite !in_places. clear N. revert shape kept r r' L W. induction m as [|b m IH]; intros [|n shape] kept r r' L W R R' E; try discriminate L.
    - inversion R; inversion R'; reflexivity.
    - cbn [List.length] in L. injection L as L. destruct b; cbn [marked unmarked] in *.
      + inversion R; inversion R'; subst. cbn [weave] in E. injection E as -> E. f_equal. eapply IH; eauto.
      + inversion W; subst. cbn [weave] in E. injection E as E. eapply IH; eauto. }
  revert N J. generalize (places (marked m shape)). induction l as [|x l IH]; intros N J; cbn [map]; [constructor|]. inversion N; subst. constructor.
  - rewrite in_map_iff. intros (y & E & I). apply J in E; [subst; contradiction|now right|now left].
  - apply IH; [assumption|]. intros r r' A B. apply J; now right.
Qed.
Lemma unmarked_nth {T} (d : T) g : forall l s, unmarked (map g (seq s (List.length l))) l = map (fun p => nth (p - s)%nat l d) (filter (fun p => negb (g p)) (seq s (List.length l))).
Proof.
  induction l as [|x l IH]; intros s; cbn [List.length seq map unmarked filter]; [reflexivity|]. rewrite IH.
  assert (E : map (fun p => nth (p - S s)%nat l d) (filter (fun p => negb (g p)) (seq (S s) (List.length l))) = map (fun p => nth (p - s)%nat (x :: l) d) (filter (fun p => negb (g p)) (seq (S s) (List.length l)))).
  { apply map_ext_in. intros p I. apply filter_In in I. destruct I as [I _]. apply in_seq in I. replace (p - s)%nat with (S (p - S s)) by lia. reflexivity. }
  destruct (g s); cbn [negb map]; rewrite E; [reflexivity|]. now rewrite Nat.sub_diag.
Qed.
Lemma total_split m : forall shape, List.length m = List.length shape -> total shape = total (marked m shape) * total (unmarked m shape).
Proof.
  induction m as [|b m IH]; intros [|n shape] L; try discriminate L; [reflexivity|]. cbn [List.length] in L. injection L as L.
  destruct b; cbn [marked unmarked]; change (total (n :: shape)) with (n * total shape); rewrite (IH shape L); [change (total (n :: marked m shape)) with (n * total (marked m shape))|change (total (n :: unmarked m shape)) with (n * total (unmarked m shape))]; lia.
Qed.
Lemma total_none shape : Forall (fun n => 0 <= n) shape -> (total shape <> 0 <-> exists i, within shape i).
Proof.
  intros F. split.
  - induction F as [|n shape N F IH]; intros H; [exists []; constructor|]. change (total (n :: shape)) with (n * total shape) in H.
    destruct IH as [i I]; [intros E; rewrite E, Z.mul_0_r in H; now apply H|]. exists (0 :: i). constructor; [|exact I]. destruct (Z.eq_dec n 0) as [->|]; [now rewrite Z.mul_0_l in H|lia].
  - intros [i I]. clear F. induction I as [|n x shape l X _ IH]; [discriminate|]. change (total (n :: shape)) with (n * total shape). nia.
Qed.
Lemma marked_F {T} (P : T -> Prop) m : forall l, Forall P l -> Forall P (marked m l) /\ Forall P (unmarked m l).
Proof.
  induction m as [|b m IH]; intros l F; [split; constructor|]. destruct F as [|x l X F]; [split; constructor|]. destruct (IH l F). destruct b; cbn [marked unmarked]; split; auto.
Qed.

(** ** axes *)
Lemma normal_in r k p : normal r k = Some p <-> (- Z.of_nat r <= k < Z.of_nat r /\ Z.of_nat p = k mod Z.of_nat r).
Proof.
  unfold normal. destruct (_ && _) eqn:E.
  - apply andb_prop in E. destruct E as [E1 E2].
    assert (M : k mod Z.of_nat r = if k <? 0 then k + Z.of_nat r else k).
    { destruct (k <? 0) eqn:K; [|apply Z.mod_small; lia]. symmetry. apply Z.mod_unique with (-1); lia. }
    rewrite M. split; [intros [= <-]; split; [lia|]; destruct (k <? 0) eqn:K; lia|]. intros [_ H]. f_equal. destruct (k <? 0) eqn:K; lia.
  - split; [discriminate|]. intros [H _]. exfalso. apply andb_false_iff in E. lia.
Qed.
Lemma normal_eqb r k p0 p : normal r k = Some p0 -> (p < r)%nat -> Nat.eqb p0 p = (Z.of_nat p =? k) || (Z.of_nat p =? k + Z.of_nat r).
Proof.
  unfold normal. destruct (_ && _) eqn:E; [|discriminate]. apply andb_prop in E. destruct E as [E1 E2]. intros [= <-] L.
  destruct (k <? 0) eqn:K; match goal with |- Nat.eqb ?a p = _ => destruct (Nat.eqb_spec a p) as [Q|Q] end; symmetry; first [apply orb_true_iff; lia|apply orb_false_iff; lia].
Qed.
Lemma distinct_NoDup l : distinct l = true <-> NoDup l.
Proof.
  induction l as [|x l IH]; cbn [distinct]; [split; [constructor|reflexivity]|]. rewrite andb_true_iff, negb_true_iff, IH. split.
  - intros [A B]. constructor; [|exact B]. intros I. assert (X : existsb (Nat.eqb x) l = true) by (apply existsb_exists; exists x; split; [exact I|apply Nat.eqb_refl]). congruence.
  - intros N. inversion N as [|? ? A B]; subst. split; [|exact B]. apply not_true_is_false. intros X. apply existsb_exists in X. destruct X as (y & I & E). apply Nat.eqb_eq in E. congruence.
Qed.

(** ** the greatest of a list *)
Section Order.
Context {T : Type} (le : T -> T -> bool).
Hypothesis total_le : forall x y, le x y = true \/ le y x = true.
Hypothesis trans_le : forall x y z, le x y = true -> le y z = true -> le x z = true.
Lemma fold_none (l : list (num (T := T))) : fold_left (larger le) l None = None.
Proof. induction l as [|x l IH]; [reflexivity|]. cbn [fold_left]. exact IH. Qed.
Lemma fold_larger (l : list (num (T := T))) : forall a, match fold_left (larger le) l a with
  | None => In None (a :: l)
  | Some x => In (Some x) (a :: l) /\ forall v, In v (a :: l) -> exists y, v = Some y /\ le y x = true
  end.
Proof.
  induction l as [|b l IH]; intros a; cbn [fold_left].
  - destruct a as [x|]; [|now left]. split; [now left|]. intros v [<-|[]]. exists x. split; [reflexivity|]. destruct (total_le x x); assumption.
  - specialize (IH (larger le a b)). destruct a as [x|]; [|cbn [larger] in *; rewrite fold_none in *; now left].
    destruct b as [y|]; [|cbn [larger] in *; rewrite fold_none in *; right; now left]. cbn [larger] in *.
    destruct (fold_left _ l _) as [z|] eqn:F.
    + destruct IH as [I H]. split.
      * destruct I as [I|I]; [|right; right; exact I]. destruct (le y x); [left|right; left]; exact I.
      * intros v [<-|[<-|V]]; [| |apply H; now right].
        -- destruct (H _ (or_introl eq_refl)) as (w & E & W). injection E as <-. exists x. split; [reflexivity|]. destruct (le y x) eqn:L; [exact W|]. eapply trans_le; [|exact W]. destruct (total_le x y); congruence.
        -- destruct (H _ (or_introl eq_refl)) as (w & E & W). injection E as <-. exists y. split; [reflexivity|]. destruct (le y x) eqn:L; [eapply trans_le; eauto|exact W].
    + destruct IH as [I|I]; [discriminate|]. right. right. exact I.
Qed.
End Order.

(** ** windows *)
Lemma source_post : forall post idx, inside post idx = true -> source (map snd post) post idx = map (fun x => snd x - fst (fst x)) (combine post idx).
Proof.
  induction post as [|[a m] post IH]; intros [|i idx] I; cbn [inside map source combine] in *; try discriminate; [reflexivity|].
  apply andb_prop in I. destruct I as [I1 I]. apply andb_prop in I1. destruct I1 as [I1 I2]. cbn [fst snd]. rewrite IH by exact I. f_equal. destruct (Z.eqb_spec m 1); lia.
Qed.
Lemma fits_post : forall post, fits (map snd post) post = true.
Proof. induction post as [|[a m] post IH]; [reflexivity|]. cbn. now rewrite Z.eqb_refl, IH. Qed.
Lemma fits_pre pre : forall d post, fits d post = true -> fits (repeat 1 (List.length pre) ++ d) (pre ++ post) = true.
Proof. induction pre as [|[a m] pre IH]; intros d post F; cbn [List.length repeat app fits]; [exact F|]. rewrite IH by exact F. now rewrite orb_true_r. Qed.
Lemma inside_app pre post idx : inside (pre ++ post) idx = true -> exists i1 i2, idx = i1 ++ i2 /\ List.length i1 = List.length pre /\ inside post i2 = true.
Proof.
  revert idx. induction pre as [|[a m] pre IH]; intros idx; cbn [app]; [exists [], idx; auto|]. destruct idx as [|i idx]; cbn [inside]; [discriminate|].
  intros H. apply andb_prop in H. destruct H as [H1 H2]. destruct (IH idx H2) as (i1 & i2 & -> & L & I). exists (i :: i1), i2. cbn. auto.
Qed.
Lemma source_pre pre : forall d post i1 i2, List.length i1 = List.length pre -> skipn (List.length pre) (source (repeat 1 (List.length pre) ++ d) (pre ++ post) (i1 ++ i2)) = source d post i2.
Proof. induction pre as [|[a m] pre IH]; intros d post [|i i1] i2 L; try discriminate L; [reflexivity|]. cbn [List.length] in L. injection L as L. cbn. now apply IH. Qed.

Lemma write_ok {T} (a r : nd (num (T := T))) b pre post : shp a <> [] -> take (shp a) b = Some (pre ++ post) -> shp r = map snd post ->
  exists a', write a b r = Some a' /\ shp a' = shp a
    /\ (forall i1 i2, inside (pre ++ post) (i1 ++ i2) = true -> List.length i1 = List.length pre -> val a' (i1 ++ i2) = val r (map (fun x => snd x - fst (fst x)) (combine post i2)))
    /\ (forall idx, inside (pre ++ post) idx = false -> val a' idx = val a idx).
Proof.
  intros N E S. unfold write. destruct (shp a) as [|n0 s0] eqn:D; [congruence|]. rewrite <- D in *. clear n0 s0 D N. rewrite E. cbn [bind].
  unfold pad. rewrite S, app_length, map_length. replace (List.length post - _)%nat with 0%nat by lia. cbn [firstn forallb skipn bind].
  replace (List.length pre + List.length post - List.length post)%nat with (List.length pre) by lia. rewrite fits_pre by apply fits_post.
  eexists. split; [reflexivity|]. cbn [shp val]. split; [reflexivity|]. unfold rank. rewrite S, map_length. split.
  - intros i1 i2 I L. rewrite I. replace (List.length post - _)%nat with 0%nat by lia.
    replace (List.length pre + List.length post - List.length post)%nat with (List.length pre) by lia. cbn [repeat app]. rewrite source_pre by exact L.
    destruct (inside_app _ _ _ I) as (j1 & j2 & E2 & L2 & I2). assert (j2 = i2) as ->.
    { clear - E2 L L2. rewrite <- L in L2. clear L. revert j1 L2 E2. induction i1 as [|x i1 IH]; intros [|y j1] L2 E2; try discriminate L2; [cbn in E2; congruence|]. cbn in E2, L2. injection E2 as _ E2. eauto. }
    now rewrite source_post.
  - intros idx I. now rewrite I.
Qed.
Lemma take_all shape : take shape [] = Some (map (fun n => (0, n)) shape).
Proof. destruct shape; reflexivity. Qed.
Lemma take_window : forall shape o e, Forall2 (fun o e => 0 <= o /\ 0 <= e) o e -> Forall2 (fun n oe => fst oe + snd oe <= n) shape (combine o e) -> List.length o = List.length shape ->
  take shape (compute_index o e) = Some (combine o e).
Proof.
  intros shape o e F. revert shape. induction F as [|x y o e [X Y] F IH]; intros [|n shape] G L; try discriminate L; [reflexivity|]. cbn [combine List.length compute_index] in *. inversion G as [|? ? ? ? G1 G2]; subst.
  cbn [take]. rewrite IH by (auto; congruence). cbn [bind fst snd] in *. unfold slice_of, clip. do 2 f_equal.
  destruct (x <? 0) eqn:E1; [lia|]. destruct (x + y <? 0) eqn:E2; [lia|]. f_equal; lia.
Qed.
