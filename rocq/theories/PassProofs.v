(** Proofs about PassModel.v. *)
From Coq Require Import ZArith Arith Bool Lia.
From Verif Require Import Base MergeModel PassModel.
Import ListNotations.
Local Open Scope nat_scope.

Lemma tree_rec' : forall P : tree -> Prop,
  (forall i c, P (Tasklet i c)) -> (forall i, P (Other i)) -> (forall on r k, Forall P k -> P (Axis on r k)) -> (forall i on k, Forall P k -> P (For i on k)) ->
  (forall i k, Forall P k -> P (Scope i k)) -> (forall r k, Forall P k -> P (Guard r k)) -> forall t, P t.
Proof.
  intros P H1 H2 H3 H4 H5 H6. fix IH 1. intros [i c|i|on r k|i on k|i k|gr k]; [apply H1|apply H2|apply H3|apply H4|apply H5|apply H6];
    (induction k; constructor; [apply IH|assumption]).
Qed.

(** one step unfolded *)
Lemma step_S : forall ok f l, step ok (S f) l =
      match l with
      | [] => Some ([], 0)
      | Axis on r kids :: rest =>
          match on, rest with
          | true, next :: rest' =>
              match next with
              | Axis true r2 kids2 => if ok (Axis on r kids) next then Some (join r kids r2 kids2 :: rest', 1) else Some (l, 0)
              | _ => Some (l, 0)
              end
          | _, _ => do x <- loop ok f kids; Some (Axis on r (fst x) :: rest, snd x)
          end
      | For id on kids :: rest =>
          match on, kids with
          | false, [Axis true r k] => do x <- loop ok f k; Some (Axis true r [For id on (fst x)] :: rest, S (snd x))
          | _, _ => do x <- loop ok f kids; Some (For id on (fst x) :: rest, snd x)
          end
      | Tasklet id cb :: rest =>
          if cb then Some (l, 0)
          else match rest with
               | [] => Some (l, 0)
               | _ => do x <- step ok f rest;
                      match fst x with
                      | Axis on r kids :: rest2 => do y <- step ok f (Axis on r (Tasklet id cb :: kids) :: rest2); Some (fst y, snd x + snd y)
                      | rest1 => Some (Tasklet id cb :: rest1, snd x)
                      end
               end
      | Scope id kids :: rest => do x <- loop ok f kids; Some (Scope id (fst x) :: rest, snd x)
      | Guard gr kids :: rest => do x <- loop ok f kids; Some (Guard gr (fst x) :: rest, snd x)
      | Other _ :: _ => Some (l, 0)
      end.
Proof. reflexivity. Qed.
Lemma loop_S : forall ok f l, loop ok (S f) l =
      match l with
      | [] => Some ([], 0)
      | _ => do x <- step ok f l;
             match fst x with
             | [] => Some ([], snd x)
             | t :: rest => do y <- loop ok f rest; Some (t :: fst y, snd x + snd y)
             end
      end.
Proof. reflexivity. Qed.

(** what is preserved by the pass: a list computed from the trees, compositional *)
Definition covers (m r : range) : Prop := r_step m = 1%Z /\ (r_lo m <= r_lo r)%Z /\ (r_hi r <= r_hi m)%Z.
Lemma covers_l : forall r r2, covers (merged_range r r2) r. Proof. intros. unfold covers, merged_range. cbn. lia. Qed.
Lemma covers_r : forall r r2, covers (merged_range r r2) r2. Proof. intros. unfold covers, merged_range. cbn. lia. Qed.
Lemma range_same : forall a b, range_eqb a b = true -> a = b.
Proof. intros [x y z] [u v w] H. unfold range_eqb in H. cbn in H. apply andb_prop in H as [H H3]. apply andb_prop in H as [H1 H2]. apply Z.eqb_eq in H1, H2, H3. congruence. Qed.
Section Keep.
Context {A C : Type} (R : A -> A -> Prop) (g : C -> tree -> list A) (inAxis : bool -> range -> C -> C) (inLoop : bool -> nat -> C -> C) (inScope : nat -> C -> C) (inGuard : range -> C -> C).
Hypothesis R_refl : forall x, R x x.
Hypothesis R_trans : forall x y z, R x y -> R y z -> R x z.
Hypothesis g_axis : forall c on r k, g c (Axis on r k) = flat_map (g (inAxis on r c)) k.
Hypothesis g_for : forall c i on k, g c (For i on k) = flat_map (g (inLoop on i c)) k.
Hypothesis g_scope : forall c i k, g c (Scope i k) = flat_map (g (inScope i c)) k.
Hypothesis g_guard : forall c r k, g c (Guard r k) = flat_map (g (inGuard r c)) k.
Hypothesis g_tasklet : forall c on r i, Forall2 R (g c (Tasklet i false)) (g (inAxis on r c) (Tasklet i false)).
Hypothesis swap : forall c r i, inAxis true r (inLoop false i c) = inLoop false i (inAxis true r c).
Hypothesis guard_axis : forall m r c, covers m r -> inGuard r (inAxis true m c) = inAxis true r c.
Hypothesis guard_below : forall o on r c, inGuard o (inAxis on r c) = inAxis on r (inGuard o c).

Let F := Forall2 R.
Lemma F_refl : forall l, F l l. Proof. induction l; constructor; auto. Qed.
Lemma F_trans : forall a b c, F a b -> F b c -> F a c.
Proof. intros a b c H. revert c. induction H as [|x y a b X H IH]; intros c K; inversion K; subst; constructor; [eapply R_trans; eassumption|]. apply IH. assumption. Qed.
Lemma F_app : forall a b c d, F a b -> F c d -> F (a ++ c) (b ++ d). Proof. intros. apply Forall2_app; assumption. Qed.

Lemma guarded_keeps : forall m o t c, is_axis t = true -> (range_eqb m o = true -> inGuard o c = c) -> g c (guarded m o t) = g (inGuard o c) t.
Proof.
  intros m o. induction t as [i cb|i|on r k IH|i on k _|i k _|gr k _] using tree_rec'; intros c Ax E; try discriminate Ax. cbn [guarded]. destruct (forallb is_axis k) eqn:B.
  - rewrite !g_axis, <- guard_below. assert (E' : range_eqb m o = true -> inGuard o (inAxis on r c) = inAxis on r c) by (intro Q; rewrite guard_below, (E Q); reflexivity). clear Ax.
    induction IH as [|x k Hx Hk IHk]; [reflexivity|]. cbn in B. apply andb_prop in B as [B1 B2]. cbn. rewrite (Hx _ B1 E'). f_equal. exact (IHk B2).
  - destruct (range_eqb m o); [rewrite (E eq_refl); reflexivity|]. rewrite !g_axis. cbn. rewrite g_guard, guard_below. apply app_nil_r.
Qed.
Lemma guarded_kids : forall m r k c, covers m r -> flat_map (g (inAxis true m c)) (kids_of (guarded m r (Axis true r k))) = flat_map (g (inAxis true r c)) k.
Proof.
  intros m r k c H. pose proof (guard_axis m r c H) as Q. cbn [guarded]. destruct (forallb is_axis k) eqn:B; cbn [kids_of].
  - assert (E : range_eqb m r = true -> inGuard r (inAxis true m c) = inAxis true m c) by (intro X; apply range_same in X; subst; exact Q).
    induction k as [|x k IH]; [reflexivity|]. cbn in B. apply andb_prop in B as [B1 B2]. cbn. rewrite (guarded_keeps _ _ _ _ B1 E), Q. f_equal. exact (IH B2).
  - destruct (range_eqb m r) eqn:X; cbn [kids_of]; [apply range_same in X; subst; reflexivity|]. cbn. rewrite g_guard, Q. apply app_nil_r.
Qed.
Lemma join_keeps : forall r k r2 k2 c, g c (join r k r2 k2) = g c (Axis true r k) ++ g c (Axis true r2 k2).
Proof. intros. unfold join. rewrite !g_axis, flat_map_app, !guarded_kids by (apply covers_l || apply covers_r). reflexivity. Qed.

Lemma step_loop_keeps : forall ok f,
  (forall l l' m c, step ok f l = Some (l', m) -> F (flat_map (g c) l) (flat_map (g c) l')) /\
  (forall l l' m c, loop ok f l = Some (l', m) -> F (flat_map (g c) l) (flat_map (g c) l')).
Proof.
  intro ok. induction f as [|f [IS IL]]; split; intros l l' m c H; try discriminate H.
  - rewrite step_S in H. destruct l as [|[i cb|i|on r k|i on k|i k|gr k] rest].
    + injection H as <- <-. apply F_refl.
    + destruct cb; [injection H as <- <-; apply F_refl|]. destruct rest as [|n rest]; [injection H as <- <-; apply F_refl|].
      destruct (step ok f (n :: rest)) as [[l1 m1]|] eqn:E; [|discriminate H]. cbn [bind fst snd] in H. pose proof (IS _ _ _ c E) as E1.
      assert (D : forall l2, Some (Tasklet i false :: l2, m1) = Some (l', m) -> F (flat_map (g c) (n :: rest)) (flat_map (g c) l2) -> F (flat_map (g c) (Tasklet i false :: n :: rest)) (flat_map (g c) l')).
      { intros l2 [= <- <-] Q. change (F (g c (Tasklet i false) ++ flat_map (g c) (n :: rest)) (g c (Tasklet i false) ++ flat_map (g c) l2)). apply F_app; [apply F_refl|exact Q]. }
      destruct l1 as [|[j cj|j|on r k|j on k|j k|gr k] rest2]; try (apply (D _ H E1)).
      destruct (step ok f (Axis on r (Tasklet i false :: k) :: rest2)) as [[l2 m2]|] eqn:E2; [|discriminate H]. cbn [bind fst snd] in H. injection H as <- <-.
      refine (F_trans _ _ _ _ (IS _ _ _ c E2)). change (F (g c (Tasklet i false) ++ flat_map (g c) (n :: rest)) (g c (Axis on r (Tasklet i false :: k)) ++ flat_map (g c) rest2)).
      apply (F_trans _ (g c (Tasklet i false) ++ flat_map (g c) (Axis on r k :: rest2))); [apply F_app; [apply F_refl|exact E1]|]. cbn [flat_map]. rewrite !g_axis. cbn [flat_map]. rewrite <- app_assoc.
      apply F_app; [apply g_tasklet|apply F_refl].
    + injection H as <- <-. apply F_refl.
    + assert (D : bind (loop ok f k) (fun x => Some (Axis on r (fst x) :: rest, snd x)) = Some (l', m) -> F (flat_map (g c) (Axis on r k :: rest)) (flat_map (g c) l')).
      { intro Q. destruct (loop ok f k) as [[k1 m1]|] eqn:E; [|discriminate Q]. cbn in Q. injection Q as <- <-. cbn [flat_map]. rewrite !g_axis. apply F_app; [exact (IL _ _ _ _ E)|apply F_refl]. }
      destruct on; [|exact (D H)]. destruct rest as [|n rest]; [exact (D H)|]. destruct n as [j cj|j|on2 r2 k2|j on2 k2|j k2|gr k2]; try (injection H as <- <-; apply F_refl).
      destruct on2; [|injection H as <- <-; apply F_refl]. destruct (ok _ _); injection H as <- <-; [|apply F_refl]. cbn [flat_map]. rewrite (join_keeps r k r2 k2 c), <- app_assoc. apply F_refl.
    + assert (D : bind (loop ok f k) (fun x => Some (For i on (fst x) :: rest, snd x)) = Some (l', m) -> F (flat_map (g c) (For i on k :: rest)) (flat_map (g c) l')).
      { intro Q. destruct (loop ok f k) as [[k1 m1]|] eqn:E; [|discriminate Q]. cbn in Q. injection Q as <- <-. cbn [flat_map]. rewrite !g_for. apply F_app; [exact (IL _ _ _ _ E)|apply F_refl]. }
      destruct on; [exact (D H)|]. destruct k as [|[j cj|j|on2 r2 k2|j on2 k2|j k2|gr k2] [|n k]]; try exact (D H); destruct on2; try exact (D H).
      destruct (loop ok f k2) as [[k1 m1]|] eqn:E; [|discriminate H]. cbn in H. injection H as <- <-. cbn [flat_map]. rewrite g_for, g_axis. cbn [flat_map]. rewrite g_for, g_axis, swap, !app_nil_r.
      apply F_app; [exact (IL _ _ _ _ E)|apply F_refl].
    + destruct (loop ok f k) as [[k1 m1]|] eqn:E; [|discriminate H]. cbn in H. injection H as <- <-. cbn [flat_map]. rewrite !g_scope. apply F_app; [exact (IL _ _ _ _ E)|apply F_refl].
    + destruct (loop ok f k) as [[k1 m1]|] eqn:E; [|discriminate H]. cbn in H. injection H as <- <-. cbn [flat_map]. rewrite !g_guard. apply F_app; [exact (IL _ _ _ _ E)|apply F_refl].
  - rewrite loop_S in H. destruct l as [|t l]; [injection H as <- <-; apply F_refl|]. destruct (step ok f (t :: l)) as [[l1 m1]|] eqn:E; [|discriminate H]. cbn [bind fst snd] in H.
    pose proof (IS _ _ _ c E) as E1. destruct l1 as [|x r]; [injection H as <- <-; exact E1|]. destruct (loop ok f r) as [[r' m2]|] eqn:E2; [|discriminate H]. cbn in H. injection H as <- <-.
    refine (F_trans _ _ _ E1 _). cbn [flat_map]. apply F_app; [apply F_refl|exact (IL _ _ _ c E2)].
Qed.
Lemma run_keeps : forall ok f p l r c, run ok f p l = Some r -> F (flat_map (g c) l) (flat_map (g c) r).
Proof.
  intros ok f. induction p as [|p IH]; intros l r c H; [discriminate H|]. cbn [run] in H. destruct (loop ok f l) as [[l1 m]|] eqn:E; [|discriminate H]. cbn in H.
  destruct (m =? 0); [injection H as <-; apply F_refl|]. refine (F_trans _ _ _ _ (IH _ _ c H)). exact (proj2 (step_loop_keeps ok f) _ _ _ c E).
Qed.
End Keep.
Lemma F_eq : forall A (l l' : list A), Forall2 eq l l' -> l' = l. Proof. induction 1; congruence. Qed.

(** fuel *)
Lemma more_fuel : forall ok f, (forall l x, step ok f l = Some x -> step ok (S f) l = Some x) /\ (forall l x, loop ok f l = Some x -> loop ok (S f) l = Some x).
Proof.
  intro ok. induction f as [|f [IS IL]]; split; intros l x H; try discriminate H.
  - rewrite step_S in H. rewrite step_S. set (g := S f) in *.
    assert (BL : forall k (q : list tree * nat -> option (list tree * nat)) , bind (loop ok f k) q = Some x -> bind (loop ok g k) q = Some x).
    { intros k q Q. destruct (loop ok f k) as [y|] eqn:E; [|discriminate Q]. rewrite (IL _ _ E). exact Q. }
    assert (BS : forall k (q : list tree * nat -> option (list tree * nat)) , bind (step ok f k) q = Some x -> bind (step ok g k) q = Some x).
    { intros k q Q. destruct (step ok f k) as [y|] eqn:E; [|discriminate Q]. rewrite (IS _ _ E). exact Q. }
    destruct l as [|[i cb|i|on r k|i on k|i k|gr k] rest]; try exact H; try (apply BL; exact H).
    + destruct cb; [exact H|]. destruct rest as [|n rest]; [exact H|]. destruct (step ok f (n :: rest)) as [[l1 m1]|] eqn:E; [|discriminate H]. rewrite (IS _ _ E). cbn [bind fst snd] in H |- *.
      destruct l1 as [|[j cj|j|on r k|j on k|j k|gr k] rest2]; try exact H. apply BS. exact H.
    + destruct on; [|apply BL; exact H]. destruct rest as [|[j cj|j|on2 r2 k2|j on2 k2|j k2|gr k2] rest]; try exact H; apply BL; exact H.
    + destruct on; [apply BL; exact H|]. destruct k as [|[j cj|j|on2 r2 k2|j on2 k2|j k2|gr k2] [|n k]]; try (apply BL; exact H); destruct on2; apply BL; exact H.
  - rewrite loop_S in H. rewrite loop_S. set (g := S f) in *. destruct l as [|t l]; [exact H|]. destruct (step ok f (t :: l)) as [[l1 m1]|] eqn:E; [|discriminate H]. rewrite (IS _ _ E). cbn [bind fst snd] in H |- *.
    destruct l1 as [|y r]; [exact H|]. destruct (loop ok f r) as [z|] eqn:E2; [|discriminate H]. rewrite (IL _ _ E2). exact H.
Qed.
Lemma step_fuel : forall ok f f' l x, f <= f' -> step ok f l = Some x -> step ok f' l = Some x.
Proof. intros ok f f' l x L H. induction L; [exact H|]. apply (proj1 (more_fuel ok m)). assumption. Qed.
Lemma loop_fuel : forall ok f f' l x, f <= f' -> loop ok f l = Some x -> loop ok f' l = Some x.
Proof. intros ok f f' l x L H. induction L; [exact H|]. apply (proj2 (more_fuel ok m)). assumption. Qed.
Lemma run_fuel : forall ok p f f' l x, f <= f' -> run ok f p l = Some x -> run ok f' p l = Some x.
Proof.
  intros ok. induction p as [|p IH]; intros f f' l x L H; [discriminate H|]. cbn [run] in *. destruct (loop ok f l) as [y|] eqn:E; [|discriminate H]. rewrite (loop_fuel _ _ _ _ _ L E). cbn [bind] in *.
  destruct (snd y =? 0); [exact H|]. exact (IH _ _ _ _ L H).
Qed.

(** numbers that shrink *)
Lemma list_sum_cons : forall a l, list_sum (a :: l) = a + list_sum l. Proof. reflexivity. Qed.
Definition sum (g : tree -> nat) (l : list tree) : nat := list_sum (map g l).
Lemma sum_cons : forall g x l, sum g (x :: l) = g x + sum g l. Proof. reflexivity. Qed.
Lemma sum_nil : forall g, sum g [] = 0. Proof. reflexivity. Qed.
Lemma sum_app : forall g l l', sum g (l ++ l') = sum g l + sum g l'.
Proof. intros. unfold sum. rewrite map_app, list_sum_app. reflexivity. Qed.
Fixpoint size (t : tree) : nat := match t with Axis _ _ k | For _ _ k | Scope _ k | Guard _ k => S (list_sum (map size k)) | _ => 1 end.
Fixpoint weight (d : nat) (t : tree) : nat :=
  match t with
  | Axis on _ k => (if on then S d else 0) + list_sum (map (weight d) k)
  | For _ on k => list_sum (map (weight (if on then d else S d)) k)
  | Scope _ k | Guard _ k => list_sum (map (weight d) k)
  | _ => 0
  end.
Lemma maps_kids : forall t, maps t = (if is_axis t then 1 else 0) + sum maps (kids_of t).
Proof. intros [ | | | | | ]; reflexivity. Qed.
Lemma guarded_axis : forall m o on r k, exists k', guarded m o (Axis on r k) = Axis on r k'.
Proof. intros. cbn [guarded]. destruct (forallb is_axis k); [eexists; reflexivity|]. destruct (range_eqb m o); eexists; reflexivity. Qed.
Lemma guarded_maps : forall m o t, maps (guarded m o t) = maps t.
Proof.
  intros m o. induction t as [i cb|i|on r k IH|i on k _|i k _|gr k _] using tree_rec'; try reflexivity. cbn [guarded]. destruct (forallb is_axis k).
  - cbn [maps]. f_equal. induction IH as [|x k Hx Hk IHk]; [reflexivity|]. cbn. rewrite Hx. f_equal. exact IHk.
  - destruct (range_eqb m o); [reflexivity|]. cbn. lia.
Qed.
Lemma guarded_weight : forall m o t d, weight d (guarded m o t) = weight d t.
Proof.
  intros m o. induction t as [i cb|i|on r k IH|i on k _|i k _|gr k _] using tree_rec'; intro d; try reflexivity. cbn [guarded]. destruct (forallb is_axis k).
  - cbn [weight]. f_equal. induction IH as [|x k Hx Hk IHk]; [reflexivity|]. cbn. rewrite Hx. f_equal. exact IHk.
  - destruct (range_eqb m o); [reflexivity|]. cbn. lia.
Qed.
Lemma join_maps : forall r k r2 k2, maps (join r k r2 k2) = S (sum maps k + sum maps k2).
Proof.
  intros. unfold join. set (m := merged_range r r2). pose proof (guarded_maps m r (Axis true r k)) as A. pose proof (guarded_maps m r2 (Axis true r2 k2)) as B.
  destruct (guarded_axis m r true r k) as [k' E]. destruct (guarded_axis m r2 true r2 k2) as [k2' E2]. rewrite E in *. rewrite E2 in *. cbn [maps kids_of] in *. rewrite map_app, list_sum_app. unfold sum. lia.
Qed.
Lemma join_weight : forall r k r2 k2 d, weight d (join r k r2 k2) = S d + sum (weight d) k + sum (weight d) k2.
Proof.
  intros. unfold join. set (m := merged_range r r2). pose proof (guarded_weight m r (Axis true r k) d) as A. pose proof (guarded_weight m r2 (Axis true r2 k2) d) as B.
  destruct (guarded_axis m r true r k) as [k' E]. destruct (guarded_axis m r2 true r2 k2) as [k2' E2]. rewrite E in *. rewrite E2 in *. cbn [weight kids_of] in *. rewrite map_app, list_sum_app. unfold sum. lia.
Qed.

Definition shrinks (l l' : list tree) (m : nat) : Prop :=
  sum maps l' <= sum maps l /\ (sum maps l' = sum maps l -> sum size l' = sum size l) /\ (forall d, sum (weight d) l' + m <= sum (weight d) l).
Lemma shrinks_same : forall l, shrinks l l 0. Proof. intro l. split; [lia|]. split; [lia|]. intro d. lia. Qed.
Lemma shrinks_trans : forall a b c m n, shrinks a b m -> shrinks b c n -> shrinks a c (m + n).
Proof. intros a b c m n (A & B & C) (D & E & F). split; [lia|]. split; [intro Q; rewrite E by lia; apply B; lia|]. intro d. specialize (C d). specialize (F d). lia. Qed.
Lemma shrinks_cons : forall x l l' m, shrinks l l' m -> shrinks (x :: l) (x :: l') m.
Proof. intros x l l' m (A & B & C). split; [rewrite !sum_cons; lia|]. split; [rewrite !sum_cons; intro; rewrite B by lia; reflexivity|]. intro d. specialize (C d). rewrite !sum_cons. lia. Qed.
Ltac kids := intros (A & B & C); split; [rewrite !sum_cons; cbn [maps]; fold (sum maps); unfold sum in *; lia|];
   split; [rewrite !sum_cons; cbn [maps size]; unfold sum in *; intro Q; rewrite B by lia; reflexivity|].
Lemma shrinks_axis : forall on r k k' rest m, shrinks k k' m -> shrinks (Axis on r k :: rest) (Axis on r k' :: rest) m.
Proof. intros on r k k' rest m. kids. intro d. specialize (C d). rewrite !sum_cons. cbn [weight]. unfold sum in *. lia. Qed.
Lemma shrinks_for : forall i on k k' rest m, shrinks k k' m -> shrinks (For i on k :: rest) (For i on k' :: rest) m.
Proof. intros i on k k' rest m. kids. intro d. specialize (C (if on then d else S d)). rewrite !sum_cons. cbn [weight]. unfold sum in *. lia. Qed.
Lemma shrinks_scope : forall i k k' rest m, shrinks k k' m -> shrinks (Scope i k :: rest) (Scope i k' :: rest) m.
Proof. intros i k k' rest m. kids. intro d. specialize (C d). rewrite !sum_cons. cbn [weight]. unfold sum in *. lia. Qed.
Lemma shrinks_guard : forall gr k k' rest m, shrinks k k' m -> shrinks (Guard gr k :: rest) (Guard gr k' :: rest) m.
Proof. intros gr k k' rest m. kids. intro d. specialize (C d). rewrite !sum_cons. cbn [weight]. unfold sum in *. lia. Qed.

Lemma step_loop_shrinks : forall ok f, (forall l l' m, step ok f l = Some (l', m) -> shrinks l l' m) /\ (forall l l' m, loop ok f l = Some (l', m) -> shrinks l l' m).
Proof.
  intro ok. induction f as [|f [IS IL]]; split; intros l l' m H; try discriminate H.
  - rewrite step_S in H. destruct l as [|[i cb|i|on r k|i on k|i k|gr k] rest].
    + injection H as <- <-. apply shrinks_same.
    + destruct cb; [injection H as <- <-; apply shrinks_same|]. destruct rest as [|n rest]; [injection H as <- <-; apply shrinks_same|].
      destruct (step ok f (n :: rest)) as [[l1 m1]|] eqn:E; [|discriminate H]. cbn [bind fst snd] in H. pose proof (IS _ _ _ E) as E1.
      destruct l1 as [|[j cj|j|on r k|j on k|j k|gr k] rest2]; try (injection H as <- <-; apply shrinks_cons; exact E1).
      destruct (step ok f (Axis on r (Tasklet i false :: k) :: rest2)) as [[l2 m2]|] eqn:E2; [|discriminate H]. cbn [bind fst snd] in H. injection H as <- <-.
      apply (shrinks_trans _ (Tasklet i false :: Axis on r k :: rest2)); [apply shrinks_cons; exact E1|]. replace m2 with (0 + m2) by reflexivity.
      apply (shrinks_trans _ (Axis on r (Tasklet i false :: k) :: rest2)); [|exact (IS _ _ _ E2)]. split; [|split]; [| |intro d]; unfold sum; cbn [map maps size weight]; rewrite ?list_sum_cons; lia.
    + injection H as <- <-. apply shrinks_same.
    + assert (D : bind (loop ok f k) (fun x => Some (Axis on r (fst x) :: rest, snd x)) = Some (l', m) -> shrinks (Axis on r k :: rest) l' m).
      { intro Q. destruct (loop ok f k) as [[k1 m1]|] eqn:E; [|discriminate Q]. cbn in Q. injection Q as <- <-. apply shrinks_axis. exact (IL _ _ _ E). }
      destruct on; [|exact (D H)]. destruct rest as [|n rest]; [exact (D H)|]. destruct n as [j cj|j|on2 r2 k2|j on2 k2|j k2|gr k2]; try (injection H as <- <-; apply shrinks_same).
      destruct on2; [|injection H as <- <-; apply shrinks_same]. destruct (ok _ _); injection H as <- <-; [|apply shrinks_same].
      split; [|split]; [| |intro d]; rewrite !sum_cons, ?join_maps, ?join_weight; cbn [maps weight]; fold (sum maps k) (sum maps k2); [lia|lia|]. fold (sum (weight d) k) (sum (weight d) k2). lia.
    + assert (D : bind (loop ok f k) (fun x => Some (For i on (fst x) :: rest, snd x)) = Some (l', m) -> shrinks (For i on k :: rest) l' m).
      { intro Q. destruct (loop ok f k) as [[k1 m1]|] eqn:E; [|discriminate Q]. cbn in Q. injection Q as <- <-. apply shrinks_for. exact (IL _ _ _ E). }
      destruct on; [exact (D H)|]. destruct k as [|[j cj|j|on2 r2 k2|j on2 k2|j k2|gr k2] [|n k]]; try exact (D H); destruct on2; try exact (D H).
      destruct (loop ok f k2) as [[k1 m1]|] eqn:E; [|discriminate H]. cbn in H. injection H as <- <-. destruct (IL _ _ _ E) as (A & B & C).
      unfold sum in *. split; [|split]; [| |intro d; specialize (C (S d))]; unfold sum; cbn [map maps size weight]; rewrite ?list_sum_cons; [lia| |lia]. intro Q. rewrite B by lia. lia.
    + destruct (loop ok f k) as [[k1 m1]|] eqn:E; [|discriminate H]. cbn in H. injection H as <- <-. apply shrinks_scope. exact (IL _ _ _ E).
    + destruct (loop ok f k) as [[k1 m1]|] eqn:E; [|discriminate H]. cbn in H. injection H as <- <-. apply shrinks_guard. exact (IL _ _ _ E).
  - rewrite loop_S in H. destruct l as [|t l]; [injection H as <- <-; apply shrinks_same|]. destruct (step ok f (t :: l)) as [[l1 m1]|] eqn:E; [|discriminate H]. cbn [bind fst snd] in H.
    pose proof (IS _ _ _ E) as E1. destruct l1 as [|x r]; [injection H as <- <-; exact E1|]. destruct (loop ok f r) as [[r' m2]|] eqn:E2; [|discriminate H]. cbn in H. injection H as <- <-.
    apply (shrinks_trans _ (x :: r)); [exact E1|]. apply shrinks_cons. exact (IL _ _ _ E2).
Qed.

(** every pass ends *)
Definition ends_step ok l := exists f x, step ok f l = Some x.
Definition ends_loop ok l := exists f x, loop ok f l = Some x.
Lemma size_pos : forall t, 1 <= size t. Proof. intros [ | | | | | ]; cbn; lia. Qed.

Lemma axis_ends : forall ok on r k rest, ends_loop ok k -> ends_step ok (Axis on r k :: rest).
Proof.
  intros ok on r k rest (f & x & E). exists (S f). rewrite step_S.
  assert (D : exists y, bind (loop ok f k) (fun x => Some (Axis on r (fst x) :: rest, snd x)) = Some y) by (rewrite E; eexists; reflexivity).
  destruct on; [|exact D]. destruct rest as [|n rest]; [exact D|]. destruct n as [j cj|j|on2 r2 k2|j on2 k2|j k2|gr k2]; try (eexists; reflexivity). destruct on2; [|eexists; reflexivity]. destruct (ok _ _); eexists; reflexivity.
Qed.
Lemma all_end : forall ok n l, sum maps l < n -> ends_step ok l /\ ends_loop ok l.
Proof.
  intros ok. induction n as [|n IH]; intros l Hn; [lia|]. assert (G : forall s l, sum maps l <= n -> sum size l < s -> ends_step ok l /\ ends_loop ok l).
  2: { apply (G (S (sum size l))); lia. }
  clear l Hn. induction s as [|s IHs]; intros l Hm Hs; [lia|].
  assert (P : ends_step ok l).
  { destruct l as [|[i cb|i|on r k|i on k|i k|gr k] rest]; rewrite ?sum_cons in Hm, Hs; cbn [maps size] in Hm, Hs.
    - exists 1. eexists. reflexivity.
    - destruct cb; [exists 1; eexists; reflexivity|]. destruct rest as [|t rest]; [exists 1; eexists; reflexivity|].
      destruct (IHs (t :: rest) ltac:(lia) ltac:(lia)) as [(f & [l1 m1] & E) _].
      destruct l1 as [|[j cj|j|on r k|j on k|j k|gr k] rest2]; try (exists (S f); rewrite step_S, E; eexists; reflexivity).
      destruct (proj1 (step_loop_shrinks ok f) _ _ _ E) as (A & _ & _). rewrite sum_cons in A. cbn [maps] in A. fold (sum maps k) in A.
      destruct (axis_ends ok on r (Tasklet i false :: k) rest2) as (f2 & y & E2). { apply IH. rewrite sum_cons. cbn [maps]. lia. }
      exists (S (max f f2)), (fst y, m1 + snd y). rewrite step_S, (step_fuel _ _ (max f f2) _ _ (Nat.le_max_l f f2) E). cbn [bind fst snd]. rewrite (step_fuel _ _ (max f f2) _ _ (Nat.le_max_r f f2) E2). reflexivity.
    - exists 1. eexists. reflexivity.
    - apply axis_ends. apply IH. unfold sum at 1. lia.
    - assert (D : forall kk, sum maps kk <= n -> sum size kk < s -> ends_loop ok kk) by (intros kk X Y; exact (proj2 (IHs kk X Y))).
      assert (D1 : exists f y, bind (loop ok f k) (fun x => Some (For i on (fst x) :: rest, snd x)) = Some y).
      { destruct (D k) as (f & x & E); [unfold sum at 1; lia|unfold sum at 1; lia|]. exists f. rewrite E. eexists. reflexivity. }
      assert (D2 : forall f y, bind (loop ok f k) (fun x => Some (For i on (fst x) :: rest, snd x)) = Some y ->
                   (match on, k with false, [Axis true r kk] => False | _, _ => True end) -> step ok (S f) (For i on k :: rest) = Some y).
      { intros f y E N. rewrite step_S. destruct on; [exact E|]. destruct k as [|[j cj|j|on2 r2 k2|j on2 k2|j k2|gr k2] [|t k]]; try exact E; destruct on2; solve [exact E|contradiction]. }
      destruct D1 as (f & y & E).
      assert (C : (match on, k with false, [Axis true r kk] => False | _, _ => True end) \/ exists r kk, on = false /\ k = [Axis true r kk]).
      { destruct on; [left; exact I|]. destruct k as [|[j cj|j|on2 r2 k2|j on2 k2|j k2|gr k2] [|t k]]; try (left; exact I); destruct on2; try (left; exact I). right. exists r2, k2. split; reflexivity. }
      destruct C as [C|(r & kk & -> & ->)]; [exists (S f), y; apply D2; assumption|].
      destruct (IH kk) as [_ (f2 & x & E2)]. { cbn in Hm. unfold sum in *. lia. } exists (S f2). rewrite step_S, E2. eexists. reflexivity.
    - destruct (IHs k) as [_ (f & x & E)]; [unfold sum in *; lia|unfold sum in *; lia|]. exists (S f). rewrite step_S, E. eexists. reflexivity.
    - destruct (IHs k) as [_ (f & x & E)]; [unfold sum in *; lia|unfold sum in *; lia|]. exists (S f). rewrite step_S, E. eexists. reflexivity. }
  split; [exact P|]. destruct l as [|t l]; [exists 1; eexists; reflexivity|]. destruct P as (f & [l1 m1] & E). destruct (proj1 (step_loop_shrinks ok f) _ _ _ E) as (A & B & _).
  destruct l1 as [|x r]; [exists (S f); rewrite loop_S, E; eexists; reflexivity|].
  assert (Q : ends_loop ok r).
  { rewrite (sum_cons maps x r) in *. rewrite (sum_cons size x r) in B. pose proof (size_pos x). destruct (Nat.eq_dec (sum maps r) (sum maps (t :: l))) as [Eq|Ne].
    - apply (IHs r); [lia|]. rewrite Eq in A, B. assert (maps x + sum maps (t :: l) = sum maps (t :: l)) as W by lia. specialize (B W). lia.
    - apply (IH r). lia. }
  destruct Q as (f2 & y & E2). exists (S (max f f2)), (x :: fst y, m1 + snd y). rewrite loop_S, (step_fuel _ _ (max f f2) _ _ (Nat.le_max_l f f2) E). cbn [bind fst snd]. rewrite (loop_fuel _ _ (max f f2) _ _ (Nat.le_max_r f f2) E2). reflexivity.
Qed.
Lemma run_ends : forall ok n l, sum (weight 0) l < n -> exists f r, run ok f n l = Some r.
Proof.
  intros ok. induction n as [|n IH]; intros l H; [lia|]. destruct (all_end ok (S (sum maps l)) l ltac:(lia)) as [_ (f & [l1 m] & E)]. destruct m as [|m].
  - exists f, l. cbn [run]. rewrite E. reflexivity.
  - destruct (proj2 (step_loop_shrinks ok f) _ _ _ E) as (_ & _ & W). specialize (W 0). destruct (IH l1 ltac:(lia)) as (f2 & r & E2). exists (max f f2), r. cbn [run].
    rewrite (loop_fuel _ _ (max f f2) _ _ (Nat.le_max_l f f2) E). cbn [bind fst snd Nat.eqb]. exact (run_fuel _ _ _ _ _ _ (Nat.le_max_r f f2) E2).
Qed.

(** when nothing merges, no two neighbours could *)
Definition apart (ok : tree -> tree -> bool) (l : list tree) : Prop :=
  forall pre r k r2 k2 post, l = pre ++ Axis true r k :: Axis true r2 k2 :: post -> ok (Axis true r k) (Axis true r2 k2) = false.
Definition similar : list tree -> list tree -> Prop := Forall2 (fun a b => a = b \/ (is_axis a = false /\ is_axis b = false)).
Lemma similar_refl : forall l, similar l l. Proof. induction l; constructor; [left; reflexivity|assumption]. Qed.
Lemma apart_tail : forall ok a l, apart ok (a :: l) -> apart ok l.
Proof. intros ok a l H pre r k r2 k2 post E. apply (H (a :: pre) r k r2 k2 post). rewrite E. reflexivity. Qed.
Lemma apart_cons : forall ok a l, apart ok l -> (forall r k r2 k2 post, a = Axis true r k -> l = Axis true r2 k2 :: post -> ok (Axis true r k) (Axis true r2 k2) = false) -> apart ok (a :: l).
Proof. intros ok a l H Q [|b pre] r k r2 k2 post E; injection E as -> E; [exact (Q _ _ _ _ _ eq_refl E)|exact (H _ _ _ _ _ _ E)]. Qed.
Lemma apart_other : forall ok a l, is_axis a = false -> apart ok l -> apart ok (a :: l).
Proof. intros ok a l N H. apply apart_cons; [exact H|]. intros r k r2 k2 post -> _. discriminate N. Qed.
Lemma similar_apart : forall ok l l', similar l l' -> apart ok l' -> apart ok l.
Proof.
  intros ok. induction 1 as [|a b l l' D F IH]; intro H; [exact H|]. apply apart_cons; [apply IH; exact (apart_tail _ _ _ H)|]. intros r k r2 k2 post -> ->.
  destruct D as [<-|[D _]]; [|discriminate D]. inversion F as [|? c ? l2 [<-|[D _]] F2 E1 E2]; subst; [|discriminate D]. exact (H [] _ _ _ _ _ eq_refl).
Qed.
Lemma step_zero : forall ok f l l', step ok f l = Some (l', 0) -> l <> [] ->
  exists x r, l' = x :: r /\ (apart ok r -> apart ok l) /\ (is_axis x = false -> similar l l').
Proof.
  intros ok. induction f as [|f IH]; intros l l' H N; [discriminate H|]. rewrite step_S in H.
  assert (Same : forall a t, is_axis a = false -> Some (a :: t, 0) = Some (l', 0) -> exists x r, l' = x :: r /\ (apart ok r -> apart ok (a :: t)) /\ (is_axis x = false -> similar (a :: t) l')).
  { intros a t Q [= <-]. exists a, t. split; [reflexivity|]. split; [apply apart_other; exact Q|]. intros _. apply similar_refl. }
  assert (Kids : forall a (g : list tree -> tree) k t, is_axis a = false -> (forall k, is_axis (g k) = false) -> bind (loop ok f k) (fun x => Some (g (fst x) :: t, snd x)) = Some (l', 0) ->
    exists x r, l' = x :: r /\ (apart ok r -> apart ok (a :: t)) /\ (is_axis x = false -> similar (a :: t) l')).
  { intros a g k t Qa Qg Q. destruct (loop ok f k) as [[k1 m1]|]; [|discriminate Q]. cbn in Q. injection Q as <- _. exists (g k1), t. split; [reflexivity|]. split; [apply apart_other; exact Qa|].
    intros _. constructor; [right; split; [exact Qa|apply Qg]|]. apply similar_refl. }
  destruct l as [|[i cb|i|on r k|i on k|i k|gr k] rest]; [contradiction| | | | | |].
  - destruct cb; [refine (Same _ _ _ H); reflexivity|]. destruct rest as [|n rest]; [refine (Same _ _ _ H); reflexivity|].
    destruct (step ok f (n :: rest)) as [[l1 m1]|] eqn:E; [|discriminate H]. cbn [bind fst snd] in H.
    assert (D : is_axis (hd (Other 0) l1) = false -> Some (Tasklet i false :: l1, m1) = Some (l', 0) ->
       exists x r, l' = x :: r /\ (apart ok r -> apart ok (Tasklet i false :: n :: rest)) /\ (is_axis x = false -> similar (Tasklet i false :: n :: rest) l')).
    { intros Q [= <- ->]. destruct (IH _ _ E ltac:(discriminate)) as (x & r & -> & A & B). cbn in Q. specialize (B Q). exists (Tasklet i false), (x :: r). split; [reflexivity|].
      split; [intro W; apply apart_other; [reflexivity|]; exact (similar_apart _ _ _ B W)|]. intros _. constructor; [left; reflexivity|exact B]. }
    destruct l1 as [|[j cj|j|on r k|j on k|j k|gr k] rest2]; try exact (D eq_refl H).
    destruct (step ok f (Axis on r (Tasklet i false :: k) :: rest2)) as [[l2 m2]|] eqn:E2; [|discriminate H]. cbn [bind fst snd] in H. injection H as <- Z.
    destruct m1; [|discriminate Z]. cbn in Z. subst m2. destruct (IH _ _ E ltac:(discriminate)) as (x & t & X & A & _). injection X as <- <-.
    destruct (IH _ _ E2 ltac:(discriminate)) as (x & t & -> & A2 & B2). exists x, t. split; [reflexivity|]. split; [intro W; apply apart_other; [reflexivity|]; apply A; exact (apart_tail _ _ _ (A2 W))|].
    intro Q. specialize (B2 Q). inversion B2 as [|? ? ? ? [W|[W _]]]; subst; [discriminate Q|discriminate W].
  - refine (Same _ _ _ H); reflexivity.
  - assert (D : forall t, rest = t -> (on = true -> t = []) -> bind (loop ok f k) (fun x => Some (Axis on r (fst x) :: t, snd x)) = Some (l', 0) ->
      exists x r0, l' = x :: r0 /\ (apart ok r0 -> apart ok (Axis on r k :: t)) /\ (is_axis x = false -> similar (Axis on r k :: t) l')).
    { intros t _ Q W. destruct (loop ok f k) as [[k1 m1]|]; [|discriminate W]. cbn in W. injection W as <- _. eexists _, t. split; [reflexivity|]. split; [|intro X; discriminate X].
      intro X. apply apart_cons; [exact X|]. intros r1 k1' r2 k2 post [= -> _ _] E. rewrite (Q eq_refl) in E. discriminate E. }
    destruct on; [|apply (D rest eq_refl); [discriminate|exact H]]. destruct rest as [|n rest]; [apply (D [] eq_refl); [reflexivity|exact H]|].
    assert (S1 : (forall r1 k1, n = Axis true r1 k1 -> ok (Axis true r k) n = false) -> Some (Axis true r k :: n :: rest, 0) = Some (l', 0) ->
      exists x r0, l' = x :: r0 /\ (apart ok r0 -> apart ok (Axis true r k :: n :: rest)) /\ (is_axis x = false -> similar (Axis true r k :: n :: rest) l')).
    { intros Q [= <-]. eexists _, _. split; [reflexivity|]. split; [|intro X; discriminate X]. intro X. apply apart_cons; [exact X|]. intros r1 k1 r2 k2 post [= <- <-] [= E _]. rewrite <- E. exact (Q _ _ E). }
    destruct n as [j cj|j|on2 r2 k2|j on2 k2|j k2|gr k2]; try (apply S1; [intros; discriminate|exact H]). destruct on2; [|apply S1; [intros; discriminate|exact H]].
    destruct (ok (Axis true r k) (Axis true r2 k2)) eqn:O; [discriminate H|]. apply S1; [intros; reflexivity|exact H].
  - assert (D := Kids (For i on k) (For i on) k rest eq_refl (fun _ => eq_refl)).
    destruct on; [exact (D H)|]. destruct k as [|[j cj|j|on2 r2 k2|j on2 k2|j k2|gr k2] [|n k]]; try exact (D H); destruct on2; try exact (D H).
    destruct (loop ok f k2) as [[k1 m1]|]; discriminate H.
  - exact (Kids (Scope i k) (Scope i) k rest eq_refl (fun _ => eq_refl) H).
  - exact (Kids (Guard gr k) (Guard gr) k rest eq_refl (fun _ => eq_refl) H).
Qed.
Lemma loop_zero : forall ok f l l', loop ok f l = Some (l', 0) -> apart ok l.
Proof.
  intros ok. induction f as [|f IH]; intros l l' H; [discriminate H|]. rewrite loop_S in H. destruct l as [|t l]; [intros [|] ? ? ? ? ? X; discriminate X|].
  destruct (step ok f (t :: l)) as [[l1 m1]|] eqn:E; [|discriminate H]. cbn [bind fst snd] in H. assert (m1 = 0).
  { destruct l1 as [|x r]; [injection H; auto|]. destruct (loop ok f r) as [[y m2]|]; [|discriminate H]. cbn in H. injection H as _ H. lia. } subst m1.
  destruct (step_zero _ _ _ _ E ltac:(discriminate)) as (x & r & -> & A & _). apply A. destruct (loop ok f r) as [[y m2]|] eqn:E2; [|discriminate H]. cbn in H. injection H as _ ->. exact (IH _ _ E2).
Qed.
Lemma run_last : forall ok f p l r, run ok f p l = Some r -> exists l', loop ok f r = Some (l', 0).
Proof.
  intros ok f. induction p as [|p IH]; intros l r H; [discriminate H|]. cbn [run] in H. destruct (loop ok f l) as [[l1 m]|] eqn:E; [|discriminate H]. cbn [bind fst snd] in H. destruct m as [|m]; cbn in H.
  - injection H as <-. exists l1. exact E.
  - exact (IH _ _ H).
Qed.
Lemma run_maps : forall ok f p l r, run ok f p l = Some r -> sum maps r <= sum maps l.
Proof.
  intros ok f. induction p as [|p IH]; intros l r H; [discriminate H|]. cbn [run] in H. destruct (loop ok f l) as [[l1 m]|] eqn:E; [|discriminate H]. cbn [bind fst snd] in H. destruct (m =? 0).
  - injection H as <-. lia.
  - specialize (IH _ _ H). destruct (proj2 (step_loop_shrinks ok f) _ _ _ E) as (A & _). lia.
Qed.
