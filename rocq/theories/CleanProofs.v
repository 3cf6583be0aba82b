(** Proofs about CleanModel.v. *)
From Coq Require Import List Bool Arith Lia.
From Verif Require Import CleanModel.
Import ListNotations.
Local Open Scope nat_scope.

Lemma node_rec' (P : node -> Prop) : (forall i, P (Boundary i)) -> (forall i, P (Leaf i)) -> (forall k i l, Forall P l -> P (Scope k i l)) -> forall n, P n.
Proof.
  intros B L S. fix IH 1. intros [i|i|k i l]; [apply B|apply L|apply S]. induction l as [|n l IHl]; constructor; [apply IH|exact IHl].
Qed.
Lemma has_method_spec k : has_method k = true <-> cleaned k.
Proof. unfold cleaned. destruct k; cbn; intuition discriminate. Qed.

Section Clean.
Context (same : node -> node -> bool).
Context (same_refl : forall b, is_boundary b = true -> same b b = true).
Context (same_class : forall x b, same x b = true -> is_boundary b = true -> is_boundary x = true).
Notation visit := (visit same).

Lemma remove_first {T} (pre l : list (node * T)) x : forallb (fun y => negb (is_boundary (fst y))) pre = true -> is_boundary (fst x) = true -> remove same (fst x) (pre ++ x :: l) = pre ++ l.
Proof.
  intros P B. induction pre as [|y pre IH]; cbn [app remove].
  - now rewrite same_refl.
  - cbn in P. apply andb_prop in P. destruct P as [Y P]. destruct (same (fst y) (fst x)) eqn:E; [apply same_class in E; [|exact B]; rewrite E in Y; discriminate|]. now rewrite IH.
Qed.
Lemma remove_all {T} (l : list (node * T)) : forall pre, forallb (fun y => negb (is_boundary (fst y))) pre = true ->
  fold_left (fun l b => remove same b l) (filter is_boundary (map fst l)) (pre ++ l) = pre ++ filter (fun y => negb (is_boundary (fst y))) l.
Proof.
  induction l as [|x l IH]; intros pre P; [reflexivity|]. cbn [map filter]. destruct (is_boundary (fst x)) eqn:B; cbn [negb fold_left].
  - rewrite remove_first by assumption. apply IH, P.
  - specialize (IH (pre ++ [x])). rewrite <- !app_assoc in IH. apply IH. rewrite forallb_app, P. cbn. now rewrite B.
Qed.
Lemma removed {T} (l : list (node * T)) : remove_state_boundaries_from_children same l = (filter (fun y => negb (is_boundary (fst y))) l, length (filter is_boundary (map fst l))).
Proof. unfold remove_state_boundaries_from_children. assert (A := remove_all l [] eq_refl). cbn [app] in A. now rewrite A. Qed.

(** the children after a visit *)
Definition rest (k : scope) (l : list node) : list node := if has_method k then filter (fun c => negb (is_boundary c)) l else l.
Lemma filter_fst {T} (f : node -> bool) (g : node -> T) l : filter (fun y => f (fst y)) (map (fun c => (c, g c)) l) = map (fun c => (c, g c)) (filter f l).
Proof. induction l as [|x l IH]; cbn; [reflexivity|]. destruct (f x); cbn; now rewrite IH. Qed.
Lemma visit_scope k i l : visit (Scope k i l) =
  (Scope k i (map (fun c => fst (visit c)) (rest k l)), (if has_method k then length (filter is_boundary l) else 0) + list_sum (map (fun c => snd (visit c)) (rest k l))).
Proof.
  cbn [CleanModel.visit]. assert (S : forall m, fold_right (fun (x : node * (node * nat)) s => snd (snd x) + s) 0 (map (fun c => (c, visit c)) m) = list_sum (map (fun c => snd (visit c)) m)).
  { induction m as [|c m IH]; cbn; [reflexivity|]. now rewrite IH. }
  unfold rest. destruct (has_method k).
  - rewrite removed. rewrite (filter_fst (fun c => negb (is_boundary c)) visit l). rewrite !map_map. cbn [fst snd]. rewrite map_id. f_equal. f_equal. apply S.
  - rewrite map_map. cbn [fst snd]. f_equal. apply S.
Qed.
Lemma visit_boundary n : is_boundary (fst (visit n)) = is_boundary n.
Proof. destruct n as [i|i|k i l]; [reflexivity|reflexivity|]. now rewrite visit_scope. Qed.

Lemma visit_erase n : erase (fst (visit n)) = erase n.
Proof.
  induction n as [i|i|k i l IH] using node_rec'; [reflexivity|reflexivity|]. rewrite visit_scope. cbn [fst erase]. f_equal. f_equal. unfold rest. rewrite Forall_forall in IH.
  assert (A : forall m, (forall c, In c m -> In c l) -> flat_map erase (map (fun c => fst (visit c)) m) = flat_map erase m).
  { induction m as [|c m IHm]; intros M; cbn [map flat_map]; [reflexivity|]. rewrite IH by (apply M; left; reflexivity). f_equal. apply IHm. intros d D. apply M. right. exact D. }
  destruct (has_method k); [|apply A; tauto]. rewrite A by (intros c C; apply filter_In in C; tauto).
  clear. induction l as [|c l IH]; [reflexivity|]. cbn [filter flat_map]. destruct c; cbn [is_boundary negb flat_map erase app]; rewrite IH; reflexivity.
Qed.
Lemma visit_within k l n : within k l (fst (visit n)) -> has_method k = true -> forall c, In c l -> is_boundary c = false.
Proof.
  revert l. induction n as [i|i|k' i l' IH] using node_rec'; intros l H M; [inversion H|inversion H|]. rewrite visit_scope in H. cbn [fst] in H. inversion H; subst.
  - intros c C. apply in_map_iff in C. destruct C as (d & <- & D). rewrite visit_boundary. unfold rest in D. rewrite M in D. apply filter_In in D. destruct D as [_ D]. now apply negb_true_iff.
  - apply in_map_iff in H4. destruct H4 as (d & <- & D). rewrite Forall_forall in IH. apply (IH d); [|assumption|exact M]. unfold rest in D. destruct (has_method k'); [apply filter_In in D; tauto|exact D].
Qed.
Lemma rest_sum (f : node -> nat) k l : (forall c, is_boundary c = true -> f c = 0) -> list_sum (map f (rest k l)) = list_sum (map f l).
Proof.
  intros F. unfold rest. destruct (has_method k); [|reflexivity]. induction l as [|c l IH]; [reflexivity|]. cbn [filter map]. destruct (is_boundary c) eqn:B; cbn [negb map].
  - rewrite IH. change (list_sum (f c :: map f l)) with (f c + list_sum (map f l)). now rewrite F by exact B.
  - change (f c + list_sum (map f (filter (fun c => negb (is_boundary c)) l)) = f c + list_sum (map f l)). now rewrite IH.
Qed.
Lemma count_kept l : length (filter is_boundary (map (fun c => fst (visit c)) l)) = length (filter is_boundary l).
Proof. induction l as [|c l IH]; cbn; [reflexivity|]. rewrite visit_boundary. destruct (is_boundary c); cbn; now rewrite IH. Qed.
Lemma count_none l : length (filter is_boundary (filter (fun c => negb (is_boundary c)) l)) = 0.
Proof. induction l as [|c l IH]; [reflexivity|]. cbn [filter]. destruct (is_boundary c) eqn:B; cbn [negb filter]; [exact IH|]. rewrite B. exact IH. Qed.
Lemma boundaries_leaf p c : is_boundary c = true -> boundaries p c = 0.
Proof. destruct c; [reflexivity|discriminate|discriminate]. Qed.
Lemma visit_count p n : boundaries p (fst (visit n)) = boundaries (fun k => p k && negb (has_method k)) n.
Proof.
  induction n as [i|i|k i l IH] using node_rec'; [reflexivity|reflexivity|]. rewrite visit_scope. cbn [fst boundaries]. f_equal.
  - unfold rest. destruct (p k); cbn [andb]; [|now destruct (has_method k)]. destruct (has_method k); cbn [negb]; rewrite count_kept; [apply count_none|reflexivity].
  - rewrite map_map. rewrite <- (rest_sum (boundaries (fun k => p k && negb (has_method k))) k l) by apply boundaries_leaf. f_equal.
    apply map_ext_in. intros c C. rewrite Forall_forall in IH. apply IH. unfold rest in C. destruct (has_method k); [apply filter_In in C; tauto|exact C].
Qed.
Lemma visit_removed n : snd (visit n) = boundaries has_method n.
Proof.
  induction n as [i|i|k i l IH] using node_rec'; [reflexivity|reflexivity|]. rewrite visit_scope. cbn [snd boundaries]. f_equal.
  rewrite <- (rest_sum (boundaries has_method) k l) by apply boundaries_leaf. f_equal.
  apply map_ext_in. intros c C. rewrite Forall_forall in IH. apply IH. unfold rest in C. destruct (has_method k); [apply filter_In in C; tauto|exact C].
Qed.
Lemma visit_same n : (forall k l, within k l n -> has_method k = true -> forall c, In c l -> is_boundary c = false) -> fst (visit n) = n.
Proof.
  induction n as [i|i|k i l IH] using node_rec'; intros H; [reflexivity|reflexivity|]. rewrite visit_scope. cbn [fst]. f_equal. rewrite Forall_forall in IH.
  assert (R : rest k l = l).
  { unfold rest. destruct (has_method k) eqn:M; [|reflexivity]. assert (B := H k l (within_here k i l) M). clear - B. induction l as [|c l IH]; [reflexivity|]. cbn [filter].
    rewrite (B c) by (left; reflexivity). cbn [negb]. f_equal. apply IH. intros d D. apply B. right. exact D. }
  rewrite R. rewrite <- (map_id l) at 2. apply map_ext_in. intros c C. apply IH; [exact C|]. intros k' l' W. apply (H k' l'). econstructor; eassumption.
Qed.
End Clean.

(** swapping *)
Lemma set_same h n c : set h n c n = c.
Proof. unfold set. now rewrite Nat.eqb_refl. Qed.
Lemma set_other h n c m : m <> n -> set h n c m = h m.
Proof. intros H. unfold set. apply Nat.eqb_neq in H. now rewrite H. Qed.
Lemma adopt_children p l : forall h m, children (fold_left (adopt p) l h m) = children (h m).
Proof.
  induction l as [|c l IH]; intros h m; [reflexivity|]. cbn [fold_left]. rewrite IH. unfold adopt. destruct (Nat.eq_dec m c) as [->|N]; [now rewrite set_same|now rewrite set_other].
Qed.
Lemma adopt_parent p l : forall h m, parent (fold_left (adopt p) l h m) = if in_dec Nat.eq_dec m l then Some p else parent (h m).
Proof.
  induction l as [|c l IH]; intros h m; [reflexivity|]. cbn [fold_left]. rewrite IH. unfold adopt. destruct (in_dec Nat.eq_dec m l) as [I|I]; destruct (in_dec Nat.eq_dec m (c :: l)) as [J|J]; cbn in J; try tauto.
  - destruct (Nat.eq_dec m c) as [->|N]; [now rewrite set_same|]. destruct J; [congruence|tauto].
  - rewrite set_other by (intros ->; apply J; left; reflexivity). reflexivity.
Qed.
(** what the parent of both has in the end *)
Fixpoint replace (x y : nat) (l : list nat) : list nat := match l with [] => [] | z :: l' => if Nat.eqb z x then y :: l' else z :: replace x y l' end.
Lemma remove_insert eqv x y l : In x l -> x <> y -> eqv y x = false -> (forall z, In z l -> z <> x -> eqv z x = false) -> remove_value eqv x (insert_before x y l) = replace x y l.
Proof.
  intros I N E H. induction l as [|z l IH]; [destruct I|]. cbn [insert_before replace]. destruct (Nat.eqb_spec z x) as [->|Z].
  - cbn [remove_value]. rewrite E. destruct (Nat.eqb_spec y x); [congruence|]. cbn [orb]. now rewrite Nat.eqb_refl.
  - cbn [remove_value]. rewrite (H z) by (try exact Z; left; reflexivity). apply Nat.eqb_neq in Z. rewrite Z. cbn [orb]. f_equal. apply Nat.eqb_neq in Z. apply IH.
    + destruct I; [congruence|assumption].
    + intros w W. apply H. right. exact W.
Qed.
Lemma replace_in x y l z : NoDup l -> In x l -> (In z (replace x y l) <-> z = y \/ (In z l /\ z <> x)).
Proof.
  induction l as [|w l IH]; intros D I; [destruct I|]. inversion D; subst. cbn [replace]. destruct (Nat.eqb_spec w x) as [->|W]; cbn [In].
  - split; [intros [->|J]; [auto|right; split; [auto|intros ->; auto]]|intros [->|[[->|J] K]]; auto; congruence].
  - destruct I as [I|I]; [congruence|]. rewrite IH by assumption. split; [intros [->|[->|[J K]]]; auto|]. intros [->|[[->|J] K]]; auto.
Qed.

(** memory before the last two loops *)
Definition middle (eqv : heap -> nat -> nat -> bool) (top child up : nat) (h : heap) : heap :=
  let h1 := set h top (Cell (children (h child)) (parent (h top))) in
  let h2 := set h1 child (Cell [top] (parent (h child))) in
  let h3 := set h2 up (Cell (insert_before top child (children (h2 up))) (parent (h2 up))) in
  let h4 := set h3 top (Cell (children (h3 top)) (Some child)) in
  let h5 := set h4 child (Cell (children (h4 child)) (Some up)) in
  set h5 up (Cell (remove_value (eqv h5) top (children (h5 up))) (parent (h5 up))).
Lemma swap_middle eqv top child up h : swap_node_position_in_tree eqv top child up h =
  fold_left (adopt child) (children (fold_left (adopt top) (children (middle eqv top child up h top)) (middle eqv top child up h) child)) (fold_left (adopt top) (children (middle eqv top child up h top)) (middle eqv top child up h)).
Proof. reflexivity. Qed.
Section Swap.
Context (eqv : heap -> nat -> nat -> bool) (h : heap) (top child up : nat).
Context (eqv_parent : forall h x y, eqv h x y = true -> parent (h x) = parent (h y)).
Context (A : aligned h) (T : In top (children (h up))) (C : children (h top) = [child]) (D : NoDup (children (h up))).
Context (TC : top <> child) (TU : top <> up) (CU : child <> up) (G : ~ In up (children (h child))).
Notation h' := (swap_node_position_in_tree eqv top child up h).

Lemma parent_child : parent (h child) = Some top.
Proof. apply A. rewrite C. left. reflexivity. Qed.
Lemma grand c : In c (children (h child)) -> c <> top /\ c <> child /\ c <> up.
Proof.
  intros I. assert (P := A _ _ I). split; [|split].
  - intros ->. rewrite (A _ _ T) in P. congruence.
  - intros ->. rewrite parent_child in P. congruence.
  - intros ->. contradiction.
Qed.
Notation h6 := (middle eqv top child up h).
Ltac sets := repeat (rewrite set_same || rewrite set_other by congruence); cbn [children parent].
Lemma h6_top : h6 top = Cell (children (h child)) (Some child).
Proof. unfold middle. cbv zeta. now sets. Qed.
Lemma h6_child : h6 child = Cell [top] (Some up).
Proof. unfold middle. cbv zeta. now sets. Qed.
Lemma h6_other m : m <> top -> m <> child -> m <> up -> h6 m = h m.
Proof. intros. unfold middle. cbv zeta. now sets. Qed.
Lemma h6_up : h6 up = Cell (replace top child (children (h up))) (parent (h up)).
Proof.
  unfold middle. cbv zeta. sets. f_equal. apply remove_insert; [exact T|exact TC| |].
  - destruct (eqv _ child top) eqn:E; [|reflexivity]. apply eqv_parent in E. revert E. sets. intros [= E]. congruence.
  - intros z Z N. destruct (eqv _ z top) eqn:E; [|reflexivity]. apply eqv_parent in E. assert (P := A _ _ Z). revert E.
    assert (ZC : z <> child) by (intros ->; rewrite parent_child in P; congruence).
    rewrite set_other by exact ZC. rewrite set_other by exact N. destruct (Nat.eq_dec z up) as [->|ZU]; sets; rewrite P; intros [= E]; congruence.
Qed.
Lemma swap_children m : children (h' m) = if Nat.eqb m up then replace top child (children (h up)) else if Nat.eqb m child then [top] else if Nat.eqb m top then children (h child) else children (h m).
Proof.
  rewrite swap_middle, !adopt_children.
  destruct (Nat.eqb_spec m up) as [->|U]; [exact (f_equal children h6_up)|]. destruct (Nat.eqb_spec m child) as [->|K]; [exact (f_equal children h6_child)|].
  destruct (Nat.eqb_spec m top) as [->|K']; [exact (f_equal children h6_top)|]. exact (f_equal children (h6_other m K' K U)).
Qed.
Lemma swap_parent m : parent (h' m) = if Nat.eqb m child then Some up else if Nat.eqb m top then Some child else if in_dec Nat.eq_dec m (children (h child)) then Some top else parent (h m).
Proof.
  rewrite swap_middle, adopt_parent, adopt_children, h6_child. cbn [children]. rewrite adopt_parent, h6_top. cbn [children].
  destruct (in_dec Nat.eq_dec m [top]) as [I|I].
  - destruct I as [<-|[]]. destruct (Nat.eqb_spec top child); [congruence|]. now rewrite Nat.eqb_refl.
  - destruct (Nat.eqb_spec m top) as [->|MT]; [exfalso; apply I; left; reflexivity|]. destruct (in_dec Nat.eq_dec m (children (h child))) as [J|J].
    + destruct (grand m J) as (_ & K & _). apply Nat.eqb_neq in K. now rewrite K.
    + destruct (Nat.eqb_spec m child) as [->|K]; [exact (f_equal parent h6_child)|]. destruct (Nat.eq_dec m up) as [->|U]; [exact (f_equal parent h6_up)|]. exact (f_equal parent (h6_other m MT K U)).
Qed.
Lemma swap_aligned : aligned h'.
Proof.
  intros p c I. rewrite swap_children in I. rewrite swap_parent. destruct (Nat.eqb_spec p up) as [->|PU].
  - apply replace_in in I; [|exact D|exact T]. destruct I as [->|[I N]]; [now rewrite Nat.eqb_refl|]. assert (P := A _ _ I).
    destruct (Nat.eqb_spec c child) as [->|K]; [reflexivity|]. apply Nat.eqb_neq in N. rewrite N. destruct (in_dec Nat.eq_dec c (children (h child))) as [J|J]; [|exact P]. apply A in J. congruence.
  - destruct (Nat.eqb_spec p child) as [->|PC].
    + destruct I as [<-|[]]. destruct (Nat.eqb_spec top child); [congruence|]. now rewrite Nat.eqb_refl.
    + destruct (Nat.eqb_spec p top) as [->|PT].
      * destruct (grand c I) as (K1 & K2 & _). apply Nat.eqb_neq in K1, K2. rewrite K1, K2. destruct (in_dec Nat.eq_dec c (children (h child))); [reflexivity|contradiction].
      * assert (P := A _ _ I). destruct (Nat.eqb_spec c child) as [->|K]; [rewrite parent_child in P; congruence|]. destruct (Nat.eqb_spec c top) as [->|K']; [rewrite (A _ _ T) in P; congruence|].
        destruct (in_dec Nat.eq_dec c (children (h child))) as [J|J]; [apply A in J; congruence|exact P].
Qed.
End Swap.
Lemma replace_at x y a b : ~ In x a -> replace x y (a ++ x :: b) = a ++ y :: b.
Proof.
  intros N. induction a as [|z a IH]; cbn [app replace]; [now rewrite Nat.eqb_refl|]. destruct (Nat.eqb_spec z x) as [->|Z]; [exfalso; apply N; left; reflexivity|].
  rewrite IH; [reflexivity|]. intros I. apply N. right. exact I.
Qed.
