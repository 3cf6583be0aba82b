(** C118: the cleaning of schedule trees removes the boundaries of states from the scopes it knows, and nothing else; swapping a scope with its only child keeps the tree well formed.

    Full statement: no scope of the tree has a boundary among its children after the pass ("Remove `StateBoundary` nodes from children of ScheduleTreeScopes"), everything else is the same in the
    same order, the number reported is the number of removed nodes, a second pass changes nothing; and "Top node becomes child, child becomes top node" with nothing lost. *)
From Coq Require Import List Bool Arith Lia.
From Verif Require Import CleanModel CleanProofs.
Import ListNotations.
Local Open Scope nat_scope.

(** the comparison of nodes: a boundary equals itself, and only boundaries equal boundaries *)
Definition by_value (same : node -> node -> bool) : Prop :=
  (forall i, same (Boundary i) (Boundary i) = true) /\ (forall x i, same x (Boundary i) = true -> exists j, x = Boundary j).
Lemma by_value_refl same : by_value same -> forall b, is_boundary b = true -> same b b = true.
Proof. intros [R _] [i|i|k i l] B; try discriminate. apply R. Qed.
Lemma by_value_class same : by_value same -> forall x b, same x b = true -> is_boundary b = true -> is_boundary x = true.
Proof. intros [_ C] x [i|i|k i l] E B; try discriminate. apply C in E. destruct E as [j ->]. reflexivity. Qed.

(** Partial: only the root, while, for, map and if scopes (elif, else and others keep theirs) *)
Theorem C118_clean_partial same n : by_value same ->
  forall k l, within k l (fst (visit same n)) -> k = Root \/ k = While \/ k = For \/ k = Map \/ k = If -> forall i, ~ In (Boundary i) l.
Proof.
  intros V k l W K i I. assert (M : has_method k = true) by (destruct K as [->|[->|[->|[->| ->]]]]; reflexivity).
  assert (B := visit_within same (by_value_refl same V) (by_value_class same V) k l n W M _ I). discriminate.
Qed.
Print Assumptions C118_clean_partial.

(** the rest of the tree is the same, in the same order *)
Theorem C118_rest same n : by_value same -> erase (fst (visit same n)) = erase n.
Proof. intros V. apply visit_erase; [apply by_value_refl, V|apply by_value_class, V]. Qed.
Print Assumptions C118_rest.

(** the boundaries of the other scopes stay, and as many nodes are removed as reported *)
Theorem C118_count same n : by_value same ->
  snd (visit same n) + boundaries (fun _ => true) (fst (visit same n)) = boundaries (fun _ => true) n /\
  boundaries (fun k => match k with Elif | Else | OtherScope _ => true | _ => false end) (fst (visit same n)) = boundaries (fun k => match k with Elif | Else | OtherScope _ => true | _ => false end) n.
Proof.
  intros V. assert (R := by_value_refl same V). assert (C := by_value_class same V). split.
  - rewrite visit_removed, visit_count by assumption. clear. induction n as [i|i|k i l IH] using node_rec'; [reflexivity|reflexivity|]. cbn [boundaries andb].
    assert (S : list_sum (map (boundaries has_method) l) + list_sum (map (boundaries (fun k => negb (has_method k))) l) = list_sum (map (boundaries (fun _ => true)) l)).
    { clear - IH. induction IH as [|c l Hc _ IHl]; [reflexivity|]. cbn [map]. cbn [andb] in Hc. change (list_sum (?x :: ?l)) with (x + list_sum l).
      change (boundaries has_method c + list_sum (map (boundaries has_method) l) + (boundaries (fun k => negb (has_method k)) c + list_sum (map (boundaries (fun k => negb (has_method k))) l)) = boundaries (fun _ => true) c + list_sum (map (boundaries (fun _ => true)) l)). lia. }
    destruct (has_method k); cbn [negb]; lia.
  - rewrite visit_count by assumption. clear. induction n as [i|i|k i l IH] using node_rec'; [reflexivity|reflexivity|]. cbn [boundaries]. f_equal.
    + now destruct k.
    + f_equal. apply map_ext_in. intros c I. rewrite Forall_forall in IH. apply IH, I.
Qed.
Print Assumptions C118_count.

(** a second pass changes nothing *)
Theorem C118_twice same n : by_value same -> visit same (fst (visit same n)) = (fst (visit same n), 0).
Proof.
  intros V. assert (R := by_value_refl same V). assert (C := by_value_class same V). rewrite (surjective_pairing (visit same (fst (visit same n)))). f_equal.
  - apply visit_same; [assumption..|]. intros k l W M. now apply (visit_within same R C k l n).
  - rewrite visit_removed, visit_count by assumption. clear. induction n as [i|i|k i l IH] using node_rec'; [reflexivity|reflexivity|]. cbn [boundaries].
    assert (S : map (boundaries (fun k => has_method k && negb (has_method k))) l = map (fun _ => 0) l) by (apply map_ext_in; intros c I; rewrite Forall_forall in IH; apply IH, I).
    rewrite S. rewrite andb_negb_r. clear. induction l; [reflexivity|]. exact IHl.
Qed.
Print Assumptions C118_twice.

(** the else branch keeps its boundary *)
Theorem C118_else_refuted : exists same n l i, by_value same /\ within Else l (fst (visit same n)) /\ In (Boundary i) l.
Proof.
  exists (fun x y => is_boundary x && is_boundary y), (Scope Root 0 [Scope If 1 [Leaf 2; Boundary 3]; Scope Else 4 [Leaf 5; Boundary 6]]), [Leaf 5; Boundary 6], 6.
  split; [|split].
  - split; [reflexivity|]. intros [j|j|k j l] i E; try discriminate. eexists. reflexivity.
  - cbn. eapply within_below; [right; left; reflexivity|]. constructor.
  - right. left. reflexivity.
Qed.
Print Assumptions C118_else_refuted.

(** the swap, if equal nodes have equal parents (they are compared with all their fields) *)
Theorem C118_swap eqv h top child up a b :
  (forall h x y, eqv h x y = true -> parent (h x) = parent (h y)) ->
  aligned h -> children (h up) = a ++ top :: b -> NoDup (children (h up)) -> children (h top) = [child] ->
  top <> child -> top <> up -> child <> up -> ~ In up (children (h child)) ->
  let h' := swap_node_position_in_tree eqv top child up h in
  children (h' up) = a ++ child :: b /\ children (h' child) = [top] /\ children (h' top) = children (h child) /\
  (forall m, m <> up -> m <> child -> m <> top -> children (h' m) = children (h m)) /\
  parent (h' up) = parent (h up) /\ aligned h'.
Proof.
  intros E A U D C TC TU CU G h'. assert (T : In top (children (h up))) by (rewrite U; apply in_elt).
  assert (S := fun m => swap_children eqv h top child up E A T C TC TU CU m). fold h' in S.
  repeat split.
  - rewrite S, Nat.eqb_refl, U. apply replace_at. rewrite U in D. apply NoDup_remove_2 in D. intros I. apply D, in_or_app. left. exact I.
  - rewrite S. apply Nat.eqb_neq in CU. now rewrite CU, Nat.eqb_refl.
  - rewrite S. apply Nat.eqb_neq in TU, TC. now rewrite TU, TC, Nat.eqb_refl.
  - intros m M1 M2 M3. rewrite S. apply Nat.eqb_neq in M1, M2, M3. now rewrite M1, M2, M3.
  - unfold h'. rewrite swap_parent by assumption. destruct (Nat.eqb_spec up child); [congruence|]. destruct (Nat.eqb_spec up top); [congruence|].
    destruct (in_dec Nat.eq_dec up (children (h child))); [contradiction|reflexivity].
  - now apply swap_aligned.
Qed.
Print Assumptions C118_swap.

(** a scope with two children loses the other one *)
Theorem C118_swap_refuted : exists eqv h top child up lost,
  (forall h x y, eqv h x y = true -> parent (h x) = parent (h y)) /\ aligned h /\ In lost (children (h top)) /\ In child (children (h top)) /\ In top (children (h up)) /\
  forall m, ~ In lost (children (swap_node_position_in_tree eqv top child up h m)).
Proof.
  pose (h := fun n : nat => match n with 0 => Cell [1] None | 1 => Cell [2; 3] (Some 0) | 2 => Cell [] (Some 1) | 3 => Cell [] (Some 1) | _ => Cell [] None end).
  exists (fun _ _ _ => false), h, 1, 2, 0, 3. repeat split.
  - discriminate.
  - intros p c I. destruct p as [|[|[|[|p]]]]; cbn in I; try tauto; [destruct I as [<-|[]]; reflexivity|destruct I as [<-|[<-|[]]]; reflexivity].
  - right. left. reflexivity.
  - left. reflexivity.
  - left. reflexivity.
  - intros m. rewrite swap_middle, !adopt_children. unfold middle, set, h. destruct m as [|[|[|[|m]]]]; cbn; intuition discriminate.
Qed.
Print Assumptions C118_swap_refuted.

Definition class_of (x y : node) : bool := is_boundary x && is_boundary y.
Example C118_case : by_value class_of /\
  visit class_of (Scope Root 0 [Leaf 1; Boundary 2; Scope For 3 [Boundary 4; Scope Map 5 [Leaf 6; Boundary 7; Leaf 8]; Boundary 9]; Scope (OtherScope 1) 10 [Boundary 11; Scope While 12 [Boundary 13; Leaf 14]]]) =
  (Scope Root 0 [Leaf 1; Scope For 3 [Scope Map 5 [Leaf 6; Leaf 8]]; Scope (OtherScope 1) 10 [Boundary 11; Scope While 12 [Leaf 14]]], 5).
Proof. split; [split; [reflexivity|intros [j|j|k j l] i E; try discriminate; eexists; reflexivity]|reflexivity]. Qed.
Example C118_swap_case :
  let h := fun n : nat => match n with 0 => Cell [5; 1; 6] None | 1 => Cell [2] (Some 0) | 2 => Cell [3; 4] (Some 1) | 3 | 4 => Cell [] (Some 2) | 5 | 6 => Cell [] (Some 0) | _ => Cell [] None end in
  let h' := swap_node_position_in_tree (fun h x y => if list_eq_dec Nat.eq_dec (children (h x)) (children (h y)) then match parent (h x), parent (h y) with Some p, Some q => Nat.eqb p q | None, None => true | _, _ => false end else false) 1 2 0 h in
  map h' [0; 1; 2; 3; 4; 5; 6] = [Cell [5; 2; 6] None; Cell [3; 4] (Some 2); Cell [1] (Some 0); Cell [] (Some 1); Cell [] (Some 1); Cell [] (Some 0); Cell [] (Some 0)].
Proof. reflexivity. Qed.
