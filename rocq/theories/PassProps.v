(** C131: passes of the loop-merge transformation over a whole tree. *)
From Coq Require Import ZArith Arith Bool Lia.
From Verif Require Import Base MergeModel PassModel PassProofs.
Import ListNotations.
Local Open Scope nat_scope.

(** The transformation ends, whatever can be merged. *)
Theorem C131_ends : forall ok eager l, exists f passes r, transform ok eager f passes l = Some r.
Proof. intros ok eager l. destruct (run_ends ok (S (sum (weight 0) l)) l ltac:(lia)) as (f & r & E). exists f, (S (sum (weight 0) l)), r. exact E. Qed.
Print Assumptions C131_ends.

(** and what it gives does not depend on the fuel *)
Theorem C131_one_result : forall ok eager f f' p p' l r r', transform ok eager f p l = Some r -> transform ok eager f' p' l = Some r' -> r = r'.
Proof.
  unfold transform. intros ok _ f f' p. revert f f'. induction p as [|p IH]; intros f f' p' l r r' H H'; [discriminate H|]. destruct p' as [|p']; [discriminate H'|]. cbn [run] in *.
  destruct (loop ok f l) as [x|] eqn:E; [|discriminate H]. destruct (loop ok f' l) as [x'|] eqn:E'; [|discriminate H']. cbn [bind] in *.
  pose proof (loop_fuel _ _ _ _ _ (Nat.le_max_l f f') E) as A. pose proof (loop_fuel _ _ _ _ _ (Nat.le_max_r f f') E') as B. rewrite A in B. injection B as <-.
  destruct (snd x =? 0); [congruence|]. exact (IH _ _ _ _ _ _ H H').
Qed.
Print Assumptions C131_one_result.

(** Every node that does work is there once, in the same order, in the same loops and conditions. *)
Theorem C131_order : forall ok eager f passes l r, transform ok eager f passes l = Some r -> flat_map (leaves []) r = flat_map (leaves []) l.
Proof.
  intros ok eager f p l r H. apply F_eq. refine (run_keeps eq leaves (fun _ _ c => c) (fun _ i c => c ++ [i]) (fun i c => c ++ [i]) (fun _ c => c) _ _ _ _ _ _ _ _ _ _ ok f p l r [] H); try reflexivity; try congruence.
  intros. repeat constructor.
Qed.
Print Assumptions C131_order.

(** Callbacks and the nodes that are no tasklets stay under as many maps as before: a callback is not made to run once per point. *)
Theorem C131_callbacks : forall ok eager f passes l r, transform ok eager f passes l = Some r -> flat_map (fixed 0) r = flat_map (fixed 0) l.
Proof.
  intros ok eager f p l r H. apply F_eq. refine (run_keeps eq fixed (fun _ _ c => S c) (fun _ i c => c) (fun i c => c) (fun _ c => c) _ _ _ _ _ _ _ _ _ _ ok f p l r 0 H); try reflexivity; try congruence.
  intros. constructor.
Qed.
Print Assumptions C131_callbacks.
(** They are also in the same loops, conditions and maps over other axes, in the same order.  Only maps over the axis and loops over something else change places. *)
Theorem C131_nesting : forall ok eager f passes l r, transform ok eager f passes l = Some r -> flat_map (nested ([], [])) r = flat_map (nested ([], [])) l.
Proof.
  intros ok eager f p l r H. apply F_eq.
  refine (run_keeps eq nested (fun on r c => if on then (fst c, snd c ++ [Here]) else (fst c ++ [Elsewhere r], snd c ++ [Elsewhere r]))
            (fun on i c => if on then (fst c ++ [Loop i], snd c ++ [Loop i]) else (fst c ++ [Loop i], snd c)) (fun i c => (fst c ++ [In i], snd c ++ [In i])) (fun _ c => c)
            _ _ _ _ _ _ _ _ _ _ ok f p l r ([], []) H); try reflexivity; try congruence.
  - intros c [|] r0 k; reflexivity.
  - intros c i [|] k; reflexivity.
  - intros. constructor.
Qed.
Print Assumptions C131_nesting.

(** No node is computed at an index where it was not, and none is left out: it runs at the same indices of the axis, unless it was put under one more map over the axis. *)
Definition as_before (x y : nat * (nat * bool)) : Prop :=
  let '(id, (depth, b)) := x in let '(id', (depth', b')) := y in id' = id /\ depth <= depth' /\ (b' = true -> b = true) /\ (depth' = depth -> b' = b).
Theorem C131_points : forall ok eager f passes l r k, transform ok eager f passes l = Some r -> Forall2 as_before (flat_map (runs k (0, true)) l) (flat_map (runs k (0, true)) r).
Proof.
  intros ok eager f p l r k H.
  refine (run_keeps as_before (runs k) (fun on r c => if on then (S (fst c), snd c && point r k) else c) (fun _ _ c => c) (fun _ c => c) (fun r c => (fst c, snd c && point r k)) _ _ _ _ _ _ _ _ _ _ ok f p l r (0, true) H); try reflexivity.
  - intros (i & d & b). cbn. auto.
  - intros (i & d & b) (i2 & d2 & b2) (i3 & d3 & b3) (E & D & B & W) (E' & D' & B' & W'). cbn. split; [congruence|]. split; [lia|]. split; [auto|]. intro Q. rewrite W', W by lia. reflexivity.
  - intros c [|] r0 k0; reflexivity.
  - intros (d & b) [|] r0 i; cbn; constructor; auto; cbn; split; auto.
    split; [lia|]. split; [intro Q; apply andb_prop in Q; tauto|]. lia.
  - intros m r0 (d & b) (S1 & L & U). cbn. f_equal. rewrite <- andb_assoc. f_equal. unfold point. destruct (Z.leb_spec (r_lo r0) k); [|apply andb_false_r]. destruct (Z.leb_spec k (r_hi r0)); [|apply andb_false_r].
    rewrite S1, Z.mod_1_r. destruct (Z.leb_spec (r_lo m) k); [|lia]. destruct (Z.leb_spec k (r_hi m)); [|lia]. reflexivity.
  - intros o [|] r0 (d & b); [|reflexivity]. cbn. f_equal. rewrite <- !andb_assoc. f_equal. apply andb_comm.
Qed.
Print Assumptions C131_points.
(** Specification check: after the merge of maps over 0..4 and 5..9 each node runs in its own half *)
Example C131_points_case : transform (fun _ _ => true) true 30 9 [Axis true (mkRange 0 4 1) [Other 1]; Axis true (mkRange 5 9 1) [Other 2]] = Some [Axis true (mkRange 0 9 1) [Guard (mkRange 0 4 1) [Other 1]; Guard (mkRange 5 9 1) [Other 2]]]
  /\ flat_map (runs 3 (0, true)) [Axis true (mkRange 0 9 1) [Guard (mkRange 0 4 1) [Other 1]; Guard (mkRange 5 9 1) [Other 2]]] = [(1, (1, true)); (2, (1, false))].
Proof. split; reflexivity. Qed.

(** Applied again it changes nothing. *)
Theorem C131_again : forall ok eager eager' f passes f' passes' l r r', transform ok eager f passes l = Some r -> transform ok eager' f' passes' r = Some r' -> r' = r.
Proof.
  intros ok e e' f p f' p' l r r' H H'. destruct (run_last _ _ _ _ _ H) as [l' E]. refine (C131_one_result ok e f' f p' 1 r r' r H' _). unfold transform. cbn [run]. rewrite E. reflexivity.
Qed.
Print Assumptions C131_again.

(** Two maps over the axis that are neighbours at the root and could be merged have been. *)
Theorem C131_neighbours_partial : forall ok eager f passes l r, transform ok eager f passes l = Some r ->
  forall pre r1 k1 r2 k2 post, r = pre ++ Axis true r1 k1 :: Axis true r2 k2 :: post -> ok (Axis true r1 k1) (Axis true r2 k2) = false.
Proof. intros ok eager f p l r H. destruct (run_last _ _ _ _ _ H) as [l' E]. exact (loop_zero _ _ _ _ E). Qed.
Print Assumptions C131_neighbours_partial.

(** There are never more maps than before. *)
Theorem C131_maps : forall ok eager f passes l r, transform ok eager f passes l = Some r -> list_sum (map maps r) <= list_sum (map maps l).
Proof. intros ok eager f p l r H. exact (run_maps _ _ _ _ _ H). Qed.
Print Assumptions C131_maps.

Definition rg (a b : Z) : range := mkRange a b 1.
Definition any (a b : tree) : bool := true.
Example C131_case :
  transform any true 30 9 [Tasklet 1 false; For 2 false [Tasklet 3 false; Axis true (rg 0 9) [Tasklet 4 false]]; Axis true (rg 2 9) [Tasklet 5 false]; Tasklet 6 true; Other 7]
    = Some [Axis true (rg 0 9) [Tasklet 1 false; For 2 false [Tasklet 3 false; Tasklet 4 false]; Guard (rg 2 9) [Tasklet 5 false]]; Tasklet 6 true; Other 7].
Proof. vm_compute. reflexivity. Qed.
Example C131_leaves_case :
  (flat_map (leaves []) [Tasklet 1 false; For 2 false [Tasklet 3 false; Axis true (rg 0 9) [Tasklet 4 false]]; Scope 8 [Other 7]])%nat = [(1, []); (3, [2]); (4, [2]); (7, [8])].
Proof. reflexivity. Qed.
(** maps that may not be merged are left as they are, tasklets included *)
Example C131_undone_case : transform (fun _ _ => false) true 30 9 [Tasklet 1 false; Axis true (rg 0 9) [Tasklet 2 false]; Axis true (rg 0 9) [Tasklet 4 false]]
  = Some [Tasklet 1 false; Axis true (rg 0 9) [Tasklet 2 false]; Axis true (rg 0 9) [Tasklet 4 false]].
Proof. vm_compute. reflexivity. Qed.

(** The docstring: changes that did not lead to a merge are undone.  Only when nothing at all merged: here tasklet 1, which ran once, ends in a map that merged with nothing and runs ten times. *)
Theorem C131_undo_refuted : exists l r, transform any true 30 9 l = Some r /\
  l = [Tasklet 1 false; Axis true (rg 0 9) [Tasklet 2 false]; Other 3; Axis true (rg 0 9) [Tasklet 4 false]; Axis true (rg 0 9) [Tasklet 5 false]] /\
  r = [Axis true (rg 0 9) [Tasklet 1 false; Tasklet 2 false]; Other 3; Axis true (rg 0 9) [Tasklet 4 false; Tasklet 5 false]].
Proof. eexists _, _. split; [|split; reflexivity]. vm_compute. reflexivity. Qed.
Print Assumptions C131_undo_refuted.

(** Without eager there is over-computation all the same. *)
Theorem C131_eager_refuted : exists l r k, transform any false 30 9 l = Some r /\ (forall r' k', ~ List.In (Guard r' k') (flat_map nodes l)) /\ List.In (Guard (rg 0 4) k) (flat_map nodes r).
Proof.
  exists [Axis true (rg 0 4) [Tasklet 1 false]; Axis true (rg 5 9) [Tasklet 2 false]], [Axis true (rg 0 9) [Guard (rg 0 4) [Tasklet 1 false]; Guard (rg 5 9) [Tasklet 2 false]]], [Tasklet 1 false].
  split; [vm_compute; reflexivity|]. split; [|cbn; auto]. intros r' k' [H|[H|[H|[H|[]]]]]; discriminate H.
Qed.
Print Assumptions C131_eager_refuted.

(** Below the root, maps that could be merged may be left: the children of a map over the axis that is followed by something else are not looked at. *)
Theorem C131_inner_refuted : exists l r, transform any true 30 9 l = Some r /\
  exists k r1 k1 r2 k2 post, List.In (Axis true (rg 0 9) k) r /\ k = Axis true r1 k1 :: Axis true r2 k2 :: post /\ any (Axis true r1 k1) (Axis true r2 k2) = true.
Proof.
  exists [Axis true (rg 0 9) [Axis true (rg 0 9) [Tasklet 2 false]; Axis true (rg 0 9) [Tasklet 3 false]]; Other 3]. eexists. split; [vm_compute; reflexivity|].
  eexists _, _, _, _, _, _. split; [left; reflexivity|]. split; reflexivity.
Qed.
Print Assumptions C131_inner_refuted.
