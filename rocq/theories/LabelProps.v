(** C117: labels around orchestrated programs. *)
From Coq Require Import String List Lia PeanoNat.
From Verif Require Import LabelModel LabelProofs.
Import ListNotations.
Local Open Scope nat_scope.

(** A program with a loop (1 -> 2 -> 1) and two ends. *)
Definition loop : graph string :=
  Graph [Code; Code; Code; Code; Code] [(0, 1, Some "i = 0"); (1, 2, Some "i < n"); (2, 1, Some "i = i + 1"); (1, 3, Some "i >= n"); (2, 4, Some "stop")]%string.
Lemma loop_wf : well_formed loop.
Proof. intros e I. cbn in I. repeat (destruct I as [<-|I]; [cbn; lia|]). destruct I. Qed.

(** Labels do not change what a program does: the runs between two of its states are the same, with the same conditions and assignments on the way. *)
Theorem C117_same_runs {D} compiled q top (g : graph D) x l y :
  well_formed g -> x < length (nodes g) -> y < length (nodes g) ->
  (run (length (nodes g)) g x l y <-> run (length (nodes g)) (set_label compiled q top g) x l y).
Proof.
  intros W X Y. unfold set_label. destruct compiled; [tauto|]. destruct (fold_same (length (nodes g)) q top (seq 0 (length (nodes g))) g) as (_ & _ & H); [lia|exact W| |apply H; assumption].
  intros s S. apply in_seq in S. lia.
Qed.
Print Assumptions C117_same_runs.
Example C117_same_runs_case : run 5 (set_label false "Dyn" true loop) 0 [inl "i = 0"; inr 1; inl "i < n"; inr 2; inl "stop"; inr 4]%string 4.
Proof.
  apply (C117_same_runs false "Dyn"%string true loop 0); [exact loop_wf|cbn; lia|cbn; lia|].
  apply (run_step 5 loop 0 1 (Some "i = 0"%string) [inl "i < n"; inr 2; inl "stop"; inr 4]%string); [cbn; auto 8|].
  apply (run_step 5 loop 1 2 (Some "i < n"%string) [inl "stop"; inr 4]%string); [cbn; auto 8|].
  apply (run_step 5 loop 2 4 (Some "stop"%string) []); [cbn; auto 8|]. constructor.
Qed.

(** A program that is called by another one and has no state without ways in and out: afterwards its first states are exactly the labels for entering and its last ones those for leaving. *)
Theorem C117_inner_partial {D} q (g : graph D) :
  well_formed g -> (forall x, x < length (nodes g) -> ~ (no_way_in g x /\ no_way_out g x)) ->
  let g' := set_label false q false g in
  forall x, x < length (nodes g') -> (no_way_in g' x <-> length (nodes g) <= x /\ nth_error (nodes g') x = Some (Enter q)) /\ (no_way_out g' x <-> length (nodes g) <= x /\ nth_error (nodes g') x = Some (Exit q)).
Proof.
  intros W H. cbn zeta. unfold set_label. set (n := length (nodes g)).
  assert (V : inner_inv q g (0 + n) (fold_left (label_state q false) (seq 0 n) g)).
  { apply inner_fold; [unfold n; lia|]. constructor; [lia|exact W| | |lia].
    - intros x X. split; [intros F; split; [exact F|lia]|tauto].
    - intros x X. split; [intros F; split; [exact F|left; lia]|tauto]. }
  destruct V as [L W' I O N]. intros x X. destruct (Nat.lt_ge_cases x n) as [Y|Y].
  - split; (split; [|lia]); intros F; exfalso.
    + apply (I x Y) in F. lia.
    + apply (O x Y) in F. destruct F as [F [G|G]]; [lia|]. exact (H x Y (conj G F)).
  - destruct (N x) as [(A & B & C)|(A & B & C)]; [split; [exact Y|exact X]| |]; rewrite A; intuition congruence.
Qed.
Print Assumptions C117_inner_partial.
Example C117_inner_case : (forall x, x < length (nodes loop) -> ~ (no_way_in loop x /\ no_way_out loop x)) /\ nodes (set_label false "Dyn" false loop) = nodes loop ++ [Enter "Dyn"; Exit "Dyn"; Exit "Dyn"]%string.
Proof.
  split; [|reflexivity]. intros x X [A B]. cbn in X.
  destruct x as [|[|[|[|[|x]]]]]; [apply (B (0, 1, Some "i = 0"%string))|apply (A (0, 1, Some "i = 0"%string))|apply (A (1, 2, Some "i < n"%string))|apply (A (1, 3, Some "i >= n"%string))|apply (A (2, 4, Some "stop"%string))|lia]; cbn; auto 8.
Qed.

(** The topmost program, whatever its states: it starts where it did, from there the only way is through the label for entering, which is reached from nowhere else, and its last states are exactly the labels for leaving. *)
Theorem C117_top {D} q (g : graph D) :
  well_formed g ->
  let g' := set_label false q true g in
  (forall x, x < length (nodes g') -> (no_way_in g' x <-> x < length (nodes g) /\ no_way_in g x))
  /\ (forall x e, x < length (nodes g) -> no_way_in g x -> In e (edges g') -> src e = x -> nth_error (nodes g') (dst e) = Some (Enter q))
  /\ (forall e, In e (edges g') -> length (nodes g) <= dst e -> nth_error (nodes g') (dst e) = Some (Enter q) -> src e < length (nodes g) /\ no_way_in g (src e))
  /\ (forall x, x < length (nodes g') -> (no_way_out g' x <-> length (nodes g) <= x /\ nth_error (nodes g') x = Some (Exit q))).
Proof.
  intros W. cbn zeta. unfold set_label. set (n := length (nodes g)).
  assert (V : top_inv q g (0 + n) (fold_left (label_state q true) (seq 0 n) g)).
  { apply top_fold; [unfold n; lia|]. constructor; [lia|exact W|tauto| |lia|lia|]; [intros x X; split; [intros F; split; [exact F|lia]|tauto]|]. intros e J LE. apply W in J. lia. }
  destruct V as [L W' I O T N P]. split; [|split; [|split]].
  - intros x X. destruct (Nat.lt_ge_cases x n) as [Y|Y].
    + rewrite (I x Y). tauto.
    + split; [|lia]. intros F. exfalso. apply (N x); [unfold n in Y; lia|exact F].
  - intros x e X F J E. apply (T x e); assumption.
  - exact P.
  - intros x X. destruct (Nat.lt_ge_cases x n) as [Y|Y].
    + split; [|lia]. intros F. apply (O x Y) in F. lia.
    + destruct (N x) as [_ [(A & B)|(A & B)]]; [split; [exact Y|exact X]| |]; rewrite A; intuition congruence.
Qed.
Print Assumptions C117_top.
Example C117_top_case : well_formed loop /\ nodes (set_label false "Dyn" true loop) = nodes loop ++ [Enter "Dyn"; Exit "Dyn"; Exit "Dyn"]%string.
Proof. split; [exact loop_wf|reflexivity]. Qed.

(** A called program with one state gets no label for leaving: its last state is not labelled. *)
Theorem C117_single_refuted : exists (g : graph string) x, well_formed g /\ length (nodes g) = 1 /\ no_way_out (set_label false "Dyn" false g) x
  /\ nth_error (nodes (set_label false "Dyn" false g)) x = Some Code /\ ~ In (Exit "Dyn") (nodes (set_label false "Dyn" false g)).
Proof.
  exists (Graph [Code] []), 0. split; [intros e []|]. split; [reflexivity|]. split; [intros e I; cbn in I; destruct I as [<-|[]]; cbn; lia|].
  split; [reflexivity|]. cbn. intuition discriminate.
Qed.
Print Assumptions C117_single_refuted.

(** A program whose first state is the target of a jump back gets no label for entering. *)
Theorem C117_loop_refuted : exists g : graph string, well_formed g /\ ~ In (Enter "Dyn") (nodes (set_label false "Dyn" false g)) /\ In (Exit "Dyn") (nodes (set_label false "Dyn" false g)).
Proof.
  exists (Graph [Code; Code] [(0, 1, Some "i >= n"); (0, 0, Some "i < n")]%string). split; [intros e I; cbn in I; repeat (destruct I as [<-|I]; [cbn; lia|]); destruct I|].
  cbn. intuition discriminate.
Qed.
Print Assumptions C117_loop_refuted.
