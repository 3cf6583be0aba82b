(** C143: the comparison of two data files. *)
From Coq Require Import List Bool String Arith Lia.
From Verif Require Import Base Dict BestModel.
Import ListNotations.
Local Open Scope list_scope.
Local Open Scope nat_scope.

Lemma resolve_spec halo a b : match resolve halo a b with
  | Unfit => a <> b /\ a <> b + 2 * halo /\ b <> a + 2 * halo
  | Same => a = b | HaloA => a = b + 2 * halo /\ 0 < halo | HaloB => b = a + 2 * halo /\ 0 < halo end.
Proof.
  unfold resolve. destruct (Nat.eqb_spec a b); [assumption|]. destruct (Nat.ltb_spec a b).
  - destruct (Nat.leb_spec (2 * halo) b); cbn [andb]; [|lia]. destruct (Nat.eqb_spec (b - 2 * halo) a); lia.
  - destruct (Nat.leb_spec (2 * halo) a); cbn [andb]; [|lia]. destruct (Nat.eqb_spec (a - 2 * halo) b); lia.
Qed.

Section Props.
Context {V : Type}.
(** sizes that are the same, or those of a compute domain with and without a halo *)
Definition fits (halo a b : nat) : Prop := a = b \/ a = b + 2 * halo \/ b = a + 2 * halo.
(** Three-dimensional variables are compared exactly if their levels agree, and their columns and rows agree up to a halo. *)
Theorem C143_compared : forall halo (a b : var V) ai aj ak bi bj bk, shape a = [ai; aj; ak] -> shape b = [bi; bj; bk] ->
  ((exists x y, compare halo a b = Compared x y) <-> fits halo ai bi /\ fits halo aj bj /\ ak = bk) /\ compare halo a b <> Error.
Proof.
  intros halo [sa va] [sb vb] ai aj ak bi bj bk Ea Eb. cbn in Ea, Eb. subst. unfold compare, fits. cbn -[Nat.mul].
  generalize (resolve_spec halo ai bi) (resolve_spec halo aj bj). destruct (Nat.eqb_spec ak bk) as [K|K]; destruct (resolve halo ai bi), (resolve halo aj bj); cbn -[Nat.mul]; intros H1 H2;
    (split; [split; [try (intros (x & y & D); discriminate D); intros _; lia|intros H; try (eexists _, _; reflexivity); exfalso; lia]|discriminate]).
Qed.
(** Then, if the rows differ as the columns do, the two parts have the same shape, that of the smaller one, and every point is compared with the same point of the compute domain.  Missing from the full statement:
    rows that differ in another way than columns (C143_rows_refuted), and further dimensions (C143_further_refuted). *)
Theorem C143_points_partial : forall halo (a b x y : var V) ai aj ak bi bj bk, shape a = [ai; aj; ak] -> shape b = [bi; bj; bk] ->
  compare halo a b = Compared x y -> ai + bj = bi + aj ->
  shape x = [Nat.min ai bi; Nat.min aj bj; ak] /\ shape y = shape x /\
  forall i j k, value x [i; j; k] = value a [(ai - bi) / 2 + i; (aj - bj) / 2 + j; k] /\ value y [i; j; k] = value b [(bi - ai) / 2 + i; (bj - aj) / 2 + j; k].
Proof.
  intros halo [sa va] [sb vb] x y ai aj ak bi bj bk Ea Eb C D. cbn in Ea, Eb. subst. revert C. unfold compare. cbn -[Nat.mul Nat.div Nat.min].
  generalize (resolve_spec halo ai bi) (resolve_spec halo aj bj). destruct (Nat.eqb_spec ak bk) as [<-|K]; [|destruct (resolve halo ai bi), (resolve halo aj bj); discriminate].
  assert (Half : forall n, n + 2 * halo - n = halo * 2) by lia.
  assert (In : forall n, 0 < halo -> inner_size halo (n + 2 * halo) = n) by (intros n P; unfold inner_size; destruct (Nat.eqb_spec halo 0); lia).
  destruct (resolve halo ai bi); cbn -[Nat.mul Nat.div Nat.min]; try (intros _ _ C; discriminate C); intros H1 H2; destruct (resolve halo aj bj) eqn:R; try (intros C; discriminate C); cbn -[Nat.mul Nat.div Nat.min]; intros [= <- <-]; cbn -[Nat.mul Nat.div Nat.min];
    try (exfalso; lia).
  - subst bi bj. rewrite !Nat.min_id, !Nat.sub_diag. split; [reflexivity|]. split; [reflexivity|]. intros i j k. split; reflexivity.
  - destruct H1 as (-> & P). destruct H2 as (-> & _). rewrite !In by exact P. rewrite !Nat.min_r by lia. split; [reflexivity|]. split; [reflexivity|]. intros i j k. rewrite !Half, !Nat.div_mul by discriminate.
    replace (bi - (bi + 2 * halo)) with 0 by lia. replace (bj - (bj + 2 * halo)) with 0 by lia. split; reflexivity.
  - destruct H1 as (-> & P). destruct H2 as (-> & _). rewrite !In by exact P. rewrite !Nat.min_l by lia. split; [reflexivity|]. split; [reflexivity|]. intros i j k. rewrite !Half, !Nat.div_mul by discriminate.
    replace (ai - (ai + 2 * halo)) with 0 by lia. replace (aj - (aj + 2 * halo)) with 0 by lia. split; reflexivity.
Qed.
(** Of variables with five dimensions the first savepoint and rank are compared, as three-dimensional variables. *)
Theorem C143_leading : forall halo (a b : var V) s r l, shape a = s :: r :: l -> length l = 3 -> length (shape b) = 3 ->
  compare halo a b = compare halo (Var l (fun i => value a (0 :: 0 :: i))) b /\ compare halo b a = compare halo b (Var l (fun i => value a (0 :: 0 :: i))).
Proof.
  intros halo [sa va] b s r l E L M. cbn in E. subst sa.
  assert (Da : drop_leading (Var (s :: r :: l) va) = Var l (fun i => va (0 :: 0 :: i))) by (unfold drop_leading; cbn; now rewrite L).
  assert (Dl : drop_leading (Var l (fun i => va (0 :: 0 :: i))) = Var l (fun i => va (0 :: 0 :: i))) by (unfold drop_leading; cbn [shape]; now rewrite L).
  unfold compare. cbn [value]. rewrite Da, Dl. split; reflexivity.
Qed.
(** The variable of B with the same name is used if there is one, else the one that the map names; without either the variable is skipped. *)
Theorem C143_names : forall halo (A B : dict (var V)) names name a, get A name = Some a ->
  (forall b, get B name = Some b -> best_guess halo A B names name = compare halo a b) /\
  (forall n b, get B name = None -> get names name = Some n -> get B n = Some b -> best_guess halo A B names name = compare halo a b) /\
  (get B name = None -> get names name = None -> best_guess halo A B names name = Skipped).
Proof.
  intros halo A B names name a E. unfold best_guess, resolve_name. rewrite E. split; [|split].
  - intros b Eb. now rewrite Eb, Eb.
  - intros n b N M Eb. now rewrite N, M, Eb.
  - intros N M. now rewrite N, M.
Qed.
(** Different numbers of dimensions, fewer than five, are skipped. *)
Theorem C143_dimensions : forall halo (a b : var V), length (shape a) < 5 -> length (shape b) < 5 -> length (shape a) <> length (shape b) -> compare halo a b = Skipped.
Proof.
  intros halo a b La Lb N. unfold compare, drop_leading. destruct (Nat.leb_spec 5 (length (shape a))); [lia|]. destruct (Nat.leb_spec 5 (length (shape b))); [lia|].
  destruct (Nat.eqb_spec (length (shape a)) (length (shape b))); [contradiction|reflexivity].
Qed.
(** Variables of three or four dimensions and the same shape are compared as they are. *)
Theorem C143_same : forall halo (a b : var V), shape a = shape b -> length (shape a) = 3 \/ length (shape a) = 4 -> compare halo a b = Compared a b.
Proof.
  intros halo [sa va] [sb vb] E L. cbn in E, L. subst sb. unfold compare, drop_leading. cbn [shape]. assert (D : (5 <=? length sa) = false) by (apply Nat.leb_gt; lia). rewrite !D. cbn [shape]. rewrite Nat.eqb_refl. cbn [negb].
  destruct sa as [|i [|j [|k l]]]; cbn in L; try lia. unfold resolve. now rewrite !Nat.eqb_refl.
Qed.
End Props.
Print Assumptions C143_compared.
Print Assumptions C143_points_partial.
Print Assumptions C143_leading.
Print Assumptions C143_names.
Print Assumptions C143_dimensions.
Print Assumptions C143_same.

(** The full statement is false.  Only the columns decide whether a halo is cut off: rows with a halo and columns without one (or the other way round) are accepted, and the parts then have different shapes; so have
    parts that differ in a fourth dimension, which is not looked at. *)
Definition ones (s : list nat) : var nat := Var s (fun _ => 1).
Theorem C143_rows_refuted : exists halo (a b x y : var nat), length (shape a) = 3 /\ compare halo a b = Compared x y /\ shape x <> shape y.
Proof. exists 3, (ones [12; 18; 79]), (ones [12; 12; 79]), (ones [12; 18; 79]), (ones [12; 12; 79]). split; [reflexivity|]. split; [reflexivity|discriminate]. Qed.
Theorem C143_further_refuted : exists halo (a b x y : var nat), compare halo a b = Compared x y /\ shape x <> shape y /\ firstn 3 (shape a) = firstn 3 (shape b).
Proof. exists 3, (ones [12; 12; 79; 7]), (ones [12; 12; 79; 9]), (ones [12; 12; 79; 7]), (ones [12; 12; 79; 9]). split; [reflexivity|]. split; [discriminate|reflexivity]. Qed.
(** Variables with fewer than three dimensions stop the whole comparison. *)
Theorem C143_flat_refuted : exists halo (a b : var nat), shape a = shape b /\ compare halo a b = Error.
Proof. exists 3, (ones [12; 12]), (ones [12; 12]). split; reflexivity. Qed.
Print Assumptions C143_rows_refuted.
Print Assumptions C143_further_refuted.
Print Assumptions C143_flat_refuted.

Example C143_case : exists x y, compare 3 (Var [18; 18; 79] (fun i => (0, i))) (Var [12; 12; 79] (fun i => (1, i))) = Compared x y /\ 18 + 12 = 12 + 18 /\ value x [0; 5; 2] = (0, [3; 8; 2]) /\ value y [0; 5; 2] = (1, [0; 5; 2]).
Proof. eexists _, _. split; [reflexivity|]. repeat split. Qed.
