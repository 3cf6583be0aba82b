(** Property C76: the gnomonic grid of a tile does not depend on how the tile is divided over ranks (exact arithmetic) *)
Require Import Reals Lra Lia ZArith Bool Arith.
From Verif Require Import SphereModel GnomModel GnomProofs.
Open Scope R_scope.

(** ** Specification *)
(** latitudes at equal distances between -a and a, where sin a = 1/sqrt 3 (the latitude of the corners of a cube) *)
Definition spaced_lat (n : nat) (k : Z) : R := asin (/ sqrt 3) * (2 * IZR k / INR n - 1).
(** corner (I, J) of a tile of n by n cells: longitude and latitude of the direction (1, sqrt 2 tan(lat I), sqrt 2 tan(lat J)) *)
Definition cube_point (n : nat) (I J : Z) (p : R * R) : Prop :=
  tan (fst p) = sqrt 2 * tan (spaced_lat n I) /\ - (PI / 2) < fst p < PI / 2 /\
  tan (snd p) = sqrt 2 * tan (spaced_lat n J) * cos (fst p) /\ - (PI / 2) < snd p < PI / 2.
(** a square section of [w] by [w] cells whose first corner is (gi, gj); an edge flag is only set when the section lies on that edge *)
Definition section_of_tile (n w : nat) (west east south north : bool) (gi gj : Z) : Prop :=
  (1 <= w)%nat /\ (0 <= gi)%Z /\ (gi + Z.of_nat w <= Z.of_nat n)%Z /\ (0 <= gj)%Z /\ (gj + Z.of_nat w <= Z.of_nat n)%Z /\
  (west = true -> gi = 0%Z) /\ (east = true -> (gi + Z.of_nat w = Z.of_nat n)%Z) /\
  (south = true -> gj = 0%Z) /\ (north = true -> (gj + Z.of_nat w = Z.of_nat n)%Z).

Lemma spaced_edge n k : (0 < n)%nat -> spaced_lat n k = edge_lat n k.
Proof.
  intro N. unfold spaced_lat, edge_lat, dely, alpha, third. assert (0 < INR n) by (apply lt_0_INR; exact N). field. lra.
Qed.
Lemma closed_cube n I J : (0 < n)%nat -> cube_point n I J (closed n I J).
Proof.
  intro N. unfold cube_point, closed. rewrite !spaced_edge by exact N. cbn [fst snd]. rewrite !tan_atan.
  pose proof (atan_bound (sqrt 2 * tan (edge_lat n I))).
  pose proof (atan_bound (sqrt 2 * tan (edge_lat n J) * cos (atan (sqrt 2 * tan (edge_lat n I))))). repeat split; lra.
Qed.
Lemma cube_unique n I J p q : cube_point n I J p -> cube_point n I J q -> p = q.
Proof.
  destruct p as [a b], q as [c d]. unfold cube_point. cbn [fst snd]. intros (A & B & C & D) (E & F & G & H).
  assert (a = c) by (rewrite <- (atan_tan a), <- (atan_tan c) by assumption; now rewrite A, E). subst c.
  assert (b = d) by (rewrite <- (atan_tan b), <- (atan_tan d) by assumption; now rewrite C, G). now subst d.
Qed.

(** Every section of a tile gets the points of the cube that its global indices say, whatever the section and its edge flags; *)
Theorem C76_section n w west east south north gi gj : section_of_tile n w west east south north gi gj ->
  exists g, local_gnomonic_ed n (w + 1) (w + 1) west east south north gi gj = Some g /\
    forall i j, (i <= w)%nat -> (j <= w)%nat -> cube_point n (gi + Z.of_nat i) (gj + Z.of_nat j) (g i j).
Proof.
  intros (W & A & B & C & D & E1 & E2 & E3 & E4).
  destruct (local_closed n (w + 1) west east south north gi gj) as (g & G & H); [lia| |].
  - replace (w + 1 - 1)%nat with w by lia. unfold placed. auto 10.
  - exists g. split; [exact G|]. intros i j I J. rewrite H by lia. apply closed_cube. lia.
Qed.
Print Assumptions C76_section.

(** hence two ranks, of one layout or of two, agree on a corner that both hold; *)
Theorem C76_layout_independent n w west east south north gi gj w' west' east' south' north' gi' gj' g g' i j i' j' :
  section_of_tile n w west east south north gi gj -> section_of_tile n w' west' east' south' north' gi' gj' ->
  local_gnomonic_ed n (w + 1) (w + 1) west east south north gi gj = Some g ->
  local_gnomonic_ed n (w' + 1) (w' + 1) west' east' south' north' gi' gj' = Some g' ->
  (i <= w)%nat -> (j <= w)%nat -> (i' <= w')%nat -> (j' <= w')%nat ->
  (gi + Z.of_nat i = gi' + Z.of_nat i')%Z -> (gj + Z.of_nat j = gj' + Z.of_nat j')%Z ->
  g i j = g' i' j'.
Proof.
  intros S S' G G' I J I' J' EI EJ.
  destruct (C76_section _ _ _ _ _ _ _ _ S) as (h & H & P). rewrite G in H. injection H as <-.
  destruct (C76_section _ _ _ _ _ _ _ _ S') as (h' & H' & P'). rewrite G' in H'. injection H' as <-.
  eapply cube_unique; [apply P; assumption|]. rewrite EI, EJ. now apply P'.
Qed.
Print Assumptions C76_layout_independent.

(** and they are the points of the grid of the whole tile, built the way the Fortran code does it. *)
Theorem C76_global n w west east south north gi gj : section_of_tile n w west east south north gi gj ->
  exists g G, local_gnomonic_ed n (w + 1) (w + 1) west east south north gi gj = Some g /\ global_gnomonic n (n + 1) (n + 1) = Some G /\
    forall i j, (i <= w)%nat -> (j <= w)%nat -> g i j = G (Z.to_nat gi + i)%nat (Z.to_nat gj + j)%nat.
Proof.
  intro S. destruct (C76_section _ _ _ _ _ _ _ _ S) as (g & H & P). destruct S as (W & A & B & C & D & _).
  destruct (global_closed n ltac:(lia)) as (G & HG & Q). exists g, G. split; [exact H|]. split; [exact HG|].
  intros i j I J. rewrite Q by lia. eapply cube_unique; [apply P; assumption|].
  replace (Z.of_nat (Z.to_nat gi + i)) with (gi + Z.of_nat i)%Z by lia. replace (Z.of_nat (Z.to_nat gj + j)) with (gj + Z.of_nat j)%Z by lia.
  apply closed_cube. lia.
Qed.
Print Assumptions C76_global.

(** The tile is symmetric about its two middle lines; its corners are at longitude +-45 degrees, and the longitude grows from west to east and
    does not depend on J. *)
Theorem C76_symmetry n I J I' J' p q r : (0 < n)%nat -> (0 <= I < I')%Z -> (I' <= Z.of_nat n)%Z ->
  cube_point n I J p -> cube_point n (Z.of_nat n - I) (Z.of_nat n - J) q -> cube_point n I' J' r ->
  fst q = - fst p /\ snd q = - snd p /\ fst p < fst r /\ (I = 0%Z -> fst p = - (PI / 4)) /\ (I' = Z.of_nat n -> fst r = PI / 4).
Proof.
  intros N I0 I1 P Q R0.
  assert (EP : p = closed n I J) by (eapply cube_unique; [exact P|now apply closed_cube]).
  assert (EQ : q = closed n (Z.of_nat n - I) (Z.of_nat n - J)) by (eapply cube_unique; [exact Q|now apply closed_cube]).
  assert (ER : r = closed n I' J') by (eapply cube_unique; [exact R0|now apply closed_cube]).
  subst p q r. unfold closed. cbn [fst snd]. rewrite !edge_lat_flip by exact N. rewrite !tan_neg.
  replace (sqrt 2 * - tan (edge_lat n I)) with (- (sqrt 2 * tan (edge_lat n I))) by ring. rewrite !atan_opp, cos_neg.
  replace (sqrt 2 * - tan (edge_lat n J) * cos (atan (sqrt 2 * tan (edge_lat n I)))) with
    (- (sqrt 2 * tan (edge_lat n J) * cos (atan (sqrt 2 * tan (edge_lat n I))))) by ring. rewrite atan_opp.
  destruct sqrt2' as [S1 S2]. destruct third_pos as [T1 T2].
  split; [reflexivity|]. split; [reflexivity|]. split; [|split].
  - apply atan_increasing. apply Rmult_lt_compat_l; [exact S1|].
    pose proof (edge_lat_range n I N ltac:(lia)). pose proof (edge_lat_range n I' N ltac:(lia)). pose proof alpha_bound.
    apply tan_increasing; try lra. apply edge_lat_mono; [exact N|lia].
  - intros ->. pose proof (tan_0 n) as T. replace (sqrt 2 * tan (edge_lat n 0)) with (Ropp 1) by nra. now rewrite atan_opp, atan_1.
  - intros ->. pose proof (tan_n n N) as T. replace (sqrt 2 * tan (edge_lat n (Z.of_nat n))) with 1 by nra. now rewrite atan_1.
Qed.
Print Assumptions C76_symmetry.

(** A rank's section must be square: with layouts that divide a tile differently in x and y, no grid is made. *)
Theorem C76_square_only n ni nj west east south north gi gj : ni <> nj -> local_gnomonic_ed n ni nj west east south north gi gj = None.
Proof. intro N. unfold local_gnomonic_ed. apply Nat.eqb_neq in N. now rewrite N. Qed.
Print Assumptions C76_square_only.

(** so layouts that divide a tile into sections that are not square have no grid: here the first half of a tile *)
Theorem C76_layout_refuted : exists n ni nj west east south north, (0 < ni <= n /\ 0 < nj <= n)%nat /\ west = true /\ east = false /\ south = true /\ north = true /\
  local_gnomonic_ed n (ni + 1) (nj + 1) west east south north 0 0 = None /\ exists G, global_gnomonic n (n + 1) (n + 1) = Some G.
Proof.
  exists 12%nat, 6%nat, 12%nat, true, false, true, true. repeat split; try lia. destruct (global_closed 12 ltac:(lia)) as (G & H & _). exists G. exact H.
Qed.
Print Assumptions C76_layout_refuted.

(** rank 1 of a 2 by 2 layout on a tile of 12 cells *)
Example C76_case : section_of_tile 12 6 false true true false 6 0.
Proof. repeat split; try lia; discriminate. Qed.
Example C76_case2 : section_of_tile 12 12 true true true true 0 0.
Proof. repeat split; lia. Qed.
