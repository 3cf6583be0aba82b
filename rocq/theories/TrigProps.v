(** C84: the cosines and sines of the grid angles; C85: what is averaged from them. *)
Require Import Reals ZArith Bool Lia Lra.
From Verif Require Import Base PartModel DecompProofs2 ZarrProofs SphereModel SphereProofs EdgeModel UnitModel WindModel UnitProps TrigModel.
Local Open Scope Z_scope.

(** ** The angle *)
Definition towards (c p : vec) : vec := normalize (cross (cross c p) c).
Lemma clear_nonzero p a b : clear_direction p a b -> cross (cross a b) p <> (0, 0, 0)%R.
Proof. intros C E. destruct (leads_ok p a b C) as (U & _). rewrite E in U. unfold normalize in U. cbn [vscale dot] in U. lra. Qed.
Lemma leads_from c p v : clear_direction c c p -> leads c c p v -> v = towards c p.
Proof. intros C L. exact (leads_unique _ _ _ _ _ (clear_nonzero _ _ _ C) L (leads_ok _ _ _ C)). Qed.
Lemma leads_to c p v : clear_direction c p c -> leads c p c v -> v = vscale (-1) (towards c p).
Proof.
  intros C L. rewrite (leads_unique _ _ _ _ _ (clear_nonzero _ _ _ C) L (leads_ok _ _ _ C)). unfold towards, normalize.
  assert (E : cross (cross p c) c = vscale (-1) (cross (cross c p) c)) by (clear; vec3; cbn [cross vscale]; apply triple_eq; ring).
  rewrite E, dot_scale_l, dot_scale_r. replace (-1 * (-1 * dot (cross (cross c p) c) (cross (cross c p) c)))%R with (dot (cross (cross c p) c) (cross (cross c p) c)) by ring.
  rewrite !scale_scale. f_equal. ring.
Qed.
(** both kinds of direction are clear under the same condition *)
Definition apart (c p : vec) : Prop := dot c c = 1%R /\ dot p p = 1%R /\ c <> p /\ (-1 < dot c p)%R.
Lemma clear_from c p : clear_direction c c p -> apart c p.
Proof. intros (H1 & _ & H2 & H3 & H4). rewrite dot_add_l, H1, dot_comm in H4. repeat split; auto. lra. Qed.
Lemma clear_to c p : clear_direction c p c -> apart c p.
Proof. intros (H1 & H2 & _ & H3 & H4). rewrite dot_add_l, H1, dot_comm in H4. repeat split; auto. lra. Qed.
Lemma scos_towards c p q : apart c p -> apart c q -> scos c p q = dot (towards c p) (towards c q).
Proof.
  intros (C & P & Np & Mp) (_ & Q & Nq & Mq). unfold scos, towards, normalize. cbv zeta. rewrite dot_scale_l, dot_scale_r.
  assert (K : forall x y, dot (cross (cross c x) c) (cross (cross c y) c) = dot (cross c x) (cross c y)).
  { intros x y. transitivity (dot c c * dot (cross c x) (cross c y) - dot c (cross c x) * dot c (cross c y))%R.
    - rewrite <- cross_dots. generalize (cross c x), (cross c y). clear. intros u v. vec3. cbn [cross dot]. ring.
    - rewrite C, (cross_dot_l c x). ring. }
  rewrite !K. assert (L : forall x, dot x x = 1%R -> c <> x -> (-1 < dot c x)%R -> (0 < dot (cross c x) (cross c x))%R).
  { intros x X N M. rewrite lagrange, C, X. assert (dot c x < 1)%R. { destruct (unit_dot c x C X) as [_ [H|H]]; [exact H|]. exfalso. apply N, unit_dot_1; assumption. }
    replace (1 * 1 - dot c x * dot c x)%R with ((1 - dot c x) * (1 + dot c x))%R by ring. apply Rmult_lt_0_compat; lra. }
  pose proof (L p P Np Mp) as Lp. pose proof (L q Q Nq Mq) as Lq. rewrite sqrt_mult by lra. pose proof (sqrt_lt_R0 _ Lp). pose proof (sqrt_lt_R0 _ Lq). field. lra.
Qed.

(** C84: at each of the nine points of a cell, the cosine is the product of the unit vectors that lead along x and along y there (at the centre,
    of the vectors given for it, see C81) *)
Theorem C84_cosine (d a ec1 ec2 : Z -> Z -> vec) i j k vx vy : 1 <= k <= 9 ->
  let sw := d i j in let se := d (i + 1) j in let nw := d i (j + 1) in let ne := d (i + 1) (j + 1) in
  let p := sg_point sw se nw ne (a i j) k in let x := sg_x sw se nw ne (a i j) k in let y := sg_y sw se nw ne (a i j) k in
  (if k =? 5 then vx = ec1 i j /\ vy = ec2 i j
   else clear_direction p (fst x) (snd x) /\ clear_direction p (fst y) (snd y) /\ leads p (fst x) (snd x) vx /\ leads p (fst y) (snd y) vy) ->
  raw_cos d a ec1 ec2 i j (k - 1) = dot vx vy.
Proof.
  intros Hk sw se nw ne. assert (F : k = 1 \/ k = 2 \/ k = 3 \/ k = 4 \/ k = 5 \/ k = 6 \/ k = 7 \/ k = 8 \/ k = 9) by lia.
  destruct F as [->|[->|[->|[->|[->|[->|[->|[->| ->]]]]]]]]; cbn [sg_point sg_x sg_y fst snd Z.eqb Pos.eqb Z.sub Z.add Z.opp Z.pos_sub Pos.pred_double raw_cos]; fold sw se nw ne.
  5: { intros [-> ->]. reflexivity. }
  all: intros (Cx & Cy & Lx & Ly).
  all: first [pose proof (leads_from _ _ _ Cx Lx) as ->; apply clear_from in Cx | pose proof (leads_to _ _ _ Cx Lx) as ->; apply clear_to in Cx].
  all: first [pose proof (leads_from _ _ _ Cy Ly) as ->; apply clear_from in Cy | pose proof (leads_to _ _ _ Cy Ly) as ->; apply clear_to in Cy].
  all: first [rewrite (scos_towards _ _ _ Cx Cy) | rewrite (scos_towards _ _ _ Cy Cx), (dot_comm (towards _ _))]; rewrite ?dot_scale_l, ?dot_scale_r; ring.
Qed.
(** C84: cosine and sine of one point belong together; 10^-15 is the step of the code *)
Theorem C84_sine c : (-1 <= c <= 1)%R -> let c' := snap c in
  (Rabs (c' - c) < 1 / 10 ^ 15)%R /\ (-1 <= c' <= 1)%R /\ (0 <= sine c')%R /\ (sine c' ^ 2 + c' ^ 2 = 1)%R.
Proof.
  intros H c'. assert (B : (Rabs (c' - c) < 1 / 10 ^ 15)%R /\ (-1 <= c' <= 1)%R).
  { assert (Z : (0 < 1 / 10 ^ 15)%R) by (apply Rdiv_lt_0_compat; [lra|apply pow_lt; lra]).
    unfold c', snap. destruct (Rlt_dec (Rabs (1 - c)) (1 / 10 ^ 15)) as [L|L]; split; [exact L|lra| |lra]. rewrite Rminus_eq_0, Rabs_R0. exact Z. }
  destruct B as [B1 B2]. split; [exact B1|]. split; [exact B2|]. unfold sine.
  assert (P : (0 <= 1 - c' ^ 2)%R). { assert (c' ^ 2 <= 1)%R; [|lra]. replace (c' ^ 2)%R with (1 - (1 - c') * (1 + c'))%R by ring. assert (0 <= (1 - c') * (1 + c'))%R by (apply Rmult_le_pos; lra). lra. }
  assert (Q : (sqrt (1 - c' ^ 2) <= 1)%R). { apply Rle_trans with (sqrt 1); [|rewrite sqrt_1; lra]. apply sqrt_le_1_alt. pose proof (pow2_ge_0 c'). lra. }
  destruct (Rlt_dec (1 - c' ^ 2) 0) as [L|_]; [lra|]. destruct (Rlt_dec 1 (sqrt (1 - c' ^ 2))) as [L|_]; [lra|].
  split; [apply sqrt_pos|]. rewrite pow2_sqrt by exact P. ring.
Qed.

(** ** The corners *)
Section Steps.
  Variables n0 n1 : Z.
  Hypothesis H0 : 7 <= n0.
  Hypothesis H1 : 7 <= n1.
  (** the four corners of the array, three by three cells each *)
  Definition block (fx fy : bool) (i j : Z) : bool := (if fx then high n0 i else low i) && (if fy then high n1 j else low j).
  Definition middle (i j : Z) : Prop := forall fx fy, block fx fy i j = false.
  (** what one step may do: change cells of its block only, reading only the cell itself and cells outside the blocks *)
  Definition step_of (fx fy : bool) (f : sg -> sg) : Prop :=
    (forall s i j k, block fx fy i j = false -> f s i j k = s i j k) /\
    (forall s s' i j k, (forall k', s i j k' = s' i j k') -> (forall i' j' k', middle i' j' -> s i' j' k' = s' i' j' k') -> f s i j k = f s' i j k).
  Lemma low_high n k : 7 <= n -> low k = true -> high n k = false.
  Proof. unfold low, high. intros H L. apply andb_true_iff in L. rewrite Z.leb_le, Z.ltb_lt in L. destruct (Z.leb_spec (n - 3) k), (Z.ltb_spec k n); cbn [andb]; auto; lia. Qed.
  Lemma block_one fx fy gx gy i j : block fx fy i j = true -> (gx, gy) <> (fx, fy) -> block gx gy i j = false.
  Proof.
    unfold block. intros B N. apply andb_true_iff in B. destruct B as [Bx By].
    pose proof (low_high n0 i H0). pose proof (low_high n1 j H1).
    destruct fx, fy, gx, gy; try congruence; destruct (low i), (high n0 i), (low j), (high n1 j); cbn [andb]; auto; try (specialize (H eq_refl)); try (specialize (H2 eq_refl)); congruence.
  Qed.
  Lemma four_steps b1 b2 b3 b4 f1 f2 f3 f4 : step_of false false f1 -> step_of false true f2 -> step_of true false f3 -> step_of true true f4 ->
    forall s, let r := when b4 f4 (when b3 f3 (when b2 f2 (when b1 f1 s))) in
    (forall i j k, middle i j -> r i j k = s i j k) /\
    (forall fx fy i j k, block fx fy i j = true -> r i j k = when (if fx then if fy then b4 else b3 else if fy then b2 else b1) (if fx then if fy then f4 else f3 else if fy then f2 else f1) s i j k).
  Proof.
    intros [A1 L1] [A2 L2] [A3 L3] [A4 L4] s r.
    assert (M : forall b f fx fy, (forall s i j k, block fx fy i j = false -> f s i j k = s i j k) -> forall s i j k, block fx fy i j = false -> when b f s i j k = s i j k).
    { intros b f fx fy H s' i j k B. unfold when. destruct b; [apply H, B|reflexivity]. }
    assert (D : forall i j k, middle i j -> r i j k = s i j k).
    { intros i j k Q. unfold r. rewrite (M _ _ _ _ A4 _ i j k (Q _ _)), (M _ _ _ _ A3 _ i j k (Q _ _)), (M _ _ _ _ A2 _ i j k (Q _ _)). apply (M _ _ _ _ A1), Q. }
    split; [exact D|]. intros fx fy i j k B.
    assert (W : forall gx gy, (gx, gy) <> (fx, fy) -> block gx gy i j = false) by (intros; eapply block_one; eauto).
    unfold r. destruct fx, fy.
    - unfold when at 1 5. destruct b4.
      + apply L4; intros.
        * rewrite (M _ _ _ _ A3), (M _ _ _ _ A2) by (apply W; congruence). apply (M _ _ _ _ A1), W. congruence.
        * rewrite (M _ _ _ _ A3), (M _ _ _ _ A2) by apply H. apply (M _ _ _ _ A1), H.
      + rewrite (M _ _ _ _ A3), (M _ _ _ _ A2) by (apply W; congruence). apply (M _ _ _ _ A1), W. congruence.
    - rewrite (M _ _ _ _ A4) by (apply W; congruence). unfold when at 1 4. destruct b3.
      + apply L3; intros.
        * rewrite (M _ _ _ _ A2) by (apply W; congruence). apply (M _ _ _ _ A1), W. congruence.
        * rewrite (M _ _ _ _ A2) by apply H. apply (M _ _ _ _ A1), H.
      + rewrite (M _ _ _ _ A2) by (apply W; congruence). apply (M _ _ _ _ A1), W. congruence.
    - rewrite (M _ _ _ _ A4), (M _ _ _ _ A3) by (apply W; congruence). unfold when at 1 3. destruct b2.
      + apply L2; intros; [apply (M _ _ _ _ A1), W; congruence|apply (M _ _ _ _ A1), H].
      + apply (M _ _ _ _ A1), W. congruence.
    - rewrite (M _ _ _ _ A4), (M _ _ _ _ A3), (M _ _ _ _ A2) by (apply W; congruence). reflexivity.
  Qed.

  (** the cells of a block: d, e the distances from the tile; in array indices *)
  Definition out_i (fx : bool) (d : Z) : Z := if fx then n0 - 3 + d else 2 - d.
  Definition out_j (fy : bool) (e : Z) : Z := if fy then n1 - 3 + e else 2 - e.
  Definition in_i (fx : bool) : Z := if fx then n0 - 4 else 3.
  Definition in_j (fy : bool) : Z := if fy then n1 - 4 else 3.
  Definition dist_i (fx : bool) (i : Z) : Z := if fx then i - (n0 - 3) else 2 - i.
  Definition dist_j (fy : bool) (j : Z) : Z := if fy then j - (n1 - 3) else 2 - j.
  (** what a step of supergrid_corner_fix does *)
  Definition form (rest : sg -> sg) (second : sg -> Z -> R) (fx fy : bool) (s : sg) : sg := fun i j k =>
    if block fx fy i j then
      if (k =? inward_x fx) && (dist_i fx i =? 0) then s (out_i fx (dist_j fy j)) (in_j fy) (outward_y fy)
      else if (k =? inward_y fy) && (dist_j fy j =? 0) then second s (dist_i fx i)
      else rest s i j k
    else s i j k.
  Definition proper (fx fy : bool) (s : sg) (d : Z) : R := s (in_i fx) (out_j fy d) (outward_x fx).
  Lemma middle_j fy i : middle i (in_j fy).
  Proof. intros gx gy. unfold block, in_j, high, low. destruct fy, gy; apply andb_false_iff; right; apply andb_false_iff; rewrite Z.leb_gt, Z.ltb_ge; lia. Qed.
  Lemma middle_i fx j : middle (in_i fx) j.
  Proof. intros gx gy. unfold block, in_i, high, low. destruct fx, gx; apply andb_false_iff; left; apply andb_false_iff; rewrite Z.leb_gt, Z.ltb_ge; lia. Qed.
  Lemma form_step rest second fx fy : (forall s s' i j k, (forall k', s i j k' = s' i j k') -> rest s i j k = rest s' i j k) ->
    (forall s s' d, 0 <= d < 3 -> (forall i' j' k', middle i' j' -> s i' j' k' = s' i' j' k') -> second s d = second s' d) -> step_of fx fy (form rest second fx fy).
  Proof.
    intros Hr Hs. split.
    - intros s i j k B. unfold form. rewrite B. reflexivity.
    - intros s s' i j k Ss Sm. unfold form. destruct (block fx fy i j) eqn:B; [|apply Ss].
      destruct ((k =? inward_x fx) && (dist_i fx i =? 0)); [apply Sm, middle_j|].
      destruct ((k =? inward_y fy) && (dist_j fy j =? 0)); [|apply Hr, Ss]. apply Hs; [|exact Sm].
      unfold block in B. apply andb_true_iff in B. destruct B as [B _]. unfold dist_i, high, low in *. destruct fx; apply andb_true_iff in B; rewrite Z.leb_le, Z.ltb_lt in B; lia.
  Qed.
  Lemma step_eq fx fy f g : (forall s i j k, f s i j k = g s i j k) -> step_of fx fy g -> step_of fx fy f.
  Proof. intros E [A L]. split; intros; rewrite !E; [apply A; auto|apply L; auto]. Qed.

  Local Ltac cases := repeat match goal with
    | |- context [?a =? ?b] => destruct (Z.eqb_spec a b); try (exfalso; lia); cbn [andb]
    | |- context [?a <=? ?b] => destruct (Z.leb_spec a b); try (exfalso; lia); cbn [andb]
    | |- context [?a <? ?b] => destruct (Z.ltb_spec a b); try (exfalso; lia); cbn [andb]
    end.
  Local Ltac open := intros s i j k; unfold form, proper, rotate_clockwise, rotate_counterclockwise, fill_single, put, block, flipped, high, low, dist_i, dist_j, out_i, out_j, in_i, in_j, inward_x, inward_y, outward_x, outward_y.
  Lemma fix_sw v : forall s i j k, rotate_clockwise n0 n1 false false 0 3 (rotate_counterclockwise n0 n1 false false 1 2 (fill_single n0 n1 false false v s)) i j k = form (fun _ _ _ _ => v) (proper false false) false false s i j k.
  Proof. open. cases; try reflexivity; f_equal; lia. Qed.
  Lemma fix_nw v : forall s i j k, rotate_counterclockwise n0 n1 false true 3 2 (rotate_clockwise n0 n1 false true 0 1 (fill_single n0 n1 false true v s)) i j k = form (fun _ _ _ _ => v) (proper false true) false true s i j k.
  Proof. open. cases; try reflexivity; f_equal; lia. Qed.
  Lemma fix_se v : forall s i j k, rotate_clockwise n0 n1 true false 2 3 (rotate_counterclockwise n0 n1 true false 1 0 (fill_single n0 n1 true false v s)) i j k = form (fun _ _ _ _ => v) (proper true false) true false s i j k.
  Proof. open. cases; try reflexivity; f_equal; lia. Qed.
  Lemma fix_ne v : forall s i j k, rotate_clockwise n0 n1 true true 2 1 (rotate_counterclockwise n0 n1 true true 3 0 (fill_single n0 n1 true true v s)) i j k = form (fun _ _ _ _ => v) (proper true true) true true s i j k.
  Proof. open. cases; try reflexivity; f_equal; lia. Qed.

  (** the four steps of calculate_supergrid_cos_sin; the second half of the north-west one reads other cells *)
  Definition nw_second (s : sg) (d : Z) : R := s 3 (n1 - 3 - d) 0.
  Lemma adj_sw : forall s i j k, put 3 (fun i j => low i && (j =? 2)) (fun i j => put 2 (fun i j => (i =? 2) && low j) (fun i j => s j 3 1) s 3 i 0) (put 2 (fun i j => (i =? 2) && low j) (fun i j => s j 3 1) s) i j k
    = form (fun s => s) (proper false false) false false s i j k.
  Proof. open. cases; try reflexivity; f_equal; lia. Qed.
  Lemma adj_nw : forall s i j k, put 1 (fun i j => low i && (j =? n1 - 3)) (fun i j => put 2 (fun i j => (i =? 2) && high n1 j) (fun i j => s (2 - (j - (n1 - 3))) (n1 - 4) 3) s 3 (n1 - 5 + i) 0) (put 2 (fun i j => (i =? 2) && high n1 j) (fun i j => s (2 - (j - (n1 - 3))) (n1 - 4) 3) s) i j k
    = form (fun s => s) nw_second false true s i j k.
  Proof. unfold nw_second. open. cases; try reflexivity; f_equal; lia. Qed.
  Lemma adj_se : forall s i j k, put 3 (fun i j => high n0 i && (j =? 2)) (fun i j => put 0 (fun i j => (i =? n0 - 3) && low j) (fun i j => s (n0 - 1 - j) 3 1) s (n0 - 4) (2 - (i - (n0 - 3))) 2) (put 0 (fun i j => (i =? n0 - 3) && low j) (fun i j => s (n0 - 1 - j) 3 1) s) i j k
    = form (fun s => s) (proper true false) true false s i j k.
  Proof. open. cases; try reflexivity; f_equal; lia. Qed.
  Lemma adj_ne : forall s i j k, put 1 (fun i j => high n0 i && (j =? n1 - 3)) (fun i j => put 0 (fun i j => (i =? n0 - 3) && high n1 j) (fun i j => s (n0 - 3 + (j - (n1 - 3))) (n1 - 4) 3) s (n0 - 4) (n1 - 3 + (i - (n0 - 3))) 2) (put 0 (fun i j => (i =? n0 - 3) && high n1 j) (fun i j => s (n0 - 3 + (j - (n1 - 3))) (n1 - 4) 3) s) i j k
    = form (fun s => s) (proper true true) true true s i j k.
  Proof. open. cases; try reflexivity; f_equal; lia. Qed.

  Variables left right bottom top : bool.
  Definition flag_x (fx : bool) : bool := if fx then right else left.
  Definition flag_y (fy : bool) : bool := if fy then top else bottom.
  Lemma proper_local fx fy s s' d : (forall i' j' k', middle i' j' -> s i' j' k' = s' i' j' k') -> proper fx fy s d = proper fx fy s' d.
  Proof. intros H. apply H, middle_i. Qed.
  Lemma block_at fx fy i j : block fx fy i j = true -> exists d e, 0 <= d < 3 /\ 0 <= e < 3 /\ i = out_i fx d /\ j = out_j fy e.
  Proof.
    unfold block, high, low, out_i, out_j. intros B. exists (dist_i fx i), (dist_j fy j). unfold dist_i, dist_j.
    destruct fx, fy; rewrite !andb_true_iff, ?Z.leb_le, ?Z.ltb_lt in B; lia.
  Qed.
  Theorem corner_fix_spec v s : let r := corner_fix left right bottom top n0 n1 v s in
    (forall i j k, middle i j -> r i j k = s i j k) /\
    (forall fx fy i j k, block fx fy i j = true -> r i j k = when (flag_x fx && flag_y fy) (form (fun _ _ _ _ => v) (proper fx fy) fx fy) s i j k).
  Proof.
    destruct (four_steps (left && bottom) (left && top) (right && bottom) (right && top) _ _ _ _
      (step_eq _ _ _ _ (fix_sw v) (form_step (fun _ _ _ _ => v) (proper false false) false false ltac:(reflexivity) ltac:(intros; apply proper_local; assumption)))
      (step_eq _ _ _ _ (fix_nw v) (form_step (fun _ _ _ _ => v) (proper false true) false true ltac:(reflexivity) ltac:(intros; apply proper_local; assumption)))
      (step_eq _ _ _ _ (fix_se v) (form_step (fun _ _ _ _ => v) (proper true false) true false ltac:(reflexivity) ltac:(intros; apply proper_local; assumption)))
      (step_eq _ _ _ _ (fix_ne v) (form_step (fun _ _ _ _ => v) (proper true true) true true ltac:(reflexivity) ltac:(intros; apply proper_local; assumption))) s) as [M B].
    split; [exact M|]. intros fx fy i j k H. etransitivity; [exact (B fx fy i j k H)|]. unfold when, flag_x, flag_y.
    destruct fx, fy; match goal with |- context [if ?b then _ else _] => destruct b end; try reflexivity; [apply fix_ne|apply fix_se|apply fix_nw|apply fix_sw].
  Qed.
  Theorem adjust_spec s : let r := adjust left right bottom top n0 n1 s in
    (forall i j k, middle i j -> r i j k = s i j k) /\
    (forall fx fy i j k, block fx fy i j = true -> r i j k = when (flag_x fx && flag_y fy) (form (fun s => s) (if negb fx && fy then nw_second else proper fx fy) fx fy) s i j k).
  Proof.
    assert (N : forall s s' d, 0 <= d < 3 -> (forall i' j' k', middle i' j' -> s i' j' k' = s' i' j' k') -> nw_second s d = nw_second s' d) by (intros; apply H2, (middle_i false)).
    destruct (four_steps (left && bottom) (left && top) (right && bottom) (right && top) _ _ _ _
      (step_eq _ _ _ _ adj_sw (form_step (fun s => s) (proper false false) false false ltac:(auto) ltac:(intros; apply proper_local; assumption)))
      (step_eq _ _ _ _ adj_nw (form_step (fun s => s) nw_second false true ltac:(auto) N))
      (step_eq _ _ _ _ adj_se (form_step (fun s => s) (proper true false) true false ltac:(auto) ltac:(intros; apply proper_local; assumption)))
      (step_eq _ _ _ _ adj_ne (form_step (fun s => s) (proper true true) true true ltac:(auto) ltac:(intros; apply proper_local; assumption))) s) as [M B].
    split; [exact M|]. intros fx fy i j k H. etransitivity; [exact (B fx fy i j k H)|]. unfold when, flag_x, flag_y.
    destruct fx, fy; cbn [negb andb]; match goal with |- context [if ?b then _ else _] => destruct b end; try reflexivity; [apply adj_ne|apply adj_se|apply adj_nw|apply adj_sw].
  Qed.
End Steps.

Lemma adjust_ext left right bottom top n0 n1 (s s' : sg) : (forall i j k, s i j k = s' i j k) -> forall i j k, adjust left right bottom top n0 n1 s i j k = adjust left right bottom top n0 n1 s' i j k.
Proof.
  intros H i j k. unfold adjust, when, put. destruct left, right, bottom, top; cbn [andb];
    repeat match goal with |- (if ?b then _ else _) = _ => destruct b end; apply H.
Qed.

Lemma eqb_shift i a : (i + 3 =? a) = (i =? a - 3).
Proof. destruct (Z.eqb_spec (i + 3) a), (Z.eqb_spec i (a - 3)); auto; lia. Qed.

(** ** On the tile *)
(** layouts: up to 2^52 ranks in each direction *)
Definition valid_layout (l : layout) : Prop := 0 < fst l <= 2 ^ 52 /\ 0 < snd l <= 2 ^ 52.
Section Tile.
  Variables (big_number tiny_number : R).
  Variables (l : layout) (rank w h n : Z).
  Hypothesis Hl : valid_layout l.
  Hypothesis Hw : 3 <= w.
  Hypothesis Hh : 3 <= h.
  Hypothesis Nx : n = snd l * w.
  Hypothesis Ny : n = fst l * h.
  Local Notation sub := (subtile_index l rank).
  Local Notation gi := (snd sub * w).
  Local Notation gj := (fst sub * h).
  Local Notation left := (on_tile_left l rank).
  Local Notation right := (on_tile_right l rank).
  Local Notation bottom := (on_tile_bottom l rank).
  Local Notation top := (on_tile_top l rank).
  Local Notation n0 := (w + 6).
  Local Notation n1 := (h + 6).
  (** what the rank holds of something given on the whole tile with its halo *)
  Definition part (B : sg) : sg := fun i j k => B (gi + i - 3) (gj + j - 3) k.
  Definition part2 {T} (B : Z -> Z -> T) : Z -> Z -> T := fun i j => B (gi + i - 3) (gj + j - 3).

  Lemma sub_bounds : 0 <= snd sub < snd l /\ 0 <= fst sub < fst l.
  Proof. pose proof (sub_valid l Hl rank) as [Sy Sx].  lia. Qed.
  Lemma n_pos : 3 <= n.
  Proof. pose proof sub_bounds as [S _]. rewrite Nx. assert (1 * w <= snd l * w) by (apply Z.mul_le_mono_nonneg_r; lia). lia. Qed.
  Lemma inside_in high : 0 <= inside_at n high < n.
  Proof. pose proof n_pos. unfold inside_at. destruct high; lia. Qed.
  Lemma not_last s m x : s <> m - 1 -> 0 <= s < m -> 3 <= x -> s * x + x <= m * x - x.
  Proof. intros. assert (s * x <= (m - 2) * x) by (apply Z.mul_le_mono_nonneg_r; lia). lia. Qed.
  Lemma not_first s x : s <> 0 -> 0 <= s -> 3 <= x -> x <= s * x.
  Proof. intros. assert (1 * x <= s * x) by (apply Z.mul_le_mono_nonneg_r; lia). lia. Qed.
  Lemma loc_x i fx d : 0 <= i < w + 6 -> 0 <= d < 3 -> (gi + i - 3 = outside_at n fx d <-> flag_x left right fx = true /\ i = out_i n0 fx d).
  Proof.
    intros Hi Hd. pose proof sub_bounds as [S _]. unfold outside_at, flag_x, out_i, on_tile_left, on_tile_right.  rewrite Nx.
    destruct fx; rewrite Z.eqb_eq; (split; [intros E|intros [E ->]]).
    - destruct (Z.eq_dec (snd sub) (snd l - 1)) as [F|F]; [rewrite F in *; split; [reflexivity|lia]|]. pose proof (not_last _ _ w F S Hw). lia.
    - rewrite E. lia.
    - destruct (Z.eq_dec (snd sub) 0) as [F|F]; [rewrite F in *; split; [reflexivity|lia]|]. pose proof (not_first _ w F (proj1 S) Hw). lia.
    - rewrite E. lia.
  Qed.
  Lemma loc_y j fy e : 0 <= j < h + 6 -> 0 <= e < 3 -> (gj + j - 3 = outside_at n fy e <-> flag_y bottom top fy = true /\ j = out_j n1 fy e).
  Proof.
    intros Hi Hd. pose proof sub_bounds as [_ S]. unfold outside_at, flag_y, out_j, on_tile_bottom, on_tile_top.  rewrite Ny.
    destruct fy; rewrite Z.eqb_eq; (split; [intros E|intros [E ->]]).
    - destruct (Z.eq_dec (fst sub) (fst l - 1)) as [F|F]; [rewrite F in *; split; [reflexivity|lia]|]. pose proof (not_last _ _ h F S Hh). lia.
    - rewrite E. lia.
    - destruct (Z.eq_dec (fst sub) 0) as [F|F]; [rewrite F in *; split; [reflexivity|lia]|]. pose proof (not_first _ h F (proj1 S) Hh). lia.
    - rewrite E. lia.
  Qed.
  Lemma out_dist_i fx d : dist_i n0 fx (out_i n0 fx d) = d. Proof. unfold dist_i, out_i. destruct fx; lia. Qed.
  Lemma out_dist_j fy e : dist_j n1 fy (out_j n1 fy e) = e. Proof. unfold dist_j, out_j. destruct fy; lia. Qed.
  Lemma out_block fx fy d e : 0 <= d < 3 -> 0 <= e < 3 -> block n0 n1 fx fy (out_i n0 fx d) (out_j n1 fy e) = true.
  Proof. intros. unfold block, out_i, out_j, high, low. destruct fx, fy; rewrite !andb_true_iff, !Z.leb_le, !Z.ltb_lt; lia. Qed.
  Lemma in_loc_i fx : flag_x left right fx = true -> gi + in_i n0 fx - 3 = inside_at n fx.
  Proof.
    unfold flag_x, in_i, inside_at, on_tile_left, on_tile_right.  rewrite Nx.
    destruct fx; rewrite Z.eqb_eq; intros E; rewrite E; lia.
  Qed.
  Lemma in_loc_j fy : flag_y bottom top fy = true -> gj + in_j n1 fy - 3 = inside_at n fy.
  Proof.
    unfold flag_y, in_j, inside_at, on_tile_bottom, on_tile_top.  rewrite Ny.
    destruct fy; rewrite Z.eqb_eq; intros E; rewrite E; lia.
  Qed.
  Lemma in_range_i fx d : 0 <= d < 3 -> 0 <= out_i n0 fx d < w + 6. Proof. unfold out_i. destruct fx; lia. Qed.
  Lemma in_range_j fy e : 0 <= e < 3 -> 0 <= out_j n1 fy e < h + 6. Proof. unfold out_j. destruct fy; lia. Qed.

  (** A value x at cell (I, J) and point k of a field B on the tile, after the corners beyond the tile have been filled with v: inside the tile and
      beyond its edges it is B's; beyond a corner it is v, but on the two rows of sides that face a neighbour's extension of the tile it is what that
      neighbour has on its side of the same edge: the edge that leaves the corner between the two neighbours is the same for both. *)
  Definition folded (B : sg) (v : R) (I J k : Z) (x : R) : Prop :=
    (0 <= I < n \/ 0 <= J < n -> x = B I J k) /\
    (forall east north d e, 0 <= d < 3 -> 0 <= e < 3 -> I = outside_at n east d -> J = outside_at n north e ->
      x = if (k =? inward_x east) && (d =? 0) then B (outside_at n east e) (inside_at n north) (outward_y north)
          else if (k =? inward_y north) && (e =? 0) then B (inside_at n east) (outside_at n north d) (outward_x east)
          else v).

  Lemma middle_or i j : middle n0 n1 i j \/ exists fx fy, block n0 n1 fx fy i j = true.
  Proof.
    destruct (block n0 n1 false false i j) eqn:E1; [right; eauto|]. destruct (block n0 n1 false true i j) eqn:E2; [right; eauto|].
    destruct (block n0 n1 true false i j) eqn:E3; [right; eauto|]. destruct (block n0 n1 true true i j) eqn:E4; [right; eauto|].
    left. intros [] []; assumption.
  Qed.
  Lemma outside_not high d : 0 <= d -> ~ 0 <= outside_at n high d < n. Proof. unfold outside_at. destruct high; lia. Qed.

  (** any array that agrees with the part of B except in the corners beyond the tile *)
  Lemma fix_folded B v s : (forall i j k, 0 <= i < w + 6 -> 0 <= j < h + 6 -> 0 <= gi + i - 3 < n \/ 0 <= gj + j - 3 < n -> s i j k = part B i j k) ->
    forall i j k, 0 <= i < w + 6 -> 0 <= j < h + 6 -> folded B v (gi + i - 3) (gj + j - 3) k (corner_fix left right bottom top n0 n1 v s i j k).
  Proof.
    intros Hs i j k Hi Hj. assert (N0 : 7 <= n0) by lia. assert (N1 : 7 <= n1) by lia.
    destruct (corner_fix_spec n0 n1 N0 N1 left right bottom top v s) as [M Bl]. split.
    - intros In. change (corner_fix left right bottom top n0 n1 v s i j k = part B i j k). rewrite <- (Hs i j k Hi Hj In). destruct (middle_or i j) as [Q|(fx & fy & Q)]; [apply M, Q|]. rewrite (Bl fx fy i j k Q). unfold when.
      destruct (flag_x left right fx && flag_y bottom top fy) eqn:F; [|reflexivity]. exfalso. apply andb_true_iff in F. destruct F as [Fx Fy].
      destruct (block_at n0 n1 fx fy i j Q) as (d & e & Hd & He & Ei & Ej).
      pose proof (proj2 (loc_x i fx d Hi Hd) (conj Fx Ei)) as Lx. pose proof (proj2 (loc_y j fy e Hj He) (conj Fy Ej)) as Ly. rewrite Lx, Ly in In.
      destruct In as [In|In]; [apply (outside_not fx d) in In|apply (outside_not fy e) in In]; lia.
    - intros fx fy d e Hd He Lx Ly. apply (loc_x i fx d Hi Hd) in Lx. apply (loc_y j fy e Hj He) in Ly. destruct Lx as [Fx ->], Ly as [Fy ->].
      rewrite (Bl fx fy _ _ k (out_block fx fy d e Hd He)). unfold when. rewrite Fx, Fy. cbn [andb]. unfold form. rewrite (out_block fx fy d e Hd He), out_dist_i, out_dist_j.
      destruct ((k =? inward_x fx) && (d =? 0)).
      + pose proof (proj2 (loc_x (out_i n0 fx e) fx e (in_range_i fx e He) He) (conj Fx eq_refl)) as L.
        assert (Q : 0 <= in_j n1 fy < h + 6) by (unfold in_j; destruct fy; clear - Hh; lia).
        rewrite Hs; [|apply in_range_i, He|exact Q|right; rewrite (in_loc_j fy Fy); apply inside_in].
        unfold part. rewrite L, (in_loc_j fy Fy). reflexivity.
      + destruct ((k =? inward_y fy) && (e =? 0)); [|reflexivity]. unfold proper.
        pose proof (proj2 (loc_y (out_j n1 fy d) fy d (in_range_j fy d Hd) Hd) (conj Fy eq_refl)) as L.
        assert (Q : 0 <= in_i n0 fx < w + 6) by (unfold in_i; destruct fx; clear - Hw; lia).
        rewrite Hs; [|exact Q|apply in_range_j, Hd|left; rewrite (in_loc_i fx Fx); apply inside_in].
        unfold part. rewrite L, (in_loc_i fx Fx). reflexivity.
  Qed.

  (** ** The tile: corners D, centres A, unit vectors EC1, EC2 of the cells *)
  Variables D A EC1 EC2 : Z -> Z -> vec.
  Definition COS : sg := fun I J k => snap (raw_cos D A EC1 EC2 I J k).
  Definition SIN : sg := fun I J k => sine (COS I J k).
  (** what the rank computes from its part *)
  Definition computed := cell_trigonometry big_number tiny_number left right bottom top n0 n1 (part2 D) (part2 A) (part2 EC1) (part2 EC2).

  Lemma raw_part i j k : snap (raw_cos (part2 D) (part2 A) (part2 EC1) (part2 EC2) i j k) = part COS i j k.
  Proof.
    unfold part, COS, raw_cos, part2. replace (gi + (i + 1) - 3) with (gi + i - 3 + 1) by lia. replace (gj + (j + 1) - 3) with (gj + j - 3 + 1) by lia. reflexivity.
  Qed.
  (** nothing changes but beyond the corners *)
  Lemma away (r s : sg) i j k : (middle n0 n1 i j -> r i j k = s i j k) ->
    (forall fx fy, block n0 n1 fx fy i j = true -> flag_x left right fx && flag_y bottom top fy = false -> r i j k = s i j k) ->
    0 <= i < w + 6 -> 0 <= j < h + 6 -> 0 <= gi + i - 3 < n \/ 0 <= gj + j - 3 < n -> r i j k = s i j k.
  Proof.
    intros M Bl Hi Hj In. destruct (middle_or i j) as [Q|(fx & fy & Q)]; [apply M, Q|]. apply (Bl fx fy Q).
    destruct (flag_x left right fx && flag_y bottom top fy) eqn:F; [|reflexivity]. exfalso. apply andb_true_iff in F. destruct F as [Fx Fy].
    destruct (block_at n0 n1 fx fy i j Q) as (d & e & Hd & He & Ei & Ej).
    pose proof (proj2 (loc_x i fx d Hi Hd) (conj Fx Ei)) as Lx. pose proof (proj2 (loc_y j fy e Hj He) (conj Fy Ej)) as Ly. rewrite Lx, Ly in In.
    destruct In as [In|In]; [apply (outside_not fx d) in In|apply (outside_not fy e) in In]; lia.
  Qed.
  Lemma adjust_away s i j k : 0 <= i < w + 6 -> 0 <= j < h + 6 -> 0 <= gi + i - 3 < n \/ 0 <= gj + j - 3 < n -> adjust left right bottom top n0 n1 s i j k = s i j k.
  Proof.
    intros Hi Hj In. assert (N0 : 7 <= n0) by lia. assert (N1 : 7 <= n1) by lia.
    destruct (adjust_spec n0 n1 N0 N1 left right bottom top s) as [M Bl]. apply away; auto.
    intros fx fy Q F. rewrite (Bl fx fy i j k Q), F. reflexivity.
  Qed.
  Lemma fill_block v k0 s i j k fx fy : block n0 n1 fx fy i j = true -> fill_corners left right bottom top n0 n1 v k0 s i j k = if (k =? k0) && (flag_x left right fx && flag_y bottom top fy) then v else s i j k.
  Proof.
    intros B. unfold fill_corners, put. f_equal. f_equal. unfold flag_x, flag_y.
    assert (N0 : 7 <= n0) by lia. assert (N1 : 7 <= n1) by lia.
    assert (W : forall gx gy, (gx, gy) <> (fx, fy) -> block n0 n1 gx gy i j = false) by (intros; eapply block_one; eauto).
    pose proof (W false false) as W1. pose proof (W false true) as W2. pose proof (W true false) as W3. pose proof (W true true) as W4. unfold block in B, W1, W2, W3, W4.
    destruct fx, fy; rewrite B; try rewrite W1 by congruence; try rewrite W2 by congruence; try rewrite W3 by congruence; try rewrite W4 by congruence;
      destruct left, right, bottom, top; reflexivity.
  Qed.
  Lemma fill_middle v k0 s i j k : middle n0 n1 i j -> fill_corners left right bottom top n0 n1 v k0 s i j k = s i j k.
  Proof.
    intros M. unfold fill_corners, put. pose proof (M false false) as W1. pose proof (M false true) as W2. pose proof (M true false) as W3. pose proof (M true true) as W4.
    unfold block in W1, W2, W3, W4. rewrite W1, W2, W3, W4. rewrite !andb_false_r. reflexivity.
  Qed.
  Lemma fill_away v k0 s i j k : 0 <= i < w + 6 -> 0 <= j < h + 6 -> 0 <= gi + i - 3 < n \/ 0 <= gj + j - 3 < n -> fill_corners left right bottom top n0 n1 v k0 s i j k = s i j k.
  Proof.
    intros Hi Hj In. apply away; auto; [apply fill_middle|]. intros fx fy Q F. rewrite (fill_block _ _ _ _ _ _ _ _ Q), F, andb_false_r. reflexivity.
  Qed.

  (** C84: the cosines and sines a rank is left with are those of the tile, whatever the layout, and beyond the corners of the tile the two rows of
      sides that look onto the tile carry the neighbours' values *)
  Theorem C84_supergrid i j k : 0 <= i < w + 6 -> 0 <= j < h + 6 ->
    let '(_, (cos_sg, sin_sg)) := computed in let I := gi + i - 3 in let J := gj + j - 3 in
    folded COS big_number I J k (cos_sg i j k) /\ folded SIN tiny_number I J k (sin_sg i j k).
  Proof.
    intros Hi Hj. unfold computed, cell_trigonometry, calculate_supergrid_cos_sin, supergrid_corner_fix. cbv zeta beta iota. split.
    - unfold calculate_trig_uv. cbn [cos_sg_after]. apply fix_folded; [|exact Hi|exact Hj].
      intros i' j' k' Hi' Hj' In. rewrite fill_away by assumption. apply raw_part.
    - apply fix_folded; [|exact Hi|exact Hj]. intros i' j' k' Hi' Hj' In. rewrite adjust_away by assumption. rewrite raw_part. reflexivity.
  Qed.

  (** ** C85.  What calculate_trig_uv sees beyond a corner: the sides that look onto the tile have the neighbours' values, but for two of the six cells at
      the north-west corner; the cosines have not been touched yet. *)
  Definition beyond_tile (I : Z) : option (bool * Z) := if I <? 0 then Some (false, -1 - I) else if n <=? I then Some (true, I - n) else None.
  Definition seen (B : sg) (I J k : Z) : R :=
    match beyond_tile I, beyond_tile J with
    | Some (east, d), Some (north, e) =>
        if (k =? inward_x east) && (d =? 0) then B (outside_at n east e) (inside_at n north) (outward_y north)
        else if (k =? inward_y north) && (e =? 0) then
          if negb east && north then B 0 (n - d) 0 else B (inside_at n east) (outside_at n north d) (outward_x east)
        else B I J k
    | _, _ => B I J k
    end.
  Lemma beyond_none I : beyond_tile I = None -> 0 <= I < n.
  Proof. unfold beyond_tile. destruct (Z.ltb_spec I 0); [discriminate|]. destruct (Z.leb_spec n I); [discriminate|]. lia. Qed.
  Lemma beyond_some I east d : beyond_tile I = Some (east, d) -> 0 <= d /\ I = outside_at n east d.
  Proof. unfold beyond_tile, outside_at. destruct (Z.ltb_spec I 0); [intros E; assert (east = false) as -> by congruence; assert (d = -1 - I) as -> by congruence; lia|]. destruct (Z.leb_spec n I); [intros E; assert (east = true) as -> by congruence; assert (d = I - n) as -> by congruence; lia|discriminate]. Qed.
  Lemma beyond_outside east d : 0 <= d -> beyond_tile (outside_at n east d) = Some (east, d).
  Proof.
    intros. pose proof n_pos. unfold beyond_tile, outside_at. destruct east.
    - destruct (Z.ltb_spec (n + d) 0); [lia|]. destruct (Z.leb_spec n (n + d)); [|lia]. repeat f_equal. lia.
    - destruct (Z.ltb_spec (-1 - d) 0); [|lia]. repeat f_equal. lia.
  Qed.
  Lemma outside_near i east d : 0 <= i < w + 6 -> 0 <= d -> gi + i - 3 = outside_at n east d -> d < 3.
  Proof.
    intros Hi Hd E. pose proof sub_bounds as [S _]. unfold outside_at in E. destruct east.
    - assert (snd sub * w <= (snd l - 1) * w) by (apply Z.mul_le_mono_nonneg_r; lia). rewrite Nx in E. lia.
    - assert (0 * w <= snd sub * w) by (apply Z.mul_le_mono_nonneg_r; lia). lia.
  Qed.
  Lemma outside_near_j j north e : 0 <= j < h + 6 -> 0 <= e -> gj + j - 3 = outside_at n north e -> e < 3.
  Proof.
    intros Hi Hd E. pose proof sub_bounds as [_ S]. unfold outside_at in E. destruct north.
    - assert (fst sub * h <= (fst l - 1) * h) by (apply Z.mul_le_mono_nonneg_r; lia). rewrite Ny in E. lia.
    - assert (0 * h <= fst sub * h) by (apply Z.mul_le_mono_nonneg_r; lia). lia.
  Qed.
  Lemma seen_ok i j k : 0 <= i < w + 6 -> 0 <= j < h + 6 -> adjust left right bottom top n0 n1 (part SIN) i j k = seen SIN (gi + i - 3) (gj + j - 3) k.
  Proof.
    intros Hi Hj. unfold seen. destruct (beyond_tile (gi + i - 3)) as [[fx d]|] eqn:Ex; [|apply beyond_none in Ex; exact (adjust_away (part SIN) i j k Hi Hj (or_introl Ex))].
    destruct (beyond_tile (gj + j - 3)) as [[fy e]|] eqn:Ey; [|apply beyond_none in Ey; exact (adjust_away (part SIN) i j k Hi Hj (or_intror Ey))].
    apply beyond_some in Ex, Ey. destruct Ex as [Hd Lx], Ey as [He Ly]. pose proof (outside_near i fx d Hi Hd Lx) as Hd'. pose proof (outside_near_j j fy e Hj He Ly) as He'.
    rewrite Lx, Ly. apply (loc_x i fx d Hi (conj Hd Hd')) in Lx. apply (loc_y j fy e Hj (conj He He')) in Ly. destruct Lx as [Fx ->], Ly as [Fy ->].
    assert (N0 : 7 <= n0) by lia. assert (N1 : 7 <= n1) by lia. pose proof (out_block fx fy d e (conj Hd Hd') (conj He He')) as Q.
    destruct (adjust_spec n0 n1 N0 N1 left right bottom top (part SIN)) as [_ Bl]. rewrite (Bl fx fy _ _ k Q), Fx, Fy. cbn [andb when]. unfold form. rewrite Q, out_dist_i, out_dist_j.
    assert (Lx : forall d, 0 <= d < 3 -> gi + out_i n0 fx d - 3 = outside_at n fx d) by (intros d' Hd''; apply (loc_x _ fx d' (in_range_i fx d' Hd'') Hd''); auto).
    assert (Ly : forall e, 0 <= e < 3 -> gj + out_j n1 fy e - 3 = outside_at n fy e) by (intros e' He''; apply (loc_y _ fy e' (in_range_j fy e' He'') He''); auto).
    destruct ((k =? inward_x fx) && (d =? 0)); [unfold part; rewrite (Lx e), (in_loc_j fy Fy) by auto; reflexivity|].
    destruct ((k =? inward_y fy) && (e =? 0)); [|unfold part; rewrite (Lx d), (Ly e) by auto; reflexivity].
    destruct (negb fx && fy) eqn:NW.
    - apply andb_true_iff in NW. destruct NW as [NX NY]. apply negb_true_iff in NX. subst fx fy. unfold nw_second, part.
      pose proof (in_loc_i false Fx) as L. unfold in_i, inside_at in L. rewrite L. pose proof (Ly 0 ltac:(lia)) as L'. unfold out_j, outside_at in L'. f_equal. lia.
    - unfold proper, part. rewrite (Ly d), (in_loc_i fx Fx) by auto. reflexivity.
  Qed.

  (** C85: at a tile's edge a sine is kept away from 0 *)
  Definition kept_away (x y : R) : Prop :=
    (tiny_number <= Rabs x -> y = x)%R /\ (0 < x < tiny_number -> y = tiny_number)%R /\ (- tiny_number < x < 0 -> y = - tiny_number)%R /\ (x = 0 -> y = 0)%R.
  Lemma limit_ok x : (0 < tiny_number)%R -> kept_away x (limit tiny_number x).
  Proof.
    intros T. unfold kept_away, limit, sign. repeat split; intros H; destruct (Rlt_dec (Rabs x) tiny_number) as [L|L]; try lra.
    - destruct (Rlt_dec x 0); [lra|]. destruct (Rlt_dec 0 x); lra.
    - rewrite Rabs_right in L; lra.
    - destruct (Rlt_dec x 0); [|lra]. lra.
    - rewrite Rabs_left in L; lra.
    - destruct (Rlt_dec x 0); [lra|]. destruct (Rlt_dec 0 x); lra.
  Qed.
  Lemma half_ok x y : half_sum x y = ((x + y) / 2)%R. Proof. unfold half_sum. replace 0.5%R with (1 / 2)%R by lra. lra. Qed.
  Lemma tiny_ok x : at_least_tiny tiny_number x = Rmax x tiny_number.
  Proof. unfold at_least_tiny, Rmax. destruct (Rlt_dec x tiny_number), (Rle_dec x tiny_number); lra. Qed.

  Lemma west_edge i : 1 <= i < w + 6 -> (gi + i - 3 = 0 <-> left && (i =? 3) = true).
  Proof.
    intros Hi. pose proof sub_bounds as [S _]. unfold on_tile_left. rewrite andb_true_iff, !Z.eqb_eq. split.
    - intros E. destruct (Z.eq_dec (snd sub) 0) as [F|F]; [rewrite F in *; lia|]. pose proof (not_first _ w F (proj1 S) Hw). lia.
    - intros [F ->]. rewrite F. lia.
  Qed.
  Lemma east_edge i : 1 <= i < w + 6 -> (gi + i - 3 = n <-> right && (i =? n0 + 1 - 4) = true).
  Proof.
    intros Hi. pose proof sub_bounds as [S _]. unfold on_tile_right. rewrite andb_true_iff, !Z.eqb_eq, Nx. split.
    - intros E. destruct (Z.eq_dec (snd sub) (snd l - 1)) as [F|F]; [rewrite F in *; lia|]. pose proof (not_last _ _ w F S Hw). lia.
    - intros [F ->]. rewrite F. lia.
  Qed.
  Lemma south_edge j : 1 <= j < h + 6 -> (gj + j - 3 = 0 <-> bottom && (j =? 3) = true).
  Proof.
    intros Hi. pose proof sub_bounds as [_ S]. unfold on_tile_bottom. rewrite andb_true_iff, !Z.eqb_eq. split.
    - intros E. destruct (Z.eq_dec (fst sub) 0) as [F|F]; [rewrite F in *; lia|]. pose proof (not_first _ h F (proj1 S) Hh). lia.
    - intros [F ->]. rewrite F. lia.
  Qed.
  Lemma north_edge j : 1 <= j < h + 6 -> (gj + j - 3 = n <-> top && (j =? n1 + 1 - 4) = true).
  Proof.
    intros Hi. pose proof sub_bounds as [_ S]. unfold on_tile_top. rewrite andb_true_iff, !Z.eqb_eq, Ny. split.
    - intros E. destruct (Z.eq_dec (fst sub) (fst l - 1)) as [F|F]; [rewrite F in *; lia|]. pose proof (not_last _ _ h F S Hh). lia.
    - intros [F ->]. rewrite F. lia.
  Qed.

  Local Notation t := (fst computed).
  Lemma seen_in B I J k : 0 <= I < n \/ 0 <= J < n -> seen B I J k = B I J k.
  Proof.
    intros H. unfold seen. destruct (beyond_tile I) as [[fx d]|] eqn:Ex; [|reflexivity]. destruct (beyond_tile J) as [[fy e]|] eqn:Ey; [|reflexivity].
    apply beyond_some in Ex, Ey. destruct Ex as [Hd ->], Ey as [He ->]. exfalso. destruct H as [H|H]; [apply (outside_not fx d) in H|apply (outside_not fy e) in H]; lia.
  Qed.
  Lemma seen_other B I J k : 3 < k -> seen B I J k = B I J k.
  Proof.
    intros H. unfold seen. destruct (beyond_tile I) as [[fx d]|]; [|reflexivity]. destruct (beyond_tile J) as [[fy e]|]; [|reflexivity].
    assert ((k =? inward_x fx) = false) as -> by (apply Z.eqb_neq; unfold inward_x; destruct fx; lia).
    assert ((k =? inward_y fy) = false) as -> by (apply Z.eqb_neq; unfold inward_y; destruct fy; lia). reflexivity.
  Qed.
  Lemma sin_seen i j k : 0 <= i < w + 6 -> 0 <= j < h + 6 ->
    adjust left right bottom top n0 n1 (fun i j k => sine (snap (raw_cos (part2 D) (part2 A) (part2 EC1) (part2 EC2) i j k))) i j k = seen SIN (gi + i - 3) (gj + j - 3) k.
  Proof.
    intros Hi Hj. rewrite <- seen_ok by assumption. apply adjust_ext. intros. rewrite raw_part. reflexivity.
  Qed.
  Definition at_edge (I : Z) : bool := (I =? 0) || (I =? n).
  Lemma edge_x i : 1 <= i < w + 6 -> at_edge (gi + i - 3) = (left && (i =? 3)) || (right && (i =? n0 + 1 - 4)).
  Proof.
    intros Hi. pose proof (west_edge i Hi). pose proof (east_edge i Hi). unfold at_edge.
    destruct (left && (i =? 3)), (right && (i =? n0 + 1 - 4)); destruct (Z.eqb_spec (gi + i - 3) 0), (Z.eqb_spec (gi + i - 3) n); cbn [orb]; try reflexivity; intuition congruence.
  Qed.
  Lemma edge_y j : 1 <= j < h + 6 -> at_edge (gj + j - 3) = (bottom && (j =? 3)) || (top && (j =? n1 + 1 - 4)).
  Proof.
    intros Hi. pose proof (south_edge j Hi). pose proof (north_edge j Hi). unfold at_edge.
    destruct (bottom && (j =? 3)), (top && (j =? n1 + 1 - 4)); destruct (Z.eqb_spec (gj + j - 3) 0), (Z.eqb_spec (gj + j - 3) n); cbn [orb]; try reflexivity; intuition congruence.
  Qed.
  Lemma limit_once b1 b2 x : (b1 = true -> b2 = true -> False) ->
    (if b2 then limit tiny_number (if b1 then limit tiny_number x else x) else if b1 then limit tiny_number x else x) = if b1 || b2 then limit tiny_number x else x.
  Proof. destruct b1, b2; intros H; try reflexivity. destruct H; reflexivity. Qed.

  (** the mean of the two sides that meet at an edge between cells *)
  Definition mean_u (B : sg) (I J : Z) : R := ((B (I - 1)%Z J 2%Z + B I J 0%Z) / 2)%R.
  Definition mean_v (B : sg) (I J : Z) : R := ((B I (J - 1)%Z 3%Z + B I J 1%Z) / 2)%R.
  Definition mean_c (B : sg) (I J : Z) : R := ((B (I - 1)%Z (J - 1)%Z 7%Z + B I J 5%Z) / 2)%R.
  Lemma in_true a b x : a <= x < b -> (a <=? x) && (x <? b) = true.
  Proof. intros. rewrite andb_true_iff, Z.leb_le, Z.ltb_lt. lia. Qed.
  Lemma inner_true i j : 3 <= i <= w + 3 -> 3 <= j <= h + 3 -> (3 <=? i) && (i <? n0 + 1 - 3) && (3 <=? j) && (j <? n1 + 1 - 3) = true.
  Proof. intros. rewrite !andb_true_iff, !Z.leb_le, !Z.ltb_lt. lia. Qed.

  Theorem C85_cosines :
    (forall i j, 1 <= i < w + 6 -> 0 <= j < h + 6 -> cosa_u t i j = mean_u COS (gi + i - 3) (gj + j - 3)) /\
    (forall i j, 0 <= i < w + 6 -> 1 <= j < h + 6 -> cosa_v t i j = mean_v COS (gi + i - 3) (gj + j - 3)) /\
    (forall i j, 3 <= i <= w + 3 -> 3 <= j <= h + 3 -> cosa t i j = mean_c COS (gi + i - 3) (gj + j - 3)) /\
    (forall i j, 0 <= i < w + 6 -> 0 <= j < h + 6 -> let I := gi + i - 3 in let J := gj + j - 3 in
      (0 <= I < n \/ 0 <= J < n -> cosa_s t i j = COS I J 4) /\ (~ 0 <= I < n /\ ~ 0 <= J < n -> cosa_s t i j = big_number)).
  Proof.
    unfold computed, cell_trigonometry, calculate_supergrid_cos_sin. cbv zeta beta iota. unfold calculate_trig_uv. cbn [fst cosa_u cosa_v cosa cosa_s].
    unfold mean_u, mean_v, mean_c. repeat split; intros.
    - rewrite in_true by lia. rewrite half_ok, !raw_part. unfold part. replace (gi + (i - 1) - 3) with (gi + i - 3 - 1) by lia. reflexivity.
    - rewrite in_true by lia. rewrite half_ok, !raw_part. unfold part. replace (gj + (j - 1) - 3) with (gj + j - 3 - 1) by lia. reflexivity.
    - rewrite inner_true by assumption. rewrite half_ok, !raw_part. unfold part. replace (gj + (j - 1) - 3) with (gj + j - 3 - 1) by lia. replace (gi + (i - 1) - 3) with (gi + i - 3 - 1) by lia. reflexivity.
    - rewrite fill_away by assumption. apply raw_part.
    - destruct (beyond_tile (gi + i - 3)) as [[fx d]|] eqn:Ex; [|apply beyond_none in Ex; tauto]. destruct (beyond_tile (gj + j - 3)) as [[fy e]|] eqn:Ey; [|apply beyond_none in Ey; tauto].
      apply beyond_some in Ex, Ey. destruct Ex as [Hd Lx], Ey as [He Ly]. pose proof (outside_near i fx d H Hd Lx) as Hd'. pose proof (outside_near_j j fy e H0 He Ly) as He'.
      apply (loc_x i fx d H (conj Hd Hd')) in Lx. apply (loc_y j fy e H0 (conj He He')) in Ly. destruct Lx as [Fx ->], Ly as [Fy ->].
      rewrite (fill_block _ _ _ _ _ _ fx fy) by (apply out_block; auto). rewrite Fx, Fy. reflexivity.
  Qed.
  Lemma u_eq i j : 1 <= i < w + 6 -> 0 <= j < h + 6 -> let I := gi + i - 3 in let J := gj + j - 3 in
    sina_u t i j = (if at_edge I then limit tiny_number (mean_u (seen SIN) I J) else mean_u (seen SIN) I J) /\
    rsin_u t i j = (if at_edge I then 1 / sina_u t i j else 1 / Rmax (mean_u (seen SIN) I J ^ 2) tiny_number)%R.
  Proof.
    intros Hi Hj I J. pose proof (edge_x i Hi) as E. fold I in E.
    assert (Nb : left && (i =? 3) = true -> right && (i =? n0 + 1 - 4) = true -> False) by (intros L R; apply andb_true_iff in L, R; rewrite !Z.eqb_eq in *; lia).
    assert (M : half_sum (adjust left right bottom top n0 n1 (fun i j k => sine (snap (raw_cos (part2 D) (part2 A) (part2 EC1) (part2 EC2) i j k))) (i - 1) j 2)
      (adjust left right bottom top n0 n1 (fun i j k => sine (snap (raw_cos (part2 D) (part2 A) (part2 EC1) (part2 EC2) i j k))) i j 0) = mean_u (seen SIN) I J).
    { rewrite half_ok, !sin_seen by lia. unfold mean_u, I, J. replace (gi + (i - 1) - 3) with (gi + i - 3 - 1) by lia. reflexivity. }
    unfold computed, cell_trigonometry, calculate_supergrid_cos_sin. cbv zeta beta iota. unfold calculate_trig_uv. cbn [fst sina_u rsin_u].
    rewrite in_true by lia. rewrite M, tiny_ok, E. split; [apply limit_once, Nb|]. rewrite (limit_once _ _ _ Nb).
    destruct (left && (i =? 3)), (right && (i =? n0 + 1 - 4)); cbn [orb]; try reflexivity. 
  Qed.
  Lemma v_eq i j : 0 <= i < w + 6 -> 1 <= j < h + 6 -> let I := gi + i - 3 in let J := gj + j - 3 in
    sina_v t i j = (if at_edge J then limit tiny_number (mean_v (seen SIN) I J) else mean_v (seen SIN) I J) /\
    rsin_v t i j = (if at_edge J then 1 / sina_v t i j else 1 / Rmax (mean_v (seen SIN) I J ^ 2) tiny_number)%R.
  Proof.
    intros Hi Hj I J. pose proof (edge_y j Hj) as E. fold J in E.
    assert (Nb : bottom && (j =? 3) = true -> top && (j =? n1 + 1 - 4) = true -> False) by (intros L R; apply andb_true_iff in L, R; rewrite !Z.eqb_eq in *; lia).
    assert (M : half_sum (adjust left right bottom top n0 n1 (fun i j k => sine (snap (raw_cos (part2 D) (part2 A) (part2 EC1) (part2 EC2) i j k))) i (j - 1) 3)
      (adjust left right bottom top n0 n1 (fun i j k => sine (snap (raw_cos (part2 D) (part2 A) (part2 EC1) (part2 EC2) i j k))) i j 1) = mean_v (seen SIN) I J).
    { rewrite half_ok, !sin_seen by lia. unfold mean_v, I, J. replace (gj + (j - 1) - 3) with (gj + j - 3 - 1) by lia. reflexivity. }
    unfold computed, cell_trigonometry, calculate_supergrid_cos_sin. cbv zeta beta iota. unfold calculate_trig_uv. cbn [fst sina_v rsin_v].
    rewrite in_true by lia. rewrite M, tiny_ok, E. split; [apply limit_once, Nb|]. rewrite (limit_once _ _ _ Nb).
    destruct (bottom && (j =? 3)), (top && (j =? n1 + 1 - 4)); cbn [orb]; reflexivity.
  Qed.

  (** C85: the sine of an edge between two cells is the mean of the two sides, and its inverse belongs to it: 1 / sine on the edges of the tile, 1 / sine^2
      elsewhere *)
  Theorem C85_sines_partial : (0 < tiny_number)%R ->
    (forall i j, 1 <= i < w + 6 -> 0 <= j < h + 6 -> let I := gi + i - 3 in let J := gj + j - 3 in
      if (I =? 0) || (I =? n) then kept_away (mean_u (seen SIN) I J) (sina_u t i j) /\ rsin_u t i j = (1 / sina_u t i j)%R
      else sina_u t i j = mean_u (seen SIN) I J /\ rsin_u t i j = (1 / Rmax (sina_u t i j ^ 2) tiny_number)%R) /\
    (forall i j, 0 <= i < w + 6 -> 1 <= j < h + 6 -> let I := gi + i - 3 in let J := gj + j - 3 in
      if (J =? 0) || (J =? n) then kept_away (mean_v (seen SIN) I J) (sina_v t i j) /\ rsin_v t i j = (1 / sina_v t i j)%R
      else sina_v t i j = mean_v (seen SIN) I J /\ rsin_v t i j = (1 / Rmax (sina_v t i j ^ 2) tiny_number)%R).
  Proof.
    intros T. split; intros i j Hi Hj I J.
    - destruct (u_eq i j Hi Hj) as [S R]. fold I J in S, R. unfold at_edge in S, R. destruct ((I =? 0) || (I =? n)); [rewrite R, S; split; [apply limit_ok, T|reflexivity]|]. rewrite R, S. split; reflexivity.
    - destruct (v_eq i j Hi Hj) as [S R]. fold I J in S, R. unfold at_edge in S, R. destruct ((J =? 0) || (J =? n)); [rewrite R, S; split; [apply limit_ok, T|reflexivity]|]. rewrite R, S. split; reflexivity.
  Qed.
  (** C85: at corners and centres *)
  Theorem C85_corners :
    (forall i j, 3 <= i <= w + 3 -> 3 <= j <= h + 3 -> sina t i j = mean_c SIN (gi + i - 3) (gj + j - 3)) /\
    (forall i j, 0 <= i <= w -> 0 <= j <= h -> let I := gi + i in let J := gj + j in
      rsina t i j = if (I =? 0) || (I =? n) || (J =? 0) || (J =? n) then big_number else (1 / Rmax (mean_c SIN I J ^ 2) tiny_number)%R) /\
    (forall i j, 0 <= i < w + 6 -> 0 <= j < h + 6 -> rsin2 t i j = (1 / Rmax (SIN (gi + i - 3)%Z (gj + j - 3)%Z 4%Z ^ 2) tiny_number)%R).
  Proof.
    assert (S : forall i j, 3 <= i <= w + 3 -> 3 <= j <= h + 3 -> half_sum (adjust left right bottom top n0 n1 (fun i j k => sine (snap (raw_cos (part2 D) (part2 A) (part2 EC1) (part2 EC2) i j k))) (i - 1) (j - 1) 7)
      (adjust left right bottom top n0 n1 (fun i j k => sine (snap (raw_cos (part2 D) (part2 A) (part2 EC1) (part2 EC2) i j k))) i j 5) = mean_c SIN (gi + i - 3) (gj + j - 3)).
    { intros. rewrite half_ok, !sin_seen, !seen_other by lia. unfold mean_c. replace (gi + (i - 1) - 3) with (gi + i - 3 - 1) by lia. replace (gj + (j - 1) - 3) with (gj + j - 3 - 1) by lia. reflexivity. }
    unfold computed, cell_trigonometry, calculate_supergrid_cos_sin. cbv zeta beta iota. unfold calculate_trig_uv. cbn [fst sina rsina rsin2]. repeat split; intros i j Hi Hj.
    - rewrite inner_true by assumption. apply S; assumption.
    - pose proof (edge_x (i + 3) ltac:(lia)) as Ex. pose proof (edge_y (j + 3) ltac:(lia)) as Ey. replace (gi + (i + 3) - 3) with (gi + i) in Ex by lia. replace (gj + (j + 3) - 3) with (gj + j) in Ey by lia. 
      unfold at_edge in Ex, Ey. rewrite <- orb_assoc, Ex, Ey. 
      rewrite !eqb_shift. replace (3 - 3) with 0 by lia. replace (n0 + 1 - 4 - 3) with (n0 + 1 - 6 - 1) by lia. replace (n1 + 1 - 4 - 3) with (n1 + 1 - 6 - 1) by lia.
      rewrite inner_true by lia. rewrite S, tiny_ok by lia. replace (gi + (i + 3) - 3) with (gi + i) by lia. replace (gj + (j + 3) - 3) with (gj + j) by lia.
      destruct (left && (i =? 0)), (right && (i =? n0 + 1 - 6 - 1)), (bottom && (j =? 0)), (top && (j =? n1 + 1 - 6 - 1)); reflexivity.
    - rewrite sin_seen, seen_other, tiny_ok by lia. reflexivity.
  Qed.

  (** C85: beyond a corner of the tile the line between the two neighbours is seen twice, as a continuation of the tile's western or eastern edge and of its
      southern or northern one; both times with the same sine, save from the second cell on in the north-west *)
  Definition line_at (high : bool) : Z := if high then n else 0.
  Theorem C85_lines_partial east north e i j i' j' :
    1 <= i < w + 6 -> 0 <= j < h + 6 -> 0 <= i' < w + 6 -> 1 <= j' < h + 6 -> 0 <= e -> (east = false -> north = true -> e = 0) ->
    gi + i - 3 = line_at east -> gj + j - 3 = outside_at n north e -> gi + i' - 3 = outside_at n east e -> gj + j' - 3 = line_at north ->
    sina_u t i j = sina_v t i' j' /\ rsin_u t i j = rsin_v t i' j'.
  Proof.
    intros Hi Hj Hi' Hj' He NW Ei Ej Ei' Ej'. destruct (u_eq i j Hi Hj) as [Su Ru]. destruct (v_eq i' j' Hi' Hj') as [Sv Rv]. rewrite Ru, Rv, Su, Sv, Ei, Ej, Ei', Ej'.
    pose proof n_pos as Np. assert (Ee : forall b, at_edge (line_at b) = true) by (intros []; unfold at_edge, line_at; rewrite Z.eqb_refl, ?orb_true_r; reflexivity).
    rewrite !Ee. assert (E : mean_u (seen SIN) (line_at east) (outside_at n north e) = mean_v (seen SIN) (outside_at n east e) (line_at north)); [|rewrite E; split; reflexivity].
    unfold mean_u, mean_v.
    assert (Lx : forall b, line_at b - 1 = if b then inside_at n b else outside_at n b 0) by (intros []; unfold line_at, inside_at, outside_at; lia).
    assert (Lx' : forall b, line_at b = if b then outside_at n b 0 else inside_at n b) by (intros []; unfold line_at, inside_at, outside_at; lia).
    rewrite !Lx, !Lx'. assert (Si : forall b J k, seen SIN (inside_at n b) J k = SIN (inside_at n b) J k) by (intros; apply seen_in; left; apply inside_in).
    assert (Sj : forall I b k, seen SIN I (inside_at n b) k = SIN I (inside_at n b) k) by (intros; apply seen_in; right; apply inside_in).
    assert (So : forall k, seen SIN (outside_at n east 0) (outside_at n north e) k = if (k =? inward_x east) then SIN (outside_at n east e) (inside_at n north) (outward_y north) else seen SIN (outside_at n east 0) (outside_at n north e) k).
    { intros k. destruct (k =? inward_x east) eqn:K; [|reflexivity]. unfold seen. rewrite !beyond_outside, K by lia. reflexivity. }
    assert (So' : seen SIN (outside_at n east e) (outside_at n north 0) (inward_y north) = SIN (inside_at n east) (outside_at n north e) (outward_x east)).
    { unfold seen. rewrite !beyond_outside, Z.eqb_refl by lia. assert ((inward_y north =? inward_x east) = false) as -> by (destruct east, north; reflexivity). cbn [andb].
      destruct (negb east && north) eqn:B; [|reflexivity]. apply andb_true_iff in B. destruct B as [B1 B2]. apply negb_true_iff in B1. rewrite (NW B1 B2). subst east north. unfold inside_at, outside_at, outward_x. replace (n + 0) with (n - 0) by lia. reflexivity. }
    pose proof (So (inward_x east)) as So1. rewrite Z.eqb_refl in So1.
    destruct east, north; cbn [inward_x inward_y outward_x outward_y] in *; rewrite ?Si, ?Sj, ?So1, ?So'; lra.
  Qed.

  (** C85: the coefficients of divergence and of the del-6 diffusion inside the tile: sine of the edge times the ratio of the lengths across and along it, at
      the edges of the tile too, where the sine is not kept away from 0 *)
  Theorem C85_divergence dx dy dxc dyc :
    let '(divg_u, divg_v, del6_u, del6_v) := calculate_divg_del6 left right bottom top n0 n1 (snd (snd computed)) (sina_u t) (sina_v t) dx dy dxc dyc in
    (forall i j, 3 <= i < w + 3 -> 3 <= j <= h + 3 -> let x := mean_v SIN (gi + i - 3) (gj + j - 3) in
      divg_u i j = (x * dyc i j / dx i j)%R /\ del6_u i j = (x * dx i j / dyc i j)%R) /\
    (forall i j, 3 <= i <= w + 3 -> 3 <= j < h + 3 -> let x := mean_u SIN (gi + i - 3) (gj + j - 3) in
      divg_v i j = (x * dxc i j / dy i j)%R /\ del6_v i j = (x * dy i j / dxc i j)%R).
  Proof.
    unfold calculate_divg_del6. cbv zeta. pose proof sub_bounds as [Sx Sy]. pose proof n_pos as Np.
    assert (Gi : forall i, 3 <= i < w + 3 -> 0 <= gi + i - 3 < n).
    { intros. assert (0 * w <= snd sub * w) by (apply Z.mul_le_mono_nonneg_r; lia). assert (snd sub * w <= (snd l - 1) * w) by (apply Z.mul_le_mono_nonneg_r; lia). lia. }
    assert (Gj : forall j, 3 <= j < h + 3 -> 0 <= gj + j - 3 < n).
    { intros. assert (0 * h <= fst sub * h) by (apply Z.mul_le_mono_nonneg_r; lia). assert (fst sub * h <= (fst l - 1) * h) by (apply Z.mul_le_mono_nonneg_r; lia). lia. }
    assert (F : forall i j k, 0 <= i < w + 6 -> 0 <= j < h + 6 -> 0 <= gi + i - 3 < n \/ 0 <= gj + j - 3 < n -> snd (snd computed) i j k = SIN (gi + i - 3) (gj + j - 3) k).
    { intros i j k Hi Hj In. pose proof (C84_supergrid i j k Hi Hj) as C. destruct computed as [u [c s]]. cbn [snd] in *. apply C, In. }
    split; intros i j Hi Hj; cbv beta.
    - destruct (v_eq i j ltac:(lia) ltac:(lia)) as [S _]. rewrite (edge_y j ltac:(lia)) in S. 
      assert (M : mean_v (seen SIN) (gi + i - 3) (gj + j - 3) = mean_v SIN (gi + i - 3) (gj + j - 3)) by (unfold mean_v; rewrite !seen_in by (left; apply Gi; lia); reflexivity).
      rewrite M in S.
      destruct (bottom && (j =? 3)) eqn:Bb; destruct (top && (j =? n1 + 1 - 4)) eqn:Bt; cbn [orb] in S; try (exfalso; apply andb_true_iff in Bb, Bt; rewrite !Z.eqb_eq in *; lia).
      + apply andb_true_iff in Bb. destruct Bb as [_ Bb]. apply Z.eqb_eq in Bb. subst j. rewrite !F by (try lia; left; apply Gi; lia). unfold mean_v.
        replace (gj + 3 - 3 - 1) with (gj + 2 - 3) by lia. replace 0.5%R with (1 / 2)%R by lra. split; unfold Rdiv; ring.
      + apply andb_true_iff in Bt. destruct Bt as [_ Bt]. apply Z.eqb_eq in Bt. assert (j = n1 - 3) as -> by lia. rewrite !F by (try lia; left; apply Gi; lia). unfold mean_v.
        replace (gj + (n1 - 3) - 3 - 1) with (gj + (n1 - 4) - 3) by lia. replace (n1 + 1 - 4) with (n1 - 3) by lia. replace 0.5%R with (1 / 2)%R by lra. split; unfold Rdiv; ring.
      + rewrite S. split; reflexivity.
    - destruct (u_eq i j ltac:(lia) ltac:(lia)) as [S _]. rewrite (edge_x i ltac:(lia)) in S. 
      assert (M : mean_u (seen SIN) (gi + i - 3) (gj + j - 3) = mean_u SIN (gi + i - 3) (gj + j - 3)) by (unfold mean_u; rewrite !seen_in by (right; apply Gj; lia); reflexivity).
      rewrite M in S.
      destruct (left && (i =? 3)) eqn:Bb; destruct (right && (i =? n0 + 1 - 4)) eqn:Bt; cbn [orb] in S; try (exfalso; apply andb_true_iff in Bb, Bt; rewrite !Z.eqb_eq in *; lia).
      + apply andb_true_iff in Bb. destruct Bb as [_ Bb]. apply Z.eqb_eq in Bb. subst i. rewrite !F by (try lia; right; apply Gj; lia). unfold mean_u.
        replace (gi + 3 - 3 - 1) with (gi + 2 - 3) by lia. replace 0.5%R with (1 / 2)%R by lra. split; unfold Rdiv; ring.
      + apply andb_true_iff in Bt. destruct Bt as [_ Bt]. apply Z.eqb_eq in Bt. assert (i = n0 - 3) as -> by lia. rewrite !F by (try lia; right; apply Gj; lia). unfold mean_u.
        replace (gi + (n0 - 3) - 3 - 1) with (gi + (n0 - 4) - 3) by lia. replace (n0 + 1 - 4) with (n0 - 3) by lia. replace 0.5%R with (1 / 2)%R by lra. split; unfold Rdiv; ring.
      + rewrite S. split; reflexivity.
  Qed.
End Tile.

(** ** Cases *)
Definition ex_e1 : vec := (1, 0, 0)%R.
Definition ex_e2 : vec := (0, 1, 0)%R.
Definition ex_e3 : vec := (0, 0, 1)%R.
Definition ex_d (i j : Z) : vec := if (i =? 1) && (j =? 0) then ex_e2 else if (i =? 0) && (j =? 1) then (0, 3 / 5, 4 / 5)%R else ex_e1.
Example C84_case :
  let p := sg_point (ex_d 0 0) (ex_d 1 0) (ex_d 0 1) (ex_d 1 1) ex_e3 6 in let x := sg_x (ex_d 0 0) (ex_d 1 0) (ex_d 0 1) (ex_d 1 1) ex_e3 6 in
  let y := sg_y (ex_d 0 0) (ex_d 1 0) (ex_d 0 1) (ex_d 1 1) ex_e3 6 in
  clear_direction p (fst x) (snd x) /\ clear_direction p (fst y) (snd y) /\ leads p (fst x) (snd x) ex_e2 /\ leads p (fst y) (snd y) (0, 3 / 5, 4 / 5)%R /\
  raw_cos ex_d (fun _ _ => ex_e3) (fun _ _ => ex_e1) (fun _ _ => ex_e2) 0 0 5 = (3 / 5)%R /\ sine (snap (3 / 5)) = (4 / 5)%R /\
  valid_layout (2, 2) /\ 6 = snd (2, 2) * 3 /\ 6 = fst (2, 2) * 3.
Proof.
  cbn [sg_point sg_x sg_y fst snd]. change (ex_d 0 0) with ex_e1. change (ex_d 1 0) with ex_e2. change (ex_d 0 1) with (0, 3 / 5, 4 / 5)%R.
  assert (C1 : clear_direction ex_e1 ex_e1 ex_e2).
  { repeat split; cbn [dot vadd ex_e1 ex_e2]; try lra. intros E. apply (f_equal snd) in E as E'. apply (f_equal (fun v => fst (fst v))) in E. cbn in E. lra. }
  assert (C2 : clear_direction ex_e1 ex_e1 (0, 3 / 5, 4 / 5)%R).
  { repeat split; cbn [dot vadd ex_e1]; try lra. intros E. apply (f_equal (fun v => fst (fst v))) in E. cbn in E. lra. }
  assert (L1 : leads ex_e1 ex_e1 ex_e2 ex_e2) by (repeat split; cbn [dot cross vsub ex_e1 ex_e2]; lra).
  assert (L2 : leads ex_e1 ex_e1 (0, 3 / 5, 4 / 5)%R (0, 3 / 5, 4 / 5)%R) by (repeat split; cbn [dot cross vsub ex_e1]; lra).
  split; [exact C1|]. split; [exact C2|]. split; [exact L1|]. split; [exact L2|]. split.
  - pose proof (C84_cosine ex_d (fun _ _ => ex_e3) (fun _ _ => ex_e1) (fun _ _ => ex_e2) 0 0 6 ex_e2 (0, 3 / 5, 4 / 5)%R ltac:(lia) (conj C1 (conj C2 (conj L1 L2)))) as E.
    change (6 - 1) with 5 in E. rewrite E. cbn [dot ex_e2]. lra.
  - split; [|unfold valid_layout; cbn [fst snd]; lia]. destruct (C84_sine (3 / 5) ltac:(lra)) as (_ & _ & P & Q).
    assert (snap (3 / 5) = 3 / 5)%R as E.
    { unfold snap. destruct (Rlt_dec (Rabs (1 - 3 / 5)) (1 / 10 ^ 15)) as [L|]; [|reflexivity]. exfalso. rewrite Rabs_right in L by lra.
      assert (1 / 10 ^ 15 < 1 / 10)%R; [|lra]. apply Rmult_lt_compat_l; [lra|]. apply Rinv_lt_contravar; [|]; lra. }
    rewrite E in *. assert ((sine (3 / 5) - 4 / 5) * (sine (3 / 5) + 4 / 5) = 0)%R as F by (transitivity (sine (3 / 5) ^ 2 + (3 / 5) ^ 2 - 1)%R; [field|lra]).
    apply Rmult_integral in F. lra.
Qed.

(** neighbouring corners are always e1 and e2, the centres e3, but for one cell beyond the northern edge *)
Definition nw_d (i j : Z) : vec := if Z.even (i + j) then ex_e1 else ex_e2.
Definition nw_a (i j : Z) : vec := if (i =? 0) && (j =? 4) then ex_e1 else ex_e3.
Lemma snap_0 : snap 0 = 0%R.
Proof.
  unfold snap. destruct (Rlt_dec (Rabs (1 - 0)) (1 / 10 ^ 15)) as [L|]; [|reflexivity]. exfalso. rewrite Rabs_right in L by lra.
  assert (1 / 10 ^ 15 < 1)%R; [|lra]. apply Rmult_lt_reg_r with (10 ^ 15)%R; [lra|]. unfold Rdiv. rewrite Rmult_assoc, Rinv_l; lra.
Qed.
Lemma snap_m1 : snap (-1) = (-1)%R.
Proof.
  unfold snap. destruct (Rlt_dec (Rabs (1 - -1)) (1 / 10 ^ 15)) as [L|]; [|reflexivity]. exfalso. rewrite Rabs_right in L by lra.
  assert (1 / 10 ^ 15 < 1)%R; [|lra]. apply Rmult_lt_reg_r with (10 ^ 15)%R; [lra|]. unfold Rdiv. rewrite Rmult_assoc, Rinv_l; lra.
Qed.
Lemma sine_0 : sine 0 = 1%R.
Proof.
  unfold sine. replace (1 - 0 ^ 2)%R with 1%R by ring. destruct (Rlt_dec 1 0) as [L|_]; [lra|]. rewrite sqrt_1. destruct (Rlt_dec 1 1); lra.
Qed.
Lemma sine_m1 : sine (-1) = 0%R.
Proof.
  unfold sine. replace (1 - (-1) ^ 2)%R with 0%R by ring. destruct (Rlt_dec 0 0) as [L|_]; [lra|]. rewrite sqrt_0. destruct (Rlt_dec 1 0); lra.
Qed.
Theorem C85_north_west_refuted : exists (D A EC1 EC2 : Z -> Z -> vec) (l : layout) (w n i j i' j' : Z),
  valid_layout l /\ 3 <= w /\ n = snd l * w /\ n = fst l * w /\ 1 <= i < w + 6 /\ 0 <= j < w + 6 /\ 0 <= i' < w + 6 /\ 1 <= j' < w + 6 /\
  (forall I J, dot (D I J) (D I J) = 1 /\ dot (A I J) (A I J) = 1 /\ D I J <> D (I + 1)%Z J /\ D I J <> D I (J + 1)%Z)%R /\
  snd (subtile_index l 0) * w + i - 3 = line_at n false /\ fst (subtile_index l 0) * w + j - 3 = outside_at n true 1 /\
  snd (subtile_index l 0) * w + i' - 3 = outside_at n false 1 /\ fst (subtile_index l 0) * w + j' - 3 = line_at n true /\
  let t := fst (computed (10 ^ 8) (/ 10 ^ 8) l 0 w w D A EC1 EC2) in sina_u t i j <> sina_v t i' j'.
Proof.
  exists nw_d, nw_a, nw_d, nw_d, (1, 1), 3, 3, 3, 7, 1, 6.
  assert (V : valid_layout (1, 1)) by (unfold valid_layout; cbn [fst snd]; lia).
  split; [exact V|]. repeat (split; [cbn; lia|]). split.
  { intros I J. assert (U : forall i j, dot (nw_d i j) (nw_d i j) = 1%R) by (intros; unfold nw_d; destruct (Z.even _); cbn [dot ex_e1 ex_e2]; lra).
    assert (N : ex_e1 <> ex_e2) by (intros E; apply (f_equal (fun v => fst (fst v))) in E; cbn in E; lra).
    split; [apply U|]. split; [unfold nw_a; destruct (_ && _); cbn [dot ex_e1 ex_e3]; lra|]. unfold nw_d. replace (I + 1 + J) with (Z.succ (I + J)) by lia. replace (I + (J + 1)) with (Z.succ (I + J)) by lia.
    rewrite !Z.even_succ, <- Z.negb_even. destruct (Z.even (I + J)); cbn [negb]; split; congruence. }
  repeat (split; [cbn; lia|]). intros t.
  destruct (u_eq (10 ^ 8) (/ 10 ^ 8) (1, 1) 0 3 3 3 V ltac:(lia) ltac:(lia) ltac:(reflexivity) ltac:(reflexivity) nw_d nw_a nw_d nw_d 3 7 ltac:(lia) ltac:(lia)) as [Su _].
  destruct (v_eq (10 ^ 8) (/ 10 ^ 8) (1, 1) 0 3 3 3 V ltac:(lia) ltac:(lia) ltac:(reflexivity) ltac:(reflexivity) nw_d nw_a nw_d nw_d 1 6 ltac:(lia) ltac:(lia)) as [Sv _].
  unfold t. rewrite Su, Sv. clear Su Sv t. change (snd (subtile_index (1, 1) 0) * 3 + 3 - 3) with 0. change (fst (subtile_index (1, 1) 0) * 3 + 7 - 3) with 4.
  change (snd (subtile_index (1, 1) 0) * 3 + 1 - 3) with (-2). change (fst (subtile_index (1, 1) 0) * 3 + 6 - 3) with 3. cbn [at_edge Z.eqb Pos.eqb orb].
  unfold mean_u, mean_v. set (B := SIN nw_d nw_a nw_d nw_d).
  change (seen 3 B (0 - 1) 4 2) with (B (-2) 2 3). change (seen 3 B 0 4 0) with (B 0 4 0). change (seen 3 B (-2) (3 - 1) 3) with (B (-2) 2 3). change (seen 3 B (-2) 3 1) with (B 0 2 0). subst B.
  assert (T : (0 < / 10 ^ 8)%R) by (apply Rinv_0_lt_compat; lra). assert (T1 : (/ 10 ^ 8 < 1 / 10)%R) by (replace (1 / 10)%R with (/ 10)%R by lra; apply Rinv_lt_contravar; lra).
  set (S1 := SIN nw_d nw_a nw_d nw_d (-2) 2 3). set (S2 := SIN nw_d nw_a nw_d nw_d 0 4 0). set (S3 := SIN nw_d nw_a nw_d nw_d 0 2 0).
  assert (E1 : S1 = 1%R).
  { unfold S1, SIN, COS. cbn [raw_cos]. change (nw_d (-2) (2 + 1)) with ex_e2. change (nw_a (-2) 2) with ex_e3. unfold scos. cbv zeta.
    match goal with |- sine (snap (?x / _)) = _ => assert (x = 0)%R as -> end; [|unfold Rdiv; rewrite Rmult_0_l, snap_0; apply sine_0].
    change (nw_d (-2 + 1) (2 + 1)) with ex_e1. unfold midpoint, normalize. cbn [vadd vscale cross dot ex_e1 ex_e2 ex_e3]. ring. }
  assert (E3 : S3 = 1%R).
  { unfold S3, SIN, COS. cbn [raw_cos]. change (nw_d 0 (2 + 1)) with ex_e2. change (nw_a 0 2) with ex_e3. unfold scos. cbv zeta.
    match goal with |- sine (snap (?x / _)) = _ => assert (x = 0)%R as -> end; [|unfold Rdiv; rewrite Rmult_0_l, snap_0; apply sine_0].
    change (nw_d 0 2) with ex_e1. unfold midpoint, normalize. cbn [vadd vscale cross dot ex_e1 ex_e2 ex_e3]. ring. }
  assert (E2 : S2 = 0%R).
  { unfold S2, SIN, COS. cbn [raw_cos]. change (nw_d 0 (4 + 1)) with ex_e2. change (nw_a 0 4) with ex_e1. change (nw_d 0 4) with ex_e1.
    replace (scos (midpoint ex_e1 ex_e2) ex_e1 ex_e2) with (-1)%R; [rewrite snap_m1; apply sine_m1|]. symmetry. unfold scos, midpoint, normalize. cbv zeta.
    set (c := (1 / sqrt (dot (vadd ex_e1 ex_e2) (vadd ex_e1 ex_e2)))%R).
    assert (C : (0 < c)%R) by (apply Rdiv_lt_0_compat; [lra|]; apply sqrt_lt_R0; cbn [vadd dot ex_e1 ex_e2]; lra).
    assert (P : cross (vscale c (vadd ex_e1 ex_e2)) ex_e1 = (0, 0, - c)%R) by (cbn [vadd vscale cross ex_e1 ex_e2]; apply triple_eq; ring).
    assert (Q : cross (vscale c (vadd ex_e1 ex_e2)) ex_e2 = (0, 0, c)%R) by (cbn [vadd vscale cross ex_e1 ex_e2]; apply triple_eq; ring).
    rewrite P, Q. cbn [dot]. replace ((0 * 0 + 0 * 0 + - c * - c) * (0 * 0 + 0 * 0 + c * c))%R with ((c * c) * (c * c))%R by ring.
    rewrite sqrt_square by (apply Rmult_le_pos; lra). field. lra. }
  rewrite E1, E2, E3.
  destruct (limit_ok (/ 10 ^ 8) ((1 + 0) / 2) T) as [L1 _]. destruct (limit_ok (/ 10 ^ 8) ((1 + 1) / 2) T) as [L2 _].
  rewrite L1, L2; [lra| |]; rewrite Rabs_right; lra.
Qed.
(** a rank in the south-east of a tile of 2 by 2 ranks *)
Example C85_case : valid_layout (2, 2) /\ 3 <= 4 /\ 8 = snd (2, 2) * 4 /\ 8 = fst (2, 2) * 4 /\
  let gi := snd (subtile_index (2, 2) 1) * 4 in let gj := fst (subtile_index (2, 2) 1) * 4 in
  1 <= 7 < 4 + 6 /\ 0 <= 1 < 4 + 6 /\ 0 <= 8 < 4 + 6 /\ 1 <= 3 < 4 + 6 /\
  gi + 7 - 3 = line_at 8 true /\ gj + 1 - 3 = outside_at 8 false 1 /\ gi + 8 - 3 = outside_at 8 true 1 /\ gj + 3 - 3 = line_at 8 false.
Proof. unfold valid_layout. cbn. lia. Qed.

Print Assumptions C84_cosine.
Print Assumptions C84_sine.
Print Assumptions C84_supergrid.
Print Assumptions C85_cosines.
Print Assumptions C85_sines_partial.
Print Assumptions C85_corners.
Print Assumptions C85_lines_partial.
Print Assumptions C85_divergence.
Print Assumptions C85_north_west_refuted.
