(** C96: the vertical grid.  Model and specification in VertModel.v, validation of the coefficients in ColumnModel.v. *)
From Verif Require Import ColumnModel VertModel.
Open Scope R_scope.

Lemma zip_some f a b : length a = length b -> exists l, zip f a b = Some l /\ length l = length a /\
  forall k, (k < length a)%nat -> nth k l 0 = f (nth k a 0) (nth k b 0).
Proof.
  intros E. unfold zip. rewrite (proj2 (Nat.eqb_eq _ _) E). eexists. split; [reflexivity|].
  split; [rewrite map_length, combine_length; lia|].
  intros k Hk. set (g := fun '(x, y) => f x y). rewrite (nth_indep _ 0 (g (0, 0))) by (rewrite map_length, combine_length; lia).
  rewrite map_nth, combine_nth by exact E. reflexivity.
Qed.
Lemma later_len a : length (later a) = (length a - 1)%nat.
Proof. destruct a; cbn; lia. Qed.
Lemma earlier_len a : length (earlier a) = (length a - 1)%nat.
Proof. unfold earlier. induction a as [|x [|y a] IH]; cbn in *; lia. Qed.
Lemma later_nth a k : nth k (later a) 0 = nth (S k) a 0.
Proof. destruct a; [destruct k; reflexivity|reflexivity]. Qed.
Lemma earlier_nth a k : (k < length a - 1)%nat -> nth k (earlier a) 0 = nth k a 0.
Proof.
  revert k. induction a as [|x [|y a] IH]; intros k H; cbn in H; try lia. destruct k as [|k]; [reflexivity|].
  change (nth k (earlier (y :: a)) 0 = nth k (y :: a) 0). apply IH. cbn. lia.
Qed.
Lemma map_nth0 (f : R -> R) l k : (k < length l)%nat -> nth k (map f l) 0 = f (nth k l 0).
Proof. intros H. rewrite (nth_indep _ 0 (f 0)) by (rewrite map_length; exact H). apply map_nth. Qed.

(** the logarithmic mean of two numbers lies between them *)
Lemma ln_below x : 0 < x -> x <> 1 -> ln x < x - 1.
Proof.
  intros H N. assert (ln x <> 0). { intros E. apply N. rewrite <- (exp_ln x H), E. apply exp_0. }
  pose proof (exp_ineq1 (ln x) H0) as I. rewrite (exp_ln x H) in I. lra.
Qed.
Lemma log_mean a b : 0 < a -> a < b -> a < (b - a) / ln (b / a) < b.
Proof.
  intros Ha Hb. assert (Q : 1 < b / a). { apply (Rmult_lt_reg_r a); [exact Ha|]. unfold Rdiv. rewrite Rmult_assoc, Rinv_l; lra. }
  assert (L : 0 < ln (b / a)). { rewrite <- ln_1. apply ln_increasing; lra. }
  assert (U : ln (b / a) < b / a - 1) by (apply ln_below; lra).
  assert (Lo : ln (a / b) < a / b - 1).
  { apply ln_below; [apply Rdiv_lt_0_compat; lra|]. intros E. assert (a = b); [|lra].
    rewrite <- (Rmult_1_l b), <- E. field. lra. }
  replace (ln (a / b)) with (- ln (b / a)) in Lo by (rewrite <- ln_Rinv by lra; f_equal; field; lra).
  split.
  - apply (Rmult_lt_reg_r (ln (b / a))); [exact L|]. replace ((b - a) / ln (b / a) * ln (b / a)) with (b - a) by (field; lra).
    apply (Rmult_lt_compat_l a) in U; [|exact Ha]. replace (a * (b / a - 1)) with (b - a) in U by (field; lra). exact U.
  - apply (Rmult_lt_reg_r (ln (b / a))); [exact L|]. replace ((b - a) / ln (b / a) * ln (b / a)) with (b - a) by (field; lra).
    assert (Lo' : 1 - a / b < ln (b / a)) by lra.
    apply (Rmult_lt_compat_l b) in Lo'; [|lra]. replace (b * (1 - a / b)) with (b - a) in Lo' by (field; lra). exact Lo'.
Qed.

(** equality of lists (of options) of real numbers, element by element *)
Ltac leq := match goal with
  | |- ?x :: ?l = ?y :: ?m => apply (f_equal2 cons); leq
  | |- Some _ = Some _ => apply f_equal; leq
  | |- @eq R _ _ => unfold p_ref; lra
  | |- _ => reflexivity
  end.

(** what the three quantities are for the coefficients a, b with n + 1 interfaces *)
Definition pi_good a b n (l : list R) : Prop := length l = S n /\ forall k, (k <= n)%nat -> nth k l 0 = pressure a b k.
Definition dp_good a b n (l : list R) : Prop :=
  length l = n /\ (forall k, (k < n)%nat -> nth k l 0 = pressure a b (S k) - pressure a b k).
Definition p_good a b n (l : list R) : Prop :=
  length l = n /\ (forall k, (k < n)%nat -> 0 < pressure a b k ->
    pressure a b k < pressure a b (S k) -> pressure a b k < nth k l 0 < pressure a b (S k) /\
    nth k l 0 * (ln (pressure a b (S k)) - ln (pressure a b k)) = pressure a b (S k) - pressure a b k).

Definition cached {A} (P : A -> Prop) (o : option A) : Prop := match o with Some x => P x | None => True end.
Definition coherent a b n (v : vert) : Prop :=
  ak v = a /\ bk v = b /\ cached (pi_good a b n) (_p_interface v) /\ cached (p_good a b n) (_p v) /\ cached (dp_good a b n) (_dp_ref v).

Section Good.
  Variables (a b : list R) (n : nat).
  Hypothesis (La : length a = S n) (Lb : length b = S n).

  Lemma pi_ok v : coherent a b n v -> exists x v', p_interface v = Some (x, v') /\ pi_good a b n x /\ coherent a b n v'.
  Proof.
    intros (Ea & Eb & C1 & C2 & C3). unfold p_interface. destruct (_p_interface v) as [x|] eqn:E.
    - exists x, v. split; [reflexivity|]. split; [exact C1|]. unfold coherent. rewrite E. auto.
    - rewrite Ea, Eb. destruct (zip_some Rplus a (map (fun b => b * p_ref) b)) as (l & -> & L & N); [rewrite map_length; lia|].
      assert (G : pi_good a b n l).
      { split; [lia|]. intros k Hk. rewrite N by lia. rewrite map_nth0 by lia. reflexivity. }
      do 2 eexists. split; [reflexivity|]. split; [exact G|]. split; [reflexivity|]. split; [reflexivity|]. cbn. auto.
  Qed.
  Lemma p_ok v : coherent a b n v -> exists x v', p v = Some (x, v') /\ p_good a b n x /\ coherent a b n v'.
  Proof.
    intros C. unfold p. destruct (_p v) as [x|] eqn:E.
    - exists x, v. split; [reflexivity|]. split; [|exact C]. destruct C as (_ & _ & _ & C2 & _). rewrite E in C2. exact C2.
    - destruct (pi_ok v C) as (q & v' & -> & (Lq & Q) & (Ea & Eb & C1 & C2 & C3)).
      assert (Ll : length (later q) = n) by (rewrite later_len; lia). assert (Le : length (earlier q) = n) by (rewrite earlier_len; lia).
      destruct (zip_some Rminus (later q) (earlier q)) as (d & -> & Ld & Nd); [lia|].
      destruct (zip_some Rdiv (later q) (earlier q)) as (r & -> & Lr & Nr); [lia|].
      destruct (zip_some Rdiv d (map ln r)) as (x & -> & Lx & Nx); [rewrite map_length; lia|].
      assert (G : p_good a b n x).
      { split; [lia|]. intros k Hk P0 P1. rewrite Nx by lia. rewrite map_nth0 by lia. rewrite Nd, Nr by lia.
        rewrite !later_nth, !earlier_nth by lia. rewrite !Q by lia. split; [apply log_mean; assumption|].
        assert (E2 : ln (pressure a b (S k) / pressure a b k) = ln (pressure a b (S k)) - ln (pressure a b k)).
        { unfold Rdiv. rewrite ln_mult by (try apply Rinv_0_lt_compat; lra). rewrite ln_Rinv by lra. ring. }
        rewrite E2. field. pose proof (ln_increasing _ _ P0 P1). lra. }
      do 2 eexists. split; [reflexivity|]. split; [exact G|]. split; [exact Ea|]. split; [exact Eb|]. cbn. auto.
  Qed.
  Lemma dp_ok v : coherent a b n v -> exists x v', dp v = Some (x, v') /\ dp_good a b n x /\ coherent a b n v'.
  Proof.
    intros (Ea & Eb & C1 & C2 & C3). unfold dp. destruct (_dp_ref v) as [x|] eqn:E.
    - exists x, v. split; [reflexivity|]. split; [exact C3|]. unfold coherent. rewrite E. auto.
    - rewrite Ea, Eb.
      assert (Ll : length (later a) = n) by (rewrite later_len; lia). assert (Le : length (earlier a) = n) by (rewrite earlier_len; lia).
      assert (Ll' : length (later b) = n) by (rewrite later_len; lia). assert (Le' : length (earlier b) = n) by (rewrite earlier_len; lia).
      destruct (zip_some Rminus (later a) (earlier a)) as (da & -> & Lda & Nda); [lia|].
      destruct (zip_some Rminus (later b) (earlier b)) as (db & -> & Ldb & Ndb); [lia|].
      destruct (zip_some Rplus da (map (fun b => b * p_ref) db)) as (x & -> & Lx & Nx); [rewrite map_length; lia|].
      assert (G : dp_good a b n x).
      { split; [lia|]. intros k Hk. rewrite Nx by lia. rewrite map_nth0 by lia. rewrite Nda, Ndb by lia.
        rewrite !later_nth, !earlier_nth by lia. unfold pressure, p_ref. ring. }
      do 2 eexists. split; [reflexivity|]. split; [exact G|]. split; [reflexivity|]. split; [reflexivity|]. cbn. auto.
  Qed.
End Good.

Lemma tele f n : forall l, length l = n -> (forall k, (k < n)%nat -> nth k l 0 = f (S k) - f k) -> sum l = f n - f 0%nat.
Proof.
  revert f. induction n as [|n IH]; intros f [|x l] L H; cbn in L; try lia; cbn [sum].
  - lra.
  - rewrite (IH (fun k => f (S k)) l); [|lia|intros k Hk; exact (H (S k) ltac:(lia))].
    pose proof (H 0%nat ltac:(lia)) as H0. cbn in H0. lra.
Qed.

(** what an operation that only reads gives *)
Definition right_answer a b n (o : op) (x : option (list R)) : Prop :=
  match o with
  | Get_p_interface => exists l, x = Some l /\ length l = S n /\ forall k, (k <= n)%nat -> nth k l 0 = pressure a b k
  | Get_dp => exists l, x = Some l /\ length l = n /\ sum l = pressure a b n - pressure a b 0 /\
      forall k, (k < n)%nat -> nth k l 0 = pressure a b (S k) - pressure a b k
  | Get_p => exists l, x = Some l /\ length l = n /\
      forall k, (k < n)%nat -> 0 < pressure a b k -> pressure a b k < pressure a b (S k) ->
        pressure a b k < nth k l 0 < pressure a b (S k) /\
        nth k l 0 * (ln (pressure a b (S k)) - ln (pressure a b k)) = pressure a b (S k) - pressure a b k
  | Get_ptop => nth 0 b 0 = 0 -> x = Some [pressure a b 0]
  | _ => True
  end.

Lemma step_ok a b n o v : length a = S n -> length b = S n -> coherent a b n v -> is_set o = false ->
  right_answer a b n o (fst (step v o)) /\ coherent a b n (snd (step v o)).
Proof.
  intros La Lb C NS. destruct o; try discriminate; cbn [step].
  - destruct (pi_ok a b n La Lb v C) as (x & v' & -> & (L & G) & C'). split; [exists x; auto|exact C'].
  - destruct (p_ok a b n La Lb v C) as (x & v' & -> & (L & G) & C'). split; [exists x; auto|exact C'].
  - destruct (dp_ok a b n La Lb v C) as (x & v' & -> & (L & G) & C'). split; [|exact C'].
    exists x. split; [reflexivity|]. split; [exact L|]. split; [exact (tele (pressure a b) n x L G)|exact G].
  - split; [|exact C]. destruct C as (Ea & Eb & _). cbn. unfold ptop. rewrite Ea, Eb. intros B0.
    destruct a as [|a0 a]; [discriminate|]. destruct b as [|b0 b]; [discriminate|]. cbn in *. subst b0.
    destruct (Req_EM_T 0 0); [|lra]. unfold pressure. cbn. do 2 f_equal. lra.
  - split; [exact Logic.I|exact C].
  - split; [exact Logic.I|exact C].
Qed.

(** Reads in any order: interface pressures, thicknesses that add up to the whole column, and mean pressures between the pressures of
    the interfaces (the hydrostatic mean: p times the difference of the logarithms is the thickness). *)
Theorem C96_reads_partial a b n ops : length a = S n -> length b = S n -> forallb (fun o => negb (is_set o)) ops = true ->
  Forall2 (right_answer a b n) ops (fst (run (new a b) ops)).
Proof.
  intros La Lb NS. assert (C : coherent a b n (new a b)) by (repeat split).
  revert NS C. generalize (new a b). induction ops as [|o ops IH]; intros v NS C; [constructor|].
  cbn in NS. apply andb_prop in NS. destruct NS as [N1 N2]. apply Bool.negb_true_iff in N1.
  destruct (step_ok a b n o v La Lb C N1) as [A C']. cbn [run]. destruct (step v o) as [x v1]. cbn [fst snd] in *.
  specialize (IH v1 N2 C'). destruct (run v1 ops) as [l v2]. constructor; assumption.
Qed.
Print Assumptions C96_reads_partial.

(** ... and coefficients set before the first read count. *)
Theorem C96_set_first_partial a b a' b' n ops : length a' = S n -> length b' = S n -> forallb (fun o => negb (is_set o)) ops = true ->
  exists x y l, fst (run (new a b) (Set_ak a' :: Set_bk b' :: ops)) = x :: y :: l /\ Forall2 (right_answer a' b' n) ops l.
Proof.
  intros La Lb NS. do 3 eexists. split; [|exact (C96_reads_partial a' b' n ops La Lb NS)].
  cbn [run step]. cbn [ak bk _p_interface _p _dp_ref new]. change (Vert a' b' None None None) with (new a' b').
  destruct (run (new a' b') ops). reflexivity.
Qed.
Print Assumptions C96_set_first_partial.

(** the validation of eta.py, in real numbers: vertical_coordinate is (eta - 0.252) pi / 2 *)
Definition leb (x y : R) : bool := if Rle_dec x y then true else false.
Definition is_zero (x : R) : bool := if Req_EM_T x 0 then true else false.
Definition accepts (km : Z) (a b : list R) : option (nat * R) :=
  set_coefficients R Rplus Rmult Rdiv leb is_zero (1 / 2) 100000 (fun e => (e - 252 / 1000) * PI * (1 / 2)) km a b.

Lemma nd_spec l : non_decreasing R leb l = true -> forall k, (S k < length l)%nat -> nth k l 0 <= nth (S k) l 0.
Proof.
  induction l as [|x [|y l] IH]; intros H k Hk; cbn in Hk; try lia.
  unfold non_decreasing, pairs in H. cbn [tl combine forallb] in H. apply andb_prop in H. destruct H as [H1 H2].
  destruct k as [|k]; [cbn; unfold leb in H1; destruct (Rle_dec x y); [assumption|discriminate]|].
  change (nth k (y :: l) 0 <= nth (S k) (y :: l) 0). apply IH; [exact H2|cbn; lia].
Qed.
Lemma eta_nth a b k : length a = length b -> (S k < length a)%nat ->
  (k < length (compute_eta R Rplus Rmult Rdiv (1/2)%R 100000%R a b))%nat /\
  nth k (compute_eta R Rplus Rmult Rdiv (1/2) 100000 a b) 0 = (pressure a b k + pressure a b (S k)) / 200000.
Proof.
  revert b k. induction a as [|x [|x' a] IH]; intros [|y [|y' b]] k L Hk; cbn in L, Hk; try lia.
  unfold compute_eta, pairs. cbn [tl combine map]. destruct k as [|k].
  - split; [cbn; lia|]. cbn. unfold pressure. cbn. field.
  - destruct (IH (y' :: b) k) as [I1 I2]; [cbn; lia|cbn; lia|]. split; [cbn; apply -> Nat.succ_lt_mono; exact I1|exact I2].
Qed.

(** Accepted coefficients: the pressure is not smaller two interfaces further down. *)
Theorem C96_accepted_partial km a b r : accepts km a b = Some r ->
  length a = length b /\ Z.of_nat (length a) = (km + 1)%Z /\
  forall k, (k + 2 < length a)%nat -> pressure a b k <= pressure a b (k + 2).
Proof.
  unfold accepts, set_coefficients.
  destruct (Z.eqb_spec (Z.of_nat (length a) - 1) km) as [Ka|]; [|discriminate].
  destruct (Z.eqb_spec (Z.of_nat (length b) - 1) km) as [Kb|]; [|discriminate]. cbn [negb].
  assert (L : length a = length b) by lia.
  destruct (non_decreasing R leb (compute_eta R Rplus Rmult Rdiv (1 / 2) 100000 a b)) eqn:E; [|discriminate]. intros _.
  split; [exact L|]. split; [lia|]. intros k Hk.
  destruct (eta_nth a b k L) as [_ E0]; [lia|]. destruct (eta_nth a b (S k) L) as [E1' E1]; [lia|].
  pose proof (nd_spec _ E k E1') as N. rewrite E0, E1 in N. replace (k + 2)%nat with (S (S k)) by lia. lra.
Qed.
Print Assumptions C96_accepted_partial.

(** Accepted coefficients whose interface pressures go down and up: 100, 300, 200, 400 Pa.  The thickness of the second layer is
    negative. *)
Theorem C96_accepted_refuted : exists a b,
  accepts 3 a b = Some (3%nat, 100) /\ Forall (fun x => 0 < x) a /\
  fst (run (new a b) [Get_dp]) = [Some [200; -100; 200]].
Proof.
  exists [100; 300; 200; 400], [0; 0; 0; 0]. split; [|split].
  - unfold accepts, set_coefficients.
    assert (Zl : zero_levels R is_zero [0; 0; 0; 0] = [0; 1; 2; 3]%nat).
    { unfold zero_levels, is_zero. cbn. destruct (Req_EM_T 0 0) as [_|]; [reflexivity|lra]. }
    rewrite Zl. change (Z.of_nat (length [100; 300; 200; 400]) - 1 =? 3)%Z with true.
    change (Z.of_nat (length [0; 0; 0; 0]) - 1 =? 3)%Z with true. cbn [negb].
    assert (E : compute_eta R Rplus Rmult Rdiv (1/2) 100000 [100; 300; 200; 400] [0; 0; 0; 0] = [2/1000; 25/10000; 3/1000]).
    { cbn. leq. }
    rewrite E. unfold non_decreasing, pairs. cbn [map tl combine forallb]. unfold leb.
    destruct (Rle_dec (2/1000) (25/10000)); [|lra]. destruct (Rle_dec (25/10000) (3/1000)); [|lra].
    pose proof PI_RGT_0 as HP.
    assert (M : forall x y, x <= y -> (x - 252/1000) * PI * (1/2) <= (y - 252/1000) * PI * (1/2)).
    { intros x y H. apply Rmult_le_compat_r; [lra|]. apply Rmult_le_compat_r; lra. }
    destruct (Rle_dec _ _) as [_|N]; [|exfalso; apply N, M; lra].
    destruct (Rle_dec _ _) as [_|N]; [|exfalso; apply N, M; lra]. reflexivity.
  - repeat constructor; lra.
  - cbn. leq.
Qed.
Print Assumptions C96_accepted_refuted.

(** Accepted coefficients for which `ptop` raises: bk is not zero at the top, only below. *)
Theorem C96_ptop_refuted : exists a b r, accepts 1 a b = Some r /\ fst (run (new a b) [Get_ptop]) = [None].
Proof.
  exists [100; 300], [1/1000; 0], (1%nat, 100). split.
  - unfold accepts, set_coefficients, zero_levels, is_zero. cbn. destruct (Req_EM_T (1 / 1000) 0); [lra|]. destruct (Req_EM_T 0 0); [|lra]. reflexivity.
  - cbn. unfold ptop. cbn. destruct (Req_EM_T (1 / 1000) 0); [lra|]. reflexivity.
Qed.
Print Assumptions C96_ptop_refuted.

(** After a read, new coefficients do not reach the thicknesses, the interface pressures and the mean pressures. *)
Theorem C96_stale_refuted : exists a b a',
  length a' = length a /\
  fst (run (new a b) [Get_dp; Get_p_interface; Set_ak a'; Get_dp; Get_p_interface]) =
    [Some [200]; Some [100; 300]; Some []; Some [200]; Some [100; 300]] /\
  fst (run (new a' b) [Get_dp; Get_p_interface]) = [Some [500]; Some [100; 600]].
Proof.
  exists [100; 300], [0; 0], [100; 600]. split; [reflexivity|]. split; cbn; leq.
Qed.
Print Assumptions C96_stale_refuted.

(** three interfaces, read in an odd order *)
Example C96_case : let a := [100; 2000; 0] in let b := [0; 1/2; 1] in
  length a = 3%nat /\ length b = 3%nat /\
  forallb (fun o => negb (is_set o)) [Get_p; Get_dp; Get_ptop; Get_p_interface; Get_p] = true /\
  map (pressure a b) [0; 1; 2]%nat = [100; 52000; 100000] /\
  fst (run (new a b) [Get_dp; Get_ptop]) = [Some [51900; 48000]; Some [100]].
Proof.
  cbv zeta. repeat split.
  - unfold pressure. cbn. leq.
  - cbn. unfold ptop. cbn. destruct (Req_EM_T 0 0); [|lra]. leq.
Qed.
