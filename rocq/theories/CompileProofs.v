(** Proofs about compilation. *)
From Coq Require Import QArith Ascii.
From Verif Require Import Base Dict PartModel PartProofs CompileModel.
Open Scope Z_scope.

(** ** code paths *)
Section Paths.
Variables ly lx : Z.
Hypothesis Hy : 1 <= ly.
Hypothesis Hx : 1 <= lx.
Let l : layout := (ly, lx).
Let T := ly * lx.

Lemma T_pos : 0 < T.
Proof. unfold T. nia. Qed.

Lemma pos_bounds rank : let '(y, x) := subtile_index l rank in 0 <= y < ly /\ 0 <= x < lx.
Proof.
  unfold subtile_index, subtile_index_of, tile_ranks, l. cbn [fst snd].
  pose proof (Z.mod_pos_bound rank (ly * lx) ltac:(nia)) as B. set (w := rank mod (ly * lx)) in *.
  split; [|apply Z.mod_pos_bound; lia]. split; [apply Z.div_pos; lia|]. apply Z.div_lt_upper_bound; nia.
Qed.

(** representative coordinate among n *)
Definition rep (n v : Z) : Z := if v =? 0 then 0 else if v =? n - 1 then n - 1 else 1.

Lemma rep_range n v : 0 <= v < n -> 0 <= rep n v < n.
Proof. unfold rep. destruct (Z.eqb_spec v 0); [lia|]. destruct (Z.eqb_spec v (n - 1)); lia. Qed.
Lemma rep_rep n v : 0 <= v < n -> rep n (rep n v) = rep n v.
Proof.
  unfold rep. destruct (Z.eqb_spec v 0); [auto|]. intros H. destruct (Z.eqb_spec v (n - 1)).
  - destruct (Z.eqb_spec (n - 1) 0); [lia|]. rewrite Z.eqb_refl. auto.
  - destruct (Z.eqb_spec 1 0); [lia|]. destruct (Z.eqb_spec 1 (n - 1)); lia.
Qed.
Lemma rep_zero n v : 2 <= n -> 0 <= v < n -> (v =? 0) = (rep n v =? 0).
Proof. unfold rep. destruct (Z.eqb_spec v 0); auto. destruct (Z.eqb_spec v (n - 1)); lia. Qed.
Lemma rep_last n v : 2 <= n -> 0 <= v < n -> (v =? n - 1) = (rep n v =? n - 1).
Proof. unfold rep. destruct (Z.eqb_spec v 0); [lia|]. destruct (Z.eqb_spec v (n - 1)); [lia|]. lia. Qed.

Lemma path_rep r1 r2 : 2 <= ly -> 2 <= lx ->
  identify_code_path l r1 false = identify_code_path l r2 false <->
  (let '(y, x) := subtile_index l r1 in (rep ly y, rep lx x)) = (let '(y, x) := subtile_index l r2 in (rep ly y, rep lx x)).
Proof.
  intros H1 H2. unfold identify_code_path, on_tile_bottom, on_tile_top, on_tile_left, on_tile_right.
  pose proof (pos_bounds r1) as B1. pose proof (pos_bounds r2) as B2.
  destruct (subtile_index l r1) as [y1 x1], (subtile_index l r2) as [y2 x2]. unfold l. cbn [fst snd].
  destruct (Z.eqb_spec ly 1); [lia|]. destruct (Z.eqb_spec lx 1); [lia|]. cbn [andb orb]. unfold rep. clear Hy Hx.
  destruct (Z.eqb_spec y1 0), (Z.eqb_spec y2 0), (Z.eqb_spec y1 (ly - 1)), (Z.eqb_spec y2 (ly - 1)); try (exfalso; lia);
  destruct (Z.eqb_spec x1 0), (Z.eqb_spec x2 0), (Z.eqb_spec x1 (lx - 1)), (Z.eqb_spec x2 (lx - 1)); try (exfalso; lia);
  (split; [intros E; try discriminate E; reflexivity|intros E; try reflexivity; exfalso; apply pair_equal_spec in E; lia]).
Qed.

Lemma tile_index_eq rank : tile_index l rank = rank / T.
Proof.
  unfold tile_index, cube_ranks, tile_ranks, l, T. cbn [fst snd].
  replace (6 * (ly * lx)) with (ly * lx * 6) by lia. rewrite Z.div_mul by lia. reflexivity.
Qed.

(** the layouts that work *)
Definition works : Prop := ly = lx \/ ly = 2 \/ lx = 2.

Lemma compiles_rep rank : 2 <= ly -> 2 <= lx -> works ->
  compiles l rank false = true <-> 0 <= rank < T /\ (let '(y, x) := subtile_index l rank in rep ly y = y /\ rep lx x = x).
Proof.
  intros H1 H2 W. unfold compiles. rewrite tile_index_eq. pose proof T_pos as HT.
  assert (TI : rank / T = 0 <-> 0 <= rank < T) by (rewrite Z.div_small_iff by lia; lia).
  destruct (Z.eqb_spec (rank / T) 0) as [E|E]; cbn [negb]; [|split; [discriminate|lia]].
  apply TI in E. unfold is_corner, on_tile_bottom, on_tile_top, on_tile_left, on_tile_right,
    smallest_rank_left, smallest_rank_right, smallest_rank_bottom, smallest_rank_top, smallest_rank_middle.
  pose proof (pos_bounds rank) as B. destruct (subtile_index l rank) as [y x]. unfold l. cbn [fst snd].
  rewrite !Z.gtb_ltb. destruct (Z.ltb_spec 1 ly); [|lia]. destruct (Z.ltb_spec 1 lx); [|lia]. cbn [andb].
  unfold rep, works in *. clear - B E W H1 H2.
  destruct (Z.eqb_spec y 0), (Z.eqb_spec y (ly - 1)); try (exfalso; lia);
  destruct (Z.eqb_spec x 0), (Z.eqb_spec x (lx - 1)); try (exfalso; lia); cbn [andb orb];
  try (split; [intros _; split; [exact E|split; lia]|reflexivity]); lia.
Qed.

Lemma one_compiler rank : 2 <= ly -> 2 <= lx -> works -> 0 <= rank < 6 * T ->
  exists! c, 0 <= c < 6 * T /\ compiles l c false = true /\ identify_code_path l c false = identify_code_path l rank false.
Proof.
  intros H1 H2 W R. pose proof (pos_bounds rank) as B. destruct (subtile_index l rank) as [y x] eqn:E.
  destruct B as [By Bx]. pose proof (rep_range ly y By) as Ry. pose proof (rep_range lx x Bx) as Rx.
  pose proof T_pos as HT.
  set (c := rep ly y * lx + rep lx x).
  assert (Hc : 0 <= c < T) by (apply within_lt; auto).
  assert (Ec : subtile_index l c = (rep ly y, rep lx x)).
  { replace c with (0 * (ly * lx) + (rep ly y * lx + rep lx x)) by (unfold c; lia). apply subtile_index_enc; auto. }
  exists c. split.
  - split; [lia|]. split.
    + apply compiles_rep; auto. rewrite Ec. split; auto. split; apply rep_rep; auto.
    + apply path_rep; auto. rewrite Ec, E. now rewrite !rep_rep.
  - intros c' (R' & C' & P'). apply compiles_rep in C'; auto. destruct C' as [D1 D2]. apply path_rep in P'; auto.
    rewrite E in P'. destruct (subtile_index l c') as [y' x'] eqn:E'. destruct D2 as [D2 D3]. rewrite D2, D3 in P'.
    apply pair_equal_spec in P'. destruct P' as [-> ->]. unfold c.
    unfold subtile_index, subtile_index_of, tile_ranks, l in E'. cbn [fst snd] in E'. fold T in E'. rewrite Z.mod_small in E' by lia.
    apply pair_equal_spec in E'. destruct E' as [E1 E2]. rewrite <- E1, <- E2. pose proof (Z.div_mod c' lx). lia.
Qed.

(** ** run mode *)
Lemma edges_eq rank : edges l rank = (on_tile_bottom l rank, on_tile_top l rank, on_tile_left l rank, on_tile_right l rank).
Proof. reflexivity. Qed.
End Paths.

Lemma no_right ly lx c : 3 <= ly -> 3 <= lx -> ly <> lx -> compiles (ly, lx) c false = true -> identify_code_path (ly, lx) c false <> Some Right.
Proof.
  intros H1 H2 N C. unfold compiles in C. destruct (tile_index (ly, lx) c =? 0); [|discriminate]. cbn [negb] in C.
  unfold identify_code_path, is_corner, on_tile_bottom, on_tile_top, on_tile_left, on_tile_right,
    smallest_rank_left, smallest_rank_right, smallest_rank_bottom, smallest_rank_top, smallest_rank_middle in *.
  destruct (subtile_index (ly, lx) c) as [y x]. cbn [fst snd] in *.
  destruct (Z.eqb_spec ly 1); [lia|]. destruct (Z.eqb_spec lx 1); [lia|]. cbn [andb orb].
  destruct (Z.eqb_spec y 0), (Z.eqb_spec y (ly - 1)); cbn [andb orb] in C; 
  destruct (Z.eqb_spec x 0), (Z.eqb_spec x (lx - 1)); cbn [andb orb] in C; try discriminate; exfalso; lia.
Qed.

Lemma some_right ly lx : 3 <= ly -> 3 <= lx -> identify_code_path (ly, lx) (1 * lx + (lx - 1)) false = Some Right.
Proof.
  intros H1 H2. unfold identify_code_path, on_tile_bottom, on_tile_top, on_tile_left, on_tile_right.
  pose proof (subtile_index_enc ly lx 0 1 (lx - 1) ltac:(lia) ltac:(lia)) as E. rewrite Z.mul_0_l, Z.add_0_l in E. rewrite E. cbn [fst snd].
  destruct (Z.eqb_spec ly 1); [lia|]. destruct (Z.eqb_spec lx 1); [lia|]. cbn [andb orb]. destruct (Z.eqb_spec 1 0); [lia|].
  destruct (Z.eqb_spec 1 (ly - 1)); [lia|]. destruct (Z.eqb_spec (lx - 1) 0); [lia|]. rewrite Z.eqb_refl. auto.
Qed.

Lemma equivalent_ok n rank : 1 <= n ->
  exists e, compiling_equivalent Run (n, n) rank = Some e /\ 0 <= e < Z.min n 3 * Z.min n 3 /\ edges (Z.min n 3, Z.min n 3) e = edges (n, n) rank.
Proof.
  intros Hn. unfold compiling_equivalent. rewrite (edges_eq n n rank).
  unfold on_tile_bottom, on_tile_top, on_tile_left, on_tile_right.
  pose proof (pos_bounds n n Hn Hn rank) as B. destruct (subtile_index (n, n) rank) as [y x]. cbn [fst snd].
  destruct (Z.eqb_spec n 1) as [->|N1].
  { exists 0. split; [reflexivity|]. split; [cbn; lia|]. replace y with 0 by lia. replace x with 0 by lia. reflexivity. }
  destruct (Z.eqb_spec n 2) as [->|N2].
  { cbn [andb]. assert (Y : y = 0 \/ y = 1) by lia. assert (X : x = 0 \/ x = 1) by lia.
    destruct Y as [->| ->], X as [->| ->]; cbn; (eexists; split; [reflexivity|]; split; [lia|reflexivity]). }
  cbn [andb]. replace (Z.min n 3) with 3 by lia.
  destruct (Z.eqb_spec y 0), (Z.eqb_spec y (n - 1)); try (exfalso; lia);
  destruct (Z.eqb_spec x 0), (Z.eqb_spec x (n - 1)); try (exfalso; lia);
  (eexists; split; [reflexivity|]; split; [lia|reflexivity]).
Qed.

(** ** handshake *)
Section Handshake.
Variable T : Z.
Hypothesis HT : 1 <= T.
Let size := 6 * T.

Lemma is_compiling_iff rank : rank_is_compiling rank size = true <-> rank < T.
Proof.
  unfold rank_is_compiling, size. assert (E : (inject_Z (6 * T) / 6 == inject_Z T)%Q) by (rewrite inject_Z_mult; change (inject_Z 6) with 6%Q; field).
  destruct (Qlt_le_dec (inject_Z rank) (inject_Z (6 * T) / 6)) as [H|H]; rewrite E in H.
  - rewrite <- Zlt_Qlt in H. intuition.
  - rewrite <- Zle_Qle in H. split; [discriminate|lia].
Qed.

Lemma dest_eq tile rank : (inject_Z tile * (inject_Z size / 6) + inject_Z rank == inject_Z (tile * T + rank))%Q.
Proof. unfold size. rewrite inject_Z_plus, !inject_Z_mult. change (inject_Z 6) with 6%Q. field. Qed.

Definition eqv (rank : Z) : Z := rank mod T.

(** number of sends to d *)
Definition to_d (d : Z) (a : act) : bool := match a with Send q => Qeq_bool q (inject_Z d) | Recv _ => false end.
Definition count_to (d : Z) (p : list act) : nat := length (filter (to_d d) p).

Definition inv (p : sys) : Prop :=
  (forall c, 0 <= c < T -> Forall (fun a => exists t, 1 <= t <= 5 /\ exists q, a = Send q /\ (q == inject_Z (t * T + c))%Q) (p c)) /\
  (forall d, T <= d < size -> Forall (fun a => a = Recv (eqv d)) (p d) /\ count_to d (p (eqv d)) = length (p d)).

Lemma eqv_range d : 0 <= eqv d < T.
Proof. apply Z.mod_pos_bound. lia. Qed.
Lemma eqv_of t c : 0 <= c < T -> eqv (t * T + c) = c.
Proof. intros H. unfold eqv. rewrite Z.add_comm, Z.mod_add by lia. apply Z.mod_small; lia. Qed.

Fixpoint times {A} (n : nat) (l : list A) : list A := match n with O => [] | S n => l ++ times n l end.

Lemma Forall_times {A} (P : A -> Prop) n l : Forall P l -> Forall P (times n l).
Proof. intros H. induction n; cbn; auto. apply Forall_app. auto. Qed.

Lemma handshake_compiling c : 0 <= c < T ->
  handshake eqv size c = map (fun tile => Send (inject_Z tile * (inject_Z size / 6) + inject_Z c)) (zrange 1 6).
Proof.
  intros H. unfold handshake. rewrite (proj2 (is_compiling_iff c)) by lia. rewrite Z.gtb_ltb. destruct (Z.ltb_spec 1 size); [auto|unfold size in *; lia].
Qed.
Lemma handshake_waiting d : T <= d < size -> handshake eqv size d = [Recv (eqv d)].
Proof.
  intros H. unfold handshake. destruct (rank_is_compiling d size) eqn:E; [apply is_compiling_iff in E; lia|].
  rewrite Z.gtb_ltb. destruct (Z.ltb_spec 1 size); [auto|unfold size in *; lia].
Qed.

Lemma count_one d : T <= d < size -> count_to d (handshake eqv size (eqv d)) = 1%nat.
Proof.
  intros H. rewrite handshake_compiling by apply eqv_range.
  assert (Hq : exists t, 1 <= t <= 5 /\ d = t * T + eqv d).
  { exists (d / T). split; [split|]; [apply Z.div_le_lower_bound; lia|assert (d / T < 6) by (apply Z.div_lt_upper_bound; unfold size in *; lia); lia|].
    unfold eqv. pose proof (Z.div_mod d T). lia. }
  destruct Hq as (t & Ht & Hd).
  assert (Q1 : forall tile, Qeq_bool (inject_Z tile * (inject_Z size / 6) + inject_Z (eqv d)) (inject_Z d) = (tile =? t)).
  { intros tile. destruct (Qeq_bool _ _) eqn:E.
    - apply Qeq_bool_iff in E. rewrite dest_eq, inject_Z_injective in E. symmetry. apply Z.eqb_eq. nia.
    - symmetry. apply Z.eqb_neq. intros ->. apply Qeq_bool_neq in E. apply E. rewrite dest_eq, <- Hd. reflexivity. }
  unfold count_to. change (zrange 1 6) with [1; 2; 3; 4; 5]. cbn [map filter to_d]. rewrite !Q1. clear - Ht.
  assert (X : t = 1 \/ t = 2 \/ t = 3 \/ t = 4 \/ t = 5) by lia.
  destruct X as [->|[->|[->|[->| ->]]]]; reflexivity.
Qed.

Lemma count_app d a b : count_to d (a ++ b) = (count_to d a + count_to d b)%nat.
Proof. unfold count_to. rewrite filter_app, app_length. auto. Qed.

Lemma inv_start n : inv (fun r => times n (handshake eqv size r)).
Proof.
  split.
  - intros c Hc. apply Forall_times. rewrite handshake_compiling by auto. apply Forall_forall. intros a Ha.
    apply in_map_iff in Ha. destruct Ha as (t & <- & Ht). apply in_zrange in Ht. exists t. split; [lia|]. eexists. split; [reflexivity|]. apply dest_eq.
  - intros d Hd. split; [apply Forall_times; rewrite handshake_waiting by auto; auto|].
    pose proof (count_one d Hd) as C. rewrite (handshake_waiting d Hd). clear - C. induction n; cbn [times]; auto.
    rewrite count_app, app_length, C, IHn. reflexivity.
Qed.

Lemma set_other p r l r' : r' <> r -> set p r l r' = p r'.
Proof. intros H. unfold set. destruct (Z.eqb_spec r' r); [lia|auto]. Qed.
Lemma set_same p r l : set p r l r = l.
Proof. unfold set. rewrite Z.eqb_refl. auto. Qed.

Lemma inv_step p p' : inv p -> step size p p' -> inv p'.
Proof.
  intros [I1 I2] St. destruct St as [c d q lc ld Hc Hd N Pc Pd Q].
  assert (Cc : c < T).
  { destruct (Z.lt_ge_cases c T); auto. destruct (I2 c ltac:(lia)) as [F _]. rewrite Pc in F. inversion F. discriminate. }
  assert (Cd : T <= d).
  { destruct (Z.lt_ge_cases d T); auto. pose proof (I1 d ltac:(lia)) as F. rewrite Pd in F. inversion F as [|? ? (t & _ & q' & X & _)]. discriminate. }
  assert (Ed : eqv d = c). { destruct (I2 d ltac:(lia)) as [F _]. rewrite Pd in F. inversion F. congruence. }
  split.
  - intros r Hr. rewrite set_other by lia. destruct (Z.eq_dec r c) as [->|].
    + rewrite set_same. pose proof (I1 c ltac:(lia)) as F. rewrite Pc in F. now inversion F.
    + rewrite set_other by auto. auto.
  - intros r Hr. destruct (I2 r Hr) as [F C]. pose proof (eqv_range r) as ER.
    assert (K : forall x, set (set p c lc) d ld (eqv r) = x <-> (if eqv r =? c then lc else p (eqv r)) = x).
    { intros x. rewrite set_other by lia. reflexivity. }
    rewrite (proj2 (K (if eqv r =? c then lc else p (eqv r))) eq_refl). clear K.
    destruct (Z.eq_dec r d) as [->|Nr].
    + rewrite set_same. rewrite Ed, Z.eqb_refl. rewrite Ed in C, F. rewrite Pd in F, C. rewrite Pc in C. split; [now inversion F|].
      unfold count_to in *. cbn [filter to_d] in C. rewrite (proj2 (Qeq_bool_iff q (inject_Z d)) Q) in C. cbn [length] in C. lia.
    + rewrite set_other by auto. rewrite set_other by lia. split; auto.
      destruct (Z.eqb_spec (eqv r) c) as [E|E]; auto. rewrite E, Pc in C. unfold count_to in *. cbn [filter to_d] in C.
      destruct (Qeq_bool q (inject_Z r)) eqn:QE; auto. apply Qeq_bool_iff in QE. rewrite Q, inject_Z_injective in QE. lia.
Qed.

Lemma inv_progress p : inv p -> finished size p \/ exists p', step size p p'.
Proof.
  intros [I1 I2].
  assert (G : forall c, 0 <= c < T -> p c <> [] -> exists p', step size p p').
  { intros c Hc Ne. destruct (p c) as [|a lc] eqn:Pc; [congruence|]. pose proof (I1 c Hc) as F. rewrite Pc in F.
    inversion F as [|? ? (t & Ht & q & -> & Q)]; subst. set (d := t * T + c) in *.
    assert (Hd : T <= d < size) by (unfold d, size; nia).
    destruct (I2 d Hd) as [F2 C]. unfold d in C at 2. rewrite eqv_of, Pc in C by auto. unfold count_to in C. cbn [filter to_d] in C.
    rewrite (proj2 (Qeq_bool_iff q (inject_Z d)) Q) in C. cbn [length] in C.
    destruct (p d) as [|b ld] eqn:Pd; [discriminate|]. inversion F2 as [|? ? Eb]; subst. unfold d in Pd at 2. rewrite eqv_of in Pd by auto.
    eexists. eapply (Step size p c d q lc ld); auto; unfold size in *; lia. }
  assert (D : {exists c, In c (zrange 0 T) /\ p c <> []} + {~ exists c, In c (zrange 0 T) /\ p c <> []}).
  { clear. induction (zrange 0 T) as [|c l IH]; [right; intros (c & [] & _)|].
    destruct (p c) eqn:E; [|left; exists c; split; [left; auto|congruence]].
    destruct IH as [IH|IH]; [left; destruct IH as (x & ? & ?); exists x; split; [right; auto|auto]|].
    right. intros (x & [->|I] & N); [congruence|]. apply IH. eauto. }
  destruct D as [(c & Ic & Ne)|D]; [right; apply in_zrange in Ic; eauto|].
  left. assert (Z0 : forall c, 0 <= c < T -> p c = []).
  { intros c Hc. destruct (p c) eqn:E; auto. exfalso. apply D. exists c. split; [apply in_zrange; auto|congruence]. }
  intros r Hr. destruct (Z.lt_ge_cases r T); [apply Z0; lia|]. destruct (I2 r ltac:(lia)) as [_ C].
  rewrite (Z0 (eqv r) (eqv_range r)) in C. cbn in C. destruct (p r); [auto|discriminate].
Qed.

(** total number of actions left *)
Definition total (p : sys) : nat := list_sum (map (fun r => length (p r)) (zrange 0 size)).

Lemma sum_set p r l zs : NoDup zs -> In r zs ->
  (list_sum (map (fun x => length (set p r l x)) zs) + length (p r) = list_sum (map (fun x => length (p x)) zs) + length l)%nat.
Proof.
  intros ND I. induction zs as [|z zs IH]; [destruct I|]. inversion ND; subst. cbn [map list_sum fold_right]. fold (list_sum (map (fun x => length (p x)) zs)).
  fold (list_sum (map (fun x => length (set p r l x)) zs)). destruct (Z.eq_dec z r) as [->|N].
  - rewrite set_same. rewrite (map_ext_in (fun x => length (set p r l x)) (fun x => length (p x))); [lia|].
    intros x Hx. rewrite set_other; auto. intros ->. auto.
  - rewrite set_other by auto. destruct I as [->|I]; [congruence|]. specialize (IH H2 I). lia.
Qed.

Lemma step_total p p' : step size p p' -> total p = S (S (total p')).
Proof.
  intros [c d q lc ld Hc Hd N Pc Pd Q]. unfold total.
  pose proof (sum_set p c lc (zrange 0 size) (zrange_NoDup _ _) (proj2 (in_zrange _ _ _) Hc)) as E1.
  pose proof (sum_set (set p c lc) d ld (zrange 0 size) (zrange_NoDup _ _) (proj2 (in_zrange _ _ _) Hd)) as E2.
  rewrite set_other in E2 by auto. rewrite Pd in E2. rewrite Pc in E1. cbn [length] in *. lia.
Qed.

Lemma steps_inv n p p' : steps size n p p' -> inv p -> inv p' /\ total p = (2 * n + total p')%nat.
Proof.
  induction 1 as [p|n p p1 p2 S1 S2 IH]; intros I; [split; auto; lia|]. destruct (IH (inv_step _ _ I S1)) as [A B]. split; auto.
  apply step_total in S1. lia.
Qed.

Lemma handshake_ok nstencils n p :
  steps size n (fun r => times nstencils (handshake eqv size r)) p ->
  (finished size p \/ exists p', step size p p') /\ (2 * n <= total (fun r => times nstencils (handshake eqv size r)))%nat.
Proof.
  intros S. destruct (steps_inv _ _ _ S (inv_start nstencils)) as [I E]. split; [apply inv_progress; auto|lia].
Qed.
End Handshake.

(** ** configurations *)
Lemma mode_name_inv m : mode_of_name (mode_name m) = Some m.
Proof. destruct m; reflexivity. Qed.

Lemma round_trip b reb va fs ds m min c : make_config b reb va fs ds m min None = Some c -> from_dict (as_dict c) = Some c.
Proof.
  unfold make_config. destruct (as_gt4py b) as [g|] eqn:G; [|discriminate]. cbn [bind].
  destruct (negb (is_gpu b) && ds) eqn:E; [discriminate|]. intros [= <-].
  unfold from_dict, as_dict, get_str, get_bool. cbn [backend rebuild validate_args format_source device_sync mode minimal].
  cbn [get String.eqb Ascii.eqb Bool.eqb bind]. rewrite mode_name_inv. cbn [bind]. unfold make_config. rewrite G. cbn [bind]. rewrite E. auto.
Qed.

(** total number of zero bytes hashed *)
Definition weight (c : cconfig) (n : bool) : nat :=
  let f (b : bool) := if b then 1%nat else 0%nat in
  (f (rebuild c) + f (validate_args c) + f (minimal c) + f n + f (format_source c) + f (device_sync c)
   + match mode c with Build => 0 | BuildAndRun => 1 | Run => 2 end)%nat.

Lemma hashed_eq g c n : hashed g c n = encode g ++ zeros (weight c n).
Proof.
  unfold hashed, flag, zeros, weight, mode_value. rewrite <- !repeat_app. do 2 f_equal. lia.
Qed.

Definition no_zero (s : list ascii) : Prop := ~ In zero s.
Lemma app_zeros_inj a b n m : no_zero a -> no_zero b -> a ++ zeros n = b ++ zeros m -> a = b /\ n = m.
Proof.
  revert b. induction a as [|x a IH]; intros b Ha Hb E.
  - destruct b as [|y b]; cbn in E.
    + split; auto. unfold zeros in E. apply (f_equal (@length _)) in E. rewrite !repeat_length in E. auto.
    + exfalso. destruct n; cbn in E; [discriminate|]. injection E as E _. apply Hb. left. auto.
  - destruct b as [|y b]; cbn in E.
    + exfalso. destruct m; cbn in E; [discriminate|]. injection E as E _. apply Ha. left. auto.
    + injection E as -> E. destruct (IH b) as [-> ->]; auto; intros I; [apply Ha|apply Hb]; right; auto.
Qed.

Lemma encode_inj a b : encode a = encode b -> a = b.
Proof. revert b. induction a; intros []; cbn; try discriminate; auto. intros [= -> E]. f_equal. auto. Qed.

Lemma gt4py_no_zero b g : as_gt4py b = Some g -> no_zero (encode g).
Proof.
  unfold as_gt4py. intros H. apply get_in in H. unfold backend_table in H. unfold no_zero.
  repeat (destruct H as [H|H]; [injection H as <- <-; cbn; intros I; repeat (destruct I as [I|I]; [discriminate|]); exact I|]). destruct H.
Qed.

Lemma equal_configs md5 b1 g1 c1 n1 b2 g2 c2 n2 : (forall x y, md5 x = md5 y -> x = y) -> as_gt4py b1 = Some g1 -> as_gt4py b2 = Some g2 ->
  config_eq md5 g1 c1 n1 g2 c2 n2 = true <-> g1 = g2 /\ weight c1 n1 = weight c2 n2.
Proof.
  intros Inj G1 G2. unfold config_eq. rewrite Z.eqb_eq. rewrite !hashed_eq. split.
  - intros E. apply Inj in E. apply app_zeros_inj in E; [|eapply gt4py_no_zero; eauto..]. destruct E as [E ->]. split; auto. now apply encode_inj.
  - intros [-> ->]. auto.
Qed.

Lemma one_compiler_all ly lx rank : (ly = 1 /\ lx = 1) \/ (2 <= ly /\ 2 <= lx /\ (ly = lx \/ ly = 2 \/ lx = 2)) -> 0 <= rank < 6 * (ly * lx) ->
  exists! c, 0 <= c < 6 * (ly * lx) /\ compiles (ly, lx) c false = true /\
             identify_code_path (ly, lx) c false = identify_code_path (ly, lx) rank false.
Proof.
  intros [[-> ->]|(H1 & H2 & W)] R.
  - exists 0. split; [repeat split; try lia; reflexivity|]. intros c (C1 & C2 & _).
    assert (X : c = 0 \/ c = 1 \/ c = 2 \/ c = 3 \/ c = 4 \/ c = 5) by lia.
    destruct X as [->|[->|[->|[->|[->| ->]]]]]; auto; discriminate C2.
  - apply one_compiler; auto; lia.
Qed.

Lemma single_compiler l rank size : 0 <= rank < size ->
  exists! c, 0 <= c < size /\ compiles l c true = true /\ identify_code_path l c true = identify_code_path l rank true.
Proof.
  intros R. exists 0. split; [repeat split; try lia; reflexivity|]. intros c (_ & C & _). cbn in C. lia.
Qed.

Lemma equivalent_build l m rank : m <> Run -> compiling_equivalent m l rank = Some (rank mod tile_ranks l).
Proof. destruct m; [reflexivity|reflexivity|congruence]. Qed.
