(** Whole scalar halo updates on the cube. *)
From Verif Require Import Base PartModel PartSpec PartProofs PartGeom PartGeom2 DecompModel DecompSpec
  HaloModel HaloSpec HaloProofs HaloExchange HaloPack HaloNetSpec HaloNet.
Open Scope Z_scope.

(** On which side of the interval [-N, N] a coordinate lies. *)
Definition side (N X w : Z) : Prop := (w = 1 -> N < X) /\ (w = -1 -> X < - N) /\ (w = 0 -> - N <= X <= N).

Lemma fold_side N t X Y wx wy : side N X wx -> side N Y wy -> -1 <= wx <= 1 -> -1 <= wy <= 1 -> 0 <= N ->
  fold N t X Y = if negb (wx =? 0) && negb (wy =? 0) then None else
  Some (if wx =? 1 then vadd (vscale (N - (X - N)) (nrm t)) (vadd (vscale N (ax t)) (vscale Y (ay t)))
        else if wx =? -1 then vadd (vscale (N - (- N - X)) (nrm t)) (vadd (vscale (- N) (ax t)) (vscale Y (ay t)))
        else if wy =? 1 then vadd (vscale (N - (Y - N)) (nrm t)) (vadd (vscale X (ax t)) (vscale N (ay t)))
        else if wy =? -1 then vadd (vscale (N - (- N - Y)) (nrm t)) (vadd (vscale X (ax t)) (vscale (- N) (ay t)))
        else surface N t X Y).
Proof.
  intros (A1 & A2 & A3) (B1 & B2 & B3) Hx Hy HN. unfold fold.
  assert (C : wx = 1 \/ wx = -1 \/ wx = 0) by lia. assert (C' : wy = 1 \/ wy = -1 \/ wy = 0) by lia.
  destruct C as [->|[->| ->]], C' as [->|[->| ->]]; cbn -[Z.ltb Z.mul vadd vscale surface];
  repeat match goal with |- context [?a <? ?b] => destruct (Z.ltb_spec a b); try lia end; reflexivity.
Qed.

Lemma carried_side N t X Y wx wy : side N X wx -> side N Y wy -> -1 <= wx <= 1 -> -1 <= wy <= 1 -> 0 <= N ->
  carried_ax N t X Y = (if wx =? 1 then vopp (nrm t) else if wx =? -1 then nrm t else ax t) /\
  carried_ay N t X Y = (if wy =? 1 then vopp (nrm t) else if wy =? -1 then nrm t else ay t).
Proof.
  intros (A1 & A2 & A3) (B1 & B2 & B3) Hx Hy HN. unfold carried_ax, carried_ay.
  assert (C : wx = 1 \/ wx = -1 \/ wx = 0) by lia. assert (C' : wy = 1 \/ wy = -1 \/ wy = 0) by lia.
  split.
  - destruct C as [->|[->| ->]]; cbn -[Z.ltb Z.mul vadd vscale]; 
    repeat match goal with |- context [?a <? ?b] => destruct (Z.ltb_spec a b); try lia end; reflexivity.
  - destruct C' as [->|[->| ->]]; cbn -[Z.ltb Z.mul vadd vscale]; 
    repeat match goal with |- context [?a <? ?b] => destruct (Z.ltb_spec a b); try lia end; reflexivity.
Qed.

Lemma seen0 a b : seen_from 0 a b = (a, b). Proof. reflexivity. Qed.
Lemma seen1 a b : seen_from 1 a b = (- b, a). Proof. reflexivity. Qed.
Lemma seen2 a b : seen_from 2 a b = (- a, - b). Proof. reflexivity. Qed.
Lemma seen3 a b : seen_from 3 a b = (b, - a). Proof. reflexivity. Qed.

Lemma vec_eq (a b c a' b' c' : Z) : a = a' -> b = b' -> c = c' -> (a, b, c) = (a', b', c').
Proof. congruence. Qed.

Lemma six t : 0 <= t < 6 -> t = 0 \/ t = 1 \/ t = 2 \/ t = 3 \/ t = 4 \/ t = 5.
Proof. lia. Qed.

Lemma pick_side n x : 0 < n -> Z.abs x <> n -> exists w, -1 <= w <= 1 /\ side n x w.
Proof.
  intros Hn Hx. destruct (Z_lt_ge_dec n x); [exists 1|destruct (Z_lt_ge_dec x (- n)); [exists (-1)|exists 0]]; unfold side; lia.
Qed.

Lemma fold_fine n t x y t' r' c' k wx wy : 0 < n -> 0 <= t < 6 ->
  side n x wx -> side n y wy -> -1 <= wx <= 1 -> -1 <= wy <= 1 -> Z.abs x <> n -> Z.abs y <> n -> - 3 * n < x < 3 * n -> - 3 * n < y < 3 * n ->
  is_neighbour n t x y t' r' c' k ->
  (wx = 0 \/ wy = 0) /\
  seen_from k (x - 2 * n * wx) (y - 2 * n * wy) = (centre n c', centre n r') /\
  forall N X Y, 0 <= N -> side N X wx -> side N Y wy ->
    fold N t X Y = Some (surface N t' (fst (seen_from k (X - 2 * N * wx) (Y - 2 * N * wy))) (snd (seen_from k (X - 2 * N * wx) (Y - 2 * N * wy)))) /\
    carried_ax N t X Y = turn_x k (ax t') (ay t') /\ carried_ay N t X Y = turn_y k (ax t') (ay t').
Proof.
  intros Hn Ht Sx Sy Hwx Hwy Nx Ny Bx By (Ht' & Hr' & Hc' & Hk & F & TX & TY).
  rewrite (fold_side n t x y wx wy) in F by (auto; lia).
  destruct (carried_side n t x y wx wy Sx Sy Hwx Hwy ltac:(lia)) as [E1 E2]. rewrite E1 in TX. rewrite E2 in TY. clear E1 E2.
  assert (Gn : forall N X Y, 0 <= N -> side N X wx -> side N Y wy -> carried_ax N t X Y = turn_x k (ax t') (ay t') /\ carried_ay N t X Y = turn_y k (ax t') (ay t')).
  { intros N X Y HN SX SY. destruct (carried_side N t X Y wx wy SX SY Hwx Hwy HN) as [-> ->]. split; congruence. }
  assert (B : - n < centre n c' < n /\ - n < centre n r' < n) by (unfold centre; lia). destruct B as [Bc Br].
  set (cc := centre n c') in *. set (rr := centre n r') in *. clearbody cc rr. clear Hr' Hc'.
  assert (C : wx = 1 \/ wx = -1 \/ wx = 0) by lia. assert (C' : wy = 1 \/ wy = -1 \/ wy = 0) by lia.
  assert (K : (wx = 0 \/ wy = 0) /\
     seen_from k (x - 2 * n * wx) (y - 2 * n * wy) = (cc, rr) /\
     forall N X Y, 0 <= N -> side N X wx -> side N Y wy ->
     fold N t X Y = Some (surface N t' (fst (seen_from k (X - 2 * N * wx) (Y - 2 * N * wy))) (snd (seen_from k (X - 2 * N * wx) (Y - 2 * N * wy))))).
  { clear Gn. unfold side in Sx, Sy.
    destruct C as [->|[->| ->]], C' as [->|[->| ->]]; try discriminate F; (split; [lia|]);
    destruct (mod4 k Hk) as [->|[->|[->| ->]]];
    destruct (six t Ht) as [->|[->|[->|[->|[->| ->]]]]]; destruct (six t' Ht') as [->|[->|[->|[->|[->| ->]]]]];
    try discriminate TX; try discriminate TY; clear TX TY;
    cbn -[Z.mul Z.sub Z.add] in F; try (exfalso; clear -F Bc Br Bx By Hn Sx Sy Nx Ny; injection F; intros; lia);
    injection F; intros F1 F2 F3; (split; [rewrite ?seen0, ?seen1, ?seen2, ?seen3; f_equal; lia|]);
    intros N X Y HN SX SY; rewrite ?seen0, ?seen1, ?seen2, ?seen3; rewrite (fold_side N _ X Y _ _ SX SY Hwx Hwy HN); cbn -[Z.mul Z.sub Z.add]; apply (f_equal Some), vec_eq; lia. }
  destruct K as (K1 & K2 & K3). split; auto.
Qed.

(** ** one axis of the cut *)
Section Axis.
  Variables (n N h : Z) (cut : Z -> Z) (st : bool).
  Hypothesis Hn : 0 < n.
  Hypothesis Hh : 0 <= h.
  Hypothesis C : cuts n N h cut.
  Variable f : Z.
  Hypothesis Ef : f = b2z st.
  Lemma f01 : 0 <= f <= 1. Proof. subst f. destruct st; cbn; lia. Qed.

  Lemma coord_f g : plane_coord N st g = 2 * g + 1 - f - N.
  Proof. unfold plane_coord. subst f. destruct st; cbn; lia. Qed.

  Lemma side_fine c d w o x : 0 <= c < n -> -1 <= d <= 1 ->
    (c + d < 0 -> w = -1) -> (n <= c + d -> w = 1) -> (0 <= c + d < n -> w = 0) ->
    fst (range1 d o (cut (c + 1) - cut c + f) f h false) <= x < snd (range1 d o (cut (c + 1) - cut c + f) f h false) ->
    side N (plane_coord N st (cut c + (x - o))) w.
  Proof.
    intros Hc Hd W1 W2 W3 Hx. rewrite coord_f. pose proof f01.
    pose proof (cuts_mono n N h cut Hh C) as M. destruct C as (C0 & Cn & Cw).
    pose proof (M 0 c ltac:(lia) ltac:(lia)) as M1. pose proof (M (c + 1) n ltac:(lia) ltac:(lia)) as M2. pose proof (Cw c Hc) as M3.
    assert (D : d = -1 \/ d = 0 \/ d = 1) by lia. unfold side. destruct D as [->|[->| ->]]; unfold range1 in Hx; cbn in Hx.
    - destruct (Z.eq_dec c 0) as [->|Nz]; [rewrite W1 by lia; lia|]. rewrite W3 by lia.
      pose proof (Cw (c - 1) ltac:(lia)) as Cc. replace (c - 1 + 1) with c in Cc by lia. pose proof (M 0 (c - 1) ltac:(lia) ltac:(lia)). lia.
    - rewrite W3 by lia. lia.
    - destruct (Z.eq_dec c (n - 1)) as [->|Nz].
      + rewrite W2 by lia. replace (n - 1 + 1) with n in * by lia. lia.
      + rewrite W3 by lia. pose proof (Cw (c + 1) ltac:(lia)) as Cc. pose proof (M (c + 1 + 1) n ltac:(lia) ltac:(lia)). lia.
  Qed.

  Lemma side_coarse c d w : 0 <= c < n -> -1 <= d <= 1 ->
    (c + d < 0 -> w = -1) -> (n <= c + d -> w = 1) -> (0 <= c + d < n -> w = 0) -> side n (centre n c + 2 * d) w /\ -1 <= w <= 1.
  Proof.
    intros Hc Hd W1 W2 W3. unfold side, centre.
    destruct (Z_lt_ge_dec (c + d) 0); [rewrite W1 by lia; lia|]. destruct (Z_lt_ge_dec (c + d) n); [rewrite W3 by lia; lia|rewrite W2 by lia; lia].
  Qed.

  Lemma src_direct c d w o o' x : 0 <= c < n -> -1 <= d <= 1 -> 0 <= c + d - n * w < n ->
    (d = 1 -> cut (c + d - n * w) = cut (c + 1) - N * w) -> (d = -1 -> cut (c + d - n * w + 1) = cut c - N * w) -> (d = 0 -> w = 0) ->
    let c' := c + d - n * w in
    let R := range1 d o (cut (c + 1) - cut c + f) f h false in
    let R' := range1 (- d) o' (cut (c' + 1) - cut c' + f) f h true in
    fst R <= x < snd R ->
    let x' := fst R' + (x - fst R) in
    cut c' + (x' - o') = cut c + (x - o) - N * w /\ o' <= x' < o' + (cut (c' + 1) - cut c') + f /\ len R' = len R.
  Proof.
    intros Hc Hd Hc' E1 E2 E3. cbn zeta. pose proof f01. destruct C as (C0 & Cn & Cw). pose proof (Cw c Hc) as K. pose proof (Cw _ Hc') as K'.
    assert (D : d = -1 \/ d = 0 \/ d = 1) by lia. unfold len. destruct D as [->|[->| ->]]; unfold range1; cbn; intros Hx.
    - specialize (E2 eq_refl). lia.
    - specialize (E3 eq_refl). subst w. replace (c + 0 - n * 0) with c in * by lia. lia.
    - specialize (E1 eq_refl). lia.
  Qed.

  Hypothesis Pal : palindromic n cut.

  Lemma src_reflect c d w o o' x : 0 <= c < n -> -1 <= d <= 1 -> 0 <= c + d - n * w < n ->
    (d = 1 -> cut (c + d - n * w) = cut (c + 1) - N * w) -> (d = -1 -> cut (c + d - n * w + 1) = cut c - N * w) -> (d = 0 -> w = 0) ->
    let c' := n - 1 - (c + d - n * w) in
    let R := range1 d o (cut (c + 1) - cut c + f) f h false in
    let R' := range1 d o' (cut (c' + 1) - cut c' + f) f h true in
    fst R <= x < snd R ->
    let x' := fst R' + (len R' - 1 - (x - fst R)) in
    cut c' + (x' - o') = N - 1 + f - (cut c + (x - o) - N * w) /\ o' <= x' < o' + (cut (c' + 1) - cut c') + f /\ len R' = len R.
  Proof.
    intros Hc Hd Hc' E1 E2 E3. cbn zeta. pose proof f01. destruct C as (C0 & Cn & Cw). pose proof (Cw c Hc) as K. pose proof (Cw _ Hc') as K'.
    set (ch := c + d - n * w) in *.
    pose proof (Pal ch ltac:(lia)) as P1. pose proof (Pal (ch + 1) ltac:(lia)) as P2. rewrite Cn in P1, P2.
    replace (n - 1 - ch + 1) with (n - ch) by lia. replace (n - 1 - ch) with (n - (ch + 1)) by lia.
    assert (D : d = -1 \/ d = 0 \/ d = 1) by lia. unfold len. destruct D as [->|[->| ->]]; unfold range1; cbn; intros Hx.
    - specialize (E2 eq_refl). lia.
    - specialize (E3 eq_refl). subst w. replace ch with c in * by lia. lia.
    - specialize (E1 eq_refl). lia.
  Qed.
End Axis.

Lemma cube_bnds n r : 0 < n -> 0 <= r < 6 * (n * n) ->
  exists bs, cube_boundaries (n, n) r = Some bs /\
    (forall b, In b bs <-> cube_boundary (n, n) (b_type b) r = Some (Some b)) /\ NoDup (map b_type bs).
Proof.
  intros Hn Hr.
  assert (Ty : forall bt b, cube_boundary (n, n) bt r = Some (Some b) -> b_type b = bt).
  { intros bt b E. destruct (rank_decompose n r Hn Hr) as (t & i & c & Ht & Hi & Hc & ->).
    pose proof (cube_geometry n bt t i c Ht Hi Hc) as K. cbn zeta in K. unfold enc in E. rewrite E in K. tauto. }
  unfold cube_boundaries.
  assert (G : forall bts, NoDup bts -> exists bs, cube_boundaries_of (n, n) r bts = Some bs /\
     (forall b, In b bs <-> In (b_type b) bts /\ cube_boundary (n, n) (b_type b) r = Some (Some b)) /\ NoDup (map b_type bs)).
  { induction bts as [|bt bts IH]; intros Nd; [exists []; cbn; split; auto; split; [tauto|constructor]|]. inversion Nd; subst.
    cbn [cube_boundaries_of]. destruct (cube_total n bt r Hn Hr) as (o & Eo). rewrite Eo. cbn [bind].
    destruct (IH H2) as (bs & E & I & D). rewrite E. cbn [bind]. destruct o as [b|].
    - pose proof (Ty _ _ Eo) as Eb. exists (b :: bs). split; [reflexivity|]. split.
      + intros b0. cbn [In]. rewrite I. split.
        * intros [<-|[K1 K2]]; [rewrite Eb; auto|auto].
        * intros [[<-|K1] K2]; [left; congruence|right; auto].
      + cbn. constructor; auto. rewrite Eb. intros K. apply in_map_iff in K. destruct K as (b0 & Eb0 & K). apply I in K. destruct K. congruence.
    - exists bs. split; [reflexivity|]. split; auto. intros b0. rewrite I. cbn [In]. split; [tauto|].
      intros [[<-|K1] K2]; [congruence|auto]. }
  destruct (G boundary_types) as (bs & E & I & D).
  { repeat constructor; cbn; intros K; repeat destruct K as [K|K]; try exact K; discriminate K. }
  exists bs. split; auto. split; auto. intros b. rewrite I. split; [tauto|]. intros; split; auto. destruct (b_type b); cbn; tauto.
Qed.

Lemma rank_parts n r : 0 < n -> 0 <= r < 6 * (n * n) ->
  0 <= tile_of n r < 6 /\ 0 <= row_of n r < n /\ 0 <= col_of n r < n /\ r = enc n (tile_of n r) (row_of n r) (col_of n r).
Proof.
  intros Hn Hr. unfold tile_of, row_of, col_of, enc.
  assert (P : 0 < n * n) by nia.
  pose proof (Z.div_mod r (n * n) ltac:(lia)) as D1. pose proof (Z.mod_pos_bound r (n * n) P) as B1.
  set (w := r mod (n * n)) in *. pose proof (Z.div_mod w n ltac:(lia)) as D2. pose proof (Z.mod_pos_bound w n Hn) as B2.
  assert (0 <= r / (n * n)) by (apply Z.div_pos; lia). assert (r / (n * n) < 6) by (apply Z.div_lt_upper_bound; lia).
  assert (0 <= w / n) by (apply Z.div_pos; lia). assert (w / n < n) by (apply Z.div_lt_upper_bound; lia).
  repeat split; try lia.
Qed.
Lemma enc_parts n t i c : 0 < n -> 0 <= t < 6 -> 0 <= i < n -> 0 <= c < n ->
  tile_of n (enc n t i c) = t /\ row_of n (enc n t i c) = i /\ col_of n (enc n t i c) = c.
Proof.
  intros Hn Ht Hi Hc. pose proof (enc_range n t i c Ht Hi Hc) as B. destruct (rank_parts n _ Hn B) as (B1 & B2 & B3 & E).
  symmetry in E. apply enc_inj in E; auto.
Qed.

Section Cube.
  Context {A : Type}.
  Variables (n N : Z) (cut : Z -> Z) (nf : nat).
  Variables (D : nat -> list dim) (origin ext : nat -> list Z) (h : nat -> Z) (st : nat -> bool).
  Variables (sp : Z -> nat -> spec) (q : Z -> nat -> index -> A) (G : nat -> vec -> index -> A).
  Hypothesis Hn : 0 < n.
  Hypothesis Hnf : (0 < nf)%nat.
  Hypothesis Hpal : palindromic n cut.
  Hypothesis Hcut : forall j, (j < nf)%nat -> cuts n N (h j) cut.
  Hypothesis Hst : forall j, (j < nf)%nat -> iface_x (D j) = st j /\ iface_y (D j) = st j.
  Let R := 6 * (n * n).
  Hypothesis Hsp : forall r j, 0 <= r < R -> (j < nf)%nat ->
    holds_cells (sp r j) (D j) (origin j) (ext j) (h j) (cut (col_of n r)) (cut (col_of n r + 1)) (cut (row_of n r)) (cut (row_of n r + 1)).
  Let X r j p := face_x N (sp r j) (cut (col_of n r)) p.
  Let Y r j p := face_y N (sp r j) (cut (row_of n r)) p.
  Hypothesis Hq : forall r j p, 0 <= r < R -> (j < nf)%nat -> inside (compute_domain (sp r j)) p ->
    q r j p = G j (surface N (tile_of n r) (X r j p) (Y r j p)) (put_xy (D j) p 0 0).

  Definition cbnds (r : Z) : list boundary := match cube_boundaries (n, n) r with Some l => l | None => [] end.

  Lemma in_cbnds r b : 0 <= r < R -> In b (cbnds r) <-> cube_boundary (n, n) (b_type b) r = Some (Some b).
  Proof. intros Hr. unfold cbnds. destruct (cube_bnds n r Hn Hr) as (bs & -> & I & _). apply I. Qed.

  Lemma NoDup_cbnds r : 0 <= r < R -> NoDup (map b_to (cbnds r)).
  Proof.
    intros Hr. unfold cbnds. destruct (cube_bnds n r Hn Hr) as (bs & -> & I & Nd).
    assert (K : forall b, In b bs -> cube_boundary (n, n) (b_type b) r = Some (Some b)) by (intros; apply I; auto). clear I.
    induction bs as [|b bs IH]; cbn; [constructor|]. cbn in Nd. inversion Nd; subst. constructor.
    - intros J. apply in_map_iff in J. destruct J as (b2 & E & J).
      destruct (cube_distinct n r (b_type b) (b_type b2) b Hn Hr (K b ltac:(left; auto))) as [_ Ds].
      apply (Ds) with b2; [intros Et; apply H1; rewrite Et; apply in_map; auto|apply K; right; auto|congruence].
    - apply IH; auto. intros; apply K; right; auto.
  Qed.

  (** everything about one boundary *)
  Lemma cube_step r b : 0 <= r < R -> In b (cbnds r) ->
    exists b' wx wy, let k := b_rot b in let s := b_to b in let bt := b_type b in
      0 <= s < R /\ In b' (cbnds s) /\ b_to b' = r /\ 0 <= k < 4 /\ (- b_rot b') mod 4 = k /\
      (dx (b_type b'), dy (b_type b')) = seen_from k (- dx bt) (- dy bt) /\
      -1 <= wx <= 1 /\ -1 <= wy <= 1 /\
      let ch := col_of n r + dx bt - n * wx in let rh := row_of n r + dy bt - n * wy in
      0 <= ch < n /\ 0 <= rh < n /\
      (col_of n r + dx bt < 0 -> wx = -1) /\ (n <= col_of n r + dx bt -> wx = 1) /\ (0 <= col_of n r + dx bt < n -> wx = 0) /\
      (row_of n r + dy bt < 0 -> wy = -1) /\ (n <= row_of n r + dy bt -> wy = 1) /\ (0 <= row_of n r + dy bt < n -> wy = 0) /\
      (col_of n s, row_of n s) = match k with 0 => (ch, rh) | 1 => (n - 1 - rh, ch) | 2 => (n - 1 - ch, n - 1 - rh) | _ => (rh, n - 1 - ch) end /\
      forall M a c, 0 <= M -> side M a wx -> side M c wy ->
        fold M (tile_of n r) a c = Some (surface M (tile_of n s) (fst (seen_from k (a - 2 * M * wx) (c - 2 * M * wy))) (snd (seen_from k (a - 2 * M * wx) (c - 2 * M * wy)))) /\
        carried_ax M (tile_of n r) a c = turn_x k (ax (tile_of n s)) (ay (tile_of n s)) /\
        carried_ay M (tile_of n r) a c = turn_y k (ax (tile_of n s)) (ay (tile_of n s)).
  Proof.
    intros Hr Hb. apply in_cbnds in Hb; auto.
    destruct (cube_mutual n (b_type b) r b Hn Hr Hb) as (M1 & M2 & M3 & bt' & b' & M4 & M5 & M6 & M7).
    assert (Eb' : b_type b' = bt').
    { destruct (rank_parts n (b_to b) Hn M2) as (Q1 & Q2 & Q3 & Q4). rewrite Q4 in M4.
      pose proof (cube_geometry n bt' _ _ _ Q1 Q2 Q3) as K. cbn zeta in K. unfold enc in M4. rewrite M4 in K. tauto. }
    destruct (rank_parts n r Hn Hr) as (P1 & P2 & P3 & P4).
    pose proof (cube_geometry n (b_type b) _ _ _ P1 P2 P3) as K. cbn zeta in K.
    change (tile_of n r * (n * n) + (row_of n r * n + col_of n r)) with (enc n (tile_of n r) (row_of n r) (col_of n r)) in K.
    rewrite <- P4 in K. rewrite Hb in K. destruct K as (_ & _ & t' & r' & c' & Eto & Nb).
    assert (Sx : exists w, (col_of n r + dx (b_type b) < 0 -> w = -1) /\ (n <= col_of n r + dx (b_type b) -> w = 1) /\ (0 <= col_of n r + dx (b_type b) < n -> w = 0)).
    { destruct (Z_lt_ge_dec (col_of n r + dx (b_type b)) 0); [exists (-1)|destruct (Z_lt_ge_dec (col_of n r + dx (b_type b)) n); [exists 0|exists 1]]; lia. }
    assert (Sy : exists w, (row_of n r + dy (b_type b) < 0 -> w = -1) /\ (n <= row_of n r + dy (b_type b) -> w = 1) /\ (0 <= row_of n r + dy (b_type b) < n -> w = 0)).
    { destruct (Z_lt_ge_dec (row_of n r + dy (b_type b)) 0); [exists (-1)|destruct (Z_lt_ge_dec (row_of n r + dy (b_type b)) n); [exists 0|exists 1]]; lia. }
    destruct Sx as (wx & Sx1 & Sx2 & Sx3), Sy as (wy & Sy1 & Sy2 & Sy3). exists b', wx, wy. cbn zeta.
    pose proof (dx_bound (b_type b)) as Dx. pose proof (dy_bound (b_type b)) as Dy.
    destruct (side_coarse n (col_of n r) (dx (b_type b)) wx P3 Dx Sx1 Sx2 Sx3) as [Sx Bx].
    destruct (side_coarse n (row_of n r) (dy (b_type b)) wy P2 Dy Sy1 Sy2 Sy3) as [Sy By].
    destruct (fold_fine n (tile_of n r) _ _ t' r' c' (b_rot b) wx wy Hn P1 Sx Sy Bx By) as (W0 & Hs & Hf); auto; try (unfold centre; lia).
    assert (Nb' := Nb). destruct Nb' as (T1 & T2 & T3 & _).
    change (t' * (n * n) + (r' * n + c')) with (enc n t' r' c') in Eto.
    destruct (enc_parts n t' r' c' Hn T1 T2 T3) as (E1 & E2 & E3). rewrite <- Eto in E1, E2, E3.
    split; [exact M2|]. split; [apply in_cbnds; [exact M2|]; rewrite Eb'; exact M4|]. split; [exact M5|]. split; [exact M3|].
    split.
    { rewrite M6. destruct (mod4 (b_rot b) M3) as [->|[->|[->| ->]]]; reflexivity. }
    split; [rewrite Eb'; exact M7|]. split; [exact Bx|]. split; [exact By|].
    assert (Hch : 0 <= col_of n r + dx (b_type b) - n * wx < n) by nia. assert (Hrh : 0 <= row_of n r + dy (b_type b) - n * wy < n) by nia.
    split; [exact Hch|]. split; [exact Hrh|]. do 6 (split; [assumption|]).
    split.
    - rewrite E2, E3. destruct (mod4 (b_rot b) M3) as [E|[E|[E|E]]]; rewrite E in *; rewrite ?seen0, ?seen1, ?seen2, ?seen3 in Hs; unfold centre in Hs; cbv beta iota; apply pair_equal_spec in Hs; destruct Hs; f_equal; lia.
    - rewrite E1. exact Hf.
  Qed.

  Lemma cwidth r j : 0 <= r < R -> (j < nf)%nat ->
    h j <= cut (col_of n r + 1) - cut (col_of n r) /\ h j <= cut (row_of n r + 1) - cut (row_of n r).
  Proof.
    intros Hr Hj. destruct (Hcut j Hj) as (_ & _ & C1). destruct (rank_parts n r Hn Hr) as (P1 & P2 & P3 & P4). split; apply C1; lia.
  Qed.

  Lemma mate_eq r b b1 b2 : 0 <= r < R -> In b (cbnds r) -> 0 <= b_to b < R ->
    In b1 (cbnds (b_to b)) -> b_to b1 = r -> In b2 (cbnds (b_to b)) -> b_to b2 = r -> b1 = b2.
  Proof.
    intros Hr Hb Ht I1 E1 I2 E2. apply in_cbnds in I1, I2; auto.
    destruct (btype_eq_dec (b_type b1) (b_type b2)) as [E|E]; [congruence|].
    exfalso. destruct (cube_distinct n (b_to b) (b_type b1) (b_type b2) b1 Hn Ht I1) as [_ Ds]. apply (Ds E b2 I2). congruence.
  Qed.

  (** where a received value comes from, and that it fits *)
  Lemma cube_source r b b' j : 0 <= r < R -> In b (cbnds r) -> mates cbnds r b b' -> (j < nf)%nat ->
    fst (rotated b' (sp (b_to b) j) (q (b_to b) j)) = shape_of (region (sp r j) (b_type b) false) /\
    forall p, inside (region (sp r j) (b_type b) false) p ->
      exists v, fold N (tile_of n r) (X r j p) (Y r j p) = Some v /\
      snd (rotated b' (sp (b_to b) j) (q (b_to b) j)) (unshift (region (sp r j) (b_type b) false) p) = G j v (put_xy (D j) p 0 0).
  Proof.
    intros Hr Hb [I1 I2] Hj.
    destruct (cube_step r b Hr Hb) as (b0 & wx & wy & K). cbn zeta in K.
    destruct K as (Ht & J1 & J2 & Hk & Ek & Edir & Bwx & Bwy & Hch & Hrh & Sx1 & Sx2 & Sx3 & Sy1 & Sy2 & Sy3 & Ecr & Hfold).
    assert (b0 = b') by (apply (mate_eq r b); auto). subst b0.
    pose proof (Hsp r j Hr Hj) as S1. pose proof (Hsp (b_to b) j Ht Hj) as S2.
    destruct (cwidth r j Hr Hj) as [W1 W2], (cwidth (b_to b) j Ht Hj) as [W3 W4].
    pose proof S1 as (Wf1 & D1 & O1 & N1 & _). pose proof S2 as (Wf2 & D2 & O2 & N2 & _).
    destruct (Hst j Hj) as [Stx Sty]. pose proof (Hcut j Hj) as C.
    destruct (h_plane _ _ _ _ _ _ _ _ _ S1) as (P & Lo & Lx & Hh).
    destruct (rank_parts n r Hn Hr) as (P1 & P2 & P3 & P4).
    pose proof (dx_bound (b_type b)) as Bdx. pose proof (dy_bound (b_type b)) as Bdy.
    set (c := col_of n r) in *. set (i := row_of n r) in *. set (bt := b_type b) in *.
    destruct (hat n N (h j) cut c (dx bt) Hn C P3 Bdx) as (wx' & A1 & A2 & A6 & A7 & A8 & A3 & A4 & A5).
    destruct (hat n N (h j) cut i (dy bt) Hn C P2 Bdy) as (wy' & B1 & B2 & B6 & B7 & B8 & B3 & B4 & B5).
    assert (wx' = wx) by (clear - Sx1 Sx2 Sx3 A6 A7 A8; lia). assert (wy' = wy) by (clear - Sy1 Sy2 Sy3 B6 B7 B8; lia). subst wx' wy'. clear A1 B1 A6 A7 A8 B6 B7 B8.
    set (ch := c + dx bt - n * wx) in *. set (rh := i + dy bt - n * wy) in *.
    set (f := b2z (st j)).
    assert (Rx : forall bd int, range_x (sp r j) bd int = range1 (dx bd) (cx (D j) (origin j)) (cut (c + 1) - cut c + f) f (h j) int)
      by (intros; rewrite (range_x_eq _ _ _ _ _ _ _ _ _ S1 W1 W2), Stx; reflexivity).
    assert (Ry : forall bd int, range_y (sp r j) bd int = range1 (dy bd) (cy (D j) (origin j)) (cut (i + 1) - cut i + f) f (h j) int)
      by (intros; rewrite (range_y_eq _ _ _ _ _ _ _ _ _ S1 W1 W2), Sty; reflexivity).
    assert (Rx' : forall bd int, range_x (sp (b_to b) j) bd int = range1 (dx bd) (cx (D j) (origin j)) (cut (col_of n (b_to b) + 1) - cut (col_of n (b_to b)) + f) f (h j) int)
      by (intros; rewrite (range_x_eq _ _ _ _ _ _ _ _ _ S2 W3 W4), Stx; reflexivity).
    assert (Ry' : forall bd int, range_y (sp (b_to b) j) bd int = range1 (dy bd) (cy (D j) (origin j)) (cut (row_of n (b_to b) + 1) - cut (row_of n (b_to b)) + f) f (h j) int)
      by (intros; rewrite (range_y_eq _ _ _ _ _ _ _ _ _ S2 W3 W4), Sty; reflexivity).
    pose proof (fun o o' x => src_direct n N (h j) cut (st j) C f eq_refl c (dx bt) wx o o' x P3 Bdx Hch A3 A4 A5) as DX.
    pose proof (fun o o' x => src_direct n N (h j) cut (st j) C f eq_refl i (dy bt) wy o o' x P2 Bdy Hrh B3 B4 B5) as DY.
    pose proof (fun o o' x => src_reflect n N (h j) cut (st j) C f eq_refl Hpal c (dx bt) wx o o' x P3 Bdx Hch A3 A4 A5) as FX.
    pose proof (fun o o' x => src_reflect n N (h j) cut (st j) C f eq_refl Hpal i (dy bt) wy o o' x P2 Bdy Hrh B3 B4 B5) as FY.
    cbn zeta in DX, DY, FX, FY. fold ch in DX, FX. fold rh in DY, FY.
    set (ox := cx (D j) (origin j)) in *. set (oy := cy (D j) (origin j)) in *.
    split.
    - apply (rotated_fits b _ _ _ _ (ext j)); auto; [congruence|rewrite D1; apply (ext_off _ _ _ _ _ _ _ _ _ S1)|rewrite D1; apply (ext_off _ _ _ _ _ _ _ _ _ S2)|].
      cbn zeta. rewrite Ek. fold bt. rewrite Rx, Ry, Rx', Ry'. unfold len. rewrite !range1_width. unfold width1.
      assert (Wc : forall a, 0 <= a < n -> cut (n - 1 - a + 1) - cut (n - 1 - a) = cut (a + 1) - cut a).
      { clear - Hpal. intros a Ha. pose proof (Hpal a ltac:(lia)) as Q1. pose proof (Hpal (a + 1) ltac:(lia)) as Q2.
        replace (n - 1 - a + 1) with (n - a) by lia. replace (n - 1 - a) with (n - (a + 1)) by lia. lia. }
      assert (Hc0 : dx bt = 0 -> ch = c) by (intros E; unfold ch; rewrite E, A5 by auto; ring).
      assert (Hi0 : dy bt = 0 -> rh = i) by (intros E; unfold rh; rewrite E, B5 by auto; ring).
      destruct (mod4 (b_rot b) Hk) as [E|[E|[E|E]]]; rewrite E in *; rewrite ?seen0, ?seen1, ?seen2, ?seen3 in Edir; cbn [Z.even];
      injection Edir as Edx Edy; injection Ecr as Ec Ei; rewrite Edx, Edy, Ec, Ei; rewrite ?Wc by assumption;
      (split;
       [destruct (Z.eqb_spec (dx bt) 0) as [Z1|Z1]; [rewrite ?Hc0 by auto|] | destruct (Z.eqb_spec (dy bt) 0) as [Z1|Z1]; [rewrite ?Hi0 by auto|]]);
      match goal with |- context [if ?e =? 0 then _ else _] => destruct (Z.eqb_spec e 0) as [Z2|Z2] end; clear - Z1 Z2; lia.
    - intros p I. destruct (region_point _ _ _ _ _ _ _ _ _ S1 bt p I) as (Lp & Px & Py).
      assert (SX : side N (X r j p) wx).
      { unfold X, face_x, gx. rewrite D1, O1, Stx. fold c. apply (side_fine n N (h j) cut (st j) Hh C f eq_refl c (dx bt)); auto.
        rewrite <- Rx. exact Px. }
      assert (SY : side N (Y r j p) wy).
      { unfold Y, face_y, gy. rewrite D1, O1, Sty. fold i. apply (side_fine n N (h j) cut (st j) Hh C f eq_refl i (dy bt)); auto.
        rewrite <- Ry. exact Py. }
      assert (HN : 0 <= N) by (clear - C Hh Hn; pose proof (cuts_mono n N (h j) cut Hh C 0 n ltac:(lia) ltac:(lia)); destruct C as (Q1 & Q2 & _); lia).
      destruct (Hfold N _ _ HN SX SY) as (Ef & _). eexists. split; [exact Ef|].
      pose proof (rotated_value b b' (sp r j) (sp (b_to b) j) (q (b_to b) j) p Wf1 Wf2 ltac:(congruence) ltac:(congruence) ltac:(congruence)) as RV.
      fold bt in RV. rewrite RV. clear RV. cbn zeta. rewrite Ek, D1. rewrite !Rx, !Ry, Rx', Ry'. rewrite Rx in Px. rewrite Ry in Py.
      assert (Key : forall x' y', 
         ox <= x' < ox + (cut (col_of n (b_to b) + 1) - cut (col_of n (b_to b))) + f ->
         oy <= y' < oy + (cut (row_of n (b_to b) + 1) - cut (row_of n (b_to b))) + f ->
         plane_coord N (st j) (cut (col_of n (b_to b)) + (x' - ox)) = fst (seen_from (b_rot b) (X r j p - 2 * N * wx) (Y r j p - 2 * N * wy)) ->
         plane_coord N (st j) (cut (row_of n (b_to b)) + (y' - oy)) = snd (seen_from (b_rot b) (X r j p - 2 * N * wx) (Y r j p - 2 * N * wy)) ->
         q (b_to b) j (put_xy (D j) p x' y') = G j (surface N (tile_of n (b_to b)) (fst (seen_from (b_rot b) (X r j p - 2 * N * wx) (Y r j p - 2 * N * wy))) (snd (seen_from (b_rot b) (X r j p - 2 * N * wx) (Y r j p - 2 * N * wy)))) (put_xy (D j) p 0 0)).
      { intros x' y' Hx' Hy' E1 E2. rewrite Hq; auto.
        - unfold X at 1, Y at 1, face_x, face_y, gx, gy. rewrite D2, O2, Stx, Sty, put_xy_put, cx_put, cy_put by auto. fold ox oy. rewrite E1, E2. reflexivity.
        - apply (moved_inside (sp r j) (sp (b_to b) j) _ _ _ _ _ _ _ _ _ _ _ _ S1 S2 W3 W4 bt); auto; rewrite ?Stx, ?Sty; auto. }
      assert (EX : X r j p = 2 * (cut c + (cx (D j) p - ox)) + 1 - f - N).
      { unfold X, face_x, gx. rewrite D1, O1, Stx. apply coord_f. reflexivity. }
      assert (EY : Y r j p = 2 * (cut i + (cy (D j) p - oy)) + 1 - f - N).
      { unfold Y, face_y, gy. rewrite D1, O1, Sty. apply coord_f. reflexivity. }
      assert (CF := coord_f N (st j) f eq_refl).
      destruct (mod4 (b_rot b) Hk) as [E|[E|[E|E]]]; rewrite E in *; rewrite ?seen0, ?seen1, ?seen2, ?seen3 in Edir;
      injection Edir as Edx Edy; injection Ecr as Ec Ei; rewrite Edx, Edy, Ec, Ei in *; cbn [turn_back fst snd]; apply Key; rewrite ?seen0, ?seen1, ?seen2, ?seen3, ?CF, ?EX, ?EY; cbn [fst snd];
      [ destruct (DX ox ox _ Px) as (L1 & L2 & L3) | destruct (DY oy oy _ Py) as (L1 & L2 & L3) | destruct (DX ox ox _ Px) as (L1 & L2 & L3) | destruct (DY oy oy _ Py) as (L1 & L2 & L3)
      | destruct (FY oy ox _ Py) as (L1 & L2 & L3) | destruct (DX ox oy _ Px) as (L1 & L2 & L3) | destruct (FY oy ox _ Py) as (L1 & L2 & L3) | destruct (DX ox oy _ Px) as (L1 & L2 & L3)
      | destruct (FX ox ox _ Px) as (L1 & L2 & L3) | destruct (FY oy oy _ Py) as (L1 & L2 & L3) | destruct (FX ox ox _ Px) as (L1 & L2 & L3) | destruct (FY oy oy _ Py) as (L1 & L2 & L3)
      | destruct (DY oy ox _ Py) as (L1 & L2 & L3) | destruct (FX ox oy _ Px) as (L1 & L2 & L3) | destruct (DY oy ox _ Py) as (L1 & L2 & L3) | destruct (FX ox oy _ Px) as (L1 & L2 & L3) ];
      rewrite ?Z.opp_involutive; try exact L2; clear - L1; lia.
  Qed.

  Lemma cube_net : net_ok R cbnds nf sp q.
  Proof.
    constructor.
    - apply NoDup_cbnds.
    - intros r b b' Hr Hb Hb' E. apply in_cbnds in Hb, Hb'; auto. congruence.
    - intros r b Hr Hb. destruct (cube_step r b Hr Hb) as (b' & wx & wy & Ht & J1 & J2 & _). split; auto. exists b'. split; auto.
    - intros r j Hr Hj. destruct (cwidth r j Hr Hj) as [W1 W2]. pose proof (Hsp r j Hr Hj) as S1.
      destruct (holds_room _ _ _ _ _ _ _ _ _ S1 W1 W2) as (_ & _ & Rm). destruct S1 as (W & _). auto.
    - intros r b b' j Hr Hb M Hj. apply (cube_source r b b' j); auto.
  Qed.

  (** no boundary: beyond a vertex *)
  Lemma vertex_fold r bt j p : 0 <= r < R -> (j < nf)%nat -> cube_boundary (n, n) bt r = Some None ->
    inside (region (sp r j) bt false) p -> fold N (tile_of n r) (X r j p) (Y r j p) = None.
  Proof.
    intros Hr Hj Hb I. pose proof (Hsp r j Hr Hj) as S1. destruct (cwidth r j Hr Hj) as [W1 W2].
    destruct (rank_parts n r Hn Hr) as (P1 & P2 & P3 & P4).
    pose proof (cube_geometry n bt _ _ _ P1 P2 P3) as K. cbn zeta in K.
    change (tile_of n r * (n * n) + (row_of n r * n + col_of n r)) with (enc n (tile_of n r) (row_of n r) (col_of n r)) in K.
    rewrite <- P4 in K. rewrite Hb in K.
    pose proof S1 as (Wf1 & D1 & O1 & N1 & _). destruct (Hst j Hj) as [Stx Sty]. pose proof (Hcut j Hj) as C.
    destruct (h_plane _ _ _ _ _ _ _ _ _ S1) as (P & Lo & Lx & Hh).
    pose proof (dx_bound bt) as Bdx. pose proof (dy_bound bt) as Bdy.
    destruct (hat n N (h j) cut (col_of n r) (dx bt) Hn C P3 Bdx) as (wx & _ & _ & A6 & A7 & A8 & _).
    destruct (hat n N (h j) cut (row_of n r) (dy bt) Hn C P2 Bdy) as (wy & _ & _ & B6 & B7 & B8 & _).
    destruct (side_coarse n (col_of n r) (dx bt) wx P3 Bdx A6 A7 A8) as [Sx Bx].
    destruct (side_coarse n (row_of n r) (dy bt) wy P2 Bdy B6 B7 B8) as [Sy By].
    destruct (region_point _ _ _ _ _ _ _ _ _ S1 bt p I) as (Lp & Px & Py).
    rewrite (range_x_eq _ _ _ _ _ _ _ _ _ S1 W1 W2), Stx in Px. rewrite (range_y_eq _ _ _ _ _ _ _ _ _ S1 W1 W2), Sty in Py.
    assert (SX : side N (X r j p) wx).
    { unfold X, face_x, gx. rewrite D1, O1, Stx. apply (side_fine n N (h j) cut (st j) Hh C (b2z (st j)) eq_refl (col_of n r) (dx bt)); auto. }
    assert (SY : side N (Y r j p) wy).
    { unfold Y, face_y, gy. rewrite D1, O1, Sty. apply (side_fine n N (h j) cut (st j) Hh C (b2z (st j)) eq_refl (row_of n r) (dy bt)); auto. }
    assert (HN : 0 <= N) by (clear - C Hh Hn; pose proof (cuts_mono n N (h j) cut Hh C 0 n ltac:(lia) ltac:(lia)); destruct C as (Q1 & Q2 & _); lia).
    rewrite (fold_side _ _ _ _ wx wy Sx Sy Bx By) in K by (clear - Hn; lia). rewrite (fold_side _ _ _ _ wx wy SX SY Bx By HN).
    destruct (negb (wx =? 0) && negb (wy =? 0)); [reflexivity|discriminate K].
  Qed.

  Lemma cube_values r j p : 0 <= r < R -> (j < nf)%nat ->
    (near (sp r j) p ->
       match fold N (tile_of n r) (X r j p) (Y r j p) with
       | Some v => final cbnds sp q r j p = G j v (put_xy (D j) p 0 0)
       | None => final cbnds sp q r j p = q r j p
       end) /\
    (~ near (sp r j) p -> final cbnds sp q r j p = q r j p).
  Proof.
    intros Hr Hj. pose proof (Hsp r j Hr Hj) as S1. destruct (cwidth r j Hr Hj) as [W1 W2].
    assert (Dec : inside (compute_domain (sp r j)) p \/ ~ inside (compute_domain (sp r j)) p).
    { rewrite <- in_slices_inside. destruct (in_slices _ p); auto. }
    split.
    - intros Nr. destruct Dec as [I|I].
      + rewrite (final_out R) by (auto; intros b Hb K; apply (range_near _ _ _ _ _ _ _ _ _ S1 W1 W2) in K; tauto).
        rewrite Hq by auto.
        assert (E : fold N (tile_of n r) (X r j p) (Y r j p) = Some (surface N (tile_of n r) (X r j p) (Y r j p))).
        { pose proof S1 as (Wf1 & D1 & O1 & N1 & _). destruct (Hst j Hj) as [Stx Sty]. pose proof (Hcut j Hj) as C.
          destruct (h_plane _ _ _ _ _ _ _ _ _ S1) as (P & Lo & Lx & Hh). destruct (rank_parts n r Hn Hr) as (P1 & P2 & P3 & P4).
          destruct (holds_room _ _ _ _ _ _ _ _ _ S1 W1 W2) as (Ex & Ey & _).
          apply inside_compute in I; auto. cbn zeta in I. rewrite D1, O1, Ex, Ey, Stx, Sty in I. destruct I as (_ & Ix & Iy & _).
          assert (HN : 0 <= N) by (clear - C Hh Hn; pose proof (cuts_mono n N (h j) cut Hh C 0 n ltac:(lia) ltac:(lia)); destruct C as (Q1 & Q2 & _); lia).
          assert (SX : side N (X r j p) 0).
          { unfold X, face_x, gx. rewrite D1, O1, Stx. apply (side_fine n N (h j) cut (st j) Hh C (b2z (st j)) eq_refl (col_of n r) 0); auto; try (clear - P3; lia).
            all: unfold range1; cbn [Z.eqb fst snd]; clear - Ix; lia. }
          assert (SY : side N (Y r j p) 0).
          { unfold Y, face_y, gy. rewrite D1, O1, Sty. apply (side_fine n N (h j) cut (st j) Hh C (b2z (st j)) eq_refl (row_of n r) 0); auto; try (clear - P2; lia).
            all: unfold range1; cbn [Z.eqb fst snd]; clear - Iy; lia. }
          rewrite (fold_side _ _ _ _ 0 0 SX SY) by (auto; clear; lia). reflexivity. }
        rewrite E. reflexivity.
      + destruct (near_ranges _ _ _ _ _ _ _ _ _ S1 W1 W2 p Nr I) as (bt & K).
        destruct (cube_total n bt r Hn Hr) as ([b|] & Eb).
        * assert (Et : b_type b = bt).
          { destruct (rank_parts n r Hn Hr) as (P1 & P2 & P3 & P4). rewrite P4 in Eb.
            pose proof (cube_geometry n bt _ _ _ P1 P2 P3) as Q. cbn zeta in Q. unfold enc in Eb. rewrite Eb in Q. tauto. }
          assert (Hb : In b (cbnds r)) by (apply in_cbnds; auto; rewrite Et; auto).
          destruct (n_mate _ _ _ _ _ cube_net r b Hr Hb) as [Ht (b' & M)].
          rewrite (final_in R cbnds nf sp q cube_net Hnf r j b b') by (auto; rewrite Et; auto).
          destruct (cube_source r b b' j Hr Hb M Hj) as [_ Sv]. rewrite Et in *. destruct (Sv p K) as (v & -> & ->). reflexivity.
        * rewrite (vertex_fold r bt j p) by auto. apply (final_out R); auto.
          intros b Hb K'. assert (b_type b = bt).
          { destruct (n_wf _ _ _ _ _ cube_net r j Hr Hj) as [Wf Rm]. apply (wf_disjoint (sp r j) _ _ p); auto. }
          apply in_cbnds in Hb; auto. congruence.
    - intros Nn. apply (final_out R); auto. intros b Hb K. apply (range_near _ _ _ _ _ _ _ _ _ S1 W1 W2) in K. tauto.
  Qed.
End Cube.

(** ** whole exchanges *)
Lemma net_exchange {A} R bnds nf (sp : Z -> nat -> spec) (q : Z -> nat -> index -> A) : net_ok R bnds nf sp q -> (0 < nf)%nat ->
  exists T, (forall r, 0 <= r < R -> scalar_transformers (bnds r) (map (sp r) (seq 0 nf)) [] = Some (T r)) /\
  forall evs st, valid_events R evs ->
    run pack_scalar unpack_scalar scalar_bufsize T evs (initial (fun r => map (q r) (seq 0 nf))) = Some st ->
    ((exists r, 0 <= r < R /\ sy_ph st r <> Finished) ->
      exists ev st', valid_events R [ev] /\ step pack_scalar unpack_scalar scalar_bufsize T ev st = Some st') /\
    (forall r, 0 <= r < R -> sy_ph st r = Finished -> sy_q st r = map (final bnds sp q r) (seq 0 nf)).
Proof.
  intros N Hnf. exists (trans bnds nf sp). split; [intros r Hr; apply (trans_built R bnds nf sp q); auto|].
  intros evs st V Rn. pose proof (net_consistent R bnds nf sp q N Hnf) as C. split.
  - intros Nf. destruct (exchange_progress _ _ _ _ _ _ _ _ C evs st V Rn Nf) as (ev & st' & V' & S). exists ev, st'. split; auto. repeat constructor; apply V'.
  - intros r Hr Ph. apply (exchange_confluent _ _ _ _ _ _ _ _ C evs st V Rn r Hr Ph).
Qed.
