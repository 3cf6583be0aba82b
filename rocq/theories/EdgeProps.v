(** C80: the interpolation factors on the tile edges. *)
Require Import Reals ZArith Bool List Lia Lra.
From Verif Require Import Base PartModel DecompModel DecompSpec DecompProofs2 DecompProofs3 ZarrProofs EdgeModel EdgeProofs.
From Coq Require Import QArith.
Import ListNotations.
Local Open Scope Z_scope.

(** ** Specification *)
Section Spec.
  Context {P : Type}.
  Variable mid : P -> P -> P.
  Variable dist : P -> P -> R.
  Variables cell corner : Z * Z -> P.          (* cell centres and corners of the tile with its halo *)
  Variable n : Z.                              (* cells along an edge of the tile *)

  (** where the line between the two cells at position k crosses the edge, and the middle of the edge of the k-th cell *)
  Definition crossing (s : side) (k : Z) : P := mid (cell (outside n s k)) (cell (inside n s k)).
  Definition middle (s : side) (k : Z) : P := mid (corner (on_edge n s k)) (corner (on_edge n s (k + 1))).
  (** weight of the crossing before the corner; weights are proportional to the distance of the other crossing *)
  Definition corner_weight (s : side) (k : Z) : R :=
    let before := dist (crossing s (k - 1)) (corner (on_edge n s k)) in
    let after := dist (crossing s k) (corner (on_edge n s k)) in
    (after / (before + after))%R.
  (** weight of the next crossing towards the middle of the tile edge, for the value in the middle of the k-th cell's edge *)
  Definition cell_weight_towards (up : bool) (s : side) (k : Z) : R :=
    let own := dist (crossing s k) (middle s k) in
    let other := dist (crossing s (if up then k + 1 else k - 1)%Z) (middle s k) in
    (own / (other + own))%R.
  Definition cell_weight (s : side) (k : Z) : R := cell_weight_towards (2 * k <? n) s k.
End Spec.

(** the array of a side, whether the rank is on that side, how many ranks and cells per rank there are along it, the rank's place *)
Definition of_side {T} (s : side) (a : T * T * T * T) : T := let '(w, e, s', n) := a in match s with West => w | East => e | South => s' | North => n end.
Definition at_side (l : layout) (sub : Z * Z) (s : side) : bool :=
  match s with West => snd sub =? 0 | East => snd sub =? snd l - 1 | South => fst sub =? 0 | North => fst sub =? fst l - 1 end.
Definition place (sub : Z * Z) (s : side) : Z := match s with West | East => fst sub | South | North => snd sub end.
Definition cells (w h : Z) (s : side) : Z := match s with West | East => h | South | North => w end.

(** ** The partitioner *)
Lemma slices_of rnd l rank w h : float_like rnd -> 0 < fst l <= 2 ^ 52 /\ 0 < snd l <= 2 ^ 52 -> 1 <= w -> 1 <= h ->
  snd l * w < 2 ^ 52 -> fst l * h < 2 ^ 52 ->
  let sub := subtile_index l rank in
  subtile_slice rnd l 1 rank [Dim AI true; Dim AJ true] [snd l * w + 1; fst l * h + 1] false =
  Some [(snd sub * w, (snd sub + 1) * w + (if snd sub =? snd l - 1 then 1 else 0)); (fst sub * h, (fst sub + 1) * h + (if fst sub =? fst l - 1 then 1 else 0))].
Proof.
  intros Hr Hl Hw Hh H1 H2 sub. rewrite (slices_eq rnd Hr l Hl _ _ [w; h]).
  - reflexivity.
  - repeat split.
    + intros [E|[E|[]]]; discriminate E.
    + repeat constructor; cbn; nia.
  - cbn [combine]. repeat constructor; cbn; lia.
Qed.

Section Theorems.
  Context {P : Type}.
  Variable mid : P -> P -> P.
  Variable dist : P -> P -> R.
  Variable big : R.
  Variable rnd : Q -> Q.
  Hypothesis Hrnd : float_like rnd.
  Variables cell corner : Z * Z -> P.

  Lemma b_factor_side (o i c : Z -> P) n g s j :
    (forall x, o x = cell (outside n s (g + x - 3))) -> (forall x, i x = cell (inside n s (g + x - 3))) -> (forall x, c x = corner (on_edge n s (g + x - 3))) ->
    b_factor mid dist o i c j = corner_weight mid dist cell corner n s (g + j - 3).
  Proof.
    intros Ho Hi Hc. unfold b_factor, corner_weight, crossing. rewrite !Ho, !Hi, !Hc. replace (g + (j - 1) - 3) with (g + j - 3 - 1) by lia. reflexivity.
  Qed.

  (** C80 (part): on every rank of every layout, the factor of a corner inside a tile edge depends only on the corner's place in the tile;
      entries that are not inside a tile edge hold the filler value *)
  Theorem C80_corner_factors l rank w h n : 0 < fst l <= 2 ^ 52 /\ 0 < snd l <= 2 ^ 52 -> 1 <= w -> 1 <= h -> n = snd l * w -> n = fst l * h -> n < 2 ^ 52 ->
    let sub := subtile_index l rank in
    let gi := snd sub * w in let gj := fst sub * h in
    exists fs, rank_edge_factors rnd mid dist big l rank (window corner gi gj (w + 7) (h + 7)) (window cell gi gj (w + 6) (h + 6)) 3 = Some fs /\
      forall s, let g := place sub s * cells w h s in
        len (of_side s fs) = cells w h s + 1 /\
        forall k, 0 <= k <= cells w h s ->
          at1 (of_side s fs) k = if at_side l sub s && ((1 <=? g + k) && (g + k <=? n - 1)) then corner_weight mid dist cell corner n s (g + k) else big.
  Proof.
    intros Hl Hw Hh Nx Ny Hn sub gi gj. unfold rank_edge_factors, from_partitioner.
    cbn [global_extent window len0 len1]. unfold global_extent1. cbn [by_dim].
    replace ((w + 7 - 2 * 3 + -1) * snd l - -1) with (snd l * w + 1) by ring. replace ((h + 7 - 2 * 3 + -1) * fst l - -1) with (fst l * h + 1) by ring.
    rewrite slices_of by (auto; lia). fold sub. cbn [bind]. fold gi gj.
    pose proof (sub_valid l Hl rank) as [V1 V2]. fold sub in V1, V2.
    set (GX := mkArr2 (w + 7) (h + 7) (fun i j => corner (gi + i - 3, gj + j - 3))).
    set (GA := mkArr2 (w + 6) (h + 6) (fun i j => cell (gi + i - 3, gj + j - 3))).
    change (window corner gi gj (w + 7) (h + 7)) with GX. change (window cell gi gj (w + 6) (h + 6)) with GA.
    unfold edge_factors. cbn [fst snd]. unfold on_tile_left, on_tile_right, on_tile_top, on_tile_bottom. fold sub.
    change (len0 GX) with (w + 7). change (len1 GX) with (h + 7). replace (h + 7 - 2 * 3) with (h + 1) by lia. replace (w + 7 - 2 * 3) with (w + 1) by lia.
    rewrite <- Nx, <- Ny.
    assert (Gi0 : snd sub = 0 -> gi = 0) by (unfold gi; intros ->; ring). assert (Gj0 : fst sub = 0 -> gj = 0) by (unfold gj; intros ->; ring).
    assert (Gin : snd sub = snd l - 1 -> gi + w = n) by (unfold gi; intros ->; lia). assert (Gjn : fst sub = fst l - 1 -> gj + h = n) by (unfold gj; intros ->; lia).
    destruct (edge_ok big (fst l) h (fst sub) (snd sub =? 0) (set_west_edge_factor mid dist GX GA 3) (corner_weight mid dist cell corner n West)) as (W & EW & LW & HW); [lia|lia| |].
    { intros On js je Hj1 Hj2. apply Z.eqb_eq in On. destruct (west_factor mid dist GX GA 3 js je) as (v & E & L & V); try (cbn; lia).
      exists v. split; [exact E|]. split; [exact L|]. intros t. rewrite V. apply b_factor_side; intros x; cbn -[Z.add Z.sub]; rewrite (Gi0 On); f_equal; f_equal; fold gj; lia. }
    destruct (edge_ok big (fst l) h (fst sub) (snd sub =? snd l - 1) (set_east_edge_factor mid dist GX GA 3) (corner_weight mid dist cell corner n East)) as (E & EE & LE & HE); [lia|lia| |].
    { intros On js je Hj1 Hj2. apply Z.eqb_eq in On. destruct (west_factor mid dist (flip_i GX) (flip_i GA) 3 js je) as (v & E' & L & V); try (cbn; lia).
      exists v. split; [exact E'|]. split; [exact L|]. intros t. rewrite V. apply b_factor_side; intros x; cbn -[Z.add Z.sub]; f_equal; f_equal; fold gj; lia. }
    destruct (edge_ok big (snd l) w (snd sub) (fst sub =? 0) (set_south_edge_factor mid dist GX GA 3) (corner_weight mid dist cell corner n South)) as (S & ES & LS & HS); [lia|lia| |].
    { intros On js je Hj1 Hj2. apply Z.eqb_eq in On. destruct (west_factor mid dist (transpose GX) (transpose GA) 3 js je) as (v & E' & L & V); try (cbn; lia).
      exists v. split; [exact E'|]. split; [exact L|]. intros t. rewrite V. apply b_factor_side; intros x; cbn -[Z.add Z.sub]; f_equal; f_equal; fold gi; lia. }
    destruct (edge_ok big (snd l) w (snd sub) (fst sub =? fst l - 1) (set_north_edge_factor mid dist GX GA 3) (corner_weight mid dist cell corner n North)) as (N & EN & LN & HN); [lia|lia| |].
    { intros On js je Hj1 Hj2. apply Z.eqb_eq in On. destruct (west_factor mid dist (transpose (flip_j GX)) (transpose (flip_j GA)) 3 js je) as (v & E' & L & V); try (cbn; lia).
      exists v. split; [exact E'|]. split; [exact L|]. intros t. rewrite V. apply b_factor_side; intros x; cbn -[Z.add Z.sub]; f_equal; f_equal; fold gi; lia. }
    fold gj in EW, EE, HW, HE. fold gi in ES, EN, HS, HN. rewrite <- Ny in EW, EE, HW, HE. rewrite <- Nx in ES, EN, HS, HN.
    unfold first_row, last_row in EW, EE, ES, EN. rewrite EW. cbn [bind]. rewrite EE. cbn [bind]. rewrite ES. cbn [bind]. rewrite EN. cbn [bind].
    eexists; split; [reflexivity|]. intros s. destruct s; cbn [of_side place cells at_side]; auto.
  Qed.

  Lemma a_factor_side (o i c : Z -> P) n g s j up :
    (forall x, o x = cell (outside n s (g + x - 3))) -> (forall x, i x = cell (inside n s (g + x - 3))) -> (forall x, c x = corner (on_edge n s (g + x - 3))) ->
    a_factor mid dist up o i c j = cell_weight_towards mid dist cell corner n up s (g + j - 3).
  Proof.
    intros Ho Hi Hc. unfold a_factor, cell_weight_towards, crossing, middle. rewrite !Ho, !Hi, !Hc. replace (g + (j + 1) - 3) with (g + j - 3 + 1) by lia.
    replace (g + (if up then j + 1 else j - 1) - 3) with (if up then g + j - 3 + 1 else g + j - 3 - 1) by (destruct up; lia). reflexivity.
  Qed.

  (** which of the two neighbours a rank uses, at the halo cell before its cells and at the one after them *)
  Definition before_uses_next (n g : Z) : bool := (2 * (g - 1) <? n) || (n / 2 + 3 <? g).
  Definition after_uses_next (n g q : Z) : bool := 2 * (g + q) <=? n.

  Lemma half_uses n g q : 1 <= q -> n mod 2 = 0 -> let jm2 := half_index (q + 6) 3 (n + 1) g in
    -1 <= jm2 <= q + 1 /\ (forall t, 1 <= t <= q -> (t <=? jm2) = (2 * (g + t - 1) <? n)) /\
    (0 <=? jm2) = before_uses_next n g /\ (q + 1 <=? jm2) = after_uses_next n g q.
  Proof.
    intros Hq Hn jm2.
    assert (Hn2 : n = 2 * (n / 2)) by (pose proof (Z_div_mod_eq_full n 2); lia).
    unfold jm2, before_uses_next, after_uses_next. rewrite half_index_spec by auto.
    set (m := n / 2) in *. clearbody m. subst n.
    destruct (Z.leb_spec (g + q) m), (Z.leb_spec g (m + 3)); try lia.
    all: split; [lia|]; split; [|split].
    all: try (intros t Ht; destruct (Z.ltb_spec (2 * (g + t - 1)) (2 * m)); first [apply Z.leb_le; lia | apply Z.leb_gt; lia]).
    all: try (destruct (Z.ltb_spec (2 * (g - 1)) (2 * m)), (Z.ltb_spec (m + 3) g); cbn [orb]; first [apply Z.leb_le; lia | apply Z.leb_gt; lia]).
    all: destruct (Z.leb_spec (2 * (g + q)) (2 * m)); first [apply Z.leb_le; lia | apply Z.leb_gt; lia].
  Qed.

  (** the values along one side *)
  Definition cells_ok (n m q k : Z) (on : bool) (s : side) (e : arr R) : Prop :=
    let g := k * q in
    let weight := cell_weight mid dist cell corner n s in
    let towards up := cell_weight_towards mid dist cell corner n up s in
    len e = q + 6 /\
    (forall t, 0 <= t < q -> at1 e (t + 3) = if on then weight (g + t) else big) /\
    at1 e 2 = (if on then if k =? 0 then weight 0 else towards (before_uses_next n g) (g - 1) else big) /\
    at1 e (q + 3) = (if on then if k =? m - 1 then weight (n - 1) else towards (after_uses_next n g q) (g + q) else big) /\
    at1 e 0 = big /\ at1 e 1 = big /\ at1 e (q + 4) = big /\ at1 e (q + 5) = big.

  Lemma side_ok n m q k on s grid agrid : 1 <= q -> n = m * q -> n mod 2 = 0 -> 0 <= k < m -> let g := k * q in
    len0 grid = q + 7 -> len1 grid = q + 7 -> len0 agrid = q + 6 -> len1 agrid = q + 6 ->
    (on = true -> (forall x, at2 agrid 2 x = cell (outside n s (g + x - 3))) /\ (forall x, at2 agrid 3 x = cell (inside n s (g + x - 3))) /\
       (forall x, at2 grid 3 x = corner (on_edge n s (g + x - 3)))) ->
    exists e, edge_vect big on (k =? 0) (k =? m - 1) (q + 6) 3 (calculate_west_edge_vectors mid dist grid agrid (half_index (q + 6) 3 (n + 1) g) 3) = Some e /\
      cells_ok n m q k on s e.
  Proof.
    intros Hq En Hn Hk g G0 G1 A0 A1 Hon. destruct (half_uses n g q Hq Hn) as (J1 & J2 & J3 & J4). set (jm2 := half_index (q + 6) 3 (n + 1) g) in *.
    destruct (west_vectors mid dist grid agrid q jm2) as (v & Ev & Lv & Hv); auto. rewrite Ev.
    destruct (edge_vect_ok big on (k =? 0) (k =? m - 1) q v Hq Lv) as (e & Ee & Le & He). exists e. split; [exact Ee|].
    assert (Hg : k = m - 1 -> g + q = n) by (unfold g; intros ->; lia).
    unfold cells_ok. fold g. split; [exact Le|]. destruct on; cbn [andb] in He.
    - destruct (Hon eq_refl) as (Ho & Hi & Hc).
      assert (HV : forall t, 0 <= t < q + 2 -> at1 v t = cell_weight_towards mid dist cell corner n (t <=? jm2) s (g + t - 1)).
      { intros t Ht. rewrite Hv by exact Ht. rewrite (a_factor_side _ _ _ n g s (t + 2) (t <=? jm2) Ho Hi Hc). f_equal. lia. }
      assert (HX : forall t, 0 <= t < q -> at1 v (t + 1) = cell_weight mid dist cell corner n s (g + t)).
      { intros t Ht. rewrite HV by lia. unfold cell_weight. rewrite (J2 (t + 1)) by lia. replace (g + (t + 1) - 1) with (g + t) by lia. reflexivity. }
      repeat split; try (rewrite He by lia; match goal with |- (if ?c then _ else _) = _ => destruct c eqn:C; [exfalso; lia|reflexivity] end).
      + intros t Ht. rewrite He by lia. destruct (Z.leb_spec 2 (t + 3)); [|lia]. destruct (Z.ltb_spec (t + 3) (q + 4)); [|lia]. cbn [andb].
        destruct (Z.eqb_spec (t + 3) 2); [lia|]. destruct (Z.eqb_spec (t + 3) (q + 3)); [lia|]. rewrite !andb_false_r.
        replace (t + 3 - 2) with (t + 1) by lia. apply HX. lia.
      + rewrite He by lia. change (2 <=? 2) with true. destruct (Z.ltb_spec 2 (q + 4)); [|lia]. cbn [andb].
        destruct (Z.eqb_spec k 0) as [E|E].
        * change (2 =? 2) with true. cbn [andb]. change (3 - 2) with (0 + 1). rewrite HX by lia. f_equal. unfold g. subst k. reflexivity.
        * cbn [andb]. destruct (Z.eqb_spec 2 (q + 3)); [lia|]. rewrite andb_false_r. change (2 - 2) with 0. rewrite HV by lia. rewrite J3. f_equal. lia.
      + rewrite He by lia. destruct (Z.leb_spec 2 (q + 3)); [|lia]. destruct (Z.ltb_spec (q + 3) (q + 4)); [|lia]. cbn [andb].
        destruct (Z.eqb_spec (q + 3) 2); [lia|]. rewrite andb_false_r. rewrite Z.eqb_refl, andb_true_r. destruct (Z.eqb_spec k (m - 1)) as [E|E].
        * replace (q + 2 - 2) with (q - 1 + 1) by lia. rewrite HX by lia. f_equal. specialize (Hg E). lia.
        * replace (q + 3 - 2) with (q + 1) by lia. rewrite HV by lia. rewrite J4. f_equal. lia.
    - repeat split; intros; apply He; lia.
  Qed.

  (** C80 (part): cells of the rank hold the factor of their place in the tile; what the two halo cells beside them hold *)
  Theorem C80_cell_factors_partial m rank q n : 0 < m <= 2 ^ 52 -> 1 <= q -> n = m * q -> n < 2 ^ 52 -> n mod 2 = 0 ->
    let l := (m, m) in
    let sub := subtile_index l rank in
    let gi := snd sub * q in let gj := fst sub * q in
    exists fs, rank_efactor_a2c_v rnd mid dist big l rank (window corner gi gj (q + 7) (q + 7)) (window cell gi gj (q + 6) (q + 6)) 3 = Some fs /\
      forall s, cells_ok n m q (place sub s) (at_side l sub s) s (of_side s fs).
  Proof.
    intros Hm Hq En Hn Hev l sub gi gj. unfold rank_efactor_a2c_v, from_partitioner.
    cbn [global_extent window len0 len1]. unfold global_extent1. cbn [by_dim].
    replace ((q + 7 - 2 * 3 + -1) * snd l - -1) with (snd l * q + 1) by ring. replace ((q + 7 - 2 * 3 + -1) * fst l - -1) with (fst l * q + 1) by ring.
    assert (Hl : 0 < fst l <= 2 ^ 52 /\ 0 < snd l <= 2 ^ 52) by (cbn [l fst snd]; lia).
    rewrite slices_of by (auto; cbn [l fst snd]; lia). fold sub. cbn [bind]. fold gi gj.
    pose proof (sub_valid l Hl rank) as [V1 V2]. fold sub in V1, V2. cbn [l fst snd] in V1, V2.
    set (GX := mkArr2 (q + 7) (q + 7) (fun i j => corner (gi + i - 3, gj + j - 3))).
    set (GA := mkArr2 (q + 6) (q + 6) (fun i j => cell (gi + i - 3, gj + j - 3))).
    change (window corner gi gj (q + 7) (q + 7)) with GX. change (window cell gi gj (q + 6) (q + 6)) with GA.
    unfold efactor_a2c_v. cbn [fst snd]. unfold on_tile_left, on_tile_right, on_tile_top, on_tile_bottom. fold sub. change (fst l) with m. change (snd l) with m.
    change (len0 GX) with (q + 7). change (len1 GX) with (q + 7). change (len0 GA) with (q + 6). change (len1 GA) with (q + 6). rewrite <- En.
    rewrite Z.eqb_refl. cbn [negb]. destruct (Z.eqb_spec ((n + 1) mod 2) 0) as [X|_]; [exfalso|].
    { pose proof (Z_div_mod_eq_full n 2). pose proof (Z_div_mod_eq_full (n + 1) 2). lia. }
    replace (q + 7 - 1) with (q + 6) by lia.
    assert (Gi0 : snd sub = 0 -> gi = 0) by (unfold gi; intros ->; ring). assert (Gj0 : fst sub = 0 -> gj = 0) by (unfold gj; intros ->; ring).
    assert (Gin : snd sub = m - 1 -> gi + q = n) by (unfold gi; intros ->; lia). assert (Gjn : fst sub = m - 1 -> gj + q = n) by (unfold gj; intros ->; lia).
    destruct (side_ok n m q (fst sub) (snd sub =? 0) West GX GA) as (W & EW & HW); auto.
    { intros On. apply Z.eqb_eq in On. specialize (Gi0 On). repeat split; intros x; cbn -[Z.add Z.sub]; f_equal; f_equal; fold gj; lia. }
    destruct (side_ok n m q (fst sub) (snd sub =? m - 1) East (flip_i GX) (flip_i GA)) as (E & EE & HE); auto.
    { intros On. apply Z.eqb_eq in On. specialize (Gin On). repeat split; intros x; cbn -[Z.add Z.sub]; f_equal; f_equal; fold gj; lia. }
    destruct (side_ok n m q (snd sub) (fst sub =? 0) South (transpose GX) (transpose GA)) as (S & ES & HS); auto.
    { intros On. apply Z.eqb_eq in On. specialize (Gj0 On). repeat split; intros x; cbn -[Z.add Z.sub]; f_equal; f_equal; fold gi; lia. }
    destruct (side_ok n m q (snd sub) (fst sub =? m - 1) North (transpose (flip_j GX)) (transpose (flip_j GA))) as (N & EN & HN); auto.
    { intros On. apply Z.eqb_eq in On. specialize (Gjn On). repeat split; intros x; cbn -[Z.add Z.sub]; f_equal; f_equal; fold gi; lia. }
    fold gj in EW, EE. fold gi in ES, EN.
    unfold calculate_east_edge_vectors, calculate_south_edge_vectors, calculate_north_edge_vectors.
    rewrite EW. cbn [bind]. rewrite EE. cbn [bind]. rewrite ES. cbn [bind]. rewrite EN. cbn [bind].
    eexists; split; [reflexivity|]. intros s. destruct s; cbn [of_side place at_side]; assumption.
  Qed.
End Theorems.
Print Assumptions C80_corner_factors.
Print Assumptions C80_cell_factors_partial.

Lemma ratio_range (a b : R) : (0 <= a -> 0 <= b -> 0 < a + b -> let f := b / (a + b) in 0 <= f <= 1 /\ f * a = (1 - f) * b)%R.
Proof.
  intros Ha Hb H f. assert (E : (f * (a + b) = b)%R) by (unfold f; field; lra). assert (0 <= f)%R.
  { unfold f. apply Rmult_le_pos; [exact Hb|]. left. apply Rinv_0_lt_compat, H. }
  split; [split; [assumption|]|lra]. apply Rmult_le_reg_r with (a + b)%R; [exact H|]. rewrite E. lra.
Qed.

(** C80 (part): factors of corners lie between 0 and 1 and balance the two distances *)
Theorem C80_corner_balance {P} (mid : P -> P -> P) (dist : P -> P -> R) big rnd cell corner l rank w h n fs s k :
  (forall a b, 0 <= dist a b)%R -> float_like rnd ->
  0 < fst l <= 2 ^ 52 /\ 0 < snd l <= 2 ^ 52 -> 1 <= w -> 1 <= h -> n = snd l * w -> n = fst l * h -> n < 2 ^ 52 ->
  let sub := subtile_index l rank in let gi := snd sub * w in let gj := fst sub * h in let x := place sub s * cells w h s + k in
  rank_edge_factors rnd mid dist big l rank (window corner gi gj (w + 7) (h + 7)) (window cell gi gj (w + 6) (h + 6)) 3 = Some fs ->
  at_side l sub s = true -> 0 <= k <= cells w h s -> 0 < x < n ->
  let before := dist (crossing mid cell n s (x - 1)) (corner (on_edge n s x)) in let after := dist (crossing mid cell n s x) (corner (on_edge n s x)) in
  (0 < before + after)%R ->
  let f := at1 (of_side s fs) k in (0 <= f <= 1 /\ f * before = (1 - f) * after)%R.
Proof.
  intros Hd Hr Hl Hw Hh Nx Ny Hn sub gi gj x E On Hk Hx before after Hp f.
  destruct (C80_corner_factors mid dist big rnd Hr cell corner l rank w h n Hl Hw Hh Nx Ny Hn) as (fs' & E' & H). unfold gi, gj, sub in E. rewrite E in E'. injection E' as <-.
  destruct (H s) as [_ H']. assert (Ef : f = (after / (before + after))%R).
  { unfold f. rewrite (H' k Hk). fold sub. rewrite On. fold x. destruct (Z.leb_spec 1 x); [|lia]. destruct (Z.leb_spec x (n - 1)); [|lia]. reflexivity. }
  rewrite Ef. apply (ratio_range before after); auto; apply Hd.
Qed.
Print Assumptions C80_corner_balance.

(** C80 (part): the factor of a corner does not depend on the layout or on the rank *)
Theorem C80_corner_layout {P} (mid : P -> P -> P) (dist : P -> P -> R) big rnd cell corner n s : float_like rnd -> n < 2 ^ 52 ->
  forall l1 r1 w1 h1 f1 k1 l2 r2 w2 h2 f2 k2,
  let rank_value l rank w h fs k x :=
    (0 < fst l <= 2 ^ 52 /\ 0 < snd l <= 2 ^ 52) /\ 1 <= w /\ 1 <= h /\ n = snd l * w /\ n = fst l * h /\
    let sub := subtile_index l rank in
    rank_edge_factors rnd mid dist big l rank (window corner (snd sub * w) (fst sub * h) (w + 7) (h + 7)) (window cell (snd sub * w) (fst sub * h) (w + 6) (h + 6)) 3 = Some fs /\
    at_side l sub s = true /\ 0 <= k <= cells w h s /\ x = place sub s * cells w h s + k in
  forall x, rank_value l1 r1 w1 h1 f1 k1 x -> rank_value l2 r2 w2 h2 f2 k2 x -> at1 (of_side s f1) k1 = at1 (of_side s f2) k2.
Proof.
  intros Hr Hn l1 r1 w1 h1 f1 k1 l2 r2 w2 h2 f2 k2 rank_value x.
  assert (V : forall l rank w h fs k, rank_value l rank w h fs k x ->
    at1 (of_side s fs) k = if (1 <=? x) && (x <=? n - 1) then corner_weight mid dist cell corner n s x else big).
  { intros l rank w h fs k (Hl & Hw & Hh & Nx & Ny & E & On & Hk & Ex).
    destruct (C80_corner_factors mid dist big rnd Hr cell corner l rank w h n Hl Hw Hh Nx Ny Hn) as (fs' & E' & H).
    cbn zeta in E, E'. rewrite E in E'. injection E' as <-. destruct (H s) as [_ H']. rewrite (H' k Hk), On, <- Ex. reflexivity. }
  intros H1 H2. rewrite (V _ _ _ _ _ _ H1), (V _ _ _ _ _ _ H2). reflexivity.
Qed.
Print Assumptions C80_corner_layout.

(** C80 (part): the factors of cells need an even number of cells along the tile *)
Theorem C80_odd_refused {P} (mid : P -> P -> P) dist big rnd l rank (grid agrid : arr2 P) n : float_like rnd ->
  0 < fst l <= 2 ^ 52 /\ 0 < snd l <= 2 ^ 52 -> (len0 grid - 7) * snd l = n -> n mod 2 = 1 ->
  rank_efactor_a2c_v rnd mid dist big l rank grid agrid 3 = None.
Proof.
  intros Hr Hl Hx Hodd. unfold rank_efactor_a2c_v, from_partitioner. cbn [global_extent]. unfold global_extent1. cbn [by_dim].
  destruct (subtile_slice _ _ _ _ _ _ _) as [[|sx [|sy [|]]]|]; cbn [bind]; try reflexivity. unfold efactor_a2c_v.
  destruct (negb _); [reflexivity|]. replace ((len0 grid - 2 * 3 + -1) * snd l - -1) with (n + 1) by (rewrite <- Hx; ring).
  replace ((n + 1) mod 2) with 0; [reflexivity|]. pose proof (Z_div_mod_eq_full n 2). pose proof (Z_div_mod_eq_full (n + 1) 2). pose proof (Z.mod_pos_bound (n + 1) 2). lia.
Qed.
Print Assumptions C80_odd_refused.

(** ** A line of points: the cell and the corner at position k lie at k * k *)
Definition line_mid (a b : R) : R := ((a + b) / 2)%R.
Definition line_dist (a b : R) : R := Rabs (a - b).
Definition line_point (p : Z * Z) : R := IZR (snd p * snd p).

Lemma line_crossing n k : crossing line_mid line_point n West k = IZR (k * k).
Proof. unfold crossing, line_mid, line_point, outside, inside. cbn [snd]. field. Qed.
Lemma line_middle n k : middle line_mid line_point n West k = (IZR (2 * k * k + 2 * k + 1) / 2)%R.
Proof. unfold middle, line_mid, line_point, on_edge. cbn [snd]. rewrite <- plus_IZR. f_equal. f_equal. ring. Qed.
Lemma line_dist_le a b : (a <= b)%R -> line_dist a b = (b - a)%R.
Proof. intros H. unfold line_dist. rewrite Rabs_minus_sym. apply Rabs_pos_eq. lra. Qed.
Lemma line_dist_ge a b : (b <= a)%R -> line_dist a b = (a - b)%R.
Proof. intros H. unfold line_dist. apply Rabs_pos_eq. lra. Qed.

Lemma line_towards n k : 1 <= k -> cell_weight_towards line_mid line_dist line_point line_point n true West k <> cell_weight_towards line_mid line_dist line_point line_point n false West k.
Proof.
  intros Hk. unfold cell_weight_towards. rewrite !line_crossing, line_middle.
  assert (Hr : (1 <= IZR k)%R) by (apply IZR_le; exact Hk).
  assert (E1 : IZR (k * k) = (IZR k * IZR k)%R) by apply mult_IZR. assert (E2 : IZR ((k + 1) * (k + 1)) = ((IZR k + 1) * (IZR k + 1))%R) by (rewrite mult_IZR, plus_IZR; reflexivity).
  assert (E3 : IZR ((k - 1) * (k - 1)) = ((IZR k - 1) * (IZR k - 1))%R) by (rewrite mult_IZR, minus_IZR; reflexivity).
  assert (E4 : (IZR (2 * k * k + 2 * k + 1) / 2 = IZR k * IZR k + IZR k + / 2)%R) by (rewrite !plus_IZR, !mult_IZR; field).
  rewrite E1, E2, E3, E4. set (x := IZR k) in *. rewrite line_dist_le by lra. rewrite line_dist_ge by lra. rewrite line_dist_le by nra.
  replace (x * x + x + / 2 - x * x)%R with (x + /2)%R by ring. intros H.
  replace ((x + 1) * (x + 1) - (x * x + x + / 2) + (x + / 2))%R with (2 * x + 1)%R in H by field.
  replace (x * x + x + / 2 - (x - 1) * (x - 1) + (x + / 2))%R with (4 * x)%R in H by field.
  apply Rmult_eq_reg_l in H; [|lra]. apply (f_equal Rinv) in H. rewrite !Rinv_inv in H. lra.
Qed.

Lemma float_like_id : float_like (fun q => q).
Proof. intros q z H _. exact H. Qed.

Definition line_values m rank q := rank_efactor_a2c_v (fun q => q) line_mid line_dist 0 (m, m) rank
  (window line_point (snd (subtile_index (m, m) rank) * q) (fst (subtile_index (m, m) rank) * q) (q + 7) (q + 7))
  (window line_point (snd (subtile_index (m, m) rank) * q) (fst (subtile_index (m, m) rank) * q) (q + 6) (q + 6)) 3.

(** C80 fails: on 2 x 2 ranks, the first cell above the middle has two values, that of its rank and that in the halo of the rank below *)
Theorem C80_halo_middle_refuted : exists below above, line_values 2 0 2 = Some below /\ line_values 2 2 2 = Some above /\
  at1 (of_side West below) 5 <> at1 (of_side West above) 3.
Proof.
  unfold line_values.
  destruct (C80_cell_factors_partial line_mid line_dist 0 (fun q => q) float_like_id line_point line_point 2 0 2 4) as (f & E & H); try lia; try reflexivity.
  destruct (C80_cell_factors_partial line_mid line_dist 0 (fun q => q) float_like_id line_point line_point 2 2 2 4) as (f' & E' & H'); try lia; try reflexivity.
  exists f, f'. split; [exact E|]. split; [exact E'|].
  destruct (H West) as (_ & _ & _ & V & _). destruct (H' West) as (_ & V' & _). specialize (V' 0 ltac:(lia)).
  intros X. apply (line_towards 4 2); [lia|]. etransitivity; [symmetry; exact V|]. etransitivity; [exact X|exact V'].
Qed.
Print Assumptions C80_halo_middle_refuted.

(** C80 fails: a rank that starts more than three cells above the middle holds in its halo a value for the cell before its own that is not
    that cell's *)
Theorem C80_halo_far_refuted : exists below above, line_values 4 8 4 = Some below /\ line_values 4 12 4 = Some above /\
  at1 (of_side West above) 2 <> at1 (of_side West below) 6.
Proof.
  unfold line_values.
  destruct (C80_cell_factors_partial line_mid line_dist 0 (fun q => q) float_like_id line_point line_point 4 8 4 16) as (f & E & H); try lia; try reflexivity.
  destruct (C80_cell_factors_partial line_mid line_dist 0 (fun q => q) float_like_id line_point line_point 4 12 4 16) as (f' & E' & H'); try lia; try reflexivity.
  exists f, f'. split; [exact E|]. split; [exact E'|].
  destruct (H West) as (_ & V & _). specialize (V 3 ltac:(lia)). destruct (H' West) as (_ & _ & V' & _).
  intros X. apply (line_towards 16 11); [lia|]. etransitivity; [symmetry; exact V'|]. etransitivity; [exact X|exact V].
Qed.
Print Assumptions C80_halo_far_refuted.

(** the theorems' hypotheses are met by 2 x 2 ranks of 2 x 2 cells: rank 2 holds corner 2 of the west edge first, with weight 1/2 *)
Example C80_case : exists fs, rank_edge_factors (fun q => q) (fun a b => (a + b) / 2)%R line_dist 0 (2, 2) 2
    (window line_point 0 2 9 9) (window (fun p => IZR (snd p * snd p + snd p)) 0 2 8 8) 3 = Some fs /\
  (at1 (of_side West fs) 0 = / 2 /\ at1 (of_side West fs) 2 = 0)%R /\ at1 (of_side South fs) 1 = 0%R.
Proof.
  destruct (C80_corner_factors (fun a b => (a + b) / 2)%R line_dist 0 (fun q => q) float_like_id (fun p => IZR (snd p * snd p + snd p)) line_point (2, 2) 2 2 2 4)
    as (fs & E & H); try (cbn; lia).
  exists fs. split; [exact E|]. destruct (H West) as [_ HW]. destruct (H South) as [_ HS]. split; [split|].
  - rewrite (HW 0) by (cbn; lia). cbn -[Rdiv IZR line_dist]. unfold corner_weight, crossing. cbn -[Rdiv IZR line_dist]. unfold line_point. cbn [snd].
    rewrite line_dist_ge by (cbn; lra). rewrite line_dist_le by (cbn; lra). cbn. lra.
  - rewrite (HW 2) by (cbn; lia). reflexivity.
  - rewrite (HS 1) by (cbn; lia). reflexivity.
Qed.
