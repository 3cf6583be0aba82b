(** Proofs about slicing. *)
From Verif Require Import Base PartModel DecompModel HaloModel ViewModel SliceModel.
Open Scope Z_scope.

Definition bound (n x : Z) : Z := if x <? 0 then Z.max (x + n) 0 else Z.min x n.
Lemma resolve_step1 n a b : resolve1 n (Slice a b None) =
  Some (zrange (match a with Some x => bound n x | None => 0 end) (match b with Some x => bound n x | None => n end)).
Proof.
  cbn [resolve1]. unfold slice_indices. change (1 =? 0) with false. change (1 <? 0) with false. cbv iota. cbn [bind].
  unfold py_range. change (1 <? 0) with false. cbv iota. unfold zrange, bound. f_equal.
  set (u := match a with Some x => _ | None => _ end). set (v := match b with Some x => _ | None => _ end).
  replace ((v - u + 1 - 1) / 1) with (v - u) by (rewrite Z.div_1_r; lia). apply map_ext. intros i. lia.
Qed.

Lemma nth_zrange a b i d : 0 <= i < b - a -> nth (Z.to_nat i) (zrange a b) d = a + i.
Proof.
  intros H. unfold zrange. erewrite nth_indep; [|rewrite map_length, seq_length; lia].
  rewrite (map_nth (fun i => a + Z.of_nat i) _ 0%nat). rewrite seq_nth by lia. lia.
Qed.
Lemma map_shift_zrange a b c : map (fun i => c + i) (zrange a b) = zrange (c + a) (c + b).
Proof. unfold zrange. rewrite map_map. replace (c + b - (c + a)) with (b - a) by lia. apply map_ext. intros; lia. Qed.

Lemma view_zrange a b x y : 0 <= a -> a <= b -> 0 <= x -> y <= b - a ->
  map (fun i => nth (Z.to_nat i) (zrange a b) 0) (zrange x y) = zrange (a + x) (a + y).
Proof.
  intros. rewrite <- map_shift_zrange. apply map_ext_in. intros i I. apply in_zrange in I. apply nth_zrange. lia.
Qed.

Lemma clip1_ok n t : 0 <= t <= n -> clip1 n t = Some (zrange ((n - t) / 2) ((n - t) / 2 + t)).
Proof.
  intros H. unfold clip1, buffer_selection, full_slice. pose proof (Z.div_mod (n - t) 2 ltac:(lia)) as D. pose proof (Z.mod_pos_bound (n - t) 2 ltac:(lia)) as M.
  set (h := (n - t) / 2) in *.
  assert (G : forall m, m = t + 2 * h -> index_of_view (zrange 0 m) (halo_selection (Z.of_nat (length (zrange 0 m))) t) = Some (zrange h (h + t))).
  { intros m Hm. rewrite zrange_length. rewrite Z2Nat.id by lia. rewrite Z.sub_0_r. unfold halo_selection. replace ((m - t) / 2) with h by (subst m; replace (t + 2 * h - t) with (h * 2) by lia; rewrite Z.div_mul; lia).
    unfold index_of_view. rewrite zrange_length. rewrite Z2Nat.id by lia. rewrite Z.sub_0_r.
    destruct (Z.eqb_spec h 0).
    - unfold full_slice. rewrite resolve_step1. cbn [bind]. f_equal. rewrite view_zrange by lia. f_equal; lia.
    - rewrite resolve_step1. cbn [bind]. f_equal. unfold bound. destruct (Z.ltb_spec h 0); [lia|]. destruct (Z.ltb_spec (- h) 0); [|lia].
      rewrite view_zrange by lia. f_equal; lia. }
  destruct (Z.eqb_spec ((n - t) mod 2) 1); rewrite resolve_step1; cbn [bind].
  - unfold bound. change (0 <? 0) with false. change (-1 <? 0) with true. cbv iota. rewrite Z.min_l by lia. rewrite Z.max_l by lia. apply G. lia.
  - apply G. lia.
Qed.

Lemma clip_ok shape target : Forall2 (fun n t => 0 <= t <= n) shape target ->
  clip shape target = Some (map (fun '(n, t) => zrange ((n - t) / 2) ((n - t) / 2 + t)) (combine shape target)).
Proof. induction 1 as [|n t shape target H F IH]; [reflexivity|]. cbn [clip]. rewrite clip1_ok by auto. cbn [bind]. rewrite IH. reflexivity. Qed.

(** ** assignment *)
Lemma axis_full n : 0 <= n -> axis_map n full_slice full_slice = Some (combine (zrange 0 n) (zrange 0 n)).
Proof. intros H. unfold axis_map, full_slice. rewrite resolve_step1. cbn [bind]. rewrite Nat.eqb_refl. reflexivity. Qed.
Lemma axis_sl n a b c d : 0 <= a <= b -> b <= n -> 0 <= c <= d -> d <= n -> b - a = d - c ->
  axis_map n (sl a b) (sl c d) = Some (combine (zrange a b) (zrange c d)).
Proof.
  intros. unfold axis_map, sl. rewrite !resolve_step1. cbn [bind]. unfold bound.
  destruct (Z.ltb_spec a 0); [lia|]. destruct (Z.ltb_spec b 0); [lia|]. destruct (Z.ltb_spec c 0); [lia|]. destruct (Z.ltb_spec d 0); [lia|].
  rewrite !Z.min_l by lia. rewrite !zrange_length. replace (d - c) with (b - a) by lia. rewrite Nat.eqb_refl. reflexivity.
Qed.
Lemma source_combine a b c d i : b - a = d - c -> source (combine (zrange a b) (zrange c d)) i = if (a <=? i) && (i <? b) then Some (c + (i - a)) else None.
Proof.
  intros E. assert (N : exists m, m = Z.to_nat (b - a)) by eauto. destruct N as [m Hm]. revert a c Hm E. induction m as [|m IH]; intros a c Hm E.
  - rewrite (zrange_nil a b) by lia. destruct (Z.leb_spec a i), (Z.ltb_spec i b); cbn; auto; lia.
  - rewrite (zrange_cons a b), (zrange_cons c d) by lia. unfold source. cbn [combine find fst snd].
    destruct (Z.eqb_spec a i) as [->|].
    + destruct (Z.leb_spec i i); [|lia]. destruct (Z.ltb_spec i b); [|lia]. cbn. f_equal. lia.
    + specialize (IH (a + 1) (c + 1) ltac:(lia) ltac:(lia)). unfold source in IH. rewrite IH.
      destruct (Z.leb_spec a i), (Z.ltb_spec i b), (Z.leb_spec (a + 1) i); cbn; auto; try lia. f_equal. lia.
Qed.

Section Assign.
Variable V : Type.
Definition inb (a b i : Z) : bool := (a <=? i) && (i <? b).
Lemma inb_spec a b i : reflect (a <= i < b) (inb a b i).
Proof. apply iff_reflect. unfold inb. rewrite andb_true_iff, Z.leb_le, Z.ltb_lt. tauto. Qed.

(** the axis intervals of an assignment: full or [a, b) from [c, d) *)
Definition iv (n : Z) (o : option (Z * Z * Z)) : entry * entry :=
  match o with None => (full_slice, full_slice) | Some (a, b, c) => (sl a b, sl c (c + (b - a))) end.
Definition iv_ok (n : Z) (o : option (Z * Z * Z)) : Prop :=
  match o with None => True | Some (a, b, c) => 0 <= a <= b /\ b <= n /\ 0 <= c /\ c + (b - a) <= n end.
Definition src (n : Z) (o : option (Z * Z * Z)) (i : Z) : option Z :=
  match o with None => if inb 0 n i then Some i else None | Some (a, b, c) => if inb a b i then Some (c + (i - a)) else None end.
Lemma iv_map n o : 0 <= n -> iv_ok n o -> exists m, axis_map n (fst (iv n o)) (snd (iv n o)) = Some m /\ forall i, source m i = src n o i.
Proof.
  intros Hn H. destruct o as [[[a b] c]|]; cbn [iv fst snd iv_ok src] in *.
  - rewrite axis_sl by lia. eexists. split; [reflexivity|]. intros i. rewrite source_combine by lia. reflexivity.
  - rewrite axis_full by lia. eexists. split; [reflexivity|]. intros i. rewrite source_combine by lia. unfold inb. destruct ((0 <=? i) && (i <? n)); auto. f_equal. lia.
Qed.
Lemma assign_ok ni nj f r c : 0 <= ni -> 0 <= nj -> iv_ok ni r -> iv_ok nj c ->
  exists g, assign V ni nj f (fst (iv ni r)) (fst (iv nj c)) (snd (iv ni r)) (snd (iv nj c)) = Some g /\
    forall i j, g i j = match src ni r i, src nj c j with Some i', Some j' => f i' j' | _, _ => f i j end.
Proof.
  intros Hi Hj Hr Hc. destruct (iv_map ni r Hi Hr) as (mr & Er & Sr). destruct (iv_map nj c Hj Hc) as (mc & Ec & Sc).
  unfold assign. rewrite Er. cbn [bind]. rewrite Ec. cbn [bind]. eexists. split; [reflexivity|]. intros i j. cbv beta. now rewrite Sr, Sc.
Qed.

Lemma image_low s n h i : 0 <= h <= n -> s - h <= i < s -> image s n i = i + n.
Proof. intros H I. unfold image. replace ((i - s) mod n) with (i - s + n); [lia|]. apply (Z.mod_unique_pos _ _ (-1)); lia. Qed.
Lemma image_in s n i : s <= i < s + n -> image s n i = i.
Proof. intros H. unfold image. rewrite Z.mod_small; lia. Qed.
Lemma image_high s n h i : 0 <= h <= n -> s + n <= i < s + n + h -> image s n i = i - n.
Proof. intros H I. unfold image. replace ((i - s) mod n) with (i - s - n); [lia|]. apply (Z.mod_unique_pos _ _ 1); lia. Qed.
Lemma image_range s n i : 0 < n -> s <= image s n i < s + n.
Proof. intros H. unfold image. pose proof (Z.mod_pos_bound (i - s) n H). lia. Qed.

Lemma exchange_ok ni nj isc iec isd ied jsc jec jsd jed f :
  let h := isc - isd in let n := iec + 1 - isc in let m := jec + 1 - jsc in
  0 <= isd -> ied < ni -> 0 <= jsd -> jed < nj -> 0 <= h -> ied - iec = h -> jsc - jsd = h -> jed - jec = h -> h <= n -> h <= m -> 0 < n -> 0 < m ->
  exists g, mock_exchange V ni nj isc iec isd ied jsc jec jsd jed f = Some g /\
    forall i j, isd <= i <= ied -> jsd <= j <= jed -> g i j = f (image isc n i) (image jsc m j).
Proof.
  intros h n m. intros A1 A2 A3 A4 A5 A6 A7 A8 A9 A10 A11 A12. unfold mock_exchange. fold h.
  assert (Hi : 0 <= ni) by lia. assert (Hj : 0 <= nj) by lia.
  pose (lo_i := Some (isd, isc, iec - h + 1)). pose (hi_i := Some (iec + 1, ied + 1, isc)).
  pose (lo_j := Some (jsd, jsc, jec - h + 1)). pose (hi_j := Some (jec + 1, jed + 1, jsc)).
  assert (L1 : iv ni lo_i = (sl isd isc, sl (iec - h + 1) (iec + 1))) by (cbn [iv lo_i]; do 2 f_equal; lia).
  assert (L2 : iv ni hi_i = (sl (iec + 1) (ied + 1), sl isc (isc + h))) by (cbn [iv hi_i]; do 2 f_equal; lia).
  assert (L3 : iv nj lo_j = (sl jsd jsc, sl (jec - h + 1) (jec + 1))) by (cbn [iv lo_j]; do 2 f_equal; lia).
  assert (L4 : iv nj hi_j = (sl (jec + 1) (jed + 1), sl jsc (jsc + h))) by (cbn [iv hi_j]; do 2 f_equal; lia).
  assert (O1 : iv_ok ni lo_i) by (cbn; lia). assert (O2 : iv_ok ni hi_i) by (cbn; lia).
  assert (O3 : iv_ok nj lo_j) by (cbn; lia). assert (O4 : iv_ok nj hi_j) by (cbn; lia).
  assert (Ifull : forall n i, 0 <= i < n -> src n None i = Some i) by (intros k i Hk; cbn; destruct (inb_spec 0 k i); auto; lia).
  assert (Slo : forall i, src ni lo_i i = if inb isd isc i then Some (i + n) else None) by (intros i; cbn; destruct (inb isd isc i); auto; f_equal; lia).
  assert (Shi : forall i, src ni hi_i i = if inb (iec + 1) (ied + 1) i then Some (i - n) else None) by (intros i; cbn; destruct (inb (iec + 1) (ied + 1) i); auto; f_equal; lia).
  assert (Slj : forall i, src nj lo_j i = if inb jsd jsc i then Some (i + m) else None) by (intros i; cbn; destruct (inb jsd jsc i); auto; f_equal; lia).
  assert (Shj : forall i, src nj hi_j i = if inb (jec + 1) (jed + 1) i then Some (i - m) else None) by (intros i; cbn; destruct (inb (jec + 1) (jed + 1) i); auto; f_equal; lia).
  clearbody lo_i hi_i lo_j hi_j.
  destruct (assign_ok ni nj f lo_i None Hi Hj O1 I) as (f1 & E1 & G1). rewrite L1 in E1. cbn [iv fst snd] in E1. rewrite E1. cbn [bind]. clear E1.
  destruct (assign_ok ni nj f1 hi_i None Hi Hj O2 I) as (f2 & E1 & G2). rewrite L2 in E1. cbn [iv fst snd] in E1. rewrite E1. cbn [bind]. clear E1.
  destruct (assign_ok ni nj f2 None lo_j Hi Hj I O3) as (f3 & E1 & G3). rewrite L3 in E1. cbn [iv fst snd] in E1. rewrite E1. cbn [bind]. clear E1.
  destruct (assign_ok ni nj f3 None hi_j Hi Hj I O4) as (f4 & E1 & G4). rewrite L4 in E1. cbn [iv fst snd] in E1. rewrite E1. cbn [bind]. clear E1.
  destruct (assign_ok ni nj f4 lo_i lo_j Hi Hj O1 O3) as (f5 & E1 & G5). rewrite L1, L3 in E1. cbn [fst snd] in E1. rewrite E1. cbn [bind]. clear E1.
  destruct (assign_ok ni nj f5 lo_i hi_j Hi Hj O1 O4) as (f6 & E1 & G6). rewrite L1, L4 in E1. cbn [fst snd] in E1. rewrite E1. cbn [bind]. clear E1.
  destruct (assign_ok ni nj f6 hi_i lo_j Hi Hj O2 O3) as (f7 & E1 & G7). rewrite L2, L3 in E1. cbn [fst snd] in E1. rewrite E1. cbn [bind]. clear E1.
  destruct (assign_ok ni nj f7 hi_i hi_j Hi Hj O2 O4) as (f8 & E1 & G8). rewrite L2, L4 in E1. cbn [fst snd] in E1. rewrite E1. clear E1.
  exists f8. split; auto.
  assert (P : forall i, isd <= i <= ied -> (isd <= i < isc /\ image isc n i = i + n) \/ (isc <= i < iec + 1 /\ image isc n i = i) \/ (iec + 1 <= i < ied + 1 /\ image isc n i = i - n)).
  { intros i H. destruct (Z_lt_dec i isc); [left; split; [lia|apply (image_low _ _ h); lia]|]. destruct (Z_lt_dec i (iec + 1)); [right; left; split; [lia|apply image_in; lia]|].
    right; right. split; [lia|apply (image_high _ _ h); lia]. }
  assert (Q : forall j, jsd <= j <= jed -> (jsd <= j < jsc /\ image jsc m j = j + m) \/ (jsc <= j < jec + 1 /\ image jsc m j = j) \/ (jec + 1 <= j < jed + 1 /\ image jsc m j = j - m)).
  { intros i H. destruct (Z_lt_dec i jsc); [left; split; [lia|apply (image_low _ _ h); lia]|]. destruct (Z_lt_dec i (jec + 1)); [right; left; split; [lia|apply image_in; lia]|].
    right; right. split; [lia|apply (image_high _ _ h); lia]. }
  assert (F2 : forall i j, isd <= i <= ied -> 0 <= j < nj -> f2 i j = f (image isc n i) j).
  { intros i j Hi' Hj'. rewrite G2, Shi, Ifull by lia. rewrite !G1, !Slo, Ifull by lia.
    destruct (P i Hi') as [[B ->]|[[B ->]|[B ->]]]; destruct (inb_spec (iec + 1) (ied + 1) i); try lia; destruct (inb_spec isd isc i); try lia; auto.
    rewrite G1, Slo, Ifull by lia. destruct (inb_spec isd isc (i - n)); auto; lia. }
  assert (F4 : forall i j, isd <= i <= ied -> jsd <= j <= jed -> f4 i j = f (image isc n i) (image jsc m j)).
  { intros i j Hi' Hj'. rewrite G4, Shj, Ifull by lia. rewrite !G3, !Slj, !Ifull by lia.
    destruct (Q j Hj') as [[B ->]|[[B ->]|[B ->]]]; destruct (inb_spec (jec + 1) (jed + 1) j); try lia; destruct (inb_spec jsd jsc j); try lia; try (apply F2; lia).
    rewrite G3, Slj, Ifull by lia. destruct (inb_spec jsd jsc (j - m)); [lia|]. apply F2; lia. }
  clear G1 G2 G3 G4 F2.
  assert (FI : forall i j, isc <= i < iec + 1 -> jsc <= j < jec + 1 -> f4 i j = f i j).
  { intros i j H1 H2. rewrite F4 by lia. rewrite !image_in by lia. auto. }
  intros i j Hi' Hj'. rewrite <- (F4 i j Hi' Hj'). pose proof (F4 i j Hi' Hj') as K.
  assert (S5 : forall i j, isd <= i <= ied -> jsd <= j <= jed -> f5 i j = f4 i j).
  { clear i j Hi' Hj' K. intros i j Hi' Hj'. rewrite G5, Slo, Slj. destruct (inb_spec isd isc i); auto. destruct (inb_spec jsd jsc j); auto.
    rewrite FI by lia. rewrite (F4 i j) by lia. destruct (P i Hi') as [[B ->]|[[B ->]|[B ->]]]; try lia. destruct (Q j Hj') as [[C ->]|[[C ->]|[C ->]]]; try lia. auto. }
  assert (S6 : forall i j, isd <= i <= ied -> jsd <= j <= jed -> f6 i j = f4 i j).
  { clear i j Hi' Hj' K. intros i j Hi' Hj'. rewrite G6, Slo, Shj. destruct (inb_spec isd isc i); [|apply S5; auto]. destruct (inb_spec (jec + 1) (jed + 1) j); [|apply S5; auto].
    rewrite S5 by lia. rewrite FI by lia. rewrite (F4 i j) by lia. destruct (P i Hi') as [[B ->]|[[B ->]|[B ->]]]; try lia. destruct (Q j Hj') as [[C ->]|[[C ->]|[C ->]]]; try lia. auto. }
  assert (S7 : forall i j, isd <= i <= ied -> jsd <= j <= jed -> f7 i j = f4 i j).
  { clear i j Hi' Hj' K. intros i j Hi' Hj'. rewrite G7, Shi, Slj. destruct (inb_spec (iec + 1) (ied + 1) i); [|apply S6; auto]. destruct (inb_spec jsd jsc j); [|apply S6; auto].
    rewrite S6 by lia. rewrite FI by lia. rewrite (F4 i j) by lia. destruct (P i Hi') as [[B ->]|[[B ->]|[B ->]]]; try lia. destruct (Q j Hj') as [[C ->]|[[C ->]|[C ->]]]; try lia. auto. }
  rewrite G8, Shi, Shj. destruct (inb_spec (iec + 1) (ied + 1) i); [|apply S7; auto]. destruct (inb_spec (jec + 1) (jed + 1) j); [|apply S7; auto].
  rewrite S7 by lia. rewrite FI by lia. rewrite (F4 i j) by lia. destruct (P i Hi') as [[B ->]|[[B ->]|[B ->]]]; try lia. destruct (Q j Hj') as [[C ->]|[[C ->]|[C ->]]]; try lia. auto.
Qed.

Lemma existsb_zrange i a b : existsb (Z.eqb i) (zrange a b) = inb a b i.
Proof.
  apply eq_true_iff_eq. rewrite existsb_exists. destruct (inb_spec a b i) as [H|H]; split; try discriminate; auto.
  - intros _. exists i. split; [apply in_zrange; auto|apply Z.eqb_refl].
  - intros (x & I & E). apply Z.eqb_eq in E. subst x. apply in_zrange in I. lia.
Qed.

Lemma halo_nan_ok ni nj ng nan f : 0 <= ni -> 0 <= nj -> 1 <= ng ->
  exists g, set_halo_nan V ni nj ng nan f = Some g /\
    forall i j, 0 <= i < ni -> 0 <= j < nj ->
      ((near_edge ni ng i \/ near_edge nj ng j) -> g i j = nan) /\ (~ near_edge ni ng i /\ ~ near_edge nj ng j -> g i j = f i j).
Proof.
  intros Hi Hj Hn. unfold set_halo_nan, assign_const, full_slice. rewrite !resolve_step1. cbn [bind].
  eexists. split; [reflexivity|]. intros i j Bi Bj. cbv beta. rewrite !existsb_zrange. unfold near_edge, bound.
  destruct (Z.ltb_spec ng 0); [lia|]. destruct (Z.ltb_spec (- ng) 0); [|lia].
  repeat match goal with |- context [inb ?a ?b ?c] => destruct (inb_spec a b c) end; cbn [andb]; split; intros; auto; lia.
Qed.
End Assign.
