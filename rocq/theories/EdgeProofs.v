(** Facts about EdgeModel.v *)
Require Import Reals ZArith Bool List Lia Lra.
From Verif Require Import Base EdgeModel.
Local Open Scope Z_scope.

Lemma clip_in n i : 0 <= i <= n -> clip n i = i.
Proof. unfold clip; intros H. destruct (Z.ltb_spec i 0); lia. Qed.
Lemma clip_neg n i : - n <= i < 0 -> clip n i = n + i.
Proof. unfold clip; intros H. destruct (Z.ltb_spec i 0); lia. Qed.

Ltac clips := cbn [full len lower upper]; repeat first [rewrite clip_in by lia | rewrite clip_neg by lia]; lia.

(** a[lo:hi] for bounds within the array *)
Lemma sl_spec {T} (a : arr T) lo hi s e : lower (len a) lo = s -> upper (len a) hi = e -> s <= e ->
  sl a lo hi = mkArr (e - s) (fun k => at1 a (s + k)).
Proof. unfold sl; intros <- <- H. f_equal; lia. Qed.
Lemma zip_same {S T U} (f : S -> T -> U) a b : len a = len b -> zip f a b = Some (mkArr (len a) (fun k => f (at1 a k) (at1 b k))).
Proof. unfold zip; intros ->. rewrite Z.eqb_refl. reflexivity. Qed.
Lemma set_sl_spec {T} (a v : arr T) lo hi s e : lower (len a) lo = s -> upper (len a) hi = e -> s <= e -> len v = e - s ->
  set_sl a lo hi v = Some (mkArr (len a) (fun k => if (s <=? k) && (k <? e) then at1 v (k - s) else at1 a k)).
Proof.
  unfold set_sl; intros E1 E2 H E. rewrite E1, E2. replace (Z.max 0 (e - s)) with (e - s) by lia. rewrite E, Z.eqb_refl. cbn [orb].
  replace (s + (e - s)) with e by lia. reflexivity.
Qed.

Section Edges.
  Context {P : Type}.
  Variable mid : P -> P -> P.
  Variable dist : P -> P -> R.
  Variable big_number : R.

  (** the factor at position k of an edge whose cells outside and inside are [o], [i] and whose corners are [c] *)
  Definition b_factor (o i c : Z -> P) (k : Z) : R :=
    (dist (mid (o k) (i k)) (c k) / (dist (mid (o (k - 1)%Z) (i (k - 1)%Z)) (c k) + dist (mid (o k) (i k)) (c k)))%R.

  Lemma west_factor grid agrid nhalo js je : 1 <= nhalo -> nhalo < len0 grid -> nhalo < len0 agrid ->
    1 <= js -> js <= je -> je <= len1 grid -> je <= len1 agrid ->
    exists v, set_west_edge_factor mid dist grid agrid nhalo js je = Some v /\ len v = je - js /\
      forall k, at1 v k = b_factor (at2 agrid (nhalo - 1)) (at2 agrid nhalo) (at2 grid nhalo) (js + k).
  Proof.
    intros H0 H1 H2 H3 H4 H5 H6. unfold set_west_edge_factor, row.
    destruct (Z.ltb_spec (nhalo - 1) 0); [lia|]. destruct (Z.ltb_spec nhalo 0); [lia|].
    rewrite !(sl_spec (mkArr (len1 agrid) _) _ _ (js - 1) je) by (cbn [len lower upper]; rewrite ?clip_in; lia).
    rewrite zip_same by reflexivity. cbn [len at1 bind].
    rewrite !(sl_spec (mkArr (len1 grid) _) _ _ js je) by (cbn [len lower upper]; rewrite ?clip_in; lia).
    rewrite (sl_spec (mkArr (je - (js - 1)) _) None _ 0 (je - js)) by (cbn [len lower upper]; rewrite ?clip_neg; lia).
    rewrite (sl_spec (mkArr (je - (js - 1)) _) _ None 1 (je - (js - 1))) by (cbn [len lower upper]; rewrite ?clip_in; lia).
    rewrite zip_same by (cbn [len]; lia). cbn [len at1 bind].
    rewrite zip_same by (cbn [len]; lia). cbn [len at1 bind].
    rewrite zip_same by (cbn [len]; lia). cbn [len at1 bind].
    eexists; split; [reflexivity|]. cbn [len at1 bind]. split; [lia|]. intros k. unfold b_factor.
    replace (js - 1 + (0 + k)) with (js + k - 1) by lia. replace (js - 1 + (1 + k)) with (js + k) by lia. reflexivity.
  Qed.

  (** one edge: [k]-th of [m] ranks of [q] cells along the edge *)
  Definition first_row (g : Z) := Z.max 4 (3 + g) - (3 + g) + 3.
  Definition last_row (n g stop : Z) := Z.min (n + 1 + 3 - 1) (3 + stop - 1 + 2) - (3 + g) + 3.
  Lemma rows_range m q k : 1 <= q -> 0 <= k < m -> let n := m * q in let g := k * q in
    let stop := (k + 1) * q + (if k =? m - 1 then 1 else 0) in
    first_row g = (if k =? 0 then 4 else 3) /\ last_row n g stop = (if k =? m - 1 then q + 3 else q + 4).
  Proof.
    intros Hq Hk n g stop. unfold first_row, last_row, n, g, stop. clear n g stop.
    assert (k * q >= 0) by nia. destruct (Z.eqb_spec k 0) as [E0|E0]; destruct (Z.eqb_spec k (m - 1)) as [E|E].
    - subst k. assert (m = 1) as -> by lia. lia.
    - subst k. assert (m * q >= 2 * q) by nia. lia.
    - assert (k * q >= q) by nia. subst k. replace ((m - 1 + 1) * q) with (m * q) by ring. assert ((m - 1) * q = m * q - q) by ring. lia.
    - assert (k * q >= q) by nia. assert (m * q >= (k + 2) * q) by nia. assert ((k + 2) * q = k * q + 2 * q) by ring.
      assert ((k + 1) * q = k * q + q) by ring. lia.
  Qed.

  Lemma edge_ok m q k on f (F : Z -> R) : 1 <= q -> 0 <= k < m -> let n := m * q in let g := k * q in
    let stop := (k + 1) * q + (if k =? m - 1 then 1 else 0) in
    (on = true -> forall js je, 3 <= js <= je -> je <= q + 4 -> exists v, f js je = Some v /\ len v = je - js /\ forall t, at1 v t = F (g + (js + t) - 3)) ->
    exists e, edge big_number on (q + 1) 3 (first_row g) (last_row n g stop) f = Some e /\ len e = q + 1 /\
      forall t, 0 <= t <= q -> at1 e t = if on && ((1 <=? g + t) && (g + t <=? n - 1)) then F (g + t) else big_number.
  Proof.
    intros Hq Hk n g stop Hf. destruct (rows_range m q k Hq Hk) as [E1 E2]. fold n in E2. fold g in E1, E2. fold stop in E2.
    unfold edge. destruct on; [|eexists; split; [reflexivity|]; split; reflexivity].
    assert (Hg : g = if k =? 0 then 0 else g) by (unfold g; destruct (Z.eqb_spec k 0); subst; reflexivity).
    assert (Hg1 : k <> 0 -> 1 <= g) by (unfold g; nia).
    assert (Hn1 : k = m - 1 -> g + q = n) by (unfold g, n; intros ->; ring).
    assert (Hn2 : k <> m - 1 -> g + q + 1 <= n) by (unfold g, n; nia).
    rewrite E1, E2. destruct (Hf eq_refl (if k =? 0 then 4 else 3) (if k =? m - 1 then q + 3 else q + 4)) as (v & Ev & Lv & Hv).
    { destruct (k =? 0), (k =? m - 1); lia. }
    { destruct (k =? m - 1); lia. }
    rewrite Ev. cbn [bind].
    rewrite (set_sl_spec _ _ _ _ ((if k =? 0 then 4 else 3) - 3) ((if k =? m - 1 then q + 3 else q + 4) - 3)); cycle 1.
    { cbn [full len lower]. apply clip_in. destruct (k =? 0); lia. }
    { cbn [full len upper]. apply clip_in. destruct (k =? m - 1); lia. }
    { destruct (k =? 0), (k =? m - 1); lia. }
    { rewrite Lv. lia. }
    eexists; split; [reflexivity|]. split; [reflexivity|]. intros t Ht. cbn [at1 full andb]. rewrite Hv.
    replace (g + ((if k =? 0 then 4 else 3) + (t - ((if k =? 0 then 4 else 3) - 3))) - 3) with (g + t) by lia.
    match goal with |- (if ?a then _ else _) = (if ?b then _ else _) => replace a with b; [reflexivity|] end.
    destruct (Z.eqb_spec k 0), (Z.eqb_spec k (m - 1)), (Z.leb_spec 1 (g + t)), (Z.leb_spec (g + t) (n - 1)); cbn [andb];
      match goal with |- _ = ?x && ?y => destruct x eqn:X, y eqn:Y end; cbn [andb]; try reflexivity; exfalso; lia.
  Qed.

  (** ** Factors at cells *)
  Definition a_factor (lower_half : bool) (o i c : Z -> P) (t : Z) : R :=
    let py k := mid (o k) (i k) in
    let p2 := mid (c t) (c (t + 1)) in
    (dist (py t) p2 / (dist (py (if lower_half then t + 1 else t - 1)%Z) p2 + dist (py t) p2))%R.

  Lemma west_vectors grid agrid q jm2 : 1 <= q -> len0 grid = q + 7 -> len1 grid = q + 7 -> len0 agrid = q + 6 -> len1 agrid = q + 6 ->
    -1 <= jm2 <= q + 1 ->
    exists v, calculate_west_edge_vectors mid dist grid agrid jm2 3 = Some v /\ len v = q + 2 /\
      forall t, 0 <= t < q + 2 -> at1 v t = a_factor (t <=? jm2) (at2 agrid 2) (at2 agrid 3) (at2 grid 3) (t + 2).
  Proof.
    intros Hq G0 G1 A0 A1 Hj. unfold calculate_west_edge_vectors, row. change (3 - 1 <? 0) with false. change (3 <? 0) with false. cbv iota.
    change (3 - 1) with 2. change (3 - 2) with 1. change (- (3) + 2) with (-1). change (-(3) + 1) with (-2). rewrite G1, A0, A1.
    rewrite !(sl_spec (mkArr (q + 6) _) _ _ 1 (q + 5)) by clips.
    rewrite zip_same by reflexivity. cbn [len at1 bind].
    rewrite (sl_spec (mkArr (q + 7) _) _ (Some (-2)) 1 (q + 5)) by clips.
    rewrite (sl_spec (mkArr (q + 7) _) _ (Some (-1)) 2 (q + 6)) by clips.
    rewrite zip_same by (cbn [len]; lia). cbn [len at1 bind]. replace (q + 5 - 1) with (q + 4) by lia.
    rewrite !(sl_spec (mkArr (q + 4) _) (Some 1) (Some (jm2 + 2)) 1 (jm2 + 2)) by clips.
    rewrite (sl_spec (mkArr (q + 4) _) (Some 2) (Some (jm2 + 3)) 2 (jm2 + 3)) by clips.
    rewrite !(sl_spec (mkArr (q + 4) _) (Some (jm2 + 2)) (Some (-1)) (jm2 + 2) (q + 3)) by clips.
    rewrite !(sl_spec (mkArr (q + 4) _) (Some (jm2 + 1)) (Some (-2)) (jm2 + 1) (q + 2)) by clips.
    rewrite zip_same by (cbn [len]; lia). cbn [len at1 bind].
    replace (q + 6 - 2 * 3 + 2) with (q + 2) by lia.
    rewrite (set_sl_spec _ _ None (Some (jm2 + 1)) 0 (jm2 + 1)) by clips. cbn [len at1 bind full].
    rewrite zip_same by (cbn [len]; lia). cbn [len at1 bind].
    rewrite (set_sl_spec _ _ None (Some (jm2 + 1)) 0 (jm2 + 1)) by clips. cbn [len at1 bind full].
    rewrite zip_same by (cbn [len]; lia). cbn [len at1 bind].
    rewrite (set_sl_spec _ _ (Some (jm2 + 1)) None (jm2 + 1) (q + 2)) by clips. cbn [len at1 bind full].
    rewrite zip_same by (cbn [len]; lia). cbn [len at1 bind].
    rewrite (set_sl_spec _ _ (Some (jm2 + 1)) None (jm2 + 1) (q + 2)) by clips. cbn [len at1 bind full].
    rewrite zip_same by reflexivity. eexists; split; [reflexivity|]. cbn [len at1]. split; [reflexivity|].
    intros t Ht. unfold a_factor.
    destruct (Z.leb_spec t jm2) as [H|H].
    - destruct (Z.leb_spec (jm2 + 1) t); [lia|]. cbn [andb]. destruct (Z.leb_spec 0 t); [|lia]. destruct (Z.ltb_spec t (jm2 + 1)); [|lia]. cbn [andb].
      replace (1 + (1 + (t - 0))) with (t + 2) by lia. replace (2 + (1 + (t - 0))) with (t + 2 + 1) by lia.
      replace (1 + (2 + (t - 0))) with (t + 2 + 1) by lia. reflexivity.
    - destruct (Z.leb_spec (jm2 + 1) t); [|lia]. cbn [andb]. destruct (Z.ltb_spec t (q + 2)); [|lia].
      replace (1 + (jm2 + 2 + (t - (jm2 + 1)))) with (t + 2) by lia. replace (2 + (jm2 + 2 + (t - (jm2 + 1)))) with (t + 2 + 1) by lia.
      replace (1 + (jm2 + 1 + (t - (jm2 + 1)))) with (t + 2 - 1) by lia. reflexivity.
  Qed.

  (** entries of an edge's array *)
  Lemma edge_vect_ok on first last q v : 1 <= q -> len v = q + 2 ->
    exists e, edge_vect big_number on first last (q + 6) 3 (Some v) = Some e /\ len e = q + 6 /\
      forall x, 0 <= x < q + 6 ->
        at1 e x = if on && ((2 <=? x) && (x <? q + 4)) then
                    at1 v ((if first && (x =? 2) then 3 else if last && (x =? q + 3) then q + 2 else x) - 2)
                  else big_number.
  Proof.
    intros Hq Hv. unfold edge_vect. destruct on; [|eexists; split; [reflexivity|]; split; reflexivity]. cbn [bind].
    rewrite (set_sl_spec _ _ _ _ 2 (q + 4)) by clips.
    cbn [bind full len at1]. eexists; split; [reflexivity|]. split; [destruct first, last; reflexivity|].
    intros x Hx. cbn [andb]. destruct (Z.leb_spec 2 x), (Z.ltb_spec x (q + 4)); cbn [andb]; destruct first, last; cbn [andb];
      unfold set1, get1; cbn [len at1]; change (3 <? 0) with false; change (3 - 1 <? 0) with false; change (-(3) <? 0) with true; change (-(3) - 1 <? 0) with true; cbv iota;
      repeat match goal with |- context [?a =? ?b] => destruct (Z.eqb_spec a b) end; try lia;
      repeat match goal with |- context [?a <=? ?b] => destruct (Z.leb_spec a b) end; try lia;
      repeat match goal with |- context [?a <? ?b] => destruct (Z.ltb_spec a b) end; try lia; cbn [andb]; try reflexivity; f_equal; lia.
  Qed.
End Edges.

(** ** The index that divides the edge in two *)
Lemma filter_le c b m : 0 <= m ->
  filter (fun i => i <=? b) (map (fun k => k + c) (zrange 0 m)) = map (fun k => k + c) (zrange 0 (Z.max 0 (Z.min m (b - c + 1)))).
Proof.
  intros Hm. set (s := Z.max 0 (Z.min m (b - c + 1))). rewrite (zrange_app 0 s m) by lia. rewrite map_app, filter_app.
  assert (E1 : forall l, (forall x, In x l -> x <= b) -> filter (fun i => i <=? b) l = l).
  { induction l as [|x l IH]; intros H; [reflexivity|]. cbn [filter]. destruct (Z.leb_spec x b) as [_|X].
    - f_equal. apply IH. intros y Hy. apply H. right. exact Hy.
    - specialize (H x (or_introl eq_refl)). lia. }
  assert (E2 : forall l, (forall x, In x l -> b < x) -> filter (fun i => i <=? b) l = []).
  { induction l as [|x l IH]; intros H; [reflexivity|]. cbn [filter]. destruct (Z.leb_spec x b) as [X|_].
    - specialize (H x (or_introl eq_refl)). lia.
    - apply IH. intros y Hy. apply H. right. exact Hy. }
  rewrite E1, E2; [apply app_nil_r| |]; intros x Hx; apply in_map_iff in Hx; destruct Hx as (y & <- & Hy); apply in_zrange in Hy; lia.
Qed.
Lemma fold_max c s : 1 <= s -> match map (fun k => k + c) (zrange 0 s) with [] => None | i :: r => Some (fold_left Z.max r i) end = Some (s - 1 + c).
Proof.
  intros Hs. rewrite (zrange_cons 0 s) by lia. cbn [map]. f_equal. replace s with (1 + Z.of_nat (Z.to_nat (s - 1))) by lia.
  induction (Z.to_nat (s - 1)) as [|k IH].
  - cbn. lia.
  - replace (1 + Z.of_nat (S k)) with (1 + Z.of_nat k + 1) by lia.
    rewrite zrange_snoc by lia. rewrite map_app, fold_left_app, IH. cbn [map fold_left]. lia.
Qed.

Lemma half_index_spec q n g : 1 <= q ->
  half_index (q + 6) 3 (n + 1) g = if g + q <=? n / 2 then q + 1 else if g <=? n / 2 + 3 then Z.max (n / 2 - g) (-1) else 0.
Proof.
  intros Hq. unfold half_index. replace (n + 1 - 1) with n by lia. replace (q + 6 - 3 + 1) with (q + 4) by lia.
  assert (E0 : map (fun k => k + (3 + g) - 3) (zrange 0 (q + 4)) = map (fun k => k + g) (zrange 0 (q + 4))) by (apply map_ext; intros; lia).
  rewrite E0, filter_le by lia. set (s := Z.max 0 (Z.min (q + 4) (3 + n / 2 - g + 1))).
  assert (L : forall m, 0 <= m -> Z.of_nat (length (map (fun k => k + g) (zrange 0 m))) = m).
  { intros m Hm. rewrite map_length, zrange_length. lia. }
  rewrite (L s), (L (q + 4)) by lia.
  destruct (Z.leb_spec (g + q) (n / 2)) as [H|H].
  - replace s with (q + 4) by lia. rewrite Z.eqb_refl. lia.
  - destruct (Z.eqb_spec s (q + 4)); [lia|]. destruct (Z.leb_spec g (n / 2 + 3)).
    + pose proof (fold_max g s ltac:(lia)) as F. destruct (map (fun k => k + g) (zrange 0 s)); [discriminate|].
      injection F as ->. lia.
    + replace s with 0 by lia. rewrite zrange_nil by lia. reflexivity.
Qed.
