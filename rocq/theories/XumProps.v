(** C122: the reductions of xumpy *)
From Coq Require Import ZArith List Bool String Lia.
From Verif Require Import Base StorModel GridModel GridProofs XumModel XumProofs.
Import ListNotations.
Local Open Scope Z_scope.

(** ** specification *)
(** axis p of r axes is one of those given *)
Definition reduced (ax : axis) (r : nat) (p : nat) : bool :=
  let is k := (Z.of_nat p =? k) || (Z.of_nat p =? k + Z.of_nat r) in
  match ax with All => true | One k => is k | Many l => existsb is l end.
Definition kept_axes (ax : axis) (r : nat) : list nat := filter (fun p => negb (reduced ax r p)) (seq 0 r).
(** the coordinates of an index, or the sizes of a shape, along the axes that stay *)
Definition along (ax : axis) (l : list Z) : list Z := map (fun p => nth p l 0) (kept_axes ax (List.length l)).
(** the axes exist and are different *)
Definition good_axes (ax : axis) (r : nat) : Prop :=
  let r := Z.of_nat r in
  match ax with All => True | One k => - r <= k < r | Many l => Forall (fun k => - r <= k < r) l /\ NoDup (map (fun k => k mod r) l) end.
(** v is the greatest number at the places P, or not a number if one of them holds no number *)
Definition greatest {T} (le : T -> T -> Prop) (P : list Z -> Prop) (f : list Z -> option T) (v : option T) : Prop :=
  match v with
  | Some x => (exists i, P i /\ f i = Some x) /\ forall i, P i -> exists y, f i = Some y /\ le y x
  | None => exists i, P i /\ f i = None
  end.
Definition plus (o i : list Z) : list Z := map (fun x => fst x + snd x) (combine o i).
(** a quantity whose compute domain lies in its array *)
Definition sound {T} (q : quantity (T := T)) : Prop :=
  List.length (q_origin q) = List.length (shp (q_data q)) /\ List.length (q_extent q) = List.length (shp (q_data q))
  /\ forall p, (p < List.length (shp (q_data q)))%nat ->
       0 <= nth p (q_origin q) 0 /\ 0 <= nth p (q_extent q) 0 /\ nth p (q_origin q) 0 + nth p (q_extent q) 0 <= nth p (shp (q_data q)) 0.
(** the values a reduction is about: all of an array, the compute domain of a quantity *)
Definition looks_at {T} (b : buffer (T := T)) (shape : list Z) (f : list Z -> option T) : Prop :=
  Forall (fun n => 0 <= n) shape /\
  match b with
  | Array a => shape = shp a /\ forall i, f i = val a i
  | Quantity q => sound q /\ shape = q_extent q /\ forall i, f i = val (q_data q) (plus (q_origin q) i)
  | Other => False
  end.

(** ** proofs *)
Lemma mask_reduced r ax m : mask_of r ax = Some m -> m = map (reduced ax r) (seq 0 r).
Proof.
  destruct ax as [|k|l]; cbn [mask_of].
  - intros [= <-]. generalize 0%nat. induction r as [|r IH]; intros s; cbn [repeat seq map]; [reflexivity|]. f_equal. rewrite (IH (S s)). apply map_ext. reflexivity.
  - destruct (normal r k) as [p0|] eqn:E; [|discriminate]. cbn [bind]. intros [= <-]. apply map_ext_in. intros p I. apply in_seq in I. cbn [reduced]. apply normal_eqb; [exact E|lia].
  - destruct (all_some _) as [ps|] eqn:E; [|discriminate]. cbn [bind]. destruct (distinct ps); [|discriminate]. intros [= <-]. apply all_some_spec in E.
    apply map_ext_in. intros p I. apply in_seq in I. cbn [reduced]. revert ps E. induction l as [|k l IH]; intros [|p0 ps] E; try discriminate E; [reflexivity|]. cbn [map] in E. injection E as E1 E2.
    cbn [existsb]. rewrite (IH ps E2). f_equal. rewrite Nat.eqb_sym. apply normal_eqb; [now symmetry|lia].
Qed.
Lemma mask_good r ax : (exists m, mask_of r ax = Some m) <-> good_axes ax r.
Proof.
  destruct ax as [|k|l]; cbn [mask_of good_axes].
  - split; eauto.
  - destruct (normal r k) as [p|] eqn:E; cbn [bind].
    + split; [intros _; now apply normal_in in E|eauto].
    + split; [intros [m X]; discriminate|]. intros H. unfold normal in E. destruct (_ && _) eqn:B; [discriminate|]. apply andb_false_iff in B. lia.
  - assert (X : forall ps, all_some (map (normal r) l) = Some ps <-> Forall2 (fun k p => - Z.of_nat r <= k < Z.of_nat r /\ Z.of_nat p = k mod Z.of_nat r) l ps).
    { intros ps. rewrite all_some_spec. revert ps. induction l as [|k l IH]; intros [|p ps]; cbn [map]; split; intros H; try discriminate; try inversion H; subst; try constructor; try reflexivity.
      - apply normal_in. now symmetry. - now apply IH. - f_equal; [symmetry; now apply normal_in|now apply IH]. }
    split.
    + intros [m H]. destruct (all_some _) as [ps|] eqn:E; [|discriminate]. cbn [bind] in H. destruct (distinct ps) eqn:D; [|discriminate]. apply distinct_NoDup in D. clear E. assert (E := proj1 (X ps) eq_refl).
      split; [clear - E; induction E as [|? ? ? ? H]; constructor; [apply H|assumption]|].
      assert (M : map (fun k => k mod Z.of_nat r) l = map Z.of_nat ps) by (clear - E; induction E as [|? ? ? ? H]; cbn [map]; [reflexivity|f_equal; [symmetry; apply H|assumption]]).
      rewrite M. clear - D. induction D as [|p ps P _ IH]; cbn [map]; constructor; [|exact IH]. rewrite in_map_iff. intros (y & Y & I). apply Nat2Z.inj in Y. congruence.
    + intros [F N]. assert (E : exists ps, all_some (map (normal r) l) = Some ps).
      { exists (map (fun k => Z.to_nat (k mod Z.of_nat r)) l). apply X. clear - F. induction F as [|k l K F IH]; cbn [map]; constructor; [|exact IH]. split; [exact K|]. rewrite Z2Nat.id; [reflexivity|apply Z.mod_pos_bound; lia]. }
      destruct E as [ps E]. rewrite E. cbn [bind]. apply X in E.
      assert (M : map (fun k => k mod Z.of_nat r) l = map Z.of_nat ps) by (clear - E; induction E as [|? ? ? ? H]; cbn [map]; [reflexivity|f_equal; [symmetry; apply H|assumption]]).
      rewrite M in N. apply NoDup_map_inv in N. rewrite (proj2 (distinct_NoDup ps) N). eauto.
Qed.
Lemma along_unmarked ax m l : mask_of (List.length l) ax = Some m -> unmarked m l = along ax l.
Proof. intros M. rewrite (mask_reduced _ _ _ M). unfold along, kept_axes. rewrite (unmarked_nth 0). apply map_ext. intros p. now rewrite Nat.sub_0_r. Qed.
Lemma within_length s i : within s i -> List.length i = List.length s.
Proof. intros H. induction H; cbn; congruence. Qed.

Lemma sound_window {T} (q : quantity (T := T)) : sound q -> take (shp (q_data q)) (compute_index (q_origin q) (q_extent q)) = Some (combine (q_origin q) (q_extent q)).
Proof.
  intros (L1 & L2 & H). apply take_window; [| |exact L1].
  - revert L1 L2 H. generalize (shp (q_data q)) (q_extent q). induction (q_origin q) as [|x o IH]; intros [|n s] [|y e] L1 L2 H; try discriminate; [constructor|]. constructor; [specialize (H 0%nat); cbn in H; lia|].
    apply (IH s); cbn in L1, L2; [congruence|congruence|]. intros p P. apply (H (S p)). cbn. lia.
  - revert L1 L2 H. generalize (shp (q_data q)) (q_extent q). induction (q_origin q) as [|x o IH]; intros [|n s] [|y e] L1 L2 H; try discriminate; [constructor|]. cbn [combine]. constructor; [specialize (H 0%nat); cbn in *; lia|].
    apply (IH s); cbn in L1, L2; [congruence|congruence|]. intros p P. apply (H (S p)). cbn. lia.
Qed.
Lemma snd_combine (o e : list Z) : List.length o = List.length e -> map snd (combine o e) = e.
Proof. revert e. induction o as [|x o IH]; intros [|y e] L; try discriminate; [reflexivity|]. cbn. rewrite IH; [reflexivity|]. cbn in L. congruence. Qed.
Lemma shifted_plus (o e i : list Z) : List.length o = List.length e -> shifted (combine o e) i = plus o i.
Proof. revert e i. induction o as [|x o IH]; intros [|y e] i L; try discriminate; [reflexivity|]. destruct i; [reflexivity|]. cbn in *. unfold plus in IH. rewrite IH by congruence. reflexivity. Qed.
Lemma field_seen {T} (q : quantity (T := T)) : sound q -> exists a, field q = Some a /\ shp a = q_extent q /\ forall i, val a i = val (q_data q) (plus (q_origin q) i).
Proof.
  intros S. unfold field, subarray. rewrite (sound_window q S). cbn [bind]. destruct S as (L1 & L2 & _). eexists. split; [reflexivity|]. cbn [shp val]. split; [apply snd_combine; congruence|].
  intros i. now rewrite shifted_plus by congruence.
Qed.

Section Props.
Context {T : Type} (le : T -> T -> bool) (nonzero : T -> bool).
Hypothesis total_le : forall x y, le x y = true \/ le y x = true.
Hypothesis trans_le : forall x y z, le x y = true -> le y z = true -> le x z = true.

(** the array a reduction works on *)
Lemma over_seen op b shape f ax : looks_at b shape f -> exists a : nd (num (T := T)), shp a = shape /\ (forall i, val a i = f i) /\ over op b ax = reduce op a ax.
Proof.
  intros [_ H]. destruct b as [a|q|]; [| |contradiction].
  - destruct H as [-> H]. exists a. auto.
  - destruct H as (S & -> & H). destruct (field_seen q S) as (a & E & SA & V). exists a. split; [exact SA|]. split; [intros i; now rewrite V, H|]. cbn [over]. now rewrite E.
Qed.
Lemma reduce_some op a ax r : Forall (fun n => 0 <= n) (shp a) -> reduce op a ax = Some r -> shp r = along ax (shp a)
  /\ forall kept, within (shp r) kept -> exists l, (forall i, In i l <-> within (shp a) i /\ along ax i = kept) /\ l <> [] /\ val r kept = fold (T := T) op (map (val a) l).
Proof.
  intros NN. unfold reduce, rank. destruct (mask_of _ ax) as [m|] eqn:M; [|discriminate]. cbn [bind].
  assert (L : List.length m = List.length (shp a)) by (rewrite (mask_reduced _ _ _ M), map_length, seq_length; reflexivity).
  destruct (_ && _) eqn:B; [discriminate|]. intros [= <-]. cbn [shp val]. split; [now apply along_unmarked|]. intros kept W.
  exists (map (fun red => weave m red kept) (places (marked m (shp a)))). split; [|split].
  - intros i. rewrite (fibre m (shp a) kept L W). split; intros [H1 H2]; (split; [exact H1|]); [rewrite <- H2; symmetry|rewrite <- H2]; apply along_unmarked; rewrite (within_length _ _ H1); exact M.
  - destruct (marked_F (fun n => 0 <= n) m (shp a) NN) as [N1 N2]. assert (U := proj2 (total_none _ N2) (ex_intro _ kept W)).
    intros E. apply map_eq_nil in E. apply andb_false_iff in B. destruct B as [B|B]; [|lia].
    assert (T0 : total (marked m (shp a)) <> 0) by (rewrite (total_split m (shp a) L) in B; intros Z0; rewrite Z0 in B; discriminate).
    apply (total_none _ N1) in T0. destruct T0 as [i I]. apply in_places in I. rewrite E in I. contradiction.
  - now rewrite map_map.
Qed.
Lemma fold_greatest (P : list Z -> Prop) f l : (forall i, In i l <-> P i) -> l <> [] -> greatest (fun x y => le x y = true) P f (fold (larger le) (map f l)).
Proof.
  intros H N. destruct l as [|i0 l]; [congruence|]. cbn [map fold]. assert (G := fold_larger le total_le trans_le (map f l) (f i0)). change (f i0 :: map f l) with (map f (i0 :: l)) in G. destruct (fold_left _ _ _) as [x|]; cbn [greatest].
  - destruct G as [I G]. apply in_map_iff in I. destruct I as (i & E & I). split; [exists i; split; [now apply H|exact E]|]. intros j J. apply G. apply in_map. now apply H.
  - apply in_map_iff in G. destruct G as (i & E & I). exists i. split; [now apply H|exact E].
Qed.
Lemma greatest_ext (R : T -> T -> Prop) (P P' : list Z -> Prop) f f' v : (forall i, P i <-> P' i) -> (forall i, f i = f' i) -> greatest R P f v -> greatest R P' f' v.
Proof.
  intros HP HF. destruct v as [x|]; cbn [greatest].
  - intros [(i & I & E) H]. split; [exists i; rewrite <- HF; split; [now apply HP|exact E]|]. intros j J. rewrite <- HF. apply H. now apply HP.
  - intros (i & I & E). exists i. rewrite <- HF. split; [now apply HP|exact E].
Qed.

Theorem C122_max b shape f ax r : looks_at b shape f -> max le b ax = Some r ->
  shp r = along ax shape /\ forall kept, within (shp r) kept -> greatest (fun x y => le x y = true) (fun i => within shape i /\ along ax i = kept) f (val r kept).
Proof.
  intros L H. destruct (over_seen (larger le) b shape f ax L) as (a & SA & VA & E). unfold max in H. rewrite E in H. subst shape.
  destruct (reduce_some _ a ax r (proj1 L) H) as [S G]. split; [exact S|]. intros kept W. destruct (G kept W) as (l & I & N & V). rewrite V.
  apply (greatest_ext _ (fun i => within (shp a) i /\ along ax i = kept) _ (val a)); [reflexivity|exact VA|]. now apply fold_greatest.
Qed.
(** an exception is raised exactly if the axes are wrong or there is a result without elements *)
Theorem C122_refused (op : option T -> option T -> option T) b shape f ax : looks_at b shape f ->
  over op b ax = None <-> ~ good_axes ax (List.length shape) \/ exists kept, within (along ax shape) kept /\ forall i, within shape i -> along ax i <> kept.
Proof.
  intros L. destruct (over_seen op b shape f ax L) as (a & SA & _ & ->). subst shape. destruct L as [NN _]. unfold reduce, rank.
  destruct (mask_of _ ax) as [m|] eqn:M; cbn [bind].
  - assert (G := proj1 (mask_good _ _) (ex_intro _ m M)).
    assert (LM : List.length m = List.length (shp a)) by (rewrite (mask_reduced _ _ _ M), map_length, seq_length; reflexivity).
    destruct (marked_F (fun n => 0 <= n) m (shp a) NN) as [N1 N2]. rewrite <- (along_unmarked ax m (shp a) M).
    assert (U := total_none _ N2). assert (A := total_none _ NN). destruct (_ && _) eqn:B.
    + split; [intros _|reflexivity]. right. apply andb_prop in B. destruct B as [B1 B2]. destruct (proj1 U) as [kept W]; [apply negb_true_iff in B2; now apply Z.eqb_neq|].
      exists kept. split; [exact W|]. intros i I. exfalso. apply (proj2 A (ex_intro _ i I)). lia.
    + split; [discriminate|]. intros [H|(kept & W & H)]; [contradiction|]. exfalso. apply andb_false_iff in B. assert (U' := proj2 U (ex_intro _ kept W)). destruct B as [B|B]; [|lia].
      assert (T0 : total (marked m (shp a)) <> 0) by (rewrite (total_split m (shp a) LM) in B; intros Z0; rewrite Z0 in B; discriminate).
      apply (total_none _ N1) in T0. destruct T0 as [red R]. apply in_places in R.
      assert (J : In (weave m red kept) (map (fun red => weave m red kept) (places (marked m (shp a))))) by (apply in_map_iff; eauto).
      apply (fibre m (shp a) kept LM W) in J. destruct J as [J1 J2]. apply (H _ J1). transitivity (unmarked m (weave m red kept)); [|exact J2]. symmetry. apply along_unmarked. rewrite (within_length _ _ J1). exact M.
  - split; [intros _|reflexivity]. left. intros G. apply mask_good in G. destruct G as [m' G]. congruence.
Qed.
(** the counts *)
Theorem C122_count b shape f ax r : looks_at b shape f -> count_nonzero nonzero b ax = Some r ->
  shp r = along ax shape /\ forall kept, within (shp r) kept -> exists l, NoDup l /\ val r kept = Z.of_nat (List.length l)
    /\ forall i, In i l <-> within shape i /\ along ax i = kept /\ match f i with Some x => nonzero x = true | None => True end.
Proof.
  intros L H.
  assert (X : exists a : nd (num (T := T)), shp a = shape /\ (forall i, val a i = f i) /\ count nonzero a ax = Some r).
  { destruct L as [_ L]. destruct b as [a|q|]; [| |contradiction].
    - destruct L as [-> L]. exists a. auto.
    - destruct L as (S & -> & L). destruct (field_seen q S) as (a & E & SA & V). exists a. split; [exact SA|]. split; [intros i; now rewrite V, L|]. cbn [count_nonzero] in H. now rewrite E in H. }
  destruct X as (a & <- & V & E). unfold count, rank in E. destruct (mask_of _ ax) as [m|] eqn:M; [|discriminate]. cbn [bind] in E. injection E as <-. cbn [shp val].
  assert (LM : List.length m = List.length (shp a)) by (rewrite (mask_reduced _ _ _ M), map_length, seq_length; reflexivity).
  split; [now apply along_unmarked|]. intros kept W. assert (F := fibre m (shp a) kept LM W). assert (N := fibre_NoDup m (shp a) kept LM W).
  exists (filter (fun i => nonzero_num nonzero (val a i)) (map (fun red => weave m red kept) (places (marked m (shp a))))). split; [now apply NoDup_filter|]. split.
  - f_equal. rewrite <- (map_map (fun red => weave m red kept) (val a)). generalize (map (fun red => weave m red kept) (places (marked m (shp a)))). clear. induction l as [|i l IH]; [reflexivity|]. cbn [map filter].
    destruct (nonzero_num nonzero (val a i)); cbn [List.length]; congruence.
  - intros i. rewrite filter_In, F. split.
    + intros [[H1 H2] H3]. split; [exact H1|]. split; [rewrite <- H2; symmetry; apply along_unmarked; rewrite (within_length _ _ H1); exact M|]. rewrite <- V. unfold nonzero_num in H3. destruct (val a i); auto.
    + intros (H1 & H2 & H3). split; [split; [exact H1|rewrite <- H2; apply along_unmarked; rewrite (within_length _ _ H1); exact M]|]. rewrite <- V in H3. unfold nonzero_num. destruct (val a i); auto.
Qed.
End Props.

(** the least number is the greatest in the opposite order *)
Theorem C122_min {T} (le : T -> T -> bool) (total_le : forall x y, le x y = true \/ le y x = true) (trans_le : forall x y z, le x y = true -> le y z = true -> le x z = true) b shape f ax r :
  looks_at b shape f -> min le b ax = Some r ->
  shp r = along ax shape /\ forall kept, within (shp r) kept -> greatest (fun x y => le y x = true) (fun i => within shape i /\ along ax i = kept) f (val r kept).
Proof.
  intros L H. apply (C122_max (fun x y => le y x)) with (b := b); [intros x y; apply total_le|intros x y z H1 H2; eapply trans_le; eauto|exact L|exact H].
Qed.

(** ** planes *)
Lemma along_plane x y l : along (Many [0; 1]) (x :: y :: l) = l.
Proof.
  unfold along, kept_axes. cbn [List.length seq filter]. set (r := S (S (List.length l))).
  assert (R0 : reduced (Many [0; 1]) r 0 = true) by reflexivity. assert (R1 : reduced (Many [0; 1]) r 1 = true) by (cbn [reduced existsb]; apply orb_true_iff; right; reflexivity). rewrite R0, R1. cbn [negb].
  assert (F : filter (fun p => negb (reduced (Many [0; 1]) r p)) (seq 2 (List.length l)) = seq 2 (List.length l)).
  { assert (H : forall p, In p (seq 2 (List.length l)) -> negb (reduced (Many [0; 1]) r p) = true).
    { intros p I. apply in_seq in I. apply negb_true_iff. cbn [reduced existsb]. unfold r. rewrite !orb_false_iff. repeat split; lia. }
    revert H. generalize (seq 2 (List.length l)) as ps. clearbody r. clear. intros ps. induction ps as [|p ps IH]; intros H; cbn [filter]; [reflexivity|]. rewrite H by now left. f_equal. apply IH. intros q I. apply H. now right. }
  rewrite F. clear.
  transitivity (map (fun p => nth (p - 2)%nat l 0) (seq 2 (List.length l))).
  { apply map_ext_in. intros p I. apply in_seq in I. destruct p as [|[|p]]; [lia|lia|]. cbn. now rewrite Nat.sub_0_r. }
  assert (U := @unmarked_nth Z 0 (fun _ => false) l 2). cbn [negb] in U.
  assert (E : unmarked (map (fun _ : nat => false) (seq 2 (List.length l))) l = l) by (clear; generalize 2%nat; induction l as [|x l IH]; intros s; cbn; [reflexivity|now rewrite IH]).
  rewrite E in U. etransitivity; [|symmetry; exact U]. f_equal. clear. induction (seq 2 (List.length l)) as [|p m IH]; cbn [filter]; [reflexivity|now f_equal].
Qed.
Definition column (n1 n2 : Z) (k i : list Z) : Prop := exists x y, 0 <= x < n1 /\ 0 <= y < n2 /\ i = x :: y :: k.
Lemma inside_zero s i : inside (map (fun n => (0, n)) s) i = true <-> within s i.
Proof.
  revert i. induction s as [|n s IH]; intros [|x i]; cbn [map inside]; split; intros H; try discriminate; try inversion H; subst; try constructor; try reflexivity.
  - apply andb_prop in H. lia. - apply IH. apply andb_prop in H. apply H. - apply andb_true_iff. split; [lia|now apply IH].
Qed.
Lemma inside_window o e i : List.length o = List.length e -> inside (combine o e) i = true <-> exists j, within e j /\ i = plus o j.
Proof.
  revert e i. induction o as [|x o IH]; intros [|n e] i L; try discriminate L.
  - destruct i as [|y i]; cbn; split; intros H; try discriminate; [exists []; split; [constructor|reflexivity]|reflexivity|]. destruct H as (j & _ & E). destruct j; discriminate E.
  - cbn in L. assert (L' : List.length o = List.length e) by congruence. destruct i as [|y i]; cbn [combine inside].
    + split; [discriminate|]. intros (j & W & E). inversion W; subst. discriminate E.
    + split.
      * intros H. apply andb_prop in H. destruct H as [H1 H2]. apply (IH e i L') in H2. destruct H2 as (j & W & ->). exists (y - x :: j). split; [constructor; [lia|exact W]|]. cbn. f_equal. lia.
      * intros (j & W & E). inversion W as [|? z ? j' Z0 W']; subst. cbn in E. injection E as -> ->. apply andb_true_iff. split; [lia|]. apply IH; [exact L'|]. exists j'. split; [exact W'|reflexivity].
Qed.
Lemma minus_plus o e j : within e j -> List.length o = List.length e -> map (fun x => snd x - fst (fst x)) (combine (combine o e) (plus o j)) = j.
Proof.
  intros W. revert o. induction W as [|n x e j X W IH]; intros [|y o] L; try discriminate L; [reflexivity|]. cbn. cbn in L. f_equal; [lia|]. apply IH. congruence.
Qed.
Lemma minus_zero s j : within s j -> map (fun x => snd x - fst (fst x)) (combine (map (fun n => (0, n)) s) j) = j.
Proof. intros W. induction W as [|n x e j X W IH]; [reflexivity|]. cbn. f_equal; [lia|exact IH]. Qed.
Lemma plus_app o1 o2 i1 i2 : List.length o1 = List.length i1 -> plus (o1 ++ o2) (i1 ++ i2) = plus o1 i1 ++ plus o2 i2.
Proof. unfold plus. revert i1. induction o1 as [|x o1 IH]; intros [|y i1] L; try discriminate L; [reflexivity|]. cbn. f_equal. apply IH. cbn in L. congruence. Qed.
Lemma plus_length o i : List.length o = List.length i -> List.length (plus o i) = List.length i.
Proof. intros L. unfold plus. rewrite map_length, combine_length. lia. Qed.
Lemma combine_app {A B} (a1 a2 : list A) (b1 b2 : list B) : List.length a1 = List.length b1 -> combine (a1 ++ a2) (b1 ++ b2) = combine a1 b1 ++ combine a2 b2.
Proof. revert b1. induction a1 as [|x a1 IH]; intros [|y b1] L; try discriminate L; [reflexivity|]. cbn. f_equal. apply IH. cbn in L. congruence. Qed.
Lemma within_app s1 s2 i1 i2 : within s1 i1 -> within s2 i2 -> within (s1 ++ s2) (i1 ++ i2).
Proof. apply Forall2_app. Qed.

Section Planes.
Context {T : Type} (le : T -> T -> bool).
Hypothesis total_le : forall x y, le x y = true \/ le y x = true.
Hypothesis trans_le : forall x y z, le x y = true -> le y z = true -> le x z = true.
Lemma plane_ok b n1 n2 rest f : looks_at b (n1 :: n2 :: rest) f -> 0 < n1 -> 0 < n2 ->
  exists r, over (larger le) b (Many [0; 1]) = Some r /\ shp r = rest /\ forall k, within rest k -> greatest (fun x y => le x y = true) (column n1 n2 k) f (val r k).
Proof.
  intros L N1 N2. destruct (over (larger le) b (Many [0; 1])) as [r|] eqn:E.
  - exists r. split; [reflexivity|]. destruct (C122_max le total_le trans_le b _ f _ r L E) as [S G]. rewrite along_plane in S. split; [exact S|]. intros k W. rewrite S in G.
    eapply greatest_ext; [| |apply (G k W)]; [|reflexivity]. intros i. split.
    + intros [H1 H2]. inversion H1 as [|? x ? i1 X H3]; subst. inversion H3 as [|? y ? i2 Y H4]; subst. rewrite along_plane in *. exists x, y. auto.
    + intros (x & y & X & Y & ->). rewrite along_plane. split; [|reflexivity]. constructor; [exact X|]. constructor; [exact Y|exact W].
  - apply (C122_refused _ _ _ _ _ L) in E. exfalso. destruct E as [E|(k & W & E)].
    + apply E. cbn [good_axes List.length]. set (r := Z.of_nat (S (S (List.length rest)))). assert (2 <= r) by lia. split; [repeat constructor; lia|].
      cbn [map]. rewrite !Z.mod_small by lia. repeat constructor; cbn; intuition lia.
    + rewrite along_plane in W. apply (E (0 :: 0 :: k)); [|apply along_plane]. constructor; [lia|]. constructor; [lia|exact W].
Qed.
(** arrays: every plane of the input, over the last axes of the output, repeated over further axes in front.  Missing: the planes are
    horizontal only if the first two axes are (C122_horizontal_refuted), outputs without axes (C122_zero_axes_refuted) and quantities as outputs of arrays (C122_mixed_refuted) *)
Theorem C122_plane_partial a (out : nd (num (T := T))) n1 n2 rest pre : looks_at (Array a) (n1 :: n2 :: rest) (val a) -> 0 < n1 -> 0 < n2 -> shp out = pre ++ rest -> shp out <> [] ->
  exists out', max_on_horizontal_plane le (Array a) (Array out) = Some (Array out') /\ shp out' = shp out
    /\ forall p k, within pre p -> within rest k -> greatest (fun x y => le x y = true) (column n1 n2 k) (val a) (val out' (p ++ k)).
Proof.
  intros L N1 N2 S NE. destruct (plane_ok _ _ _ _ _ L N1 N2) as (r & E & SR & G). cbn [over] in E. unfold max_on_horizontal_plane, on_plane. rewrite E. cbn [bind].
  destruct (write_ok out r [] (map (fun n => (0, n)) pre) (map (fun n => (0, n)) rest) NE) as (o' & EW & SW & V & _).
  - now rewrite take_all, S, map_app.
  - rewrite SR, map_map. cbn [snd]. now rewrite map_id.
  - exists o'. rewrite EW. cbn [bind]. split; [reflexivity|]. split; [exact SW|]. intros p k WP WK. rewrite V.
    + rewrite minus_zero by exact WK. now apply G.
    + rewrite <- map_app. apply inside_zero. now apply within_app.
    + rewrite map_length. now apply within_length.
Qed.
(** quantities: the compute domain of the first into the compute domain of the second; its other points stay *)
Theorem C122_plane_quantity_partial q (out : quantity (T := T)) n1 n2 rest pre : sound q -> q_extent q = n1 :: n2 :: rest -> 0 < n1 -> 0 < n2 -> sound out -> q_extent out = pre ++ rest -> q_extent out <> [] ->
  exists out', max_on_horizontal_plane le (Quantity q) (Quantity out) = Some (Quantity out')
    /\ q_dims out' = q_dims out /\ q_origin out' = q_origin out /\ q_extent out' = q_extent out /\ shp (q_data out') = shp (q_data out)
    /\ (forall p k, within pre p -> within rest k ->
         greatest (fun x y => le x y = true) (column n1 n2 k) (fun i => val (q_data q) (plus (q_origin q) i)) (val (q_data out') (plus (q_origin out) (p ++ k))))
    /\ forall i, (forall j, within (q_extent out) j -> i <> plus (q_origin out) j) -> val (q_data out') i = val (q_data out) i.
Proof.
  intros S Q1 N1 N2 SO QO NE.
  assert (L : looks_at (Quantity q) (n1 :: n2 :: rest) (fun i => val (q_data q) (plus (q_origin q) i))).
  { split; [|split; [exact S|split; [now symmetry|reflexivity]]]. rewrite <- Q1. apply Forall_forall. intros n I. destruct (In_nth _ _ 0 I) as (p & P & <-). destruct S as (_ & L2 & S). apply S. lia. }
  destruct (plane_ok _ _ _ _ _ L N1 N2) as (r & E & SR & G). unfold max_on_horizontal_plane, on_plane. unfold over in E. destruct (field q) as [fq|]; [|discriminate]. cbn [bind] in *. rewrite E. cbn [bind].
  assert (LO := SO). destruct LO as (LO1 & LO2 & _).
  assert (O : exists o1 o2, q_origin out = o1 ++ o2 /\ List.length o1 = List.length pre /\ List.length o2 = List.length rest).
  { exists (firstn (List.length pre) (q_origin out)), (skipn (List.length pre) (q_origin out)). split; [symmetry; apply firstn_skipn|]. rewrite firstn_length, skipn_length, LO1, <- LO2, QO, app_length. lia. }
  destruct O as (o1 & o2 & O & O1 & O2).
  assert (TW := sound_window out SO). rewrite O, QO, combine_app in TW by exact O1.
  destruct (write_ok (q_data out) r (compute_index (o1 ++ o2) (pre ++ rest)) _ _ ltac:(intros X; rewrite X in LO2; destruct (q_extent out); [congruence|discriminate]) TW) as (d' & EW & SW & V & U).
  { rewrite SR. symmetry. now apply snd_combine. }
  unfold write_field. rewrite O, QO, EW. cbn [bind]. eexists. split; [reflexivity|]. cbn [q_dims q_origin q_extent q_data]. repeat (split; [reflexivity|]). split; [exact SW|]. split.
  - intros p k WP WK. rewrite plus_app by (rewrite (within_length _ _ WP); exact O1). rewrite V.
    + rewrite minus_plus by assumption. now apply G.
    + rewrite <- combine_app by exact O1. apply inside_window; [rewrite !app_length; congruence|]. exists (p ++ k). split; [now apply within_app|]. symmetry. apply plus_app. rewrite (within_length _ _ WP). exact O1.
    + rewrite plus_length by (rewrite (within_length _ _ WP); exact O1). rewrite (within_length _ _ WP), combine_length. lia.
  - intros i H. apply U. rewrite <- combine_app by exact O1. apply not_true_is_false. intros I. apply inside_window in I; [|rewrite !app_length; congruence]. destruct I as (j & W & ->). now apply (H j W).
Qed.
End Planes.
Theorem C122_min_plane_partial {T} (le : T -> T -> bool) (total_le : forall x y, le x y = true \/ le y x = true) (trans_le : forall x y z, le x y = true -> le y z = true -> le x z = true)
  q (out : quantity (T := T)) n1 n2 rest pre : sound q -> q_extent q = n1 :: n2 :: rest -> 0 < n1 -> 0 < n2 -> sound out -> q_extent out = pre ++ rest -> q_extent out <> [] ->
  exists out', min_on_horizontal_plane le (Quantity q) (Quantity out) = Some (Quantity out')
    /\ q_dims out' = q_dims out /\ q_origin out' = q_origin out /\ q_extent out' = q_extent out /\ shp (q_data out') = shp (q_data out)
    /\ (forall p k, within pre p -> within rest k ->
         greatest (fun x y => le y x = true) (column n1 n2 k) (fun i => val (q_data q) (plus (q_origin q) i)) (val (q_data out') (plus (q_origin out) (p ++ k))))
    /\ forall i, (forall j, within (q_extent out) j -> i <> plus (q_origin out) j) -> val (q_data out') i = val (q_data out) i.
Proof.
  apply (C122_plane_quantity_partial (fun x y => le y x)); [intros x y; apply total_le|intros x y z H1 H2; eapply trans_le; eauto].
Qed.
Print Assumptions C122_max.
Print Assumptions C122_min.
Print Assumptions C122_refused.
Print Assumptions C122_count.
Print Assumptions C122_plane_partial.
Print Assumptions C122_plane_quantity_partial.
Print Assumptions C122_min_plane_partial.

(** the planes are those of the first two axes, horizontal or not: levels first, the greatest value of the lowest level is missed *)
Theorem C122_horizontal_refuted : exists (q out out' : quantity (T := Z)), sound q /\ sound out /\ q_dims q = ["k"; "j"; "i"]%string /\ q_dims out = ["k"]%string /\ nth 0 (q_extent q) 0 = nth 0 (q_extent out) 0
  /\ max_on_horizontal_plane Z.leb (Quantity q) (Quantity out) = Some (Quantity out')
  /\ (forall j i, val (q_data q) [0; j; i] = Some 0) /\ val (q_data out') [0] = Some 1.
Proof.
  exists (Q ["k"; "j"; "i"]%string [0; 0; 0] [2; 2; 2] (mkNd [2; 2; 2] (fun i => Some (hd 0 i)))), (Q ["k"]%string [0] [2] (mkNd [2] (fun _ => Some 7))). eexists.
  split; [split; [reflexivity|split; [reflexivity|intros [|[|[|p]]] P; cbn in *; lia]]|]. split; [split; [reflexivity|split; [reflexivity|intros [|p] P; cbn in *; lia]]|].
  split; [reflexivity|]. split; [reflexivity|]. split; [reflexivity|]. split; [vm_compute; reflexivity|]. split; [reflexivity|vm_compute; reflexivity].
Qed.
Print Assumptions C122_horizontal_refuted.
(** the maximum of a field of two axes cannot be put in a quantity without axes *)
Theorem C122_zero_axes_refuted : exists (q out : quantity (T := Z)), sound q /\ sound out /\ q_extent q = [2; 3] /\ q_extent out = [] /\ max_on_horizontal_plane Z.leb (Quantity q) (Quantity out) = None
  /\ exists r, max Z.leb (Quantity q) All = Some r.
Proof.
  exists (Q ["i"; "j"]%string [1; 1] [2; 3] (mkNd [4; 5] (fun i => Some (hd 0 i)))), (Q [] [] [] (mkNd [] (fun _ => Some 7))).
  split; [split; [reflexivity|split; [reflexivity|intros [|[|p]] P; cbn in *; lia]]|]. split; [split; [reflexivity|split; [reflexivity|intros p P; cbn in *; lia]]|].
  split; [reflexivity|]. split; [reflexivity|]. split; [vm_compute; reflexivity|]. eexists. vm_compute. reflexivity.
Qed.
Print Assumptions C122_zero_axes_refuted.
(** an array reduced into a quantity goes over its halo points as well *)
Theorem C122_mixed_refuted : exists (a : nd (num (T := Z))) (out out' : quantity (T := Z)) i, sound out /\ (forall j, within (q_extent out) j -> i <> plus (q_origin out) j)
  /\ max_on_horizontal_plane Z.leb (Array a) (Quantity out) = Some (Quantity out') /\ val (q_data out') i <> val (q_data out) i.
Proof.
  exists (mkNd [2; 2; 5] (fun i => Some (nth 2 i 0))), (Q ["k"]%string [1] [3] (mkNd [5] (fun _ => Some 7))). eexists. exists [0].
  split; [split; [reflexivity|split; [reflexivity|intros [|p] P; cbn in *; lia]]|]. split.
  - intros j W. cbn in W. inversion W as [|? x ? l X L]; subst. unfold plus. cbn [q_origin combine map fst snd]. intros H. assert (H' := f_equal (hd 0) H). cbn [hd] in H'. lia.
  - split; [vm_compute; reflexivity|]. vm_compute. discriminate.
Qed.
Print Assumptions C122_mixed_refuted.

(** a case: a quantity with halo points, where no numbers are, and its levels *)
Definition case_q : quantity (T := Z) := Q ["i"; "j"; "k"]%string [1; 1; 0] [2; 2; 3] (mkNd [4; 4; 4]
  (fun i => match i with [x; y; z] => if (1 <=? x) && (x <? 3) && (1 <=? y) && (y <? 3) && (z <? 3) then Some (x * y - z * z) else None | _ => None end)).
Definition case_out : quantity (T := Z) := Q ["k"]%string [0] [3] (mkNd [4] (fun _ => Some 99)).
Example C122_case_sound : sound case_q /\ sound case_out /\ looks_at (Quantity case_q) [2; 2; 3] (fun i => val (q_data case_q) (plus [1; 1; 0] i)).
Proof.
  assert (A : sound case_q) by (split; [reflexivity|split; [reflexivity|intros [|[|[|p]]] P; cbn in *; lia]]).
  split; [exact A|]. split; [split; [reflexivity|split; [reflexivity|intros [|p] P; cbn in *; lia]]|]. split; [repeat constructor; lia|]. split; [exact A|]. split; reflexivity.
Qed.
Example C122_case :
  (match max Z.leb (Quantity case_q) (One (-1)) with Some r => shp r = [2; 2] /\ map (val r) [[0; 0]; [0; 1]; [1; 0]; [1; 1]] = [Some 1; Some 2; Some 2; Some 4] | None => False end)
  /\ (match min Z.leb (Quantity case_q) All with Some r => shp r = [] /\ val r [] = Some (-3) | None => False end)
  /\ (match max Z.leb (Array (q_data case_q)) All with Some r => val r [] = None | None => False end)
  /\ (match count_nonzero (fun x => negb (x =? 0)) (Quantity case_q) (Many [0; 1]) with Some r => shp r = [3] /\ map (val r) [[0]; [1]; [2]] = [4; 3; 3] | None => False end)
  /\ (match max_on_horizontal_plane Z.leb (Quantity case_q) (Quantity case_out) with Some (Quantity o) => map (val (q_data o)) [[0]; [1]; [2]; [3]] = [Some 4; Some 3; Some 0; Some 99] | _ => False end)
  /\ max Z.leb (Quantity case_q) (Many [0; -3]) = None /\ max Z.leb (Quantity case_q) (One 3) = None.
Proof. vm_compute. repeat split. Qed.
