(** Lemmas about MirrorModel *)
From Coq Require Import ZArith Bool List Lia.
From Verif Require Import Base MirrorModel.
Import ListNotations.
Open Scope Z_scope.

Lemma fold_prod {S} (f : S -> Z -> Z -> S) li : forall lj st,
  fold_left (fun st j => fold_left (fun st i => f st j i) li st) lj st = fold_left (fun st p => f st (fst p) (snd p)) (list_prod lj li) st.
Proof.
  induction lj as [|j lj IH]; intro st; [reflexivity|]. cbn [fold_left list_prod]. rewrite fold_left_app, IH. f_equal.
  clear IH. revert st. induction li as [|i li IHi]; intro s; [reflexivity|]. cbn. apply IHi.
Qed.
Lemma prod_NoDup {A B} (la : list A) (lb : list B) : NoDup la -> NoDup lb -> NoDup (list_prod la lb).
Proof.
  intros NA NB. induction NA as [|a la A0 NA IH]; [constructor|]. cbn.
  assert (M : NoDup (map (fun y => (a, y)) lb)).
  { clear -NB. induction NB as [|b lb B0 NB IH]; [constructor|]. cbn. constructor; [|exact IH]. intro I. apply in_map_iff in I. destruct I as (y & [= ->] & Y). auto. }
  revert M. generalize (list_prod la lb) IH (fun x (I : In x (list_prod la lb)) => proj1 (in_prod_iff la lb (fst x) (snd x)) ltac:(now rewrite <- surjective_pairing)).
  intros R NR HR M. assert (D : forall x, In x (map (fun y => (a, y)) lb) -> ~ In x R).
  { intros x X Y. apply in_map_iff in X. destruct X as (y & <- & _). destruct (HR _ Y) as [Z _]. auto. }
  clear -M NR D. induction (map (fun y => (a, y)) lb) as [|x l IH]; [exact NR|]. inversion M as [|? ? X Y]; subst. cbn. constructor.
  - intro I. apply in_app_iff in I. destruct I as [I|I]; [auto|]. apply (D x); [now left|exact I].
  - apply IH; [exact Y|]. intros y Z. apply D. now right.
Qed.

(** steps that each read and write their own element *)
Lemma own_steps {V W} (f : (Z -> Z -> V) * (Z -> Z -> W) -> Z -> Z -> (Z -> Z -> V) * (Z -> Z -> W)) (val : Z -> Z -> V -> W -> V) (jd : Z) :
  (forall st j i, fst (f st j i) i j = val i j (fst st i j) (snd st i (jd - j))) ->
  (forall st j i i' j', (i', j') <> (i, j) -> fst (f st j i) i' j' = fst st i' j') ->
  (forall st j i i' j', (i', j') <> (i, j) -> snd (f st j i) i' (jd - j') = snd st i' (jd - j')) ->
  forall L, NoDup L -> forall st i j,
    (In (j, i) L -> fst (fold_left (fun st p => f st (fst p) (snd p)) L st) i j = val i j (fst st i j) (snd st i (jd - j))) /\
    (~ In (j, i) L -> fst (fold_left (fun st p => f st (fst p) (snd p)) L st) i j = fst st i j).
Proof.
  intros P1 P2 P3 L ND. induction ND as [|[j0 i0] L N0 ND IH]; intros st i j; [split; [intros []|reflexivity]|].
  cbn [fold_left fst snd]. destruct (IH (f st j0 i0) i j) as [A B]. split.
  - intros [[= <- <-] | I].
    + rewrite B by exact N0. apply P1.
    + rewrite A by exact I. assert (D : (i, j) <> (i0, j0)) by (intros [= -> ->]; auto). now rewrite P2, P3.
  - intro N. rewrite B by (intro; apply N; now right). apply P2. intros [= -> ->]. apply N. now left.
Qed.
(** steps that each rewrite a row from itself *)
Lemma row_steps {V} (f : (Z -> Z -> V) -> Z -> Z -> Z -> V) (val : (Z -> V) -> Z -> Z -> V) :
  (forall g j i, f g j i j = val (fun k => g k j) j i) -> (forall g j i j', j' <> j -> f g j i j' = g i j') ->
  (forall h h' j i, (forall k, h k = h' k) -> val h j i = val h' j i) ->
  forall L, NoDup L -> forall g i j,
    (In j L -> fold_left f L g i j = val (fun k => g k j) j i) /\ (~ In j L -> fold_left f L g i j = g i j).
Proof.
  intros P1 P2 P3 L ND. induction ND as [|j0 L N0 ND IH]; intros g i j; [split; [intros []|reflexivity]|].
  cbn [fold_left]. destruct (IH (f g j0) i j) as [A B]. split.
  - intros [<- | I].
    + rewrite B by exact N0. apply P1.
    + rewrite A by exact I. apply P3. intro k. apply P2. intros ->. auto.
  - intro N. rewrite B by (intro; apply N; now right). apply P2. intros ->. apply N. now left.
Qed.

Section Mirror.
  Context {F : Type}.
  Variables (fabs : F -> F) (fadd : F -> F -> F) (quarter : F -> F) (copysign : F -> F -> F).
  Variables (zero pi half_pi minus_half_pi : F).
  Variable rot : Z -> F * F -> F * F.
  Notation av2 := (average2 fabs fadd quarter).
  Notation cs2 := (copysign2 copysign).
  Notation arr := (@arr F).

  Lemma put_same (a : arr) i j v : put a i j v i j = v.
  Proof. unfold put. now rewrite !Z.eqb_refl. Qed.
  Lemma put_other (a : arr) i j v i' j' : (i', j') <> (i, j) -> put a i j v i' j' = a i' j'.
  Proof.
    intro N. unfold put. destruct (Z.eqb_spec i' i) as [-> | ]; [|reflexivity]. destruct (Z.eqb_spec j' j) as [-> | ]; [|reflexivity]. now destruct N.
  Qed.

  Definition base_val (npx xw yw gis ng : Z) (ew diag : arr) (i j : Z) (l n : F * F) : F * F :=
    let x := av2 l (ew (2 * ng + xw - 1 - i) j) n (diag (2 * ng + xw - 1 - i) (2 * ng + yw - 1 - j)) in
    let v := cs2 x l in
    if negb (npx mod 2 =? 0) && (x_center npx xw gis ng && (i =? ng + i_mid npx gis ng)) then (zero, snd v) else v.

  Lemma base_region_spec npx xw yw gis ng len_j ew diag local ns i j : len_j = 2 * ng + yw ->
    ng <= i <= ng + xw -> ng <= j <= ng + yw ->
    fst (base_region fabs fadd quarter copysign zero npx xw yw gis ng len_j ew diag (local, ns)) i j =
    base_val npx xw yw gis ng ew diag i j (local i j) (ns i (2 * ng + yw - 1 - j)).
  Proof.
    intros LJ Hi Hj. unfold base_region. rewrite fold_prod.
    assert (ND : NoDup (list_prod (zrange (jstart ng) (jend yw ng + 1)) (zrange (istart ng) (iend xw ng + 1)))).
    { apply prod_NoDup; apply zrange_NoDup. }
    assert (IN : In (j, i) (list_prod (zrange (jstart ng) (jend yw ng + 1)) (zrange (istart ng) (iend xw ng + 1)))).
    { apply in_prod_iff. rewrite !in_zrange. unfold jstart, jend, istart, iend. lia. }
    destruct (own_steps (base_point fabs fadd quarter copysign zero npx xw yw gis ng len_j ew diag)
                (base_val npx xw yw gis ng ew diag) (2 * ng + yw - 1)) with
      (L := list_prod (zrange (jstart ng) (jend yw ng + 1)) (zrange (istart ng) (iend xw ng + 1))) (st := (local, ns)) (i := i) (j := j) as [A _].
    - intros [l n] j0 i0. unfold base_point, base_val. cbn [fst snd]. unfold iend, jend.
      replace (ng + xw - 1 + ng - i0) with (2 * ng + xw - 1 - i0) by ring. replace (ng + yw - 1 + ng - j0) with (2 * ng + yw - 1 - j0) by ring.
      destruct (negb (npx mod 2 =? 0)); cbn [andb]; [|cbn [fst]; apply put_same].
      destruct (x_center npx xw gis ng && (i0 =? ng + i_mid npx gis ng)); cbn [fst]; rewrite ?put_same; reflexivity.
    - intros [l n] j0 i0 i' j' N. unfold base_point. cbn [fst snd].
      destruct (negb (npx mod 2 =? 0)); [|cbn [fst]; now apply put_other].
      destruct (x_center npx xw gis ng && (i0 =? ng + i_mid npx gis ng)); cbn [fst]; now rewrite ?put_other by exact N.
    - intros [l n] j0 i0 i' j' N. unfold base_point. cbn [fst snd].
      destruct (negb (npx mod 2 =? 0)); [|reflexivity].
      destruct (x_center npx xw gis ng && (i0 =? ng + i_mid npx gis ng)); [|reflexivity]. cbn [snd].
      apply put_other. intro E. pose proof (f_equal fst E) as E1. pose proof (f_equal snd E) as E2. cbn [fst snd] in E1, E2.
      apply N. assert (j' = j0) by (subst len_j; clear -E2; lia). congruence.
    - exact ND.
    - exact (A IN).
  Qed.

  (** the row of a tile *)
  Lemma tile_rows_spec t npx npy xw yw gis gjs ng local i j : ng <= i <= ng + xw -> ng <= j <= ng + yw ->
    fold_left (tile_row zero pi half_pi minus_half_pi rot t npx npy xw yw gis gjs ng) (zrange (jstart ng) (jend yw ng + 1)) local i j =
    (fst (force zero pi half_pi minus_half_pi t npx npy xw yw gis gjs ng j (fun k => fst (rot t (local (ng + k) j))) (fun k => snd (rot t (local (ng + k) j)))) (i - ng),
     snd (force zero pi half_pi minus_half_pi t npx npy xw yw gis gjs ng j (fun k => fst (rot t (local (ng + k) j))) (fun k => snd (rot t (local (ng + k) j)))) (i - ng)).
  Proof.
    intros Hi Hj.
    destruct (row_steps (tile_row zero pi half_pi minus_half_pi rot t npx npy xw yw gis gjs ng)
      (fun h j i => if (ng <=? i) && (i <? ng + xw + 1) then
         (fst (force zero pi half_pi minus_half_pi t npx npy xw yw gis gjs ng j (fun k => fst (rot t (h (ng + k)))) (fun k => snd (rot t (h (ng + k))))) (i - ng),
          snd (force zero pi half_pi minus_half_pi t npx npy xw yw gis gjs ng j (fun k => fst (rot t (h (ng + k)))) (fun k => snd (rot t (h (ng + k))))) (i - ng))
         else h i)) with (L := zrange (jstart ng) (jend yw ng + 1)) (g := local) (i := i) (j := j) as [A _].
    - intros g j0 i0. unfold tile_row, istart, iend.
      destruct (force zero pi half_pi minus_half_pi t npx npy xw yw gis gjs ng j0 _ _) as [x3 y3]. rewrite Z.eqb_refl. reflexivity.
    - intros g j0 i0 j' N. unfold tile_row.
      destruct (force zero pi half_pi minus_half_pi t npx npy xw yw gis gjs ng j0 _ _) as [x3 y3].
      destruct (Z.eqb_spec j' j0); [now destruct N|reflexivity].
    - intros h h' j0 i0 E. rewrite E. destruct ((ng <=? i0) && (i0 <? ng + xw + 1)); [|reflexivity].
      assert (P : forall f f' g g' : Z -> F, (forall k, f k = f' k) -> (forall k, g k = g' k) -> forall k,
        fst (force zero pi half_pi minus_half_pi t npx npy xw yw gis gjs ng j0 f g) k = fst (force zero pi half_pi minus_half_pi t npx npy xw yw gis gjs ng j0 f' g') k /\
        snd (force zero pi half_pi minus_half_pi t npx npy xw yw gis gjs ng j0 f g) k = snd (force zero pi half_pi minus_half_pi t npx npy xw yw gis gjs ng j0 f' g') k).
      { clear. intros f f' g g' A B k. unfold force.
        repeat match goal with |- context [if ?b then _ else _] => destruct b; cbn [fst snd]; auto end. }
      destruct (P (fun k => fst (rot t (h (ng + k)))) (fun k => fst (rot t (h' (ng + k)))) (fun k => snd (rot t (h (ng + k)))) (fun k => snd (rot t (h' (ng + k))))
        ltac:(intro; cbv beta; now rewrite E) ltac:(intro; cbv beta; now rewrite E) (i0 - ng)) as [-> ->]. reflexivity.
    - apply zrange_NoDup.
    - etransitivity; [apply A; apply in_zrange; unfold jstart, jend; lia|]. cbv beta.
      destruct (Z.leb_spec ng i); [|lia]. destruct (Z.ltb_spec i (ng + xw + 1)); [|lia]. reflexivity.
  Qed.

  (** ** the whole tiles *)
  Hypothesis copysign_twice : forall x y, copysign x (copysign x y) = copysign x y.
  Lemma cs2_twice x y : cs2 x (cs2 x y) = cs2 x y.
  Proof. unfold copysign2. cbn [fst snd]. now rewrite !copysign_twice. Qed.

  Definition rep (n I : Z) : Z := Z.min I (n - I).
  Definition global_val (n ng : Z) (g : arr) (I J : Z) : F * F :=
    let i := rep n I in let j := rep n J in
    let x := av2 (g (ng + i) (ng + j)) (g (ng + (n - i)) (ng + j)) (g (ng + i) (ng + (n - j))) (g (ng + (n - i)) (ng + (n - j))) in
    let v := cs2 x (g (ng + I) (ng + J)) in
    if (n mod 2 =? 0) && (I =? n / 2) then (zero, snd v) else v.

  Lemma odd_even n : negb ((n + 1) mod 2 =? 0) = (n mod 2 =? 0).
  Proof.
    pose proof (Z.mod_pos_bound n 2 ltac:(lia)). pose proof (Z.mod_pos_bound (n + 1) 2 ltac:(lia)).
    pose proof (Z.div_mod n 2 ltac:(lia)). pose proof (Z.div_mod (n + 1) 2 ltac:(lia)).
    destruct (Z.eqb_spec (n mod 2) 0), (Z.eqb_spec ((n + 1) mod 2) 0); cbn; lia.
  Qed.

  Lemma global_point_spec n ng g i j I J : 0 <= n -> 0 <= I <= n -> 0 <= J <= n -> 0 <= i < (n + 2) / 2 -> 0 <= j < (n + 2) / 2 ->
    global_base_point fabs fadd quarter copysign zero (n + 1) (n + 1) ng g j i (ng + I) (ng + J) =
    if (rep n I =? i) && (rep n J =? j) then global_val n ng g I J else g (ng + I) (ng + J).
  Proof.
    intros Hn HI HJ Hi Hj. unfold global_base_point. cbn [fst snd].
    replace (ng + (n + 1) - (i + 1)) with (ng + (n - i)) by ring. replace (ng + (n + 1) - (j + 1)) with (ng + (n - j)) by ring.
    replace (n + 1 - 1) with n by ring. rewrite odd_even.
    assert (H2 : 2 * i <= n) by (pose proof (Z.div_mod (n + 2) 2 ltac:(lia)); pose proof (Z.mod_pos_bound (n + 2) 2 ltac:(lia)); lia).
    assert (H3 : 2 * j <= n) by (pose proof (Z.div_mod (n + 2) 2 ltac:(lia)); pose proof (Z.mod_pos_bound (n + 2) 2 ltac:(lia)); lia).
    assert (RI : rep n I = i <-> I = i \/ I = n - i) by (unfold rep; lia).
    assert (RJ : rep n J = j <-> J = j \/ J = n - j) by (unfold rep; lia).
    set (x := av2 (g (ng + i) (ng + j)) (g (ng + (n - i)) (ng + j)) (g (ng + i) (ng + (n - j))) (g (ng + (n - i)) (ng + (n - j)))).
    set (sg := fun (h : arr) a b => put h a b (cs2 x (h a b))).
    assert (SG : forall (h : arr) a b a' b', h a' b' = g a' b' \/ h a' b' = cs2 x (g a' b') ->
       (a = a' /\ b = b' -> sg h a b a' b' = cs2 x (g a' b')) /\ (sg h a b a' b' = h a' b' \/ (a = a' /\ b = b' /\ sg h a b a' b' = cs2 x (g a' b')))).
    { intros h a b a' b' H. unfold sg. destruct (Z.eq_dec a a') as [-> | NA].
      - destruct (Z.eq_dec b b') as [-> | NB].
        + rewrite put_same. assert (E : cs2 x (h a' b') = cs2 x (g a' b')) by (destruct H as [-> | ->]; [reflexivity|apply cs2_twice]). auto.
        + rewrite put_other by (intros [=]; congruence). split; [intros [_ ?]; congruence|now left].
      - rewrite put_other by (intros [=]; congruence). split; [intros [? _]; congruence|now left]. }
    change (put g (ng + i) (ng + j) (cs2 x (g (ng + i) (ng + j)))) with (sg g (ng + i) (ng + j)).
    change (put (sg g (ng + i) (ng + j)) (ng + (n - i)) (ng + j) (cs2 x (sg g (ng + i) (ng + j) (ng + (n - i)) (ng + j)))) with (sg (sg g (ng + i) (ng + j)) (ng + (n - i)) (ng + j)).
    set (g2 := sg (sg g (ng + i) (ng + j)) (ng + (n - i)) (ng + j)).
    change (put g2 (ng + i) (ng + (n - j)) (cs2 x (g2 (ng + i) (ng + (n - j))))) with (sg g2 (ng + i) (ng + (n - j))).
    set (g3 := sg g2 (ng + i) (ng + (n - j))).
    change (put g3 (ng + (n - i)) (ng + (n - j)) (cs2 x (g3 (ng + (n - i)) (ng + (n - j))))) with (sg g3 (ng + (n - i)) (ng + (n - j))).
    set (g4 := sg g3 (ng + (n - i)) (ng + (n - j))).
    assert (G4 : forall I J, (((I = i \/ I = n - i) /\ (J = j \/ J = n - j)) -> g4 (ng + I) (ng + J) = cs2 x (g (ng + I) (ng + J))) /\
                 (~ ((I = i \/ I = n - i) /\ (J = j \/ J = n - j)) -> g4 (ng + I) (ng + J) = g (ng + I) (ng + J))).
    { clear I J HI HJ RI RJ. intros I J.
      assert (S1 : forall (h : arr) a b, h (ng + I) (ng + J) = g (ng + I) (ng + J) -> ~ (ng + I = a /\ ng + J = b) -> sg h a b (ng + I) (ng + J) = g (ng + I) (ng + J)).
      { intros h a b H N. unfold sg. rewrite put_other; [exact H|]. intros [= X Y]. now apply N. }
      split.
      - intros [A B].
        assert (Q : forall (h : arr) a b, (h (ng + I) (ng + J) = g (ng + I) (ng + J) \/ h (ng + I) (ng + J) = cs2 x (g (ng + I) (ng + J))) ->
           (sg h a b (ng + I) (ng + J) = g (ng + I) (ng + J) \/ sg h a b (ng + I) (ng + J) = cs2 x (g (ng + I) (ng + J))) /\
           (h (ng + I) (ng + J) = cs2 x (g (ng + I) (ng + J)) \/ (a = ng + I /\ b = ng + J) -> sg h a b (ng + I) (ng + J) = cs2 x (g (ng + I) (ng + J)))).
        { intros h a b H. destruct (SG h a b (ng + I) (ng + J) H) as [S2 S3]. split.
          - destruct S3 as [S3 | (_ & _ & S3)]; [rewrite S3; exact H|now right].
          - intros [E | E]; [|now apply S2]. destruct S3 as [S3 | (_ & _ & S3)]; [now rewrite S3|exact S3]. }
        destruct (Q g (ng + i) (ng + j) (or_introl eq_refl)) as [Q1 R1].
        destruct (Q _ (ng + (n - i)) (ng + j) Q1) as [Q2 R2]. fold g2 in Q2, R2.
        destruct (Q _ (ng + i) (ng + (n - j)) Q2) as [Q3 R3]. fold g3 in Q3, R3.
        destruct (Q _ (ng + (n - i)) (ng + (n - j)) Q3) as [Q4 R4]. fold g4 in Q4, R4.
        destruct A as [-> | ->], B as [-> | ->].
        + apply R4. left. apply R3. left. apply R2. left. apply R1. now right.
        + apply R4. left. apply R3. now right.
        + apply R4. left. apply R3. left. apply R2. now right.
        + apply R4. now right.
      - intro N. unfold g4. apply S1; [|lia]. unfold g3. apply S1; [|lia]. unfold g2. apply S1; [|lia]. apply S1; [reflexivity|lia]. }
    clearbody g4. clear g3 g2 SG sg.
    assert (EX : rep n I = i -> rep n J = j -> global_val n ng g I J =
      if (n mod 2 =? 0) && (I =? n / 2) then (zero, snd (cs2 x (g (ng + I) (ng + J)))) else cs2 x (g (ng + I) (ng + J))).
    { intros E1 E2. unfold global_val. rewrite E1, E2. reflexivity. }
    destruct (G4 I J) as [GA GB].
    destruct (Z.eqb_spec (rep n I) i) as [E1|E1]; cbn [andb].
    - destruct (Z.eqb_spec (rep n J) j) as [E2|E2].
      + rewrite EX by assumption. apply RI in E1. apply RJ in E2. specialize (GA (conj E1 E2)). clear GB EX RI RJ.
        destruct (Z.eqb_spec (n mod 2) 0) as [V|V]; cbn [andb]; [|exact GA].
        assert (HM : n = 2 * (n / 2)) by (pose proof (Z.div_mod n 2 ltac:(lia)); lia).
        destruct (Z.eqb_spec i (n / 2)) as [W|W].
        * assert (EI : I = i) by lia. destruct (Z.eqb_spec I (n / 2)) as [_ | W']; [|lia]. subst I.
          destruct (Z.eq_dec J (n - j)) as [-> | NJ].
          -- rewrite put_same. f_equal. unfold put. rewrite Z.eqb_refl. cbn [andb].
             destruct (Z.eqb_spec (ng + (n - j)) (ng + j)) as [Q | _]; cbn [snd]; [|now rewrite GA].
             assert (j = n - j) by lia. rewrite <- H in GA. rewrite GA. now rewrite <- H.
          -- rewrite put_other by (intros [= X]; lia). assert (J = j) by lia. subst J. rewrite put_same. now rewrite GA.
        * destruct (Z.eqb_spec I (n / 2)) as [W' | _]; [lia|exact GA].
      + assert (~ ((I = i \/ I = n - i) /\ (J = j \/ J = n - j))) by tauto. specialize (GB H).
        destruct (Z.eqb_spec (n mod 2) 0) as [V|V]; [|exact GB]. destruct (Z.eqb_spec i (n / 2)) as [W|W]; [|exact GB].
        rewrite !put_other; [exact GB| |]; intros [= X Y]; apply H; split; lia.
    - assert (~ ((I = i \/ I = n - i) /\ (J = j \/ J = n - j))) by tauto. specialize (GB H).
      destruct (Z.eqb_spec (n mod 2) 0) as [V|V]; [|exact GB]. destruct (Z.eqb_spec i (n / 2)) as [W|W]; [|exact GB].
      rewrite !put_other; [exact GB| |]; intros [= X Y]; apply H; split; lia.
  Qed.

  Lemma rep_range n I : 0 <= I <= n -> 0 <= rep n I < (n + 2) / 2.
  Proof. intro H. unfold rep. pose proof (Z.div_mod (n + 2) 2 ltac:(lia)). pose proof (Z.mod_pos_bound (n + 2) 2 ltac:(lia)). lia. Qed.
  Lemma rep_rep n I : 0 <= I <= n -> rep n (rep n I) = rep n I /\ rep n (n - rep n I) = rep n I.
  Proof. intro H. unfold rep. lia. Qed.

  Lemma global_steps n ng : 0 <= n -> forall L, NoDup L -> (forall p, In p L -> 0 <= fst p < (n + 2) / 2 /\ 0 <= snd p < (n + 2) / 2) ->
    forall g I J, 0 <= I <= n -> 0 <= J <= n ->
    fold_left (fun g p => global_base_point fabs fadd quarter copysign zero (n + 1) (n + 1) ng g (fst p) (snd p)) L g (ng + I) (ng + J) =
    if in_dec (fun x y : Z * Z => ltac:(decide equality; apply Z.eq_dec)) (rep n J, rep n I) L then global_val n ng g I J else g (ng + I) (ng + J).
  Proof.
    intros Hn L ND. induction ND as [|[j0 i0] L N0 ND IH]; intros R g I J HI HJ; [reflexivity|].
    cbn [fold_left fst snd]. rewrite IH by (auto; intros p P; apply R; now right). destruct (R (j0, i0) (or_introl eq_refl)) as [R1 R2]. cbn [fst snd] in R1, R2.
    assert (ST := fun I J HI HJ => global_point_spec n ng g i0 j0 I J Hn HI HJ R2 R1).
    pose proof (rep_range n I HI). pose proof (rep_range n J HJ). destruct (rep_rep n I HI) as [A1 A2]. destruct (rep_rep n J HJ) as [B1 B2].
    assert (HR : forall K, 0 <= K < (n + 2) / 2 -> 0 <= K <= n /\ 0 <= n - K <= n).
    { intros K HK. pose proof (Z.div_mod (n + 2) 2 ltac:(lia)). pose proof (Z.mod_pos_bound (n + 2) 2 ltac:(lia)). lia. }
    destruct (HR _ H) as [H1 H2]. destruct (HR _ H0) as [H3 H4].
    destruct (in_dec _ (rep n J, rep n I) L) as [IN | NI]; destruct (in_dec _ (rep n J, rep n I) ((j0, i0) :: L)) as [IN' | NI'].
    - assert (NE : (rep n I =? i0) && (rep n J =? j0) = false).
      { destruct (Z.eqb_spec (rep n I) i0) as [E|]; [|reflexivity]. destruct (Z.eqb_spec (rep n J) j0) as [E'|]; [|reflexivity]. subst. contradiction. }
      unfold global_val. rewrite !ST by assumption. rewrite A1, A2, B1, B2, NE. reflexivity.
    - exfalso. apply NI'. now right.
    - destruct IN' as [[= E1 E2] | IN']; [|contradiction]. rewrite ST by assumption. subst. rewrite !Z.eqb_refl. reflexivity.
    - rewrite ST by assumption. destruct (Z.eqb_spec (rep n I) i0) as [E|]; [|reflexivity]. destruct (Z.eqb_spec (rep n J) j0) as [E'|]; [|reflexivity].
      subst. exfalso. apply NI'. now left.
  Qed.
  Lemma global_base_spec n ng g I J : 0 <= I <= n -> 0 <= J <= n ->
    global_base fabs fadd quarter copysign zero (n + 1) (n + 1) ng g (ng + I) (ng + J) = global_val n ng g I J.
  Proof.
    intros HI HJ. unfold global_base. rewrite fold_prod. replace (n + 1 + 1) with (n + 2) by ring.
    rewrite global_steps; [|lia|apply prod_NoDup; apply zrange_NoDup| |assumption|assumption].
    - destruct (in_dec _ _ _) as [_ | N]; [reflexivity|]. exfalso. apply N. apply in_prod_iff. rewrite !in_zrange.
      pose proof (rep_range n I HI). pose proof (rep_range n J HJ). lia.
    - intros [j i] P. apply in_prod_iff in P. rewrite !in_zrange in P. cbn [fst snd]. lia.
  Qed.

  Lemma global_rows_spec n ng t base g I J : 0 <= I <= n -> 0 <= J <= n ->
    fold_left (global_row zero pi half_pi minus_half_pi rot (n + 1) (n + 1) ng t base) (zrange 0 (n + 1)) g (ng + I) (ng + J) =
    (fst (global_force zero pi half_pi minus_half_pi (n + 1) (n + 1) t J (fun k => fst (rot t (base (ng + k) (ng + J)))) (fun k => snd (rot t (base (ng + k) (ng + J))))) I,
     snd (global_force zero pi half_pi minus_half_pi (n + 1) (n + 1) t J (fun k => fst (rot t (base (ng + k) (ng + J)))) (fun k => snd (rot t (base (ng + k) (ng + J))))) I).
  Proof.
    intros HI HJ. assert (IN : In J (zrange 0 (n + 1))) by (apply in_zrange; lia). pose proof (zrange_NoDup 0 (n + 1)) as ND.
    revert g IN ND. generalize (zrange 0 (n + 1)). intros L g IN ND. revert g IN. induction ND as [|j0 L N0 ND IH]; intros g IN; [destruct IN|].
    cbn [fold_left]. destruct (in_dec Z.eq_dec J L) as [I1 | N1]; [now apply IH|]. destruct IN as [-> | IN]; [|contradiction].
    assert (K : forall L g, ~ In J L -> fold_left (global_row zero pi half_pi minus_half_pi rot (n + 1) (n + 1) ng t base) L g (ng + I) (ng + J) = g (ng + I) (ng + J)).
    { clear. induction L as [|j L IH]; intros g N; [reflexivity|]. cbn [fold_left]. rewrite IH by (intro; apply N; now right).
      unfold global_row. destruct (global_force _ _ _ _ _ _ _ j _ _) as [x3 y3].
      destruct (Z.eqb_spec (ng + J) (ng + j)); [|reflexivity]. exfalso. apply N. left. lia. }
    rewrite K by exact N1. unfold global_row. destruct (global_force _ _ _ _ _ _ _ J _ _) as [x3 y3]. rewrite Z.eqb_refl. cbn [andb fst snd].
    destruct (Z.leb_spec ng (ng + I)); [|lia]. destruct (Z.ltb_spec (ng + I) (ng + (n + 1))); [|lia]. cbn [andb].
    now replace (ng + I - ng) with I by ring.
  Qed.
End Mirror.
