(** Properties C77 and C78: averaging the mirrored grids and forcing the values on the meridians and at the poles *)
From Coq Require Import ZArith Bool List Lia SpecFloat.
From Verif Require Import Base MirrorModel MirrorProofs.
Import ListNotations.
Open Scope Z_scope.

(** ** Specification *)
(** The corners 0..w by 0..w of a rank's section of a tile of n by n cells begin at (gi, gj); arrays have a halo of [ng] points. *)
Definition section_of (n w gi gj : Z) : Prop := 1 <= w /\ 0 <= gi /\ gi + w <= n /\ 0 <= gj /\ gj + w <= n.
(** The four arrays of a rank hold the values [g] of the base tile on its section and on the sections mirrored east-west, north-south and both. *)
Definition mirrored_parts {T} (n w gi gj ng : Z) (g : Z -> Z -> T) (local ew ns diag : Z -> Z -> T) : Prop :=
  forall a b, 0 <= a <= w -> 0 <= b <= w ->
    local (ng + a) (ng + b) = g (gi + a) (gj + b) /\ ew (ng + a) (ng + b) = g (n - gi - w + a) (gj + b) /\
    ns (ng + a) (ng + b) = g (gi + a) (n - gj - w + b) /\ diag (ng + a) (ng + b) = g (n - gi - w + a) (n - gj - w + b).
Definition middle (n I : Z) : bool := 2 * I =? n.

Section Any.
  (** any arithmetic *)
  Context {F : Type}.
  Variables (fabs : F -> F) (fadd : F -> F -> F) (quarter : F -> F) (copysign : F -> F -> F).
  Variables (zero pi half_pi minus_half_pi : F).
  Variable rot : Z -> F * F -> F * F.
  Notation mean a b c d := (quarter (fadd (fadd (fadd (fabs a) (fabs b)) (fabs c)) (fabs d))).
  (** the signed mean of the magnitudes at the four mirrored corners, with longitude zero on the middle line *)
  Definition signed_mean (n : Z) (g : Z -> Z -> F * F) (I J : Z) : F * F :=
    let m := fun f : F * F -> F => copysign (mean (f (g I J)) (f (g (n - I) J)) (f (g I (n - J))) (f (g (n - I) (n - J)))) (f (g I J)) in
    (if middle n I then zero else m fst, m snd).

  Notation mirror := (mirror_grid fabs fadd quarter copysign zero pi half_pi minus_half_pi rot).
  Notation reference := (global_mirror_grid fabs fadd quarter copysign zero pi half_pi minus_half_pi rot).

  Lemma even_middle n I : (n mod 2 =? 0) && (I =? n / 2) = middle n I.
  Proof.
    unfold middle. pose proof (Z.div_mod n 2 ltac:(lia)). pose proof (Z.mod_pos_bound n 2 ltac:(lia)).
    destruct (Z.eqb_spec (n mod 2) 0), (Z.eqb_spec I (n / 2)), (Z.eqb_spec (2 * I) n); cbn; try reflexivity; lia.
  Qed.
  Lemma base_formula n w gi gj ng g local ew ns diag a b : section_of n w gi gj -> mirrored_parts n w gi gj ng g local ew ns diag ->
    0 <= a <= w -> 0 <= b <= w ->
    fst (base_region fabs fadd quarter copysign zero (n + 1) (w + 1) (w + 1) (ng + gi) ng (w + 1 + 2 * ng) ew diag (local, ns)) (ng + a) (ng + b) =
    signed_mean n g (gi + a) (gj + b).
  Proof.
    intros (W & G1 & G2 & G3 & G4) M A B. etransitivity; [apply base_region_spec; lia|]. unfold base_val.
    replace (2 * ng + (w + 1) - 1 - (ng + a)) with (ng + (w - a)) by ring. replace (2 * ng + (w + 1) - 1 - (ng + b)) with (ng + (w - b)) by ring.
    destruct (M a b A B) as (-> & _). destruct (M (w - a) b ltac:(lia) B) as (_ & -> & _).
    destruct (M a (w - b) A ltac:(lia)) as (_ & _ & -> & _). destruct (M (w - a) (w - b) ltac:(lia) ltac:(lia)) as (_ & _ & _ & ->).
    replace (n - gi - w + (w - a)) with (n - (gi + a)) by ring. replace (n - gj - w + (w - b)) with (n - (gj + b)) by ring.
    rewrite odd_even.
    assert (E : (n mod 2 =? 0) && (x_center (n + 1) (w + 1) (ng + gi) ng && (ng + a =? ng + i_mid (n + 1) (ng + gi) ng)) = middle n (gi + a)).
    { unfold middle, x_center, i_mid, istart. pose proof (Z.div_mod n 2 ltac:(lia)). pose proof (Z.mod_pos_bound n 2 ltac:(lia)).
      pose proof (Z.div_mod (n + 1) 2 ltac:(lia)). pose proof (Z.mod_pos_bound (n + 1) 2 ltac:(lia)).
      destruct (Z.eqb_spec (n mod 2) 0), (Z.leb_spec (2 * (ng + gi)) (2 * ng + (n + 1 - 1))), (Z.ltb_spec (2 * ng + (n + 1 - 1)) (2 * (ng + gi + (w + 1)))),
        (Z.eqb_spec (ng + a) (ng + ((n + 1) / 2 - (ng + gi) + ng))), (Z.eqb_spec (2 * (gi + a)) n); cbn; try reflexivity; lia. }
    rewrite E. unfold signed_mean, copysign2, average2, average. cbn [fst snd]. now destruct (middle n (gi + a)).
  Qed.

  (** ** C77: averaging.  The base tile does not depend on the layout: every rank's corner is a function of its global indices; *)
  Theorem C77_layout_independent n w gi gj ng g local ew ns diag gjs npy : section_of n w gi gj -> mirrored_parts n w gi gj ng g local ew ns diag ->
    forall a b, 0 <= a <= w -> 0 <= b <= w ->
    mirror 0 (n + 1) npy (w + 1) (w + 1) (ng + gi) gjs ng (w + 1 + 2 * ng) local ew ns diag (ng + a) (ng + b) = signed_mean n g (gi + a) (gj + b).
  Proof. intros S M a b A B. unfold mirror_grid. cbn [Z.ltb Z.compare]. eapply base_formula; eassumption. Qed.

  (** the reference computes the mean once for the four corners, so they get the same magnitude, in any arithmetic. *)
  Theorem C77_reference_symmetric n ng grid I J :
    (forall x y, copysign x (copysign x y) = copysign x y) -> (forall x y, fabs (copysign x y) = fabs x) ->
    0 <= I <= n -> 0 <= J <= n ->
    let r := reference (n + 1) (n + 1) ng grid 0 in
    forall I' J', (I' = I \/ I' = n - I) -> (J' = J \/ J' = n - J) ->
    fabs (fst (r (ng + I') (ng + J'))) = fabs (fst (r (ng + I) (ng + J))) /\ fabs (snd (r (ng + I') (ng + J'))) = fabs (snd (r (ng + I) (ng + J))).
  Proof.
    intros C2 C1 HI HJ r I' J' EI EJ. unfold r, global_mirror_grid. cbn [Z.eqb]. rewrite !global_base_spec by (assumption || lia).
    unfold global_val. assert (RI : rep n I' = rep n I) by (unfold rep; lia). assert (RJ : rep n J' = rep n J) by (unfold rep; lia). rewrite RI, RJ, !even_middle.
    assert (MI : middle n I' = middle n I) by (unfold middle; destruct (Z.eqb_spec (2 * I') n), (Z.eqb_spec (2 * I) n); lia). rewrite MI.
    destruct (middle n I); cbn [fst snd copysign2]; rewrite !C1; auto.
  Qed.

  (** When the order of a sum does not matter, the ranks compute what the reference computes; in particular the tile is symmetric. *)
  Theorem C77_reference_partial n w gi gj ng g local ew ns diag gjs npy grid : section_of n w gi gj -> mirrored_parts n w gi gj ng g local ew ns diag ->
    (forall x y, copysign x (copysign x y) = copysign x y) -> (forall x y, fadd x y = fadd y x) -> (forall x y z, fadd (fadd x y) z = fadd x (fadd y z)) ->
    (forall I J, 0 <= I <= n -> 0 <= J <= n -> grid 0 (ng + I) (ng + J) = g I J) ->
    forall a b, 0 <= a <= w -> 0 <= b <= w ->
    mirror 0 (n + 1) npy (w + 1) (w + 1) (ng + gi) gjs ng (w + 1 + 2 * ng) local ew ns diag (ng + a) (ng + b) =
    reference (n + 1) (n + 1) ng grid 0 (ng + (gi + a)) (ng + (gj + b)).
  Proof.
    intros S M C2 AC AA GR a b A B. rewrite (C77_layout_independent _ _ _ _ _ _ _ _ _ _ _ _ S M) by assumption.
    destruct S as (W & G1 & G2 & G3 & G4). unfold global_mirror_grid. cbn [Z.eqb]. rewrite global_base_spec by (assumption || lia).
    unfold global_val. rewrite even_middle. set (I := gi + a). set (J := gj + b). assert (HI : 0 <= I <= n) by lia. assert (HJ : 0 <= J <= n) by lia.
    assert (RI : (rep n I = I /\ n - rep n I = n - I) \/ (rep n I = n - I /\ n - rep n I = I)) by (unfold rep; lia).
    assert (RJ : (rep n J = J /\ n - rep n J = n - J) \/ (rep n J = n - J /\ n - rep n J = J)) by (unfold rep; lia).
    rewrite !GR by (unfold rep in *; lia).
    assert (AV : forall p q r s : F, average fabs fadd quarter q p s r = average fabs fadd quarter p q r s /\ average fabs fadd quarter r s p q = average fabs fadd quarter p q r s).
    { intros p q r s. unfold average. set (P := fabs p). set (Q := fabs q). set (R := fabs r). set (S := fabs s). split; f_equal; rewrite !AA.
      - rewrite (AC S R). rewrite <- (AA Q P), <- (AA P Q). now rewrite (AC Q P).
      - rewrite <- (AA R S), <- (AA P Q). rewrite (AC (fadd R S)). now rewrite !AA. }
    unfold signed_mean, copysign2, average2.
    assert (AV2 : forall f : F * F -> F,
      average fabs fadd quarter (f (g (rep n I) (rep n J))) (f (g (n - rep n I) (rep n J))) (f (g (rep n I) (n - rep n J))) (f (g (n - rep n I) (n - rep n J))) =
      average fabs fadd quarter (f (g I J)) (f (g (n - I) J)) (f (g I (n - J))) (f (g (n - I) (n - J)))).
    { intro f. assert (NI : n - (n - I) = I) by ring. assert (NJ : n - (n - J) = J) by ring.
      destruct RI as [[E _] | [E _]], RJ as [[E' _] | [E' _]]; rewrite E, E', ?NI, ?NJ; [reflexivity| | |].
      - apply (AV (f (g I J)) (f (g (n - I) J)) (f (g I (n - J))) (f (g (n - I) (n - J)))).
      - apply (AV (f (g I J)) (f (g (n - I) J)) (f (g I (n - J))) (f (g (n - I) (n - J)))).
      - destruct (AV (f (g I J)) (f (g (n - I) J)) (f (g I (n - J))) (f (g (n - I) (n - J)))) as [<- _].
        apply (AV (f (g (n - I) J)) (f (g I J)) (f (g (n - I) (n - J))) (f (g I (n - J)))). }
    cbn [fst snd]. rewrite !AV2. now destruct (middle n I).
  Qed.
End Any.
Print Assumptions C77_layout_independent.
Print Assumptions C77_reference_symmetric.
Print Assumptions C77_reference_partial.

(** *** binary64, with the arithmetic of the standard library's SpecFloat *)
Definition b64_add : spec_float -> spec_float -> spec_float := SFadd 53 1024.
Definition b64_quarter (x : spec_float) : spec_float := SFmul 53 1024 (S754_finite false 4503599627370496 (-54)) x.
Definition b64_copysign (x y : spec_float) : spec_float :=
  let s := match y with S754_zero s | S754_infinity s | S754_finite s _ _ => s | S754_nan => false end in
  match x with S754_zero _ => S754_zero s | S754_infinity _ => S754_infinity s | S754_nan => S754_nan | S754_finite _ m e => S754_finite s m e end.
(** one half plus [k] units in the last place *)
Definition half (s : bool) (k : positive) : spec_float := S754_finite s (4503599627370495 + k) (-53).

(** The ranks add the four magnitudes in an order that depends on the corner.  In binary64 the mirrored corners of a tile held by one rank
    can get different magnitudes, which the averaging is there to prevent. *)
Theorem C77_bitwise_refuted : exists (g : Z -> Z -> spec_float * spec_float) (I J : Z), 0 <= I <= 2 /\ 0 <= J <= 2 /\
  mirrored_parts 2 2 0 0 3 g (fun i j => g (i - 3) (j - 3)) (fun i j => g (i - 3) (j - 3)) (fun i j => g (i - 3) (j - 3)) (fun i j => g (i - 3) (j - 3)) /\
  forall pi half_pi minus_half_pi rot,
  let r := mirror_grid SFabs b64_add b64_quarter b64_copysign (S754_zero false) pi half_pi minus_half_pi rot 0 3 3 3 3 3 3 3 9
             (fun i j => g (i - 3) (j - 3)) (fun i j => g (i - 3) (j - 3)) (fun i j => g (i - 3) (j - 3)) (fun i j => g (i - 3) (j - 3)) in
  SFabs (fst (r (3 + I) (3 + J))) <> SFabs (fst (r (3 + (2 - I)) (3 + J))).
Proof.
  exists (fun i j => if j =? 0 then (half (i =? 0) 1, half true 1) else if i =? 0 then (half true 2, half false 1) else (half false 3, half false 1)), 0, 0.
  split; [lia|]. split; [lia|]. split.
  - intros a b A B. replace (3 + a - 3) with a by ring. replace (3 + b - 3) with b by ring. replace (2 - 0 - 2 + a) with a by ring. replace (2 - 0 - 2 + b) with b by ring.
    cbn [Z.add]. auto.
  - intros. vm_compute. discriminate.
Qed.
Print Assumptions C77_bitwise_refuted.

Example C77_case : section_of 12 6 6 0 /\
  mirrored_parts 12 6 6 0 3 (fun I J => (I, J)) (fun i j => (i + 3, j - 3)) (fun i j => (i - 3, j - 3)) (fun i j => (i + 3, j + 3)) (fun i j => (i - 3, j + 3)).
Proof.
  split; [unfold section_of; lia|]. intros a b A B. repeat split; f_equal; lia.
Qed.

(** ** C78: the values forced on the middle lines of tiles 2, 3 and 5 *)
Section Forced.
  Context {F : Type}.
  Variables (fabs : F -> F) (fadd : F -> F -> F) (quarter : F -> F) (copysign : F -> F -> F).
  Variables (zero pi half_pi minus_half_pi : F).
  Variable rot : Z -> F * F -> F * F.
  Notation mirror := (mirror_grid fabs fadd quarter copysign zero pi half_pi minus_half_pi rot).
  Notation reference := (global_mirror_grid fabs fadd quarter copysign zero pi half_pi minus_half_pi rot).
  Notation base := (signed_mean fabs fadd quarter copysign zero).

  (** What the reference forces at corner (I, J) of tile t: the new longitude and the new latitude, if any. *)
  Definition forced_lon (n t I J : Z) : option F :=
    if (t =? 2) && middle n J then Some (if 2 * I <=? n then zero else pi)
    else if (t =? 3) && middle n J then Some pi
    else if (t =? 5) && middle n I then Some (if 2 * J <? n then pi else zero)
    else None.
  Definition forced_lat (n t I J : Z) : option F :=
    if (t =? 2) && middle n I && middle n J then Some half_pi
    else if (t =? 5) && middle n I && middle n J then Some minus_half_pi
    else None.
  Definition or_else (o : option F) (x : F) : F := match o with Some y => y | None => x end.
  Definition with_forced (n t I J : Z) (p : F * F) : F * F := (or_else (forced_lon n t I J) (fst p), or_else (forced_lat n t I J) (snd p)).

  Lemma half_even n : middle n (n / 2) = (n mod 2 =? 0).
  Proof.
    unfold middle. pose proof (Z.div_mod n 2 ltac:(lia)). pose proof (Z.mod_pos_bound n 2 ltac:(lia)).
    destruct (Z.eqb_spec (2 * (n / 2)) n), (Z.eqb_spec (n mod 2) 0); try reflexivity; lia.
  Qed.
  Ltac dec := repeat match goal with
    | |- context [Z.eqb ?a ?b] => destruct (Z.eqb_spec a b); cbn [andb negb]
    | |- context [Z.leb ?a ?b] => destruct (Z.leb_spec a b); cbn [andb negb]
    | |- context [Z.ltb ?a ?b] => destruct (Z.ltb_spec a b); cbn [andb negb]
    end.

  Theorem C78_reference n ng grid t I J : (forall x y, copysign x (copysign x y) = copysign x y) -> 1 <= t <= 5 -> 0 <= I <= n -> 0 <= J <= n ->
    reference (n + 1) (n + 1) ng grid t (ng + I) (ng + J) = with_forced n t I J (rot t (reference (n + 1) (n + 1) ng grid 0 (ng + I) (ng + J))).
  Proof.
    intros C2 HT HI HJ. unfold global_mirror_grid. replace (t =? 0) with false by (symmetry; apply Z.eqb_neq; lia). cbn [Z.eqb].
    rewrite global_rows_spec by assumption. set (bs := global_base fabs fadd quarter copysign zero (n + 1) (n + 1) ng (grid 0)). clearbody bs.
    unfold global_force, with_forced, forced_lon, forced_lat. rewrite odd_even. replace (n + 1 - 1) with n by ring.
    pose proof (Z.div_mod n 2 ltac:(lia)) as D1. pose proof (Z.mod_pos_bound n 2 ltac:(lia)) as D2. unfold middle.
    assert (TT : t = 1 \/ t = 2 \/ t = 3 \/ t = 4 \/ t = 5) by lia.
    destruct (rot t (bs (ng + I) (ng + J))) as [x y] eqn:RT.
    destruct TT as [-> | [-> | [-> | [-> | ->]]]]; cbn [Z.eqb Pos.eqb andb]; destruct (Z.eqb_spec (n mod 2) 0) as [V|V]; cbn [fst snd];
      dec; cbn [or_else]; rewrite ?RT; cbn [fst snd]; try reflexivity; exfalso; lia.
  Qed.

  (** what a rank forces *)
  Definition rank_lon (n w gi t I J : Z) : option F :=
    if (t =? 2) && middle n J && (2 * gi <=? n) && (n <=? 2 * (gi + w)) then Some (if 2 * I <=? n then zero else pi)
    else if (t =? 3) && middle n J then Some pi
    else None.
  Definition rank_lat (n gi gj t I J : Z) : option F :=
    if (t =? 2) && middle n I && middle n J && (gi =? gj) then Some half_pi else None.

  Lemma rank_tile n w gi gj ng g local ew ns diag t a b : section_of n w gi gj -> mirrored_parts n w gi gj ng g local ew ns diag ->
    1 <= t <= 5 -> 0 <= a <= w -> 0 <= b <= w ->
    mirror t (n + 1) (n + 1) (w + 1) (w + 1) (ng + gi) (ng + gj) ng (w + 1 + 2 * ng) local ew ns diag (ng + a) (ng + b) =
    let p := rot t (base n g (gi + a) (gj + b)) in
    (or_else (rank_lon n w gi t (gi + a) (gj + b)) (fst p), or_else (rank_lat n gi gj t (gi + a) (gj + b)) (snd p)).
  Proof.
    intros S M HT A B. unfold mirror_grid. replace (0 <? t) with true by (symmetry; apply Z.ltb_lt; lia).
    pose (bs := fst (base_region fabs fadd quarter copysign zero (n + 1) (w + 1) (w + 1) (ng + gi) ng (w + 1 + 2 * ng) ew diag (local, ns))).
    etransitivity; [exact (tile_rows_spec zero pi half_pi minus_half_pi rot t (n + 1) (n + 1) (w + 1) (w + 1) (ng + gi) (ng + gj) ng bs (ng + a) (ng + b) ltac:(lia) ltac:(lia))|].
    assert (BS : bs (ng + a) (ng + b) = base n g (gi + a) (gj + b)) by (eapply base_formula; eassumption). clearbody bs.
    destruct S as (W & G1 & G2 & G3 & G4). cbv zeta. rewrite <- BS. clear BS M.
    unfold force. rewrite odd_even. unfold x_center, y_center, i_mid, j_mid, istart, jstart, iend, rank_lon, rank_lat, middle.
    replace (n + 1 - 1) with n by ring. replace (ng + a - ng) with a by ring.
    pose proof (Z.div_mod n 2 ltac:(lia)) as D1. pose proof (Z.mod_pos_bound n 2 ltac:(lia)) as D2.
    pose proof (Z.div_mod (n + 1) 2 ltac:(lia)) as D3. pose proof (Z.mod_pos_bound (n + 1) 2 ltac:(lia)) as D4.
    set (h := (n + 1) / 2) in *. clearbody h.
    assert (TT : t = 1 \/ t = 2 \/ t = 3 \/ t = 4 \/ t = 5) by lia.
    destruct (rot t (bs (ng + a) (ng + b))) as [x y] eqn:RT.
    destruct TT as [-> | [-> | [-> | [-> | ->]]]]; cbn [Z.eqb Pos.eqb andb]; destruct (Z.eqb_spec (n mod 2) 0) as [V|V]; cbn [fst snd].
    all: repeat match goal with
    | |- context [Z.eqb ?a ?b] => destruct (Z.eqb_spec a b); cbn [andb negb fst snd]; try (exfalso; lia)
    | |- context [Z.leb ?a ?b] => destruct (Z.leb_spec a b); cbn [andb negb fst snd]; try (exfalso; lia)
    | |- context [Z.ltb ?a ?b] => destruct (Z.ltb_spec a b); cbn [andb negb fst snd]; try (exfalso; lia)
    end; cbn [or_else]; rewrite ?RT; cbn [fst snd]; reflexivity.
  Qed.

  (** The ranks force the same values as the reference on tiles 0, 1, 3 and 4, on every tile with an odd number of cells, on tile 2 for the ranks
      that hold a part of the middle column and for those that do not hold a part of the middle row, and on tile 5 away from the middle column; *)
  Theorem C78_seams_partial n w gi gj ng g local ew ns diag grid t a b : section_of n w gi gj -> mirrored_parts n w gi gj ng g local ew ns diag ->
    (forall x y, copysign x (copysign x y) = copysign x y) -> (forall x y, fadd x y = fadd y x) -> (forall x y z, fadd (fadd x y) z = fadd x (fadd y z)) ->
    (forall I J, 0 <= I <= n -> 0 <= J <= n -> grid 0 (ng + I) (ng + J) = g I J) -> 0 <= a <= w -> 0 <= b <= w ->
    (t = 0 \/ t = 1 \/ t = 3 \/ t = 4 \/ (1 <= t <= 5 /\ n mod 2 = 1) \/
     (t = 2 /\ (2 * (gj + b) <> n \/ (2 * gi <= n <= 2 * (gi + w) /\ (2 * (gi + a) <> n \/ gi = gj)))) \/
     (t = 5 /\ 2 * (gi + a) <> n)) ->
    mirror t (n + 1) (n + 1) (w + 1) (w + 1) (ng + gi) (ng + gj) ng (w + 1 + 2 * ng) local ew ns diag (ng + a) (ng + b) =
    reference (n + 1) (n + 1) ng grid t (ng + (gi + a)) (ng + (gj + b)).
  Proof.
    intros S M C2 AC AA GR A B HT. destruct (Z.eq_dec t 0) as [-> | T0].
    - now apply (C77_reference_partial fabs fadd quarter copysign zero pi half_pi minus_half_pi rot n w gi gj ng g).
    - assert (T1 : 1 <= t <= 5) by lia. rewrite (rank_tile _ _ _ _ _ _ _ _ _ _ _ _ _ S M T1 A B).
      pose proof (C77_reference_partial fabs fadd quarter copysign zero pi half_pi minus_half_pi rot n w gi gj ng g local ew ns diag (ng + gj) (n + 1) grid S M C2 AC AA GR a b A B) as R0.
      rewrite (C77_layout_independent fabs fadd quarter copysign zero pi half_pi minus_half_pi rot n w gi gj ng g local ew ns diag (ng + gj) (n + 1) S M a b A B) in R0.
      destruct S as (W & G1 & G2 & G3 & G4). rewrite C78_reference by (assumption || lia). rewrite <- R0.
      unfold with_forced, forced_lon, forced_lat, rank_lon, rank_lat, middle. cbv zeta.
      assert (ND : n mod 2 = 1 -> forall k, 2 * k <> n) by (intros V k E; pose proof (Z.div_mod n 2 ltac:(lia)); lia).
      f_equal.
      + destruct (Z.eqb_spec t 2), (Z.eqb_spec t 3), (Z.eqb_spec t 5); try (exfalso; lia); cbn [andb]; try reflexivity.
        * destruct (Z.eqb_spec (2 * (gj + b)) n) as [E|E]; cbn [andb]; [|reflexivity].
          destruct HT as [? | [? | [? | [? | [[_ V] | [[_ H] | [? _]]]]]]]; try (exfalso; lia); [exfalso; now apply (ND V (gj + b))|].
          destruct H as [H | [H _]]; [contradiction|]. destruct (Z.leb_spec (2 * gi) n); [|lia]. destruct (Z.leb_spec n (2 * (gi + w))); [|lia]. reflexivity.
        * destruct (Z.eqb_spec (2 * (gi + a)) n) as [E|E]; [|reflexivity].
          destruct HT as [? | [? | [? | [? | [[_ V] | [[? _] | [_ H]]]]]]]; try (exfalso; lia). exfalso; now apply (ND V (gi + a)).
      + destruct (Z.eqb_spec t 2), (Z.eqb_spec t 5); try (exfalso; lia); cbn [andb]; try reflexivity.
        * destruct (Z.eqb_spec (2 * (gi + a)) n) as [E|E]; cbn [andb]; [|reflexivity].
          destruct (Z.eqb_spec (2 * (gj + b)) n) as [E'|E']; cbn [andb]; [|reflexivity].
          destruct HT as [? | [? | [? | [? | [[_ V] | [[_ H] | [? _]]]]]]]; try (exfalso; lia); [exfalso; now apply (ND V (gj + b))|].
          destruct H as [H | [_ [H | H]]]; [contradiction|contradiction|]. subst gj. now rewrite Z.eqb_refl.
        * destruct (Z.eqb_spec (2 * (gi + a)) n) as [E|E]; [|reflexivity].
          destruct HT as [? | [? | [? | [? | [[_ V] | [[? _] | [_ H]]]]]]]; try (exfalso; lia). exfalso; now apply (ND V (gi + a)).
  Qed.

  (** On tile 2 a rank that holds a part of the middle row but not of the middle column leaves the rotated longitudes: the branches
      meant for it compare npx // 2 with (npx - 1) / 2, which are equal.  Nothing is forced on tile 5. *)
  Theorem C78_not_forced n w gi gj ng g local ew ns diag t a b : section_of n w gi gj -> mirrored_parts n w gi gj ng g local ew ns diag ->
    0 <= a <= w -> 0 <= b <= w -> t = 5 \/ (t = 2 /\ ~ (2 * gi <= n <= 2 * (gi + w))) ->
    mirror t (n + 1) (n + 1) (w + 1) (w + 1) (ng + gi) (ng + gj) ng (w + 1 + 2 * ng) local ew ns diag (ng + a) (ng + b) =
    rot t (base n g (gi + a) (gj + b)).
  Proof.
    intros S M A B HT. assert (T1 : 1 <= t <= 5) by lia. rewrite (rank_tile _ _ _ _ _ _ _ _ _ _ _ _ _ S M T1 A B). cbv zeta. unfold rank_lon, rank_lat, middle.
    destruct (rot t (base n g (gi + a) (gj + b))) as [x y]. cbn [fst snd]. destruct S as (W & G1 & G2 & G3 & G4).
    destruct HT as [-> | [-> N]]; cbn [Z.eqb Pos.eqb andb or_else]; [reflexivity|]. f_equal.
    - destruct (Z.leb_spec (2 * gi) n), (Z.leb_spec n (2 * (gi + w))); rewrite ?andb_false_r; cbn [andb or_else]; try reflexivity. lia.
    - destruct (Z.eqb_spec (2 * (gi + a)) n); [lia|]. reflexivity.
  Qed.
End Forced.
Print Assumptions C78_reference.
Print Assumptions C78_seams_partial.
Print Assumptions C78_not_forced.

(** Hence, whenever the rotation does not give exactly 0 for the longitude of a corner of the middle row of tile 2 (as with rounding), the value
    of that corner depends on the layout: one rank for the tile forces 0, sixteen ranks do not; and the latitude of the pole is not
    forced by the ranks whose section begins at different x and y. *)
Theorem C78_layout_refuted : forall (F : Type) fabs fadd quarter copysign (zero pi half_pi minus_half_pi : F) rot g,
  fst (rot 2 (signed_mean fabs fadd quarter copysign zero 4 g 0 2)) <> zero ->
  exists w gi gj w' gi' gj' a b a' b',
    section_of 4 w gi gj /\ section_of 4 w' gi' gj' /\ 0 <= a <= w /\ 0 <= b <= w /\ 0 <= a' <= w' /\ 0 <= b' <= w' /\
    gi + a = gi' + a' /\ gj + b = gj' + b' /\
    forall local ew ns diag local' ew' ns' diag',
    mirrored_parts 4 w gi gj 3 g local ew ns diag -> mirrored_parts 4 w' gi' gj' 3 g local' ew' ns' diag' ->
    mirror_grid fabs fadd quarter copysign zero pi half_pi minus_half_pi rot 2 5 5 (w + 1) (w + 1) (3 + gi) (3 + gj) 3 (w + 1 + 6) local ew ns diag (3 + a) (3 + b) <>
    mirror_grid fabs fadd quarter copysign zero pi half_pi minus_half_pi rot 2 5 5 (w' + 1) (w' + 1) (3 + gi') (3 + gj') 3 (w' + 1 + 6) local' ew' ns' diag' (3 + a') (3 + b').
Proof.
  intros F fabs fadd quarter copysign zero pi half_pi minus_half_pi rot g N. exists 4, 0, 0, 1, 0, 2, 0, 2, 0, 0.
  assert (S1 : section_of 4 4 0 0) by (unfold section_of; lia). assert (S2 : section_of 4 1 0 2) by (unfold section_of; lia).
  repeat (split; [assumption || lia|]). intros local ew ns diag local' ew' ns' diag' M M' E.
  pose proof (rank_tile fabs fadd quarter copysign zero pi half_pi minus_half_pi rot 4 4 0 0 3 g local ew ns diag 2 0 2 S1 M ltac:(lia) ltac:(lia) ltac:(lia)) as R1.
  pose proof (C78_not_forced fabs fadd quarter copysign zero pi half_pi minus_half_pi rot 4 1 0 2 3 g local' ew' ns' diag' 2 0 0 S2 M' ltac:(lia) ltac:(lia) ltac:(right; lia)) as R2.
  change (2 * 3) with 6 in R1, R2. change (4 + 1) with 5 in R1 at 1 2. change (4 + 1) with 5 in R2 at 1 2.
  rewrite E in R1. cbn [Z.add Pos.add] in R1, R2, N. rewrite R1 in R2. apply (f_equal fst) in R2. cbn in R2. now rewrite R2 in N.
Qed.
Print Assumptions C78_layout_refuted.

(** a rank of a 4 by 4 layout on tile 2 with such a rotation *)
Example C78_case : section_of 4 1 0 2 /\ ~ (2 * 0 <= 4 <= 2 * (0 + 1)) /\
  fst ((fun (_ : Z) (p : Z * Z) => (fst p + 1, snd p)) 2 (signed_mean Z.abs Z.add (fun x => x / 4) (fun x y => Z.abs x * Z.sgn y) 0 4 (fun I J => (I - 2, J - 2)) 0 2)) <> 0.
Proof. split; [unfold section_of; lia|]. split; [lia|]. vm_compute. discriminate. Qed.
