(** Lemmas about CgridModel *)
Require Import Reals Lra Lia ZArith Bool List.
From Verif Require Import Base SphereModel EdgeModel CgridModel.
Local Open Scope Z_scope.

(** ** slices with the bounds of the code *)
Lemma low_pos n k : 0 <= k -> lower n (Some k) = Z.min k n.
Proof. intro K. unfold lower, clip. destruct (Z.ltb_spec k 0); [lia|reflexivity]. Qed.
Lemma low_neg n k : k < 0 -> lower n (Some k) = Z.max 0 (k + n).
Proof. intro K. unfold lower, clip. destruct (Z.ltb_spec k 0); [reflexivity|lia]. Qed.
Lemma up_neg n k : k < 0 -> upper n (Some k) = Z.max 0 (k + n).
Proof. intro K. unfold upper, clip. destruct (Z.ltb_spec k 0); [reflexivity|lia]. Qed.
Lemma up_pos n k : 0 <= k -> upper n (Some k) = Z.min k n.
Proof. intro K. unfold upper, clip. destruct (Z.ltb_spec k 0); [lia|reflexivity]. Qed.

(** [a] has the lengths [m], [n] and the values [f] on them *)
Definition is_arr2 {T} (a : arr2 T) (m n : Z) (f : Z -> Z -> T) : Prop :=
  len0 a = m /\ len1 a = n /\ forall i j, 0 <= i < m -> 0 <= j < n -> at2 a i j = f i j.
Definition is_arr {T} (a : arr T) (m : Z) (f : Z -> T) : Prop := len a = m /\ forall i, 0 <= i < m -> at1 a i = f i.

Lemma is_ext {T} (a : arr2 T) m n f g : is_arr2 a m n f -> (forall i j, 0 <= i < m -> 0 <= j < n -> f i j = g i j) -> is_arr2 a m n g.
Proof. intros (A & B & C) E. split; [exact A|]. split; [exact B|]. intros. rewrite C by assumption. now apply E. Qed.
Lemma is_flip_i {T} (a : arr2 T) m n f : is_arr2 a m n f -> is_arr2 (flip_i a) m n (fun i j => f (m - 1 - i) j).
Proof. intros (A & B & C). unfold flip_i. split; [exact A|]. split; [exact B|]. intros i j I J. cbn [at2]. rewrite A. apply C; lia. Qed.
Lemma is_flip_j {T} (a : arr2 T) m n f : is_arr2 a m n f -> is_arr2 (flip_j a) m n (fun i j => f i (n - 1 - j)).
Proof. intros (A & B & C). unfold flip_j. split; [exact A|]. split; [exact B|]. intros i j I J. cbn [at2]. rewrite B. apply C; lia. Qed.
Lemma is_transpose {T} (a : arr2 T) m n f : is_arr2 a m n f -> is_arr2 (transpose a) n m (fun i j => f j i).
Proof. intros (A & B & C). unfold transpose. split; [exact B|]. split; [exact A|]. intros i j I J. cbn [at2]. now apply C. Qed.
Lemma is_map2 {S T} (h : S -> T) (a : arr2 S) m n f : is_arr2 a m n f -> is_arr2 (map2 h a) m n (fun i j => h (f i j)).
Proof. intros (A & B & C). unfold map2. split; [exact A|]. split; [exact B|]. intros i j I J. cbn [at2]. now rewrite C. Qed.
Lemma is_sl2 {T} (a : arr2 T) m n f lo0 hi0 lo1 hi1 s0 e0 s1 e1 : is_arr2 a m n f ->
  lower m lo0 = s0 -> upper m hi0 = e0 -> lower n lo1 = s1 -> upper n hi1 = e1 -> 0 <= s0 <= e0 -> e0 <= m -> 0 <= s1 <= e1 -> e1 <= n ->
  is_arr2 (sl2 a lo0 hi0 lo1 hi1) (e0 - s0) (e1 - s1) (fun i j => f (s0 + i) (s1 + j)).
Proof.
  intros (A & B & C) L0 U0 L1 U1 H0 H0' H1 H1'. unfold sl2. rewrite A, B, L0, L1, U0, U1. cbv zeta.
  split; [cbn [len0]; lia|]. split; [cbn [len1]; lia|]. intros i j I J. cbn [at2]. apply C; lia.
Qed.
Lemma is_put2 {T} (a v : arr2 T) m n f g p q lo0 hi0 lo1 hi1 s0 e0 s1 e1 : is_arr2 a m n f -> is_arr2 v p q g ->
  lower m lo0 = s0 -> upper m hi0 = e0 -> lower n lo1 = s1 -> upper n hi1 = e1 -> 0 <= s0 <= e0 -> e0 <= m -> 0 <= s1 <= e1 -> e1 <= n ->
  p = e0 - s0 -> q = e1 - s1 ->
  exists r, put2 a lo0 hi0 lo1 hi1 v = Some r /\
    is_arr2 r m n (fun i j => if (s0 <=? i) && (i <? e0) && (s1 <=? j) && (j <? e1) then g (i - s0) (j - s1) else f i j).
Proof.
  intros (A & B & C) (A' & B' & C') L0 U0 L1 U1 H0 H0' H1 H1' P Q. unfold put2. rewrite A, B, L0, L1, U0, U1. cbv zeta.
  replace (Z.max 0 (e0 - s0)) with (e0 - s0) by lia. replace (Z.max 0 (e1 - s1)) with (e1 - s1) by lia. rewrite A', B'.
  destruct (Z.eqb_spec p (e0 - s0)); [|lia]. destruct (Z.eqb_spec q (e1 - s1)); [|lia]. cbn [andb]. eexists. split; [reflexivity|].
  split; [reflexivity|]. split; [reflexivity|]. intros i j I J. cbn [at2].
  replace (s0 + (e0 - s0)) with e0 by ring. replace (s1 + (e1 - s1)) with e1 by ring.
  destruct (Z.leb_spec s0 i); cbn [andb]; [|now apply C]. destruct (Z.ltb_spec i e0); cbn [andb]; [|now apply C].
  destruct (Z.leb_spec s1 j); cbn [andb]; [|now apply C]. destruct (Z.ltb_spec j e1); cbn [andb]; [|now apply C]. apply C'; lia.
Qed.
Lemma is_row {T} (a : arr2 T) m n f k : is_arr2 a m n f -> 0 <= k < m -> is_arr (row a k) n (f k).
Proof.
  intros (A & B & C) K. unfold row. destruct (Z.ltb_spec k 0); [lia|]. split; [exact B|]. intros i I. cbn [at1]. now apply C.
Qed.
Lemma is_row_neg {T} (a : arr2 T) m n f k : is_arr2 a m n f -> - m <= k < 0 -> is_arr (row a k) n (f (k + m)).
Proof.
  intros (A & B & C) K. unfold row. destruct (Z.ltb_spec k 0); [|lia]. split; [exact B|]. intros i I. cbn [at1]. rewrite A. apply C; lia.
Qed.
Lemma is_sl {T} (a : arr T) m f lo hi s e : is_arr a m f -> lower m lo = s -> upper m hi = e -> 0 <= s <= e -> e <= m ->
  is_arr (sl a lo hi) (e - s) (fun i => f (s + i)).
Proof.
  intros (A & C) L U H H'. unfold sl. rewrite A, L, U. split; [cbn [len]; lia|]. intros i I. cbn [at1]. apply C; lia.
Qed.
Lemma is_zip {S T U} (h : S -> T -> U) a b m f g : is_arr a m f -> is_arr b m g -> exists r, zip h a b = Some r /\ is_arr r m (fun i => h (f i) (g i)).
Proof.
  intros (A & C) (A' & C'). unfold zip. rewrite A, A', Z.eqb_refl. eexists. split; [reflexivity|]. split; [reflexivity|].
  intros i I. cbn [at1]. now rewrite C, C'.
Qed.
Lemma is_zip4 {T U} (h : T -> T -> T -> T -> U) a b c d m f1 f2 f3 f4 : is_arr a m f1 -> is_arr b m f2 -> is_arr c m f3 -> is_arr d m f4 ->
  exists r, zip4 h a b c d = Some r /\ is_arr r m (fun i => h (f1 i) (f2 i) (f3 i) (f4 i)).
Proof.
  intros (A1 & C1) (A2 & C2) (A3 & C3) (A4 & C4). unfold zip4. rewrite A1, A2, A3, A4, Z.eqb_refl. cbn [andb].
  eexists. split; [reflexivity|]. split; [reflexivity|]. intros i I. cbn [at1]. now rewrite C1, C2, C3, C4.
Qed.
Lemma is_set_row0 {T} (a : arr2 T) m n f v g : is_arr2 a m n f -> is_arr v n g ->
  exists r, set_row a 0 v = Some r /\ is_arr2 r m n (fun i j => if i =? 0 then g j else f i j).
Proof.
  intros (A & B & C) (A' & C'). unfold set_row. rewrite A', B, Z.eqb_refl. eexists. split; [reflexivity|]. split; [exact A|].
  split; [reflexivity|]. intros i j I J. cbn [at2]. unfold pos. cbn [Z.ltb Z.compare]. destruct (i =? 0); [now apply C'|now apply C].
Qed.
Lemma is_set2 {T} (a : arr2 T) m n f i j x i0 j0 : is_arr2 a m n f -> pos m i = i0 -> pos n j = j0 ->
  is_arr2 (set2 a i j x) m n (fun k l => if (k =? i0) && (l =? j0) then x else f k l).
Proof.
  intros (A & B & C) E F. unfold set2. rewrite A, B, E, F. split; [reflexivity|]. split; [reflexivity|]. intros k l K L. cbn [at2].
  destruct ((k =? i0) && (l =? j0)); [reflexivity|now apply C].
Qed.

Definition half (p q : vec) : vec := vscale (1 / 2)%R (vadd p q).
Lemma half_comm p q : half p q = half q p.
Proof. unfold half. f_equal. destruct p as [[a b] c], q as [[d e] f]. cbn. f_equal; [f_equal|]; ring. Qed.

Section Area.
  Variable radius : R.
  Local Notation twice a b c d := (Rmult 2 (rectangle_area a b c d radius)).
  Lemma west_area dg ag area p q fd fa f w : is_arr2 dg p (w + 2) fd -> is_arr2 ag q (w + 1) fa -> 2 <= p -> 2 <= q -> 1 <= w ->
    forall m, is_arr2 area m w f -> exists r, set_west_area radius dg ag area = Some r /\
      is_arr2 r m w (fun i j => if i =? 0 then twice (half (fd 1 j) (fd 1 (j + 1))) (fa 1 j) (fa 1 (j + 1)) (half (fd 1 (j + 1)) (fd 1 (j + 2))) else f i j).
  Proof.
    intros D A P Q W m AR. unfold set_west_area.
    pose proof (is_row _ _ _ _ 1 D ltac:(lia)) as RD. pose proof (is_row _ _ _ _ 1 A ltac:(lia)) as RA.
    pose proof (is_sl _ _ _ None (Some (-1)) 0 (w + 1) RD eq_refl ltac:(rewrite up_neg by lia; lia) ltac:(lia) ltac:(lia)) as S1.
    pose proof (is_sl _ _ _ (Some 1) None 1 (w + 2) RD ltac:(rewrite low_pos by lia; lia) eq_refl ltac:(lia) ltac:(lia)) as S2.
    replace (w + 2 - 1) with (w + 1 - 0) in S2 by ring.
    destruct (is_zip (fun p q => vscale (1 / 2)%R (vadd p q)) _ _ _ _ _ S1 S2) as (yc & -> & YC). cbn [bind].
    replace (w + 1 - 0) with (w + 1) in YC by ring.
    pose proof (is_sl _ _ _ None (Some (-1)) 0 w YC eq_refl ltac:(rewrite up_neg by lia; lia) ltac:(lia) ltac:(lia)) as Y1.
    pose proof (is_sl _ _ _ (Some 1) None 1 (w + 1) YC ltac:(rewrite low_pos by lia; lia) eq_refl ltac:(lia) ltac:(lia)) as Y2.
    pose proof (is_sl _ _ _ None (Some (-1)) 0 w RA eq_refl ltac:(rewrite up_neg by lia; lia) ltac:(lia) ltac:(lia)) as A1.
    pose proof (is_sl _ _ _ (Some 1) None 1 (w + 1) RA ltac:(rewrite low_pos by lia; lia) eq_refl ltac:(lia) ltac:(lia)) as A2.
    replace (w + 1 - 1) with (w - 0) in Y2, A2 by ring.
    destruct (is_zip4 (fun a b c d => (2 * rectangle_area a b c d radius)%R) _ _ _ _ _ _ _ _ _ Y1 A1 A2 Y2) as (v & -> & V). cbn [bind].
    replace (w - 0) with w in V by ring.
    destruct (is_set_row0 _ _ _ _ _ _ AR V) as (r & E & RR). exists r. split; [exact E|]. eapply is_ext; [exact RR|].
    intros i j I J. cbv beta. destruct (i =? 0); [|reflexivity]. unfold half.
    replace (0 + (0 + j)) with j by ring. replace (1 + (0 + j)) with (j + 1) by ring. replace (0 + j) with j by ring. replace (1 + j) with (j + 1) by ring.
    replace (0 + (j + 1)) with (j + 1) by ring. replace (1 + (j + 1)) with (j + 2) by ring. reflexivity.
  Qed.
  Lemma east_area dg ag area p q fd fa f w : is_arr2 dg p (w + 2) fd -> is_arr2 ag q (w + 1) fa -> 2 <= p -> 2 <= q -> 1 <= w ->
    forall m, is_arr2 area m w f -> exists r, set_east_area radius dg ag area = Some r /\
      is_arr2 r m w (fun i j => if i =? m - 1 then twice (half (fd (p - 2) j) (fd (p - 2) (j + 1))) (fa (q - 2) j) (fa (q - 2) (j + 1)) (half (fd (p - 2) (j + 1)) (fd (p - 2) (j + 2))) else f i j).
  Proof.
    intros D A P Q W m AR. unfold set_east_area.
    destruct (west_area _ _ _ _ _ _ _ _ _ (is_flip_i _ _ _ _ D) (is_flip_i _ _ _ _ A) P Q W _ (is_flip_i _ _ _ _ AR)) as (v & -> & V). cbn [bind].
    eexists. split; [reflexivity|]. eapply is_ext; [exact (is_flip_i _ _ _ _ V)|]. intros i j I J. cbv beta.
    replace (m - 1 - (m - 1 - i)) with i by ring. replace (p - 1 - 1) with (p - 2) by ring. replace (q - 1 - 1) with (q - 2) by ring.
    destruct (Z.eqb_spec (m - 1 - i) 0), (Z.eqb_spec i (m - 1)); try lia; reflexivity.
  Qed.
  Lemma south_area dg ag area p q fd fa f w : is_arr2 dg (w + 2) p fd -> is_arr2 ag (w + 1) q fa -> 2 <= p -> 2 <= q -> 1 <= w ->
    forall m, is_arr2 area w m f -> exists r, set_south_area radius dg ag area = Some r /\
      is_arr2 r w m (fun i j => if j =? 0 then twice (half (fd i 1) (fd (i + 1) 1)) (fa i 1) (fa (i + 1) 1) (half (fd (i + 1) 1) (fd (i + 2) 1)) else f i j).
  Proof.
    intros D A P Q W m AR. unfold set_south_area.
    destruct (west_area _ _ _ _ _ _ _ _ _ (is_transpose _ _ _ _ D) (is_transpose _ _ _ _ A) P Q W _ (is_transpose _ _ _ _ AR)) as (v & -> & V). cbn [bind].
    eexists. split; [reflexivity|]. exact (is_transpose _ _ _ _ V).
  Qed.
  Lemma north_area dg ag area p q fd fa f w : is_arr2 dg (w + 2) p fd -> is_arr2 ag (w + 1) q fa -> 2 <= p -> 2 <= q -> 1 <= w ->
    forall m, is_arr2 area w m f -> exists r, set_north_area radius dg ag area = Some r /\
      is_arr2 r w m (fun i j => if j =? m - 1 then twice (half (fd i (p - 2)) (fd (i + 1) (p - 2))) (fa i (q - 2)) (fa (i + 1) (q - 2)) (half (fd (i + 1) (p - 2)) (fd (i + 2) (p - 2))) else f i j).
  Proof.
    intros D A P Q W m AR. unfold set_north_area.
    destruct (south_area _ _ _ _ _ _ _ _ _ (is_flip_j _ _ _ _ D) (is_flip_j _ _ _ _ A) P Q W _ (is_flip_j _ _ _ _ AR)) as (v & -> & V). cbn [bind].
    eexists. split; [reflexivity|]. eapply is_ext; [exact (is_flip_j _ _ _ _ V)|]. intros i j I J. cbv beta.
    replace (m - 1 - (m - 1 - j)) with j by ring. replace (p - 1 - 1) with (p - 2) by ring. replace (q - 1 - 1) with (q - 2) by ring.
    destruct (Z.eqb_spec (m - 1 - j) 0), (Z.eqb_spec j (m - 1)); try lia; reflexivity.
  Qed.
  (** only the corners change *)
  Lemma corner_area g area m n f left right bottom top : is_arr2 area m n f -> 1 <= m -> 1 <= n ->
    exists f', is_arr2 (set_corner_area_to_triangle_area radius g area left right bottom top) m n f' /\
      forall i j, 0 <= i < m -> 0 <= j < n ->
        f' i j = f i j \/ (((i = 0 /\ left = true) \/ (i = m - 1 /\ right = true)) /\ ((j = 0 /\ bottom = true) \/ (j = n - 1 /\ top = true))).
  Proof.
    intros A M N. unfold set_corner_area_to_triangle_area. cbv zeta.
    assert (S : forall (b : bool) (a : arr2 R) i j x i0 j0 h, is_arr2 a m n h -> pos m i = i0 -> pos n j = j0 ->
              is_arr2 (if b then set2 a i j x else a) m n (fun k l => if b then if (k =? i0) && (l =? j0) then x else h k l else h k l)).
    { intros b a i j x i0 j0 h H E F. destruct b; [now apply is_set2|exact H]. }
    assert (P0 : forall z, pos z 0 = 0) by reflexivity. assert (P1 : forall z, pos z (-1) = z - 1) by (intro; unfold pos; cbn [Z.ltb Z.compare]; ring).
    eexists. split; [repeat (eapply S; [|first [apply P0|apply P1]|first [apply P0|apply P1]]); exact A|].
    intros i j I J. cbv beta.
    destruct left, right, bottom, top; cbn [andb];
      destruct (Z.eqb_spec i 0), (Z.eqb_spec i (m - 1)), (Z.eqb_spec j 0), (Z.eqb_spec j (n - 1)); cbn [andb]; first [now left|right; split; tauto].
  Qed.
End Area.

Section Len.
  Variable radius : R.
  Local Notation twice a b := (Rmult 2 (great_circle_distance_xyz a b radius)).
  Lemma west_len dg ag d p q fd fa f w : is_arr2 dg p (w + 1) fd -> is_arr2 ag q w fa -> 1 <= p -> 1 <= q -> 1 <= w ->
    forall m, is_arr2 d m w f -> exists r, set_west_dxc radius dg ag d = Some r /\
      is_arr2 r m w (fun i j => if i =? 0 then twice (half (fd 0 j) (fd 0 (j + 1))) (fa 0 j) else f i j).
  Proof.
    intros D A P Q W m AR. unfold set_west_dxc.
    pose proof (is_row _ _ _ _ 0 D ltac:(lia)) as RD. pose proof (is_row _ _ _ _ 0 A ltac:(lia)) as RA.
    pose proof (is_sl _ _ _ None (Some (-1)) 0 w RD eq_refl ltac:(rewrite up_neg by lia; lia) ltac:(lia) ltac:(lia)) as S1.
    pose proof (is_sl _ _ _ (Some 1) None 1 (w + 1) RD ltac:(rewrite low_pos by lia; lia) eq_refl ltac:(lia) ltac:(lia)) as S2.
    replace (w + 1 - 1) with w in S2 by ring. replace (w - 0) with w in S1 by ring.
    destruct (is_zip (fun p q => vscale (1 / 2)%R (vadd p q)) _ _ _ _ _ S2 S1) as (yc & -> & YC). cbn [bind].
    destruct (is_zip (fun p q => (2 * great_circle_distance_xyz p q radius)%R) _ _ _ _ _ YC RA) as (v & -> & V). cbn [bind].
    destruct (is_set_row0 _ _ _ _ _ _ AR V) as (r & E & RR). exists r. split; [exact E|]. eapply is_ext; [exact RR|].
    intros i j I J. cbv beta. destruct (i =? 0); [|reflexivity].
    replace (0 + j) with j by ring. replace (1 + j) with (j + 1) by ring. fold (half (fd 0 (j + 1)) (fd 0 j)). now rewrite half_comm.
  Qed.
  Lemma east_len dg ag d p q fd fa f w : is_arr2 dg p (w + 1) fd -> is_arr2 ag q w fa -> 1 <= p -> 1 <= q -> 1 <= w ->
    forall m, is_arr2 d m w f -> exists r, set_east_dxc radius dg ag d = Some r /\
      is_arr2 r m w (fun i j => if i =? m - 1 then twice (half (fd (p - 1) j) (fd (p - 1) (j + 1))) (fa (q - 1) j) else f i j).
  Proof.
    intros D A P Q W m AR. unfold set_east_dxc.
    destruct (west_len _ _ _ _ _ _ _ _ _ (is_flip_i _ _ _ _ D) (is_flip_i _ _ _ _ A) P Q W _ (is_flip_i _ _ _ _ AR)) as (v & -> & V). cbn [bind].
    eexists. split; [reflexivity|]. eapply is_ext; [exact (is_flip_i _ _ _ _ V)|]. intros i j I J. cbv beta.
    replace (m - 1 - (m - 1 - i)) with i by ring. replace (p - 1 - 0) with (p - 1) by ring. replace (q - 1 - 0) with (q - 1) by ring.
    destruct (Z.eqb_spec (m - 1 - i) 0), (Z.eqb_spec i (m - 1)); try lia; reflexivity.
  Qed.
  Lemma south_len dg ag d p q fd fa f w : is_arr2 dg (w + 1) p fd -> is_arr2 ag w q fa -> 1 <= p -> 1 <= q -> 1 <= w ->
    forall m, is_arr2 d w m f -> exists r, set_south_dyc radius dg ag d = Some r /\
      is_arr2 r w m (fun i j => if j =? 0 then twice (half (fd i 0) (fd (i + 1) 0)) (fa i 0) else f i j).
  Proof.
    intros D A P Q W m AR. unfold set_south_dyc.
    destruct (west_len _ _ _ _ _ _ _ _ _ (is_transpose _ _ _ _ D) (is_transpose _ _ _ _ A) P Q W _ (is_transpose _ _ _ _ AR)) as (v & -> & V). cbn [bind].
    eexists. split; [reflexivity|]. exact (is_transpose _ _ _ _ V).
  Qed.
  Lemma north_len dg ag d p q fd fa f w : is_arr2 dg (w + 1) p fd -> is_arr2 ag w q fa -> 1 <= p -> 1 <= q -> 1 <= w ->
    forall m, is_arr2 d w m f -> exists r, set_north_dyc radius dg ag d = Some r /\
      is_arr2 r w m (fun i j => if j =? m - 1 then twice (half (fd i (p - 1)) (fd (i + 1) (p - 1))) (fa i (q - 1)) else f i j).
  Proof.
    intros D A P Q W m AR. unfold set_north_dyc.
    destruct (east_len _ _ _ _ _ _ _ _ _ (is_transpose _ _ _ _ D) (is_transpose _ _ _ _ A) P Q W _ (is_transpose _ _ _ _ AR)) as (v & -> & V). cbn [bind].
    eexists. split; [reflexivity|]. exact (is_transpose _ _ _ _ V).
  Qed.
End Len.
