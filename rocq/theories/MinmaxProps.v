(** Property C92: the least and greatest areas over all ranks *)
Require Import Reals Lra Lia ZArith Bool List.
From Verif Require Import Base SphereModel EdgeModel CgridModel CgridProofs CgridProps PartSpec.
Import ListNotations.
Local Open Scope Z_scope.

(** ** Specification *)
(** [v] is one of the values and comes before or is equal to all *)
Definition first_of (le : R -> R -> Prop) (P : R -> Prop) (v : R) : Prop := P v /\ forall x, P x -> le v x.
(** the code's two operations with the order each stands for *)
Definition stands_for (pick : R -> R -> R) (le : R -> R -> Prop) : Prop := (pick = Rmin /\ le = Rle) \/ (pick = Rmax /\ le = Rge).
(** corner (I, J) of tile t on the cube with edges from -n to n *)
Definition cube_point (n t I J : Z) : PartSpec.vec := PartSpec.surface n t (2 * I - n) (2 * J - n).
(** rank r of a layout of ly by lx ranks per tile: tile, row and column *)
Definition tile_of (lx ly r : Z) : Z := r / (ly * lx).
Definition row_of (lx ly r : Z) : Z := (r mod (ly * lx)) / lx.
Definition col_of (lx ly r : Z) : Z := (r mod (ly * lx)) mod lx.

(** ** Lemmas *)
Section Order.
  Variables (pick : R -> R -> R) (le : R -> R -> Prop).
  Hypothesis S : stands_for pick le.
  Lemma le_refl x : le x x. Proof. destruct S as [(_ & ->) | (_ & ->)]; lra. Qed.
  Lemma le_trans x y z : le x y -> le y z -> le x z. Proof. destruct S as [(_ & ->) | (_ & ->)]; lra. Qed.
  Lemma pick_one x y : pick x y = x \/ pick x y = y.
  Proof. destruct S as [(-> & _) | (-> & _)]; unfold Rmin, Rmax; destruct (Rle_dec x y); auto. Qed.
  Lemma pick_l x y : le (pick x y) x.
  Proof. destruct S as [(-> & ->) | (-> & ->)]; [apply Rmin_l|apply Rle_ge, Rmax_l]. Qed.
  Lemma pick_r x y : le (pick x y) y.
  Proof. destruct S as [(-> & ->) | (-> & ->)]; [apply Rmin_r|apply Rle_ge, Rmax_r]. Qed.
  Lemma reduce_first l : forall x, first_of le (fun y => In y (x :: l)) (reduce pick x l).
  Proof.
    induction l as [|y l IH]; intro x; cbn [reduce].
    - split; [now left|]. intros z [<- | []]. apply le_refl.
    - destruct (IH (pick x y)) as (A & B). split.
      + destruct A as [A | A]; [|right; right; exact A]. rewrite <- A. destruct (pick_one x y) as [-> | ->]; [now left|right; now left].
      + intros z [<- | [<- | Z]].
        * eapply le_trans; [apply B; now left|apply pick_l].
        * eapply le_trans; [apply B; now left|apply pick_r].
        * apply B. now right.
  Qed.
  Lemma reduce_array (a : arr2 R) m n f : is_arr2 a m n f -> 1 <= m -> 1 <= n ->
    exists v, np_reduce pick a = Some v /\ first_of le (fun x => exists i j, 0 <= i < m /\ 0 <= j < n /\ x = f i j) v.
  Proof.
    intros (A & B & C) M N. unfold np_reduce. rewrite A, B.
    assert (I : forall x, In x (flat_map (fun i => map (fun j => at2 a i j) (zrange 0 n)) (zrange 0 m)) <-> exists i j, 0 <= i < m /\ 0 <= j < n /\ x = f i j).
    { intro x. rewrite in_flat_map. split.
      - intros (i & I & X). apply in_map_iff in X as (j & <- & J). apply in_zrange in I, J. exists i, j. split; [lia|]. split; [lia|]. apply C; lia.
      - intros (i & j & HI & HJ & ->). exists i. split; [apply in_zrange; lia|]. apply in_map_iff. exists j. split; [apply C; assumption|apply in_zrange; lia]. }
    destruct (flat_map _ _) as [|x l] eqn:E.
    - exfalso. apply (proj2 (I (f 0 0))). exists 0, 0. split; [lia|]. split; [lia|]. reflexivity.
    - eexists. split; [reflexivity|]. destruct (reduce_first l x) as (P & Q). split; [now apply I|]. intros y Y. apply Q. now apply I.
  Qed.
  Lemma window_array (a : arr2 R) wx wy : has_shape a wx wy -> 1 <= wx -> 1 <= wy -> is_arr2 (minmax_window a) wx wy (fun i j => at2 a (3 + i) (3 + j)).
  Proof.
    intros (A & B) X Y. unfold minmax_window.
    pose proof (is_sl2 a _ _ _ (Some 3) (Some (-4)) (Some 3) (Some (-4)) 3 (wx + 3) 3 (wy + 3) (is_self a _ _ A B) ltac:(bnd) ltac:(bnd) ltac:(bnd) ltac:(bnd) ltac:(lia) ltac:(lia) ltac:(lia) ltac:(lia)) as Q.
    replace (wx + 3 - 3) with wx in Q by ring. replace (wy + 3 - 3) with wy in Q by ring. exact Q.
  Qed.
  Lemma ranks_first (ranks : list (arr2 R)) wx wy : (forall a, In a ranks -> has_shape a wx wy) -> 1 <= wx -> 1 <= wy ->
    exists vs, on_ranks (map (fun a => np_reduce pick (minmax_window a)) ranks) = Some vs /\ length vs = length ranks /\
      (forall v, In v vs -> exists a i j, In a ranks /\ 3 <= i < wx + 3 /\ 3 <= j < wy + 3 /\ v = at2 a i j) /\
      (forall a i j, In a ranks -> 3 <= i < wx + 3 -> 3 <= j < wy + 3 -> exists v, In v vs /\ le v (at2 a i j)).
  Proof.
    intros S0 X Y. induction ranks as [|a ranks IH]; cbn [map on_ranks].
    - exists []. split; [reflexivity|]. split; [reflexivity|]. split; [intros v []|intros b i j []].
    - destruct (reduce_array _ _ _ _ (window_array a wx wy (S0 a (or_introl eq_refl)) X Y) X Y) as (v & -> & (i & j & I & J & E) & B). cbn [bind].
      destruct IH as (vs & -> & L & P & Q); [intros b HB; apply S0; now right|]. cbn [bind]. exists (v :: vs). split; [reflexivity|]. split; [cbn [length]; lia|]. split.
      + intros w [<- | W].
        * exists a, (3 + i), (3 + j). split; [now left|]. split; [lia|]. split; [lia|]. exact E.
        * destruct (P w W) as (b & k & l & HB & K). exists b, k, l. split; [now right|exact K].
      + intros b k l [<- | HB] K M.
        * exists v. split; [now left|]. apply B. exists (k - 3), (l - 3). split; [lia|]. split; [lia|]. f_equal; ring.
        * destruct (Q b k l HB K M) as (w & W & LE). exists w. split; [now right|exact LE].
  Qed.
End Order.

(** ** C92: the first over the cells of all ranks *)
Theorem C92_windows pick le (ranks : list (arr2 R)) wx wy : stands_for pick le -> ranks <> [] -> (forall a, In a ranks -> has_shape a wx wy) -> 1 <= wx -> 1 <= wy ->
  exists v, reduce_global pick ranks = Some v /\ first_of le (fun x => exists a i j, In a ranks /\ 3 <= i < wx + 3 /\ 3 <= j < wy + 3 /\ x = at2 a i j) v.
Proof.
  intros S N SH X Y. unfold reduce_global. destruct (ranks_first pick le S ranks wx wy SH X Y) as (vs & -> & L & P & Q). cbn [bind].
  destruct vs as [|x vs]; [destruct ranks; [congruence|discriminate]|]. eexists. split; [reflexivity|].
  destruct (reduce_first pick le S vs x) as (A & B). split; [apply P; exact A|].
  intros y (a & i & j & HA & I & J & ->). destruct (Q a i j HA I J) as (w & W & LE). eapply (le_trans pick le S); [apply B; exact W|exact LE].
Qed.
Print Assumptions C92_windows.

(** The rank arrays of a quantity with one value per cell (or per lower left corner of a cell) of the six tiles *)
Definition rank_arrays (lx ly : Z) (arrays : Z -> Z -> Z -> arr2 R) : list (arr2 R) :=
  map (fun r => arrays (tile_of lx ly r) (row_of lx ly r) (col_of lx ly r)) (zrange 0 (6 * (ly * lx))).
Lemma ranks_cover lx ly arrays t row col : 1 <= lx -> 1 <= ly -> 0 <= t < 6 -> 0 <= row < ly -> 0 <= col < lx -> In (arrays t row col) (rank_arrays lx ly arrays).
Proof.
  intros X Y T RR C. apply in_map_iff. exists (t * (ly * lx) + (row * lx + col)). assert (B : 0 <= row * lx + col < ly * lx) by nia.
  split; [|apply in_zrange; nia].
  assert (E1 : (t * (ly * lx) + (row * lx + col)) / (ly * lx) = t) by (symmetry; apply (Z.div_unique _ _ _ (row * lx + col)); [left; lia|ring]).
  assert (E2 : (t * (ly * lx) + (row * lx + col)) mod (ly * lx) = row * lx + col) by (symmetry; apply (Z.mod_unique _ _ t); [left; lia|ring]).
  unfold tile_of, row_of, col_of. rewrite E1, E2.
  assert (E3 : (row * lx + col) / lx = row) by (symmetry; apply (Z.div_unique _ _ _ col); [left; lia|ring]).
  assert (E4 : (row * lx + col) mod lx = col) by (symmetry; apply (Z.mod_unique _ _ row); [left; lia|ring]). now rewrite E3, E4.
Qed.
Lemma ranks_only lx ly arrays a : 1 <= lx -> 1 <= ly -> In a (rank_arrays lx ly arrays) ->
  exists t row col, 0 <= t < 6 /\ 0 <= row < ly /\ 0 <= col < lx /\ a = arrays t row col.
Proof.
  intros X Y H. apply in_map_iff in H as (r & <- & R). apply in_zrange in R. exists (tile_of lx ly r), (row_of lx ly r), (col_of lx ly r). unfold tile_of, row_of, col_of.
  assert (P : 0 < ly * lx) by nia. pose proof (Z.mod_pos_bound r _ P). pose proof (Z.mod_pos_bound (r mod (ly * lx)) lx ltac:(lia)).
  split; [|split; [|split; [lia|reflexivity]]].
  - split; [apply Z.div_pos; lia|apply Z.div_lt_upper_bound; lia].
  - split; [apply Z.div_pos; lia|apply Z.div_lt_upper_bound; lia].
Qed.
Theorem C92_cells pick le lx ly wx wy (arrays : Z -> Z -> Z -> arr2 R) (cell : Z -> Z -> Z -> R) : stands_for pick le -> 1 <= lx -> 1 <= ly -> 1 <= wx -> 1 <= wy ->
  (forall t row col, 0 <= t < 6 -> 0 <= row < ly -> 0 <= col < lx -> has_shape (arrays t row col) wx wy) ->
  (forall t row col a b, 0 <= t < 6 -> 0 <= row < ly -> 0 <= col < lx -> 0 <= a < wx -> 0 <= b < wy -> at2 (arrays t row col) (3 + a) (3 + b) = cell t (col * wx + a) (row * wy + b)) ->
  exists v, reduce_global pick (rank_arrays lx ly arrays) = Some v /\
    first_of le (fun x => exists t I J, 0 <= t < 6 /\ 0 <= I < lx * wx /\ 0 <= J < ly * wy /\ x = cell t I J) v.
Proof.
  intros S LX LY WX WY SH CE.
  destruct (C92_windows pick le (rank_arrays lx ly arrays) wx wy S) as (v & E & A & B); [| |exact WX|exact WY|].
  - intro N. pose proof (ranks_cover lx ly arrays 0 0 0 LX LY ltac:(lia) ltac:(lia) ltac:(lia)) as H. rewrite N in H. destruct H.
  - intros a HA. destruct (ranks_only _ _ _ _ LX LY HA) as (t & row & col & T & RR & C & ->). now apply SH.
  - exists v. split; [exact E|]. split.
    + destruct A as (a & i & j & HA & I & J & ->). destruct (ranks_only _ _ _ _ LX LY HA) as (t & row & col & T & RR & C & ->).
      exists t, (col * wx + (i - 3)), (row * wy + (j - 3)). split; [exact T|]. split; [nia|]. split; [nia|]. rewrite <- CE by lia. f_equal; ring.
    + intros x (t & I & J & T & HI & HJ & ->). apply B. exists (arrays t (J / wy) (I / wx)), (3 + I mod wx), (3 + J mod wy).
      pose proof (Z.mod_pos_bound I wx ltac:(lia)). pose proof (Z.mod_pos_bound J wy ltac:(lia)).
      assert (QI : 0 <= I / wx < lx) by (split; [apply Z.div_pos; lia|apply Z.div_lt_upper_bound; lia]).
      assert (QJ : 0 <= J / wy < ly) by (split; [apply Z.div_pos; lia|apply Z.div_lt_upper_bound; lia]).
      split; [now apply ranks_cover|]. split; [lia|]. split; [lia|]. rewrite CE by assumption.
      rewrite (Z.mul_comm (I / wx)), (Z.mul_comm (J / wy)), <- !Z.div_mod by lia. reflexivity.
Qed.
Print Assumptions C92_cells.

(** ** the corners of the cube's grid *)
(** every corner of a cell is the lower left corner of some cell of some tile, but for two corners of the cube *)
Ltac fin E := split; [lia|]; split; [lia|]; split; [lia|]; cbn [PartSpec.nrm PartSpec.ax PartSpec.ay PartSpec.vscale PartSpec.vadd]; apply E; lia.
Lemma corner_covered n t I J : 1 <= n -> 0 <= t < 6 -> 0 <= I <= n -> 0 <= J <= n ->
  (exists t' I' J', 0 <= t' < 6 /\ 0 <= I' < n /\ 0 <= J' < n /\ cube_point n t' I' J' = cube_point n t I J) \/
  cube_point n t I J = (n, - n, n) \/ cube_point n t I J = (- n, n, - n).
Proof.
  intros N T HI HJ. assert (TT : t = 0 \/ t = 1 \/ t = 2 \/ t = 3 \/ t = 4 \/ t = 5) by lia.
  assert (E : forall a b c a' b' c' : Z, a = a' -> b = b' -> c = c' -> (a, b, c) = (a', b', c')) by congruence.
  destruct (Z_lt_le_dec I n) as [LI | LI], (Z_lt_le_dec J n) as [LJ | LJ].
  1: left; exists t, I, J; split; [exact T|]; split; [lia|]; split; [lia|]; reflexivity.
  all: unfold cube_point, PartSpec.surface; destruct TT as [-> | [-> | [-> | [-> | [-> | ->]]]]].
  all: cbn [PartSpec.nrm PartSpec.ax PartSpec.ay PartSpec.vscale PartSpec.vadd].
  (* upper edge *)
  - destruct (Z.eq_dec I 0); [right; left; apply E; lia|]. left. exists 2, 0, (n - I). fin E.
  - left. exists 2, I, 0. fin E.
  - destruct (Z.eq_dec I 0); [right; left; apply E; lia|]. left. exists 4, 0, (n - I). fin E.
  - left. exists 4, I, 0. fin E.
  - destruct (Z.eq_dec I 0); [right; left; apply E; lia|]. left. exists 0, 0, (n - I). fin E.
  - left. exists 0, I, 0. fin E.
  (* right edge *)
  - left. exists 1, 0, J. fin E.
  - destruct (Z.eq_dec J 0); [right; right; apply E; lia|]. left. exists 3, (n - J), 0. fin E.
  - left. exists 3, 0, J. fin E.
  - destruct (Z.eq_dec J 0); [right; right; apply E; lia|]. left. exists 5, (n - J), 0. fin E.
  - left. exists 5, 0, J. fin E.
  - destruct (Z.eq_dec J 0); [right; right; apply E; lia|]. left. exists 1, (n - J), 0. fin E.
  (* both *)
  - left. exists 2, 0, 0. fin E.
  - left. exists 3, 0, 0. fin E.
  - left. exists 4, 0, 0. fin E.
  - left. exists 5, 0, 0. fin E.
  - left. exists 0, 0, 0. fin E.
  - left. exists 1, 0, 0. fin E.
Qed.
Lemma never_covered n t I J : 1 <= n -> 0 <= t < 6 -> 0 <= I < n -> 0 <= J < n -> cube_point n t I J <> (n, - n, n) /\ cube_point n t I J <> (- n, n, - n).
Proof.
  intros N T HI HJ. assert (TT : t = 0 \/ t = 1 \/ t = 2 \/ t = 3 \/ t = 4 \/ t = 5) by lia. unfold cube_point, PartSpec.surface.
  destruct TT as [-> | [-> | [-> | [-> | [-> | ->]]]]]; cbn [PartSpec.nrm PartSpec.ax PartSpec.ay PartSpec.vscale PartSpec.vadd]; split; intros E; pose proof (f_equal (fun p => fst (fst p)) E) as X1; pose proof (f_equal (fun p => snd (fst p)) E) as X2; pose proof (f_equal snd E) as X3; cbn [fst snd] in X1, X2, X3; lia.
Qed.

(** With one value per corner of the grid (the ranks of all tiles have the same at a corner they share), the result is the first of the values
    at all corners other than two corners of the cube. *)
Theorem C92_corners_partial pick le lx ly wx wy (arrays : Z -> Z -> Z -> arr2 R) (value : Z * Z * Z -> R) : stands_for pick le -> 1 <= lx -> 1 <= ly -> 1 <= wx -> 1 <= wy -> lx * wx = ly * wy ->
  let n := lx * wx in
  (forall t row col, 0 <= t < 6 -> 0 <= row < ly -> 0 <= col < lx -> has_shape (arrays t row col) wx wy) ->
  (forall t row col i j, 0 <= t < 6 -> 0 <= row < ly -> 0 <= col < lx -> at_corner wx wy i j -> at2 (arrays t row col) i j = value (cube_point n t (col * wx + (i - 3)) (row * wy + (j - 3)))) ->
  exists v, reduce_global pick (rank_arrays lx ly arrays) = Some v /\
    first_of le (fun x => exists t I J, 0 <= t < 6 /\ 0 <= I <= n /\ 0 <= J <= n /\ cube_point n t I J <> (n, - n, n) /\ cube_point n t I J <> (- n, n, - n) /\ x = value (cube_point n t I J)) v.
Proof.
  intros S LX LY WX WY SQ n SH V. assert (N : 1 <= n) by (unfold n; nia).
  destruct (C92_cells pick le lx ly wx wy arrays (fun t I J => value (cube_point n t I J)) S LX LY WX WY SH) as (v & E & A & B).
  { intros t row col a b T RR C HA HB. rewrite V by (try assumption; split; lia). do 2 f_equal; ring. }
  exists v. split; [exact E|]. split.
  - destruct A as (t & I & J & T & HI & HJ & ->). exists t, I, J. fold n in HI. rewrite <- SQ in HJ. fold n in HJ. destruct (never_covered n t I J N T HI HJ). repeat split; auto; lia.
  - intros x (t & I & J & T & HI & HJ & N1 & N2 & ->). destruct (corner_covered n t I J N T HI HJ) as [(t' & I' & J' & T' & HI' & HJ' & <-) | [H | H]]; [|contradiction|contradiction].
    apply B. exists t', I', J'. fold n. rewrite <- SQ. fold n. auto.
Qed.
Print Assumptions C92_corners_partial.

(** The areas at those two corners are never looked at: a least area of the C-grid that is not the least. *)
Theorem C92_corners_refuted : exists (arrays : Z -> Z -> Z -> arr2 R) (value : Z * Z * Z -> R) v,
  (forall t row col, 0 <= t < 6 -> 0 <= row < 1 -> 0 <= col < 1 -> has_shape (arrays t row col) 2 2) /\
  (forall t row col i j, 0 <= t < 6 -> 0 <= row < 1 -> 0 <= col < 1 -> at_corner 2 2 i j -> at2 (arrays t row col) i j = value (cube_point 2 t (col * 2 + (i - 3)) (row * 2 + (j - 3)))) /\
  reduce_global Rmin (rank_arrays 1 1 arrays) = Some v /\ exists t I J, 0 <= t < 6 /\ 0 <= I <= 2 /\ 0 <= J <= 2 /\ (value (cube_point 2 t I J) < v)%R.
Proof.
  set (value := fun p : Z * Z * Z => let '(x, y, z) := p in if (x =? 2) && (y =? -2) && (z =? 2) then 1%R else 2%R).
  set (arrays := fun t row col => mkArr2 9 9 (fun i j => value (cube_point 2 t (col * 2 + (i - 3)) (row * 2 + (j - 3))))).
  assert (SH : forall t row col, 0 <= t < 6 -> 0 <= row < 1 -> 0 <= col < 1 -> has_shape (arrays t row col) 2 2) by (intros; split; reflexivity).
  assert (V : forall t row col i j, 0 <= t < 6 -> 0 <= row < 1 -> 0 <= col < 1 -> at_corner 2 2 i j -> at2 (arrays t row col) i j = value (cube_point 2 t (col * 2 + (i - 3)) (row * 2 + (j - 3)))) by reflexivity.
  destruct (C92_corners_partial Rmin Rle 1 1 2 2 arrays value ltac:(left; auto) ltac:(lia) ltac:(lia) ltac:(lia) ltac:(lia) eq_refl SH V) as (v & E & (t & I & J & T & HI & HJ & N1 & N2 & EV) & _).
  exists arrays, value, v. split; [exact SH|]. split; [exact V|]. split; [exact E|]. exists 0, 0, 2. split; [lia|]. split; [lia|]. split; [lia|].
  replace (value (cube_point 2 0 0 2)) with 1%R by reflexivity. rewrite EV. change (1 * 2) with 2 in *. unfold value. destruct (cube_point 2 t I J) as [[x y] z].
  destruct (Z.eqb_spec x 2), (Z.eqb_spec y (-2)), (Z.eqb_spec z 2); cbn [andb]; try lra. exfalso. apply N1. subst. reflexivity.
Qed.
Print Assumptions C92_corners_refuted.

Example C92_case : stands_for Rmin Rle /\ stands_for Rmax Rge /\ cube_point 4 0 4 4 = cube_point 4 2 0 0 /\ cube_point 4 0 0 4 = (4, -4, 4) /\
  (forall t I J, 0 <= t < 6 -> 0 <= I < 4 -> 0 <= J < 4 -> cube_point 4 t I J <> cube_point 4 0 0 4).
Proof.
  split; [left; auto|]. split; [right; auto|]. split; [reflexivity|]. split; [reflexivity|]. intros t I J T HI HJ. apply (never_covered 4 t I J); lia.
Qed.
