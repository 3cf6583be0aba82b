(** C109: pcolormesh_cube draws every cell with a value exactly once, and no cell around the back of the map. *)
From Coq Require Import Reals Lra.
From Verif Require Import Base Dict PlotModel PlotProofs.
Open Scope Z_scope.

(** C109, first part.  For arrays of any size and any pattern of NaN there are rectangular parts, which together have each cell without NaN exactly once and no cell with NaN; and
    whatever corners and values with this pattern _segment_plot_inputs is given, it yields exactly the corners and the values of these parts, in this order. *)
Theorem C109_segments (nan : Z -> Z -> bool) n m : 0 <= n -> 0 <= m ->
  exists ws, covers nan n m ws /\
    forall X Y V (x : arr X) (y : arr Y) (v : arr (option V)), nr v = n -> nc v = m -> nr x = n + 1 -> nc x = m + 1 -> nr y = n + 1 -> nc y = m + 1 ->
      (forall i j, 0 <= i < n -> 0 <= j < m -> is_nan v i j = nan i j) -> segment_plot_inputs x y v = Some (map (fun w => (corners x w, corners y w, cells v w)) ws).
Proof.
  intros N M. destruct (covers_ok nan n m N M) as (ws & E & C). exists ws. split; [exact C|]. intros X Y V x y v V1 V2 X1 X2 Y1 Y2 P.
  rewrite (segments_windows x y v nan n m) by assumption. now rewrite E.
Qed.
Print Assumptions C109_segments.
(** a 3 x 3 array with NaN in the middle: four parts *)
Example C109_case_segments : exists a b c d, segment_plot_inputs (Arr 4 4 (fun i j => (i, j))) (Arr 4 4 (fun i j => (i, j))) (Arr 3 3 (fun i j => if (i =? 1) && (j =? 1) then None else Some (10 * i + j))) = Some [a; b; c; d]
  /\ map (fun s : arr (Z * Z) * arr (Z * Z) * arr (option Z) => (nr (snd s), nc (snd s), at_ (fst (fst s)) 0 0)) [a; b; c; d] = [(3, 1, (0, 0)); (1, 1, (0, 1)); (1, 1, (2, 1)); (3, 1, (0, 2))].
Proof. vm_compute. eexists _, _, _, _. split; reflexivity. Qed.

(** ** the mask *)
Lemma antimeridian_bounds c : (0 <= antimeridian c < 360)%R.
Proof. unfold antimeridian. destruct (base_Int_part ((c + 180) / 360)) as [A B]. split; lra. Qed.
(** e = how far x is to the west of the eastern edge of the map *)
Lemma sides c x : (0 <= x < 360)%R -> x <> antimeridian c ->
  let a := antimeridian c in let e := (a - centred c x)%R in
  (0 < e < 360)%R /\ ((periodic_le x a = true /\ periodic_gt x a = false /\ (e <= 180)%R /\ (periodic_difference x a < 90)%R)
                  \/ (periodic_le x a = false /\ periodic_gt x a = true /\ (180 <= e)%R /\ ((periodic_difference x a < 90)%R <-> (270 < e)%R))).
Proof.
  intros X N. cbv zeta. pose proof (antimeridian_bounds c) as A. unfold centred, periodic_le, periodic_gt, periodic_difference. set (a := antimeridian c) in *.
  destruct (Rlt_dec x a) as [L|L].
  - split; [lra|]. rewrite Rabs_left by lra. repeat destruct (Rle_dec _ _); repeat destruct (Rlt_dec _ _); lra.
  - split; [lra|]. assert (a < x)%R by lra. rewrite Rabs_right by lra. repeat destruct (Rle_dec _ _); repeat destruct (Rlt_dec _ _); lra.
Qed.
Lemma centred_bounds c x : (0 <= x < 360)%R -> (centred c x = x \/ centred c x = x - 360)%R.
Proof. intros X. unfold centred. destruct (Rlt_dec _ _); auto. Qed.
Lemma apart c x y : (0 <= x < 360)%R -> (0 <= y < 360)%R -> x <> antimeridian c -> y <> antimeridian c -> (Rabs (x - y) < 90 \/ 270 < Rabs (x - y))%R ->
  let d := (centred c x - centred c y)%R in (-90 < d < 90 \/ 270 < d \/ d < -270)%R.
Proof.
  intros X Y Nx Ny H. cbv zeta. destruct (sides c x X Nx) as [Ex _], (sides c y Y Ny) as [Ey _]. cbv zeta in Ex, Ey.
  destruct (centred_bounds c x X) as [E|E], (centred_bounds c y Y) as [F|F]; rewrite E in *; rewrite F in *; revert H; unfold Rabs; destruct (Rcase_abs _); lra.
Qed.
Lemma forallb_not {A} (f : A -> bool) l : forallb f l = false -> exists x, In x l /\ f x = false.
Proof. induction l as [|y l IH]; cbn; [discriminate|]. destruct (f y) eqn:E; cbn; [|eauto]. intros H. destruct (IH H) as (x & I & F). eauto. Qed.

(** C109, second part.  A cell no wider than 90 degrees, with longitudes in [0, 360) and no corner on the antimeridian itself, is kept exactly if its corners stay next to each other when
    the longitudes are centred, so that no cell is stretched over the map, and no other is lost. *)
Theorem C109_mask_partial central v : narrow v -> ~ In (antimeridian central) v -> kept (antimeridian central) v = true <-> contiguous central v.
Proof.
  intros N A. assert (Sd : forall x, In x v -> (0 <= x < 360)%R /\ x <> antimeridian central). { intros x I. split; [apply (N x x I I)|]. intros ->. now apply A. }
  unfold kept. split.
  - intros K x y Ix Iy. destruct (Sd x Ix) as [X1 X2], (Sd y Iy) as [Y1 Y2]. destruct (N x y Ix Iy) as (_ & _ & H).
    assert (Key : forall x y, In x v -> In y v -> (270 < centred central x - centred central y)%R -> False).
    { clear x y Ix Iy X1 X2 Y1 Y2 H. intros y x Iy Ix D. destruct (Sd x Ix) as [X1 X2], (Sd y Iy) as [Y1 Y2].
      (* x far in the west, y far in the east *)
      destruct (sides central x X1 X2) as [Ex [Lx|Gx]], (sides central y Y1 Y2) as [Ey [Ly|Gy]]; cbv zeta in *; try lra.
      apply negb_true_iff in K. assert (P : forallb (fun x => periodic_le x (antimeridian central)) v = false). { apply not_true_iff_false. intros Q. rewrite forallb_forall in Q. rewrite (Q x Ix) in Gx. now destruct Gx. }
      assert (P' : forallb (fun x => periodic_gt x (antimeridian central)) v = false). { apply not_true_iff_false. intros Q. rewrite forallb_forall in Q. rewrite (Q y Iy) in Ly. now destruct Ly as (_ & ? & _). }
      rewrite P, P' in K. cbn [negb andb] in K. apply forallb_not in K as (z & Iz & Kz). destruct (Rlt_dec (periodic_difference z (antimeridian central)) 90) as [|Nz]; [discriminate|].
      destruct (Sd z Iz) as [Z1 Z2]. destruct (N z y Iz Iy) as (_ & _ & Hz). pose proof (apart central z y Z1 Y1 Z2 Y2 Hz) as Az. cbv zeta in Az.
      destruct (sides central z Z1 Z2) as [Ez [Lz|Gz]]; cbv zeta in *; [lra|]. destruct Gz as (_ & _ & Gz & Gi). assert (~ (270 < (antimeridian central) - centred central z)%R) by (intros Q; apply Nz; now apply Gi). lra. }
    pose proof (apart central x y X1 Y1 X2 Y2 H) as D. cbv zeta in D. destruct D as [D|[D|D]]; [apply Rabs_def1; lra|exfalso; exact (Key x y Ix Iy D)|exfalso; apply (Key y x Iy Ix); lra].
  - intros C. apply negb_true_iff. apply not_true_iff_false. rewrite !andb_true_iff, !negb_true_iff. intros [[P P'] Q].
    apply forallb_not in P as (x & Ix & Px). apply forallb_not in P' as (y & Iy & Py). rewrite forallb_forall in Q.
    destruct (Sd x Ix) as [X1 X2], (Sd y Iy) as [Y1 Y2]. pose proof (C x y Ix Iy) as D. apply Rabs_def2 in D.
    destruct (sides central x X1 X2) as [Ex [Lx|Gx]]; cbv zeta in *; [destruct Lx; congruence|]. destruct (sides central y Y1 Y2) as [Ey [Ly|Gy]]; cbv zeta in *; [|destruct Gy as (_ & ? & _); congruence].
    specialize (Q x Ix). destruct (Rlt_dec (periodic_difference x (antimeridian central)) 90) as [R|]; [|discriminate]. destruct Gx as (_ & _ & _ & Gi). apply Gi in R. lra.
Qed.
Print Assumptions C109_mask_partial.
Lemma anti0 : antimeridian 0 = 180%R.
Proof.
  unfold antimeridian. replace (Int_part ((0 + 180) / 360)) with 0; [lra|]. apply eq_sym. unfold Int_part. assert (E : up ((0 + 180) / 360) = 1).
  { symmetry. apply tech_up; lra. } rewrite E. reflexivity.
Qed.
(** a cell next to the antimeridian, and one across it *)
Example C109_case_mask : narrow [170; 175; 170; 175]%R /\ contiguous 0 [170; 175; 170; 175]%R /\ narrow [175; 185; 175; 185]%R /\ ~ contiguous 0 [175; 185; 175; 185]%R.
Proof.
  assert (Nr : forall p q, (0 <= p < 360)%R -> (0 <= q < 360)%R -> (Rabs (p - q) < 90)%R -> narrow [p; q; p; q]).
  { intros p q P Q D x y Ix Iy. cbn in Ix, Iy. assert (D' : (Rabs (q - p) < 90)%R) by (rewrite Rabs_minus_sym; exact D). assert (D0 : forall r, (Rabs (r - r) < 90)%R) by (intros r; replace (r - r)%R with 0%R by lra; rewrite Rabs_R0; lra).
    destruct Ix as [<-|[<-|[<-|[<-|[]]]]], Iy as [<-|[<-|[<-|[<-|[]]]]]; auto. }
  split; [apply Nr; try lra; apply Rabs_def1; lra|]. split; [|split; [apply Nr; try lra; apply Rabs_def1; lra|]].
  - intros x y Ix Iy. unfold centred. rewrite anti0. apply Rabs_def1; cbn in Ix, Iy; destruct Ix as [<-|[<-|[<-|[<-|[]]]]], Iy as [<-|[<-|[<-|[<-|[]]]]]; repeat destruct (Rlt_dec _ _); lra.
  - intros C. specialize (C 175%R 185%R ltac:(cbn; auto) ltac:(cbn; auto)). apply Rabs_def2 in C. revert C. unfold centred. rewrite anti0. repeat destruct (Rlt_dec _ _); lra.
Qed.

(** The full statement says this of every narrow cell.  A corner on the antimeridian counts as west of it in the mask, and as east of it when the longitudes are centred: the cell from 179
    to 180 degrees is kept, and drawn from 179 to -180 degrees, across the whole map. *)
Theorem C109_on_the_antimeridian_refuted : exists central v, narrow v /\ length v = 4%nat /\ kept (antimeridian central) v = true /\ ~ contiguous central v.
Proof.
  exists 0%R, [179; 180; 179; 180]%R. split; [|split; [reflexivity|split]].
  - intros x y Ix Iy. cbn in Ix, Iy. destruct Ix as [<-|[<-|[<-|[<-|[]]]]], Iy as [<-|[<-|[<-|[<-|[]]]]]; repeat split; try lra; left; apply Rabs_def1; lra.
  - rewrite anti0. assert (L1 : periodic_le 179 180 = true). { unfold periodic_le. rewrite Rabs_left by lra. repeat destruct (Rle_dec _ _); try reflexivity; lra. }
    assert (L2 : periodic_le 180 180 = true). { unfold periodic_le. replace (180 - 180)%R with 0%R by lra. rewrite Rabs_R0. repeat destruct (Rle_dec _ _); try reflexivity; lra. }
    unfold kept. cbn [forallb]. rewrite L1, L2. reflexivity.
  - intros C. specialize (C 179%R 180%R ltac:(cbn; auto) ltac:(cbn; auto)). apply Rabs_def2 in C. revert C. unfold centred. rewrite anti0. repeat destruct (Rlt_dec _ _); lra.
Qed.
Print Assumptions C109_on_the_antimeridian_refuted.
(** Nor does it hold for longitudes from -180 to 180 degrees: with the map centred on 90 degrees, a cell from 179 to -179 degrees is kept, and drawn across the map. *)
Lemma anti90 : antimeridian 90 = 270%R.
Proof.
  unfold antimeridian. replace (Int_part ((90 + 180) / 360)) with 0; [lra|]. apply eq_sym. unfold Int_part. assert (E : up ((90 + 180) / 360) = 1).
  { symmetry. apply tech_up; lra. } rewrite E. reflexivity.
Qed.
Theorem C109_signed_longitudes_refuted : exists central v, (forall x y, In x v -> In y v -> (-180 <= x < 180 /\ (Rabs (x - y) < 90 \/ 270 < Rabs (x - y)))%R) /\ length v = 4%nat
  /\ ~ In (antimeridian central - 360)%R v /\ kept (antimeridian central) v = true /\ ~ contiguous central v.
Proof.
  exists 90%R, [179; -179; 179; -179]%R. split; [|split; [reflexivity|split; [|split]]].
  - intros x y Ix Iy. cbn in Ix, Iy. destruct Ix as [<-|[<-|[<-|[<-|[]]]]], Iy as [<-|[<-|[<-|[<-|[]]]]]; (split; [lra|]); unfold Rabs; destruct (Rcase_abs _); lra.
  - rewrite anti90. cbn. lra.
  - rewrite anti90. assert (L1 : periodic_le 179 270 = true). { unfold periodic_le. rewrite Rabs_left by lra. repeat destruct (Rle_dec _ _); try reflexivity; lra. }
    assert (L2 : periodic_le (-179) 270 = true). { unfold periodic_le. rewrite Rabs_left by lra. repeat destruct (Rle_dec _ _); try reflexivity; lra. }
    unfold kept. cbn [forallb]. rewrite L1, L2. reflexivity.
  - intros C. specialize (C 179%R (-179)%R ltac:(cbn; auto) ltac:(cbn; auto)). apply Rabs_def2 in C. revert C. unfold centred. rewrite anti90. repeat destruct (Rlt_dec _ _); lra.
Qed.
Print Assumptions C109_signed_longitudes_refuted.

(** ** all tiles *)
Fixpoint cut {V} (central : R) (k : nat) (tiles : list (tile V)) : option (list (list window)) :=
  match tiles with
  | [] => Some []
  | t :: l => do ws <- segw (Z.to_nat (2 * (nr (snd t) + nc (snd t)) + 2)) (left_out central k t) (whole (nr (snd t)) (nc (snd t))); do r <- cut central (S k) l; Some (ws :: r)
  end.
Definition piece {V} (central : R) (centre : R -> R) (k : nat) (t : tile V) (w : window) : arr R * arr R * arr (option V) :=
  let '(lat, lon, m) := t in (corners (map_arr centre lon) w, corners lat w, cells (masked central k lon m) w).
Fixpoint pieces {V} (central : R) (centre : R -> R) (k : nat) (tiles : list (tile V)) (wss : list (list window)) : list (list (arr R * arr R * arr (option V))) :=
  match tiles, wss with t :: l, ws :: r => map (piece central centre k t) ws :: pieces central centre (S k) l r | _, _ => [] end.
Lemma nan_masked {V} central k lat lon (m : arr (option V)) i j : is_nan (masked central k lon m) i j = left_out central k (lat, lon, m) i j.
Proof. unfold is_nan, masked, left_out, is_nan. cbn [at_]. destruct (k <? 6)%nat, (kept _ _), (at_ m i j); reflexivity. Qed.
Lemma apply_cut {V} central centre (tiles : list (tile V)) : Forall sized tiles -> forall k, apply_segments central centre k tiles = option_map (fun wss => concat (pieces central centre k tiles wss)) (cut central k tiles).
Proof.
  induction 1 as [|[[lat lon] m] l (N & M & A & B & C & D) F IH]; intros k; [reflexivity|]. cbn [apply_segments cut snd].
  rewrite (segments_windows (map_arr centre lon) lat (masked central k lon m) (left_out central k (lat, lon, m)) (nr m) (nc m)); try assumption; try reflexivity.
  2:{ intros i j _ _. apply nan_masked. }
  destruct (segw _ _ _) as [ws|]; cbn [option_map bind]; [|reflexivity]. rewrite IH. destruct (cut central (S k) l) as [r|]; reflexivity.
Qed.
Lemma cut_ok {V} central (tiles : list (tile V)) : Forall sized tiles -> forall k, exists wss, cut central k tiles = Some wss /\ length wss = length tiles /\
  forall i t ws, nth_error tiles i = Some t -> nth_error wss i = Some ws -> covers (left_out central (k + i) t) (nr (snd t)) (nc (snd t)) ws.
Proof.
  induction 1 as [|t l St F IH]; intros k; [exists []; split; [reflexivity|]; split; [reflexivity|intros [|i]; discriminate]|]. cbn [cut].
  assert (0 <= nr (snd t) /\ 0 <= nc (snd t)) as [N M] by (destruct t as [[lat lon] m]; cbn in *; lia).
  destruct (covers_ok (left_out central k t) (nr (snd t)) (nc (snd t)) N M) as (ws & E & C). destruct (IH (S k)) as (r & Er & Lr & Cr).
  exists (ws :: r). rewrite E, Er. split; [reflexivity|]. split; [cbn; now rewrite Lr|]. intros [|i] t' ws' T' W'; cbn in T', W'.
  - injection T' as <-. injection W' as <-. rewrite Nat.add_0_r. exact C.
  - rewrite <- Nat.add_succ_comm. exact (Cr i t' ws' T' W').
Qed.
Lemma pieces_nth {V} central centre (tiles : list (tile V)) : forall wss k i t ws, nth_error tiles i = Some t -> nth_error wss i = Some ws ->
  nth_error (pieces central centre k tiles wss) i = Some (map (piece central centre (k + i) t) ws).
Proof.
  induction tiles as [|t0 l IH]; intros wss k i t ws T' W'; [destruct i; discriminate|]. destruct wss as [|w0 r]; [destruct i; discriminate|]. destruct i as [|i]; cbn in *.
  - injection T' as <-. injection W' as <-. now rewrite Nat.add_0_r.
  - rewrite <- Nat.add_succ_comm. now apply IH.
Qed.
Lemma pieces_length {V} central centre (tiles : list (tile V)) : forall wss k, length wss = length tiles -> length (pieces central centre k tiles wss) = length tiles.
Proof. induction tiles as [|t0 l IH]; intros [|w0 r] k L; cbn in *; try discriminate; [reflexivity|]. f_equal. apply IH. lia. Qed.
Lemma piece_shows {V} central k (t : tile V) n m ws w : n = nr (snd t) -> m = nc (snd t) -> covers (left_out central k t) n m ws -> In w ws -> shows central t w (piece central (centred central) k t w).
Proof.
  intros -> -> C I. destruct t as [[lat lon] v]. cbn [shows piece fst snd]. split; [repeat split|]. split; [repeat split|]. split; [reflexivity|]. split; [reflexivity|].
  intros i j Hi Hj. cbn [cells nr nc at_ masked] in *. destruct (place w i j) as [a b] eqn:P. cbn [fst snd].
  destruct (c_sound _ _ _ _ C w a b I) as (_ & _ & Q); [exists i, j; auto|]. cbn [left_out] in Q. apply orb_false_iff in Q as [_ Q]. destruct (k <? 6)%nat; [|reflexivity]. cbn in Q. apply negb_false_iff in Q. now rewrite Q.
Qed.
Lemma map_F2 {A B} (f : A -> B) (P : A -> B -> Prop) l : (forall a, In a l -> P a (f a)) -> Forall2 P l (map f l).
Proof. induction l as [|a l IH]; intros H; constructor; [apply H; now left|apply IH; intros b I; apply H; now right]. Qed.

(** C109, third part.  The drawing of six or more tiles is made of the drawings of the tiles one after the other; each draws rectangular parts of the tile, with their own corners (longitudes
    centred) and their own values, which together have each cell that is not left out exactly once. *)
Theorem C109_drawn {V} central (tiles : list (tile V)) : (6 <= length tiles)%nat -> Forall sized tiles ->
  exists drawings, all_handles central tiles = Some (concat drawings) /\ length drawings = length tiles /\
    forall k t, nth_error tiles k = Some t -> exists ws ds, nth_error drawings k = Some ds /\ covers (left_out central k t) (nr (snd t)) (nc (snd t)) ws /\ Forall2 (shows central t) ws ds.
Proof.
  intros L F. destruct (cut_ok central tiles F 0) as (wss & E & Lw & C). exists (pieces central (centred central) 0 tiles wss). unfold all_handles. destruct (Nat.ltb_spec (length tiles) 6); [lia|].
  rewrite apply_cut, E by exact F. split; [reflexivity|]. split; [now apply pieces_length|]. intros k t T'. destruct (nth_error wss k) as [ws|] eqn:W'.
  2:{ apply nth_error_None in W'. apply nth_error_Some in T' as Lt || (assert (k < length tiles)%nat by (apply nth_error_Some; congruence)); lia. }
  specialize (C k t ws T' W'). exists ws, (map (piece central (centred central) k t) ws). split; [exact (pieces_nth central (centred central) tiles wss 0 k t ws T' W')|]. split; [exact C|].
  apply map_F2. intros w I. exact (piece_shows central k t _ _ ws w eq_refl eq_refl C I).
Qed.
Print Assumptions C109_drawn.
(** What is left out of one of the first six tiles: cells without a value, and cells that would be stretched over the map. *)
Definition corner {A} (lon : arr A) (i j : Z) (x : A) : Prop := exists p q, (p = i \/ p = i + 1) /\ (q = j \/ q = j + 1) /\ x = at_ lon p q.
Theorem C109_left_out_partial {V} central k lat lon (m : arr (option V)) i j v : (k < 6)%nat -> (forall x, In x v <-> corner lon i j x) -> narrow v -> ~ In (antimeridian central) v ->
  left_out central k (lat, lon, m) i j = false <-> at_ m i j <> None /\ contiguous central v.
Proof.
  intros K C N0 A0. assert (I : forall x, In x (vertices lon i j) <-> In x v).
  { intros x. rewrite C. unfold vertices, corner. cbn. split.
    - intros [<-|[<-|[<-|[<-|[]]]]]; [exists i, j|exists (i + 1), j|exists i, (j + 1)|exists (i + 1), (j + 1)]; auto 6.
    - intros (p & q & [->| ->] & [->| ->] & ->); tauto. }
  assert (N : narrow (vertices lon i j)). { intros x y X Y. apply N0; now apply I. }
  assert (A : ~ In (antimeridian central) (vertices lon i j)) by now rewrite I.
  assert (contiguous central v <-> contiguous central (vertices lon i j)) as ->. { split; intros H x y X Y; apply H; now apply I. }
  cbn [left_out]. rewrite <- (C109_mask_partial central _ N A). assert ((k <? 6)%nat = true) as -> by (apply Nat.ltb_lt; exact K). unfold is_nan.
  destruct (at_ m i j), (kept _ _); cbn; split; intros H; try discriminate; try (split; congruence); try reflexivity; destruct H; congruence.
Qed.
Print Assumptions C109_left_out_partial.

(** ** update *)
Definition alike {V} (t t' : tile V) : Prop :=
  fst t = fst t' /\ nr (snd t) = nr (snd t') /\ nc (snd t) = nc (snd t') /\ forall i j, 0 <= i < nr (snd t) -> 0 <= j < nc (snd t) -> is_nan (snd t) i j = is_nan (snd t') i j.
Lemma cut_alike {V} central (tiles tiles' : list (tile V)) : Forall2 alike tiles tiles' -> forall k, cut central k tiles = cut central k tiles'.
Proof.
  induction 1 as [|[[lat lon] m] [[lat' lon'] m'] l l' (E & N & M & P) F IH]; intros k; [reflexivity|]. cbn [fst snd] in *. injection E as <- <-. cbn [cut snd]. rewrite IH, N, M.
  rewrite (segw_ext (left_out central k (lat, lon, m)) (left_out central k (lat, lon, m'))); [reflexivity|]. intros i j I J. unfold pat. cbn [whole place fst snd height width left_out] in *. rewrite P by lia. reflexivity.
Qed.
Lemma set_array_same {V} (h new : arr (option V)) : nr h = nr new -> nc h = nc new -> exists a, set_array h new = Some a /\ same a new.
Proof.
  intros N M. unfold set_array. rewrite N, M, Z.eqb_refl. eexists. split; [reflexivity|]. split; [reflexivity|]. split; [reflexivity|]. cbn [nr nc at_]. intros i j I J.
  rewrite Z.div_add_l, (Z.div_small j) by lia. rewrite Z.add_0_r. f_equal. rewrite Z.add_comm, Z.mod_add by lia. apply Z.mod_small. lia.
Qed.
Definition same3 {V} (a b : arr R * arr R * arr (option V)) : Prop := same (fst (fst a)) (fst (fst b)) /\ same (snd (fst a)) (snd (fst b)) /\ same (snd a) (snd b).
Lemma same_refl {A} (x : arr A) : same x x. Proof. repeat split. Qed.
Lemma set_arrays_ok {V} (hs ns : list (arr R * arr R * arr (option V))) new :
  Forall2 (fun h n => fst h = fst n /\ nr (snd h) = nr (snd n) /\ nc (snd h) = nc (snd n)) hs ns -> new = map snd ns -> exists r, set_arrays hs new = Some r /\ Forall2 same3 r ns.
Proof.
  intros F ->. induction F as [|[[x y] o] [[x' y'] m] hs ns (E & N & M) F (r & Er & Fr)]; [exists []; split; [reflexivity|constructor]|]. cbn [fst snd] in *. injection E as <- <-.
  cbn [map snd set_arrays]. destruct (set_array_same o m N M) as (a & Ea & Sa). rewrite Ea, Er. exists ((x, y, a) :: r). split; [reflexivity|]. constructor; [|exact Fr]. split; [apply same_refl|]. split; [apply same_refl|exact Sa].
Qed.

Lemma F2_length {A B} (R : A -> B -> Prop) l l' : Forall2 R l l' -> length l = length l'.
Proof. induction 1; cbn; congruence. Qed.
Lemma sized_alike {V} (tiles tiles' : list (tile V)) : Forall2 alike tiles tiles' -> Forall sized tiles -> Forall sized tiles'.
Proof.
  induction 1 as [|[[lat lon] m] [[lat' lon'] m'] l l' (E & N & M & P) A IH]; intros F; [constructor|]. inversion F as [|? ? S0 F0]; subst. constructor; [|now apply IH].
  cbn in E, N, M, S0 |- *. injection E as <- <-. lia.
Qed.
Lemma pieces_alike {V} central c (tiles tiles' : list (tile V)) : Forall2 alike tiles tiles' -> forall wss k,
  Forall2 (fun h n => fst h = fst n /\ nr (snd h) = nr (snd n) /\ nc (snd h) = nc (snd n)) (concat (pieces central c k tiles wss)) (concat (pieces central c k tiles' wss)).
Proof.
  induction 1 as [|[[lat lon] m] [[lat' lon'] m'] l l' (E & N & M & P) A IH]; intros [|ws r] k; cbn [pieces concat]; try constructor. apply Forall2_app; [|apply IH].
  cbn [fst] in E. injection E as <- <-. induction ws as [|w ws IHw]; cbn [map]; constructor; [|exact IHw]. cbn. auto.
Qed.
Lemma pieces_snd {V} central c c' (tiles : list (tile V)) : forall wss k, map snd (concat (pieces central c k tiles wss)) = map snd (concat (pieces central c' k tiles wss)).
Proof.
  induction tiles as [|[[lat lon] m] l IH]; intros [|ws r] k; cbn [pieces concat]; try reflexivity. rewrite !map_app, (IH r (S k)). f_equal. rewrite !map_map. reflexivity.
Qed.

(** C109, fourth part.  If the new values of an UpdateablePColormesh are NaN exactly where the old ones were, update shows what a new plot of these values would show. *)
Theorem C109_update_partial {V} central (tiles tiles' : list (tile V)) : (6 <= length tiles)%nat -> Forall sized tiles -> Forall2 alike tiles tiles' ->
  exists h h' fresh, all_handles central tiles = Some h /\ update central h tiles' = Some h' /\ all_handles central tiles' = Some fresh /\ Forall2 same3 h' fresh.
Proof.
  intros L F A. pose proof (sized_alike _ _ A F) as F'. assert (L' : (6 <= length tiles')%nat) by (rewrite <- (F2_length _ _ _ A); exact L).
  destruct (cut_ok central tiles F 0) as (wss & E & _). pose proof E as E'. rewrite (cut_alike central tiles tiles' A 0) in E'. unfold all_handles, update.
  destruct (Nat.ltb_spec (length tiles) 6); [lia|]. destruct (Nat.ltb_spec (length tiles') 6); [lia|]. rewrite !apply_cut, E, E' by assumption. cbn [option_map bind].
  destruct (set_arrays_ok _ _ (map snd (concat (pieces central (fun x => x) 0 tiles' wss))) (pieces_alike central (centred central) tiles tiles' A wss 0) (pieces_snd _ _ _ _ _ _)) as (r & Er & Fr).
  eexists _, r, _. split; [reflexivity|]. split; [exact Er|]. split; [reflexivity|exact Fr].
Qed.
Print Assumptions C109_update_partial.

(** tiles of one row of two cells, all corners at longitude 0, and at latitudes 0, 1, 2 *)
Definition small (a b : option Z) : tile Z := (Arr 2 3 (fun _ j => IZR j), Arr 2 3 (fun _ _ => 0%R), Arr 1 2 (fun _ j => if j =? 0 then a else b)).
Definition others : list (tile Z) := repeat (small (Some 1) (Some 2)) 5.
Example C109_case : (6 <= length (small None (Some 5%Z) :: others))%nat /\ Forall sized (small None (Some 5) :: others) /\ Forall2 alike (small None (Some 5) :: others) (small None (Some 7) :: others).
Proof.
  split; [cbn; lia|]. split; [repeat constructor; cbn; lia|]. constructor; [|repeat constructor]. split; [reflexivity|]. split; [reflexivity|]. split; [reflexivity|]. intros i j _ _. unfold is_nan, small. cbn [snd at_]. destruct (j =? 0); reflexivity.
Qed.
Lemma kept0 : kept (antimeridian 0) [0; 0; 0; 0]%R = true.
Proof.
  apply C109_mask_partial.
  - intros x y Ix Iy. cbn in Ix, Iy. assert (x = 0%R) as -> by (destruct Ix as [<-|[<-|[<-|[<-|[]]]]]; reflexivity). assert (y = 0%R) as -> by (destruct Iy as [<-|[<-|[<-|[<-|[]]]]]; reflexivity). repeat split; try lra. left. apply Rabs_def1; lra.
  - rewrite anti0. cbn. lra.
  - intros x y Ix Iy. cbn in Ix, Iy. assert (x = 0%R) as -> by (destruct Ix as [<-|[<-|[<-|[<-|[]]]]]; reflexivity). assert (y = 0%R) as -> by (destruct Iy as [<-|[<-|[<-|[<-|[]]]]]; reflexivity). apply Rabs_def1; lra.
Qed.
Lemma small_cut a b k : segw (Z.to_nat (2 * (nr (snd (small a b)) + nc (snd (small a b))) + 2)) (left_out 0 k (small a b)) (whole (nr (snd (small a b))) (nc (snd (small a b)))) =
  segw 8 (fun _ j => match (if j =? 0 then a else b) with Some _ => false | None => true end) (whole 1 2).
Proof.
  change (Z.to_nat _) with 8%nat. apply (segw_ext _ _ 8 (whole 1 2)). intros i j _ _. unfold pat, left_out, small, is_nan, vertices. cbn [whole place fst snd at_]. rewrite kept0. cbn [negb]. rewrite andb_false_r, orb_false_r. reflexivity.
Qed.
Lemma small_sized l : Forall (fun t => exists a b, t = small a b) l -> Forall sized l.
Proof. induction 1 as [|t l (a & b & ->) F IH]; constructor; [cbn; lia|exact IH]. Qed.
Lemma small_all l : (6 <= length l)%nat -> Forall (fun t => exists a b, t = small a b) l -> all_handles 0 l = option_map (fun wss => concat (pieces 0 (centred 0) 0 l wss)) (cut 0 0 l).
Proof. intros L F. unfold all_handles. destruct (Nat.ltb_spec (length l) 6); [lia|]. apply apply_cut. now apply small_sized. Qed.
Definition right_half : window := Window 1 1 (fun i j => (0 + j, 1 + i)).
Lemma others_small l : Forall (fun t => exists a b, t = small a b) l -> Forall (fun t => exists a b, t = small a b) (l ++ others).
Proof. intros F. apply Forall_app. split; [exact F|]. unfold others. repeat constructor; eexists _, _; reflexivity. Qed.
Lemma others_cut : forall k, exists wss, cut 0 k others = Some wss /\ length wss = 5%nat.
Proof.
  intros k. destruct (cut_ok 0 others) with (k := k) as (wss & E & L & _); [apply small_sized; apply (others_small []); constructor|]. exists wss. split; [exact E|exact L].
Qed.

Lemma cut_cons {V} central k (t : tile V) l : cut central k (t :: l) = do ws <- segw (Z.to_nat (2 * (nr (snd t) + nc (snd t)) + 2)) (left_out central k t) (whole (nr (snd t)) (nc (snd t))); do r <- cut central (S k) l; Some (ws :: r).
Proof. reflexivity. Qed.
Lemma cut_small a b k ws wss : segw 8 (fun _ j => match (if j =? 0 then a else b) with Some _ => false | None => true end) (whole 1 2) = Some ws -> cut 0 (S k) others = Some wss -> cut 0 k (small a b :: others) = Some (ws :: wss).
Proof. intros E F. rewrite cut_cons, small_cut, E, F. reflexivity. Qed.
Lemma first_null a b wss : (a = None /\ b <> None \/ a <> None /\ b = None) -> cut 0 1 others = Some wss ->
  exists w, cut 0 0 (small a b :: others) = Some ([w] :: wss) /\ height w = 1 /\ width w = 1 /\ place w 0 0 = (0, match a with None => 1 | Some _ => 0 end).
Proof.
  intros H E. destruct a as [x|], b as [y|]; try (exfalso; intuition congruence); eexists; (split; [apply cut_small; [|exact E]; vm_compute; reflexivity|]); cbn; auto.
Qed.
Lemma first_full x y wss : cut 0 1 others = Some wss -> exists w, cut 0 0 (small (Some x) (Some y) :: others) = Some ([w] :: wss) /\ height w = 1 /\ width w = 2.
Proof. intros E. eexists. split; [apply cut_small; [|exact E]; vm_compute; reflexivity|]. cbn. auto. Qed.
Lemma update_first a b c d wa wb wss : cut 0 0 (small c d :: others) = Some ([wb] :: wss) ->
  update 0 (concat (pieces 0 (centred 0) 0 (small a b :: others) ([wa] :: wss))) (small c d :: others) =
  do m <- set_array (snd (piece 0 (centred 0) 0 (small a b) wa)) (snd (piece 0 (fun x => x) 0 (small c d) wb));
  do r <- set_arrays (concat (pieces 0 (centred 0) 1 others wss)) (map snd (concat (pieces 0 (fun x => x) 1 others wss)));
  Some ((fst (piece 0 (centred 0) 0 (small a b) wa), m) :: r).
Proof.
  intros Cb. unfold update. assert ((length (small c d :: others) <? 6)%nat = false) as -> by (apply Nat.ltb_ge; cbn; lia).
  rewrite apply_cut by (apply small_sized; apply (others_small [_]); repeat constructor; eexists _, _; reflexivity). rewrite Cb. cbn [option_map bind pieces map concat app set_arrays].
  destruct (piece 0 (centred 0) 0 (small a b) wa) as [[x y] o]. reflexivity.
Qed.

(** The full statement says this of all new values.  If another cell is NaN, the values are shown on other cells without a message: here a tile with NaN and 5 is updated to 7 and NaN, and 7 is shown
    on the cell that is now NaN. *)
Theorem C109_update_refuted : exists central (tiles tiles' : list (tile Z)) h h' fresh, length tiles = 6%nat /\ Forall sized tiles /\ Forall2 (fun t t' => fst t = fst t') tiles tiles' /\ Forall sized tiles' /\
  all_handles central tiles = Some h /\ update central h tiles' = Some h' /\ all_handles central tiles' = Some fresh /\ ~ Forall2 same3 h' fresh.
Proof.
  set (ta := small None (Some 5) :: others). set (tb := small (Some 7) None :: others).
  assert (Fa : Forall (fun t => exists a b, t = small a b) ta) by (apply (others_small [_]); repeat constructor; eexists _, _; reflexivity).
  assert (Fb : Forall (fun t => exists a b, t = small a b) tb) by (apply (others_small [_]); repeat constructor; eexists _, _; reflexivity).
  destruct (others_cut 1) as (wss & E & Lw). destruct (first_null None (Some 5) wss ltac:(left; split; congruence) E) as (wa & Ca & Ha & Wa & Pa).
  destruct (first_null (Some 7) None wss ltac:(right; split; congruence) E) as (wb & Cb & Hb & Wb & Pb).
  assert (Sa : exists m, set_array (snd (piece 0 (centred 0) 0 (small None (Some 5)) wa)) (snd (piece 0 (fun x => x) 0 (small (Some 7) None) wb)) = Some m).
  { unfold set_array. cbn [piece small snd cells nr nc]. rewrite Ha, Wa, Hb, Wb. eexists. reflexivity. }
  destruct Sa as (m & Sa).
  destruct (set_arrays_ok (concat (pieces 0 (centred 0) 1 others wss)) (concat (pieces 0 (centred 0) 1 others wss)) (map snd (concat (pieces 0 (fun x => x) 1 others wss)))) as (r & Er & _).
  { generalize (concat (pieces 0 (centred 0) 1 others wss)). intros l. induction l; constructor; auto. } { apply pieces_snd. }
  exists 0%R, ta, tb, (concat (pieces 0 (centred 0) 0 ta ([wa] :: wss))), ((fst (piece 0 (centred 0) 0 (small None (Some 5)) wa), m) :: r), (concat (pieces 0 (centred 0) 0 tb ([wb] :: wss))).
  split; [reflexivity|]. split; [now apply small_sized|]. split; [repeat constructor|]. split; [now apply small_sized|].
  split; [rewrite small_all by (auto; cbn; lia); unfold ta; rewrite Ca; reflexivity|]. split; [unfold ta, tb; rewrite (update_first _ _ _ _ wa wb wss Cb), Sa, Er; reflexivity|].
  split; [rewrite small_all by (auto; cbn; lia); unfold tb; rewrite Cb; reflexivity|].
  unfold tb. cbn [pieces map concat app]. intros F. inversion F as [|? ? ? ? (_ & (_ & _ & L) & _) _]; subst. cbn [fst snd piece small corners nr nc at_] in L.
  specialize (L 0 0 ltac:(lia) ltac:(lia)). rewrite Pa, Pb in L. cbn [fst snd] in L. lra.
Qed.
Print Assumptions C109_update_refuted.
(** With more cells without NaN, or fewer, it can fail as well. *)
Theorem C109_update_raises_refuted : exists central (tiles tiles' : list (tile Z)) h, length tiles = 6%nat /\ Forall sized tiles /\ Forall2 (fun t t' => fst t = fst t') tiles tiles' /\ Forall sized tiles' /\
  all_handles central tiles = Some h /\ update central h tiles' = None /\ all_handles central tiles' <> None.
Proof.
  set (ta := small (Some 5) (Some 6) :: others). set (tb := small (Some 7) None :: others).
  assert (Fa : Forall (fun t => exists a b, t = small a b) ta) by (apply (others_small [_]); repeat constructor; eexists _, _; reflexivity).
  assert (Fb : Forall (fun t => exists a b, t = small a b) tb) by (apply (others_small [_]); repeat constructor; eexists _, _; reflexivity).
  destruct (others_cut 1) as (wss & E & Lw). destruct (first_full 5 6 wss E) as (wa & Ca & Ha & Wa).
  destruct (first_null (Some 7) None wss ltac:(right; split; congruence) E) as (wb & Cb & Hb & Wb & Pb).
  exists 0%R, ta, tb, (concat (pieces 0 (centred 0) 0 ta ([wa] :: wss))). split; [reflexivity|]. split; [now apply small_sized|]. split; [repeat constructor|]. split; [now apply small_sized|].
  split; [rewrite small_all by (auto; cbn; lia); unfold ta; rewrite Ca; reflexivity|]. split; [|rewrite small_all by (auto; cbn; lia); unfold tb; rewrite Cb; discriminate].
  unfold ta, tb. rewrite (update_first _ _ _ _ wa wb wss Cb). unfold set_array at 1. cbn [piece small snd cells nr nc]. rewrite Ha, Wa, Hb, Wb. reflexivity.
Qed.
Print Assumptions C109_update_raises_refuted.
(** pcolormesh_cube returns the handle of the last piece plotted. *)
Theorem C109_returned : forall V central (tiles : list (tile V)) hs h, all_handles central tiles = Some (hs ++ [h]) -> pcolormesh_cube central tiles = Some h.
Proof. intros V central tiles hs h E. unfold pcolormesh_cube. rewrite E. cbn [bind]. rewrite rev_app_distr. reflexivity. Qed.
Print Assumptions C109_returned.
(** pcolormesh_cube returns the last handle, which is not there if there are only NaN. *)
Theorem C109_all_nan_refuted : exists central (tiles : list (tile Z)), length tiles = 6%nat /\ Forall sized tiles /\ all_handles central tiles = Some [] /\ pcolormesh_cube central tiles = None.
Proof.
  set (ta := repeat (small None None) 6). assert (Fa : Forall (fun t => exists a b, t = small a b) ta) by (unfold ta; repeat constructor; eexists _, _; reflexivity).
  assert (A : all_handles 0 ta = Some []). { rewrite small_all by (auto; cbn; lia). unfold ta. cbn [repeat]. rewrite !cut_cons, !small_cut. reflexivity. }
  exists 0%R, ta. split; [reflexivity|]. split; [now apply small_sized|]. split; [exact A|]. unfold pcolormesh_cube. rewrite A. reflexivity.
Qed.
Print Assumptions C109_all_nan_refuted.
(** From the seventh tile on nothing is masked. *)
Theorem C109_seventh_tile_refuted : exists central k lat lon (m : arr (option Z)) i j, narrow (vertices lon i j) /\ ~ In (antimeridian central) (vertices lon i j) /\ ~ contiguous central (vertices lon i j) /\ left_out central k (lat, lon, m) i j = false.
Proof.
  exists 0%R, 6%nat, (Arr 2 2 (fun _ _ => 0%R)), (Arr 2 2 (fun i _ => if i =? 0 then 175%R else 185%R)), (Arr 1 1 (fun _ _ => Some 1)), 0, 0.
  change (vertices _ 0 0) with [175; 185; 175; 185]%R. destruct C109_case_mask as (_ & _ & N & C). split; [exact N|]. split; [rewrite anti0; cbn; lra|]. split; [exact C|reflexivity].
Qed.
Print Assumptions C109_seventh_tile_refuted.
