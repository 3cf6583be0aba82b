(** Proofs for C109: the segments cover what is to be drawn. *)
From Coq Require Import Reals Lra.
From Verif Require Import Base Dict PlotModel.
Open Scope Z_scope.

(** ** counting *)
Lemma filter_le {A} (f : A -> bool) l : (length (filter f l) <= length l)%nat.
Proof. induction l as [|x l IH]; cbn; [lia|]. destruct (f x); cbn; lia. Qed.
Lemma filter_full {A} (f : A -> bool) l : length (filter f l) = length l -> forall x, In x l -> f x = true.
Proof.
  induction l as [|y l IH]; cbn; [easy|]. pose proof (filter_le f l). destruct (f y) eqn:E; cbn; [|lia]. intros H1 x [->|I]; [exact E|]. apply IH; [lia|exact I].
Qed.
Lemma filter_all {A} (f : A -> bool) l : (forall x, In x l -> f x = true) -> filter f l = l.
Proof. induction l as [|y l IH]; cbn; [easy|]. intros H. rewrite H by auto. f_equal. auto. Qed.
Lemma filter_none {A} (f : A -> bool) l : length (filter f l) = 0%nat <-> forall x, In x l -> f x = false.
Proof.
  induction l as [|y l IH]; cbn; [easy|]. destruct (f y) eqn:E; cbn.
  - split; [lia|]. intros H. rewrite H in E by auto. discriminate.
  - rewrite IH. split; [intros H x [->|I]; auto|auto].
Qed.
Lemma count_bounds f n : 0 <= n -> 0 <= count f n <= n.
Proof. intros N. unfold count. pose proof (filter_le f (zrange 0 n)) as H. rewrite zrange_length in H. lia. Qed.
Lemma count_nonneg f n : 0 <= count f n.
Proof. unfold count. lia. Qed.
Lemma count_zero f n : count f n = 0 <-> forall j, 0 <= j < n -> f j = false.
Proof.
  unfold count. rewrite <- Nat2Z.inj_0, Nat2Z.inj_iff, filter_none. split; intros H j J; apply H; [apply in_zrange|apply in_zrange in J]; lia.
Qed.
Lemma count_full f n : 0 <= n -> count f n = n -> forall j, 0 <= j < n -> f j = true.
Proof. unfold count. intros N E j J. apply (filter_full f (zrange 0 n)); [rewrite zrange_length; lia|apply in_zrange; lia]. Qed.
Lemma sum_zero l : (forall x, In x l -> 0 <= x) -> fold_right Z.add 0 l = 0 <-> forall x, In x l -> x = 0.
Proof.
  induction l as [|y l IH]; cbn; [easy|]. intros N. assert (0 <= fold_right Z.add 0 l). { clear IH. induction l as [|z l IH]; cbn; [lia|]. pose proof (N z ltac:(cbn; auto)). assert (forall x, y = x \/ In x l -> 0 <= x) as N' by (intros x [?|?]; apply N; cbn; auto). specialize (IH N'). lia. }
  pose proof (N y ltac:(auto)). specialize (IH (fun x I => N x (or_intror I))). split.
  - intros E x [->|I]; [lia|]. apply IH; [lia|exact I].
  - intros E. rewrite (E y) by auto. rewrite (proj2 IH); [lia|]. auto.
Qed.
Lemma total_zero p n m : total p n m = 0 <-> forall i j, 0 <= i < n -> 0 <= j < m -> p i j = false.
Proof.
  unfold total. rewrite sum_zero.
  - split.
    + intros H i j I J. assert (Q : in_row p m i = 0). { apply H. apply in_map. apply in_zrange. lia. } unfold in_row in Q. rewrite count_zero in Q. now apply Q.
    + intros H x I. apply in_map_iff in I as (i & <- & I). apply in_zrange in I. unfold in_row. apply count_zero. intros j J. apply H; lia.
  - intros x I. apply in_map_iff in I as (i & <- & I). apply count_nonneg.
Qed.
Lemma largest_ge l x : In x l -> x <= largest l.
Proof. unfold largest. induction l as [|y l IH]; cbn; [easy|]. intros [->|I]; [lia|]. specialize (IH I). lia. Qed.
Lemma largest_in l : largest l = 0 \/ In (largest l) l.
Proof. unfold largest. induction l as [|y l [IH|IH]]; cbn; [auto| |]; destruct (Z.max_spec y (fold_right Z.max 0 l)) as [[_ E]|[_ E]]; rewrite E; auto. Qed.
Lemma argmax_from_spec l m : In m l -> forall i, exists k, (k < length l)%nat /\ argmax_from l i m = i + Z.of_nat k /\ nth k l 0 = m.
Proof.
  induction l as [|x l IH]; intros I i; [destruct I|]. cbn. destruct (Z.eqb_spec x m) as [->|N]; [exists 0%nat; cbn; split; [lia|split; [lia|reflexivity]]|].
  destruct I as [|I]; [congruence|]. destruct (IH I (i + 1)) as (k & K & E & N'). exists (S k). cbn. split; [lia|]. split; [lia|exact N'].
Qed.
Lemma zrange_at k n d : (k < Z.to_nat n)%nat -> nth k (zrange 0 n) d = Z.of_nat k.
Proof.
  intros L. unfold zrange. rewrite (nth_indep _ d (0 + Z.of_nat 0)) by (rewrite map_length, seq_length; lia). rewrite (map_nth (fun k => 0 + Z.of_nat k)), seq_nth by lia. lia.
Qed.
Lemma argmax_spec (g : Z -> Z) n : 0 < largest (map g (zrange 0 n)) -> let i := argmax (map g (zrange 0 n)) in 0 <= i < n /\ g i = largest (map g (zrange 0 n)).
Proof.
  intros L. destruct (largest_in (map g (zrange 0 n))) as [E|I]; [lia|]. destruct (argmax_from_spec _ _ I 0) as (k & K & E & N).
  unfold argmax. cbv zeta. rewrite E. rewrite map_length, zrange_length in K. split; [lia|]. rewrite <- N. rewrite (nth_indep _ 0 (g 0)) by (rewrite map_length, zrange_length; lia). rewrite map_nth.
  f_equal. rewrite zrange_at by lia. lia.
Qed.

(** ** the runs of a row *)
Lemma run_end_spec row n s fuel : forall i, s <= i <= n -> n - i <= Z.of_nat fuel -> (forall j, s <= j < i -> row j = row s) ->
  let e := run_end fuel row n s i in i <= e <= n /\ (forall j, s <= j < e -> row j = row s).
Proof.
  induction fuel as [|fuel IH]; intros i I F C; cbn.
  - split; [lia|exact C].
  - destruct (Z.ltb_spec i n) as [L|L]; cbn [andb]; [|split; [lia|exact C]]. destruct (Bool.eqb (row s) (row i)) eqn:E; [|split; [lia|exact C]].
    apply Bool.eqb_prop in E. destruct (IH (i + 1)) as [A B]; [lia|lia| |split; [lia|exact B]]. intros j J. destruct (Z.eq_dec j i) as [->|]; [congruence|apply C; lia].
Qed.
Lemma run_end_grows row n s fuel : (0 < fuel)%nat -> s < n -> s < run_end fuel row n s s.
Proof.
  intros F L. destruct fuel as [|fuel]; [lia|]. cbn. destruct (Z.ltb_spec s n); [|lia]. rewrite Bool.eqb_reflx. cbn.
  assert (G : forall fuel i, i <= run_end fuel row n s i). { clear. induction fuel as [|fuel IH]; intros i; cbn; [lia|]. destruct (_ && _); [|lia]. specialize (IH (i + 1)). lia. }
  specialize (G fuel (s + 1)). lia.
Qed.
(** pieces one after the other, from s to n, on each of which the row is constant *)
Fixpoint chain (row : Z -> bool) (s : Z) (l : list (Z * Z)) (n : Z) : Prop :=
  match l with [] => s = n | (a, b) :: l' => a = s /\ a < b <= n /\ (forall j, a <= j < b -> row j = row a) /\ chain row b l' n end.
Lemma runs_chain row n fuel : forall s i, 0 <= s -> (i = s \/ i = s + 1) -> (i < n \/ (s = n /\ i = n)) -> n - s <= Z.of_nat fuel -> chain row s (runs fuel row n s i) n.
Proof.
  induction fuel as [|fuel IH]; intros s i S0 I L F; cbn [runs].
  - cbn. lia.
  - destruct (Z.ltb_spec i n) as [Li|Li]; [|cbn; lia].
    destruct (run_end_spec row n s (Z.to_nat n) i) as [A B]; [lia|lia| |].
    { intros j J. replace j with s by lia. reflexivity. }
    assert (G : s < run_end (Z.to_nat n) row n s i). { destruct I as [->| ->]; [apply run_end_grows; lia|lia]. }
    set (e := run_end (Z.to_nat n) row n s i) in *. cbn [chain]. split; [reflexivity|]. split; [lia|]. split; [exact B|]. apply IH; [lia|now left|lia|lia].
Qed.

(** ** the same recursion on windows *)
Definition w_rows (w : window) (lo hi : Z) : window := Window (hi - lo) (width w) (fun i j => place w (lo + i) j).
Definition w_cols (w : window) (lo hi : Z) : window := Window (height w) (hi - lo) (fun i j => place w i (lo + j)).
Definition w_T (w : window) : window := Window (width w) (height w) (fun i j => place w j i).
Definition pat (p : Z -> Z -> bool) (w : window) : Z -> Z -> bool := fun i j => p (fst (place w i j)) (snd (place w i j)).
Fixpoint segw (fuel : nat) (p : Z -> Z -> bool) (w : window) : option (list window) :=
  match fuel with
  | O => None
  | S fuel =>
      let q := pat p w in
      if total q (height w) (width w) =? 0
      then Some (if 0 <? height w * width w then [w] else [])
      else
        let x_nans := map (in_row q (width w)) (zrange 0 (height w)) in
        let y_nans := map (in_col q (height w)) (zrange 0 (width w)) in
        if largest y_nans * width w <=? largest x_nans * height w then
          let i := argmax x_nans in
          if in_row q (width w) i =? width w
          then concat_opt [segw fuel p (w_rows w 0 i); segw fuel p (w_rows w (i + 1) (height w))]
          else concat_opt (map (fun '(s, e) => segw fuel p (w_cols w s e)) (runs (Z.to_nat (width w)) (q i) (width w) 0 1))
        else segw fuel p (w_T w)
  end.
Section Cut.
Context {X Y V : Type} (x : arr X) (y : arr Y) (m : arr (option V)).
Definition triple (w : window) := (corners x w, corners y w, cells m w).
Lemma concat_map {A B} (f : A -> B) (l : list (option (list A))) : concat_opt (map (option_map (map f)) l) = option_map (map f) (concat_opt l).
Proof.
  induction l as [|[a|] l IH]; cbn in *; [reflexivity| |reflexivity]. unfold concat_opt in IH. rewrite IH. destruct (fold_right _ _ l); cbn; [now rewrite map_app|reflexivity].
Qed.
Lemma corners_rows {A} (z : arr A) w lo hi n : n = hi - lo + 1 -> Arr n (width w + 1) (fun i j => at_ z (fst (place w (lo + i) j)) (snd (place w (lo + i) j))) = corners z (w_rows w lo hi).
Proof. intros ->. reflexivity. Qed.
Lemma segments_cut fuel : forall w, segments fuel (corners x w) (corners y w) (cells m w) = option_map (map triple) (segw fuel (is_nan m) w).
Proof.
  induction fuel as [|fuel IH]; intros w; [reflexivity|]. cbn [segments segw].
  change (nr (cells m w)) with (height w). change (nc (cells m w)) with (width w). change (is_nan (cells m w)) with (pat (is_nan m) w). set (q := pat (is_nan m) w).
  destruct (total q (height w) (width w) =? 0); [destruct (0 <? _); reflexivity|].
  destruct (_ <=? _).
  2:{ apply (IH (w_T w)). }
  destruct (_ =? _).
  - set (i := argmax _). change (nr (corners x w)) with (height w + 1). change (nr (corners y w)) with (height w + 1).
    assert (R : forall A (z : arr A) lo hi hi', hi' = hi + 1 -> rows (corners z w) lo hi' = corners z (w_rows w lo hi)).
    { intros A z lo hi hi' ->. unfold rows, corners, w_rows. cbn [nr nc at_ height width place]. f_equal. lia. }
    rewrite (R _ x 0 i), (R _ y 0 i), (R _ x (i + 1) (height w)), (R _ y (i + 1) (height w)) by reflexivity.
    change (rows (cells m w) 0 i) with (cells m (w_rows w 0 i)). change (rows (cells m w) (i + 1) (height w)) with (cells m (w_rows w (i + 1) (height w))).
    rewrite !IH. apply (concat_map triple [_; _]).
  - assert (R : forall A (z : arr A) s e, cols (corners z w) s (e + 1) = corners z (w_cols w s e)).
    { intros A z s e. unfold cols, corners, w_cols. cbn [nr nc at_ height width place]. f_equal. lia. }
    set (rs := runs _ _ _ _ _). rewrite <- concat_map, map_map. f_equal. apply map_ext. intros [s e]. rewrite !R. apply (IH (w_cols w s e)).
Qed.
End Cut.

(** ** the windows cover *)
Lemma straight_rows w lo hi : straight w -> straight (w_rows w lo hi).
Proof. intros (r & c & [H|H]); unfold straight, w_rows; cbn [place]; [exists (r + lo), c; left|exists r, (c + lo); right]; intros i j; rewrite H; f_equal; lia. Qed.
Lemma straight_cols w lo hi : straight w -> straight (w_cols w lo hi).
Proof. intros (r & c & [H|H]); unfold straight, w_cols; cbn [place]; [exists r, (c + lo); left|exists (r + lo), c; right]; intros i j; rewrite H; f_equal; lia. Qed.
Lemma straight_T w : straight w -> straight (w_T w).
Proof. intros (r & c & [H|H]); exists r, c; [right|left]; intros i j; cbn [w_T place]; now rewrite H. Qed.
Lemma straight_inj w i j i' j' : straight w -> place w i j = place w i' j' -> i = i' /\ j = j'.
Proof. intros (r & c & [H|H]); rewrite !H; intros [= A B]; lia. Qed.

Record good (p : Z -> Z -> bool) (w : window) (ws : list window) : Prop := {
  g_straight : forall v, In v ws -> straight v /\ 0 < height v /\ 0 < width v;
  g_sound : forall v i j, In v ws -> has v i j -> has w i j /\ p i j = false;
  g_complete : forall i j, has w i j -> p i j = false -> exists v, In v ws /\ has v i j;
  g_once : forall k k' v v' i j, nth_error ws k = Some v -> nth_error ws k' = Some v' -> has v i j -> has v' i j -> k = k' }.
(** parts that have each good cell exactly once *)
Record parts (p : Z -> Z -> bool) (w : window) (us : list window) : Prop := {
  p_sound : forall u i j, In u us -> has u i j -> has w i j;
  p_complete : forall i j, has w i j -> p i j = false -> exists u, In u us /\ has u i j;
  p_once : forall k k' u u' i j, nth_error us k = Some u -> nth_error us k' = Some u' -> has u i j -> has u' i j -> k = k' }.
Lemma F2_l {A B} (R : A -> B -> Prop) l l' k a : Forall2 R l l' -> nth_error l k = Some a -> exists b, nth_error l' k = Some b /\ R a b.
Proof.
  intros F. revert k. induction F as [|c d l l' r F IH]; intros [|k]; cbn; try discriminate; [intros [= <-]; eauto|apply IH].
Qed.
Lemma F2_r {A B} (R : A -> B -> Prop) l l' k b : Forall2 R l l' -> nth_error l' k = Some b -> exists a, nth_error l k = Some a /\ R a b.
Proof.
  intros F. revert k. induction F as [|c d l l' r F IH]; intros [|k]; cbn; try discriminate; [intros [= <-]; eauto|apply IH].
Qed.
Lemma good_concat p w us wss : parts p w us -> Forall2 (good p) us wss -> good p w (concat wss).
Proof.
  intros [So C O] F. constructor.
  - intros v I. apply in_concat in I as (ws & I1 & I2). apply In_nth_error in I1 as [k K]. 
    destruct (F2_r _ _ _ k _ F K) as (u & U & G). now apply (g_straight _ _ _ G).
  - intros v i j I H. apply in_concat in I as (ws & I1 & I2). apply In_nth_error in I1 as [k K].
    destruct (F2_r _ _ _ k _ F K) as (u & U & G). destruct (g_sound _ _ _ G v i j I2 H) as [A B]. split; [|exact B]. apply (So u); [now apply nth_error_In in U|exact A].
  - intros i j H P. destruct (C i j H P) as (u & U & Hu). apply In_nth_error in U as [k K]. destruct (F2_l _ _ _ k _ F K) as (ws & W & G).
    destruct (g_complete _ _ _ G i j Hu P) as (v & V1 & V2). exists v. split; [|exact V2]. apply in_concat. exists ws. split; [now apply nth_error_In in W|exact V1].
  - clear C. revert us F So O. induction wss as [|ws wss IH]; intros us F So O k k' v v' i j K K' H H'; [destruct k; discriminate|].
    destruct us as [|u us]; [inversion F|]. inversion F as [|? ? ? ? G F']; subst. clear F. rename F' into F. cbn [concat] in K, K'.
    assert (L : forall n z, nth_error (ws ++ concat wss) n = Some z -> (nth_error ws n = Some z /\ (n < length ws)%nat) \/ (exists n', n = (length ws + n')%nat /\ nth_error (concat wss) n' = Some z)).
    { intros n z E. destruct (Nat.lt_ge_cases n (length ws)) as [Ln|Ln]; [left; rewrite nth_error_app1 in E by exact Ln; auto|right]. rewrite nth_error_app2 in E by lia. exists (n - length ws)%nat. split; [lia|exact E]. }
    assert (X : forall z n' a b, In z ws -> nth_error (concat wss) n' = Some a -> has z b j -> has a b j -> False).
    { intros z n' a b Iz Ia Hz Ha. apply nth_error_In in Ia. apply in_concat in Ia as (ws' & I1 & I2). apply In_nth_error in I1 as [t Tt].
      destruct (F2_r _ _ _ t _ F Tt) as (u' & U' & G'). destruct (g_sound _ _ _ G z b j Iz Hz) as [A _]. destruct (g_sound _ _ _ G' a b j I2 Ha) as [A' _].
      specialize (O 0%nat (S t) u u' b j eq_refl U' A A'). discriminate. }
    destruct (L k v K) as [[K1 L1]|(n & -> & K1)], (L k' v' K') as [[K2 L2]|(n' & -> & K2)].
    + now apply (g_once _ _ _ G k k' v v' i j).
    + exfalso. apply (X v n' v' i); auto. now apply nth_error_In in K1.
    + exfalso. apply (X v' n v i); auto. now apply nth_error_In in K2.
    + f_equal. apply (IH us F) with (v := v) (v' := v') (i := i) (j := j); auto.
      * intros u0 i0 j0 I0. apply So. now right.
      * intros a a' b b' i0 j0 A1 A2 A3 A4. specialize (O (S a) (S a') b b' i0 j0 A1 A2 A3 A4). lia.
Qed.
Lemma chain_bounds row l : forall s n a b, chain row s l n -> In (a, b) l -> s <= a < b /\ b <= n /\ (forall j, a <= j < b -> row j = row a).
Proof.
  induction l as [|[c d] l IH]; intros s n a b C I; [destruct I|]. cbn in C. destruct C as (-> & L & K & C). destruct I as [[= -> ->]|I]; [split; [lia|]; split; [lia|exact K]|].
  destruct (IH _ _ _ _ C I) as (A & B & D). split; [lia|]. split; [lia|exact D].
Qed.
Lemma chain_complete row l : forall s n j, chain row s l n -> s <= j < n -> exists a b, In (a, b) l /\ a <= j < b.
Proof.
  induction l as [|[c d] l IH]; intros s n j C J; cbn in C; [lia|]. destruct C as (-> & L & K & C). destruct (Z.lt_ge_cases j d) as [Lj|Lj].
  - exists s, d. split; [now left|lia].
  - destruct (IH d n j C ltac:(lia)) as (a & b & I & B). exists a, b. split; [now right|exact B].
Qed.
Lemma chain_once row l : forall s n k k' a b a' b' j, chain row s l n -> nth_error l k = Some (a, b) -> nth_error l k' = Some (a', b') -> a <= j < b -> a' <= j < b' -> k = k'.
Proof.
  induction l as [|[c d] l IH]; intros s n k k' a b a' b' j C K K' J J'; [destruct k; discriminate|]. cbn in C. destruct C as (-> & L & _ & C).
  destruct k as [|k], k' as [|k']; [reflexivity| | |].
  - cbn in K, K'. injection K as -> ->. apply nth_error_In in K'. destruct (chain_bounds _ _ _ _ _ _ C K') as (A & _). lia.
  - cbn in K, K'. injection K' as -> ->. apply nth_error_In in K. destruct (chain_bounds _ _ _ _ _ _ C K) as (A & _). lia.
  - f_equal. exact (IH _ _ _ _ _ _ _ _ _ C K K' J J').
Qed.
Lemma parts_rows p w i : straight w -> 0 <= i < height w -> (forall j, 0 <= j < width w -> pat p w i j = true) -> parts p w [w_rows w 0 i; w_rows w (i + 1) (height w)].
Proof.
  intros St I N. constructor.
  - intros u a b [<-|[<-|[]]] (r & c & R & C & P); cbn [w_rows height width place] in *; eexists _, _; (split; [|split; [|exact P]]); lia.
  - intros a b (r & c & R & C & P) NN. destruct (Z.lt_trichotomy r i) as [L|[->|L]].
    + eexists. split; [now left|]. exists r, c. cbn [w_rows height width place]. replace (0 + r) with r by lia. split; [lia|]. split; [lia|exact P].
    + specialize (N c C). unfold pat in N. rewrite P in N. cbn in N. congruence.
    + eexists. split; [right; now left|]. exists (r - (i + 1)), c. cbn [w_rows height width place]. replace (i + 1 + (r - (i + 1))) with r by lia. split; [lia|]. split; [lia|exact P].
  - intros k k' u u' a b K K' (r & c & R & C & P) (r' & c' & R' & C' & P').
    destruct k as [|[|k]]; [| |destruct k; discriminate]; (destruct k' as [|[|k']]; [| |destruct k'; discriminate]); cbn in K, K'; injection K as <-; injection K' as <-; try reflexivity; exfalso;
      cbn [w_rows height width place] in *; rewrite <- P' in P; apply straight_inj in P; auto; lia.
Qed.
Lemma parts_cols p w row l : straight w -> chain row 0 l (width w) -> parts p w (map (fun '(s, e) => w_cols w s e) l).
Proof.
  intros St Ch. constructor.
  - intros u a b I (r & c & R & C & P). apply in_map_iff in I as ([s e] & <- & I). destruct (chain_bounds _ _ _ _ _ _ Ch I) as (A & B & _).
    cbn [w_cols height width place] in *. exists r, (s + c). split; [lia|]. split; [lia|exact P].
  - intros a b (r & c & R & C & P) _. destruct (chain_complete _ _ _ _ c Ch C) as (s & e & I & B). exists (w_cols w s e). split; [apply in_map_iff; exists (s, e); auto|].
    exists r, (c - s). cbn [w_cols height width place]. replace (s + (c - s)) with c by lia. split; [lia|]. split; [lia|exact P].
  - intros k k' u u' a b K K' (r & c & R & C & P) (r' & c' & R' & C' & P'). rewrite nth_error_map in K, K'.
    destruct (nth_error l k) as [[s e]|] eqn:E; [|discriminate]. destruct (nth_error l k') as [[s' e']|] eqn:E'; [|discriminate]. cbn in K, K'. injection K as <-. injection K' as <-.
    cbn [w_cols height width place] in *. rewrite <- P' in P. apply straight_inj in P as [P1 P2]; [|exact St]. apply (chain_once _ _ _ _ _ _ _ _ _ _ (s + c) Ch E E'); lia.
Qed.
Lemma good_T p w ws : good p (w_T w) ws -> good p w ws.
Proof.
  intros [A B C D]. constructor; auto.
  - intros v i j I H. destruct (B v i j I H) as [(r & c & R & Cc & P) N]. split; [|exact N]. exists c, r. auto.
  - intros i j (r & c & R & Cc & P) N. apply C; [|exact N]. exists c, r. auto.
Qed.
Lemma concat_some {A} (f : A -> option (list window)) (l : list A) (Q : A -> list window -> Prop) : (forall a, In a l -> exists ws, f a = Some ws /\ Q a ws) ->
  exists wss, concat_opt (map f l) = Some (concat wss) /\ Forall2 Q l wss.
Proof.
  induction l as [|a l IH]; intros H; [exists []; split; [reflexivity|constructor]|]. destruct (H a ltac:(now left)) as (ws & E & G).
  destruct IH as (wss & E' & G'); [intros b I; apply H; now right|]. exists (ws :: wss). split; [|constructor; auto]. cbn. rewrite E. cbn. unfold concat_opt in E'. rewrite E'. reflexivity.
Qed.
Definition turned (p : Z -> Z -> bool) (w : window) : Z :=
  if largest (map (in_col (pat p w) (height w)) (zrange 0 (width w))) * width w <=? largest (map (in_row (pat p w) (width w)) (zrange 0 (height w))) * height w then 0 else 1.
Lemma turned_le p w : 0 <= turned p w <= 1. Proof. unfold turned. destruct (_ <=? _); lia. Qed.
Lemma segw_ok p fuel : forall w, straight w -> 0 <= height w -> 0 <= width w -> 2 * (height w + width w) + 1 + turned p w <= Z.of_nat fuel -> exists ws, segw fuel p w = Some ws /\ good p w ws.
Proof.
  induction fuel as [|fuel IH]; intros w St Hh Hw F; pose proof (turned_le p w) as Tle; [lia|].
  cbn [segw]. destruct (Z.eqb_spec (total (pat p w) (height w) (width w)) 0) as [Z0|NZ].
  - pose proof (proj1 (total_zero _ _ _) Z0) as A. destruct (Z.ltb_spec 0 (height w * width w)) as [L|L].
    + exists [w]. split; [reflexivity|]. constructor.
      * intros v [<-|[]]. split; [exact St|nia].
      * intros v i j [<-|[]] H. split; [exact H|]. destruct H as (r & c & R & C & P). specialize (A r c R C). unfold pat in A. rewrite P in A. exact A.
      * intros i j H _. exists w. split; [now left|exact H].
      * intros [|k] [|k'] v v' i j; cbn; try reflexivity; destruct k || destruct k'; discriminate.
    + exists []. split; [reflexivity|]. constructor; try easy; [|intros [|k] ?; discriminate]. intros i j (r & c & R & C & P). nia.
  - set (xs := map (in_row (pat p w) (width w)) (zrange 0 (height w))). set (ys := map (in_col (pat p w) (height w)) (zrange 0 (width w))).
    assert (Lx : 0 < largest xs).
    { destruct (Z.lt_ge_cases 0 (largest xs)) as [|L]; [assumption|]. exfalso. apply NZ. apply total_zero. intros i j I J.
      assert (in_row (pat p w) (width w) i <= largest xs) by (apply largest_ge; apply in_map; apply in_zrange; lia). pose proof (count_nonneg (fun j => pat p w i j) (width w)). unfold in_row in *.
      pose proof (proj1 (count_zero (fun j => pat p w i j) (width w)) ltac:(lia)) as Q. now apply Q. }
    destruct (Z.leb_spec (largest ys * width w) (largest xs * height w)) as [L|L].
    + destruct (argmax_spec (in_row (pat p w) (width w)) (height w) Lx) as [I E]. fold xs in I, E. set (i := argmax xs) in *.
      destruct (Z.eqb_spec (in_row (pat p w) (width w) i) (width w)) as [Full|Part].
      * change [segw fuel p (w_rows w 0 i); segw fuel p (w_rows w (i + 1) (height w))] with (map (segw fuel p) [w_rows w 0 i; w_rows w (i + 1) (height w)]).
        destruct (concat_some (segw fuel p) [w_rows w 0 i; w_rows w (i + 1) (height w)] (good p)) as (wss & Ew & G).
        { intros u Iu. pose proof (turned_le p u). destruct Iu as [<-|[<-|[]]]; apply IH; try (apply straight_rows; exact St); cbn [w_rows height width] in *; lia. }
        exists (concat wss). split; [exact Ew|]. apply (good_concat p w _ _ (parts_rows p w i St I (count_full _ _ Hw Full)) G).
      * assert (B : 0 < in_row (pat p w) (width w) i < width w). { pose proof (count_bounds (fun j => pat p w i j) (width w) Hw). unfold in_row in *. lia. }
        pose proof (runs_chain (pat p w i) (width w) (Z.to_nat (width w)) 0 1 ltac:(lia) ltac:(now right) ltac:(lia) ltac:(lia)) as Ch.
        set (rs := runs _ _ _ _ _) in *.
        destruct (concat_some (segw fuel p) (map (fun '(s, e) => w_cols w s e) rs) (good p)) as (wss & Ew & G).
        { intros u Iu. apply in_map_iff in Iu as ([s e] & <- & Iu). destruct (chain_bounds _ _ _ _ _ _ Ch Iu) as (A & A' & K). pose proof (turned_le p (w_cols w s e)).
          assert (Sh : e - s < width w).
          { destruct (Z.lt_ge_cases (e - s) (width w)) as [|Ge]; [assumption|]. exfalso. assert (s = 0) as -> by lia. assert (e = width w) as -> by lia.
            destruct (pat p w i 0) eqn:E0.
            - assert (in_row (pat p w) (width w) i = width w); [|lia]. unfold in_row, count. replace (filter _ _) with (zrange 0 (width w)); [rewrite zrange_length; lia|].
              symmetry. apply filter_all. intros j J. apply in_zrange in J. apply K. lia.
            - assert (in_row (pat p w) (width w) i = 0); [|lia]. unfold in_row. apply count_zero. intros j J. now apply K. }
          apply IH; [apply straight_cols; exact St| | |]; cbn [w_cols height width] in *; lia. }
        exists (concat wss). rewrite map_map in Ew. split; [|exact (good_concat p w _ _ (parts_cols p w _ rs St Ch) G)].
        rewrite <- Ew. f_equal. apply map_ext. now intros [s e].
    + destruct (IH (w_T w)) as (ws & Ew & G); [now apply straight_T|exact Hw|exact Hh| |exists ws; split; [exact Ew|now apply good_T]].
      assert (Tw : turned p w = 1). { unfold turned. fold xs ys. destruct (Z.leb_spec (largest ys * width w) (largest xs * height w)); [lia|reflexivity]. }
      assert (Tt : turned p (w_T w) = 0). { unfold turned. change (map (in_col (pat p (w_T w)) (height (w_T w))) (zrange 0 (width (w_T w)))) with xs. change (map (in_row (pat p (w_T w)) (width (w_T w))) (zrange 0 (height (w_T w)))) with ys. cbn [w_T height width]. destruct (Z.leb_spec (largest xs * height w) (largest ys * width w)); [reflexivity|lia]. }
      cbn [w_T height width]. lia.
Qed.

Definition whole (n m : Z) : window := Window n m (fun i j => (i, j)).
Lemma covers_ok p n m : 0 <= n -> 0 <= m -> exists ws, segw (Z.to_nat (2 * (n + m) + 2)) p (whole n m) = Some ws /\ covers p n m ws.
Proof.
  intros N M. pose proof (turned_le p (whole n m)). destruct (segw_ok p (Z.to_nat (2 * (n + m) + 2)) (whole n m)) as (ws & E & [A B C D]); cbn [whole height width] in *; try lia.
  { exists 0, 0. left. intros i j. reflexivity. }
  exists ws. split; [exact E|]. constructor; auto.
  - intros w i j I H1. destruct (B w i j I H1) as [(r & c & R & Cc & P) Q]. cbn in R, Cc, P. injection P as <- <-. split; [lia|]. split; [lia|exact Q].
  - intros i j I J Q. apply C; [|exact Q]. exists i, j. cbn. auto.
Qed.

(** ** only the NaN within the array matter *)
Lemma count_ext f g n : (forall j, 0 <= j < n -> f j = g j) -> count f n = count g n.
Proof. intros H. unfold count. do 2 f_equal. apply filter_ext_in. intros j J. apply in_zrange in J. apply H. lia. Qed.
Lemma run_end_ext f g n s fuel : (forall j, 0 <= j < n -> f j = g j) -> 0 <= s < n -> forall i, 0 <= i -> run_end fuel f n s i = run_end fuel g n s i.
Proof.
  intros H S0. induction fuel as [|fuel IH]; intros i I; cbn; [reflexivity|]. destruct (Z.ltb_spec i n) as [L|L]; cbn [andb]; [|reflexivity].
  rewrite (H s), (H i) by lia. destruct (Bool.eqb _ _); [apply IH; lia|reflexivity].
Qed.
Lemma runs_ext f g n fuel : (forall j, 0 <= j < n -> f j = g j) -> forall s i, 0 <= s <= i -> runs fuel f n s i = runs fuel g n s i.
Proof.
  intros H. induction fuel as [|fuel IH]; intros s i I; cbn [runs]; [reflexivity|]. destruct (Z.ltb_spec i n) as [L|L]; [|reflexivity].
  rewrite (run_end_ext f g n s (Z.to_nat n) H ltac:(lia) i ltac:(lia)). f_equal. apply IH.
  destruct (run_end_spec (fun j => if (s <=? j) && (j <? i) then g s else g j) n s (Z.to_nat n) i) as [A _]; [lia|lia| |].
  { intros j J. destruct (Z.leb_spec s j), (Z.ltb_spec j i), (Z.leb_spec s s), (Z.ltb_spec s i); try lia; reflexivity. }
  assert (G : forall fuel i, i <= run_end fuel g n s i). { clear. induction fuel as [|fuel IH]; intros i; cbn; [lia|]. destruct (_ && _); [|lia]. specialize (IH (i + 1)). lia. }
  specialize (G (Z.to_nat n) i). lia.
Qed.
Lemma segw_ext p q fuel : forall w, (forall i j, 0 <= i < height w -> 0 <= j < width w -> pat p w i j = pat q w i j) -> segw fuel p w = segw fuel q w.
Proof.
  induction fuel as [|fuel IH]; intros w H; [reflexivity|]. cbn [segw].
  assert (R : forall i, 0 <= i < height w -> in_row (pat p w) (width w) i = in_row (pat q w) (width w) i) by (intros i I; apply count_ext; intros j J; now apply H).
  assert (C : forall j, 0 <= j < width w -> in_col (pat p w) (height w) j = in_col (pat q w) (height w) j) by (intros j J; apply count_ext; intros i I; now apply H).
  assert (Rm : map (in_row (pat p w) (width w)) (zrange 0 (height w)) = map (in_row (pat q w) (width w)) (zrange 0 (height w))) by (apply map_ext_in; intros i I; apply in_zrange in I; apply R; lia).
  assert (Cm : map (in_col (pat p w) (height w)) (zrange 0 (width w)) = map (in_col (pat q w) (height w)) (zrange 0 (width w))) by (apply map_ext_in; intros i I; apply in_zrange in I; apply C; lia).
  assert (E : total (pat p w) (height w) (width w) = total (pat q w) (height w) (width w)) by (unfold total; now rewrite Rm).
  rewrite E, Rm, Cm. destruct (Z.eqb_spec (total (pat q w) (height w) (width w)) 0) as [|NZ]; [reflexivity|].
  set (xs := map (in_row (pat q w) (width w)) (zrange 0 (height w))).
  destruct (_ <=? _).
  - destruct (Z.lt_ge_cases 0 (largest xs)) as [Lx|Lx].
    + destruct (argmax_spec (in_row (pat q w) (width w)) (height w) Lx) as [I _]. fold xs in I. set (i := argmax xs) in *. rewrite (R i I).
      destruct (_ =? _).
      * rewrite !IH; [reflexivity| |]; intros a b A B; cbn [w_rows height width] in *; unfold pat, w_rows; cbn [place]; apply H; lia.
      * rewrite (runs_ext (pat p w i) (pat q w i) (width w) _ (fun j J => H i j I J) 0 1 ltac:(lia)).
        destruct (Z.lt_ge_cases 1 (width w)) as [W|W].
        2:{ destruct (Z.to_nat (width w)) as [|n] eqn:En; [reflexivity|]. cbn [runs]. destruct (Z.ltb_spec 1 (width w)); [lia|reflexivity]. }
        pose proof (runs_chain (pat q w i) (width w) (Z.to_nat (width w)) 0 1 ltac:(lia) ltac:(now right) ltac:(lia) ltac:(lia)) as Ch.
        f_equal. apply map_ext_in. intros [s e] Ir. destruct (chain_bounds _ _ _ _ _ _ Ch Ir) as (A & B & _). apply IH. intros a b Aa Bb. cbn [w_cols height width] in *. unfold pat, w_cols. cbn [place]. apply H; lia.
    + exfalso. apply NZ. apply total_zero. intros i j I J.
      assert (in_row (pat q w) (width w) i <= largest xs) by (apply largest_ge; apply in_map; apply in_zrange; lia). pose proof (count_nonneg (fun j => pat q w i j) (width w)). unfold in_row in *.
      pose proof (proj1 (count_zero (fun j => pat q w i j) (width w)) ltac:(lia)) as Q. now apply Q.
  - apply IH. intros i j I J. apply (H j i J I).
Qed.
Lemma corners_whole {A} (x : arr A) n m : nr x = n + 1 -> nc x = m + 1 -> corners x (whole n m) = x.
Proof. destruct x as [a b f]. cbn. intros -> ->. reflexivity. Qed.
Lemma cells_whole {A} (x : arr A) n m : nr x = n -> nc x = m -> cells x (whole n m) = x.
Proof. destruct x as [a b f]. cbn. intros -> ->. reflexivity. Qed.
Lemma segments_windows {X Y V} (x : arr X) (y : arr Y) (v : arr (option V)) p n m :
  nr v = n -> nc v = m -> nr x = n + 1 -> nc x = m + 1 -> nr y = n + 1 -> nc y = m + 1 -> (forall i j, 0 <= i < n -> 0 <= j < m -> is_nan v i j = p i j) ->
  segment_plot_inputs x y v = option_map (map (triple x y v)) (segw (Z.to_nat (2 * (n + m) + 2)) p (whole n m)).
Proof.
  intros N M X1 X2 Y1 Y2 P. unfold segment_plot_inputs. rewrite <- (segw_ext (is_nan v) p _ (whole n m)) by (intros i j I J; apply P; [exact I|exact J]).
  rewrite <- segments_cut, !corners_whole, cells_whole by assumption. now rewrite N, M.
Qed.
