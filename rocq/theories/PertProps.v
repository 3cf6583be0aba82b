(** C107: roundoff-level noise. *)
From Coq Require Import Reals Lra Lia.
From Flocq Require Import Core.
From Verif Require Import Base Dict PertModel.
Open Scope R_scope.

Local Instance p53 : Prec_gt_0 53. Proof. unfold Prec_gt_0. lia. Qed.
Local Instance p24 : Prec_gt_0 24. Proof. unfold Prec_gt_0. lia. Qed.
Local Instance valid64 : Valid_exp fexp64. Proof. unfold fexp64. apply FLT_exp_valid. typeclasses eauto. Qed.
Local Instance valid32 : Valid_exp fexp32. Proof. unfold fexp32. apply FLT_exp_valid. typeclasses eauto. Qed.

(** ** the gap below a number *)
Section Gap.
Variables (emin p : Z).
Context {P : Prec_gt_0 p}.
Local Notation fexp := (FLT_exp emin p).
Lemma ulp_ge_mag x : x <> 0 -> bpow radix2 (mag radix2 x - p) <= ulp radix2 fexp x.
Proof. intros N. rewrite ulp_neq_0 by exact N. unfold cexp, FLT_exp. apply bpow_le. lia. Qed.
Lemma gap x : 0 < x -> generic_format radix2 fexp x -> pred radix2 fexp x <= x - x * bpow radix2 (- p).
Proof.
  intros X F. pose proof (pred_plus_ulp radix2 fexp x X F) as E. pose proof (ulp_FLT_gt radix2 emin p x) as G. rewrite Rabs_pos_eq in G by lra.
  destruct (ulp_FLT_pred_pos radix2 emin p x F) as [U|[U1 U2]]; [lra|lra|].
  enough (x * bpow radix2 (- p) <= ulp radix2 fexp x / 2) by (change (IZR radix2) with 2 in U2; lra).
  pose proof (ulp_ge_mag x ltac:(lra)) as M. replace (mag radix2 x - p)%Z with ((mag radix2 x - 1) + (- p) + 1)%Z in M by lia. rewrite !bpow_plus in M. rewrite <- U1 in M.
  change (bpow radix2 1) with 2 in M. lra.
Qed.
End Gap.

Lemma double_1 : is_double 1.
Proof. unfold is_double. change 1 with (bpow radix2 0). apply generic_format_bpow. cbn. lia. Qed.
Lemma double_below_1 : is_double (1 - / 9007199254740992).
Proof.
  unfold is_double, fexp64. apply generic_format_FLT. exists (Float radix2 9007199254740991 (-53)); cbn; [|lia|lia].
  unfold F2R. cbn. lra.
Qed.

(** The factor is 1 or the double below 1. *)
Lemma factor u : small u -> round64 (1 + u) = 1 \/ round64 (1 + u) = 1 - / 9007199254740992.
Proof.
  unfold small. intros U. apply Rabs_le_inv in U. set (r := round64 (1 + u)).
  assert (F : is_double r) by (apply generic_format_round; typeclasses eauto).
  assert (L : 1 - / 9007199254740992 <= r).
  { unfold r. rewrite <- (round_generic radix2 fexp64 ZnearestE (1 - / 9007199254740992)) by apply double_below_1. apply round_le; try typeclasses eauto. lra. }
  assert (S : 1 + / 4503599627370496 <= succ radix2 fexp64 1).
  { rewrite succ_eq_pos by lra. unfold fexp64. pose proof (ulp_ge_mag (-1074) 53 1 ltac:(lra)) as M. rewrite mag_1 in M. cbn in M. lra. }
  assert (H : r <= 1) by (unfold r; apply round_N_le_midp; [typeclasses eauto|apply double_1|lra]).
  destruct (Rle_lt_or_eq_dec r 1 H) as [R|R]; [right|now left].
  pose proof (pred_ge_gt radix2 fexp64 r 1 F double_1 R) as G. pose proof (gap (-1074) 53 1 ltac:(lra) double_1) as G2. change (bpow radix2 (- (53))) with (/ 9007199254740992) in G2. unfold fexp64 in G. lra.
Qed.

Lemma noise_opp x f : round64 (- x * f) = - round64 (x * f).
Proof. unfold round64. replace (- x * f) with (- (x * f)) by ring. apply round_NE_opp. Qed.

(** ** doubles *)
Local Notation pred64 := (pred radix2 fexp64).
Lemma double_pos x u : 0 < x -> is_double x -> small u -> let r := round64 (x * round64 (1 + u)) in r = x \/ r = pred64 x.
Proof.
  intros X F U r. destruct (factor u U) as [E|E]; unfold r; rewrite E; clear r.
  - left. rewrite Rmult_1_r. apply round_generic; [typeclasses eauto|exact F].
  - set (r := round64 _). assert (Fr : is_double r) by (apply generic_format_round; typeclasses eauto).
    assert (Hr : r <= x). { unfold r. rewrite <- (round_generic radix2 fexp64 ZnearestE x F) at 2. apply round_le; try typeclasses eauto. nra. }
    assert (Lr : pred64 x <= r).
    { unfold r. rewrite <- (round_generic radix2 fexp64 ZnearestE (pred64 x)) by (apply generic_format_pred; [typeclasses eauto|exact F]). apply round_le; try typeclasses eauto.
      pose proof (gap (-1074) 53 x X F) as G. change (bpow radix2 (- (53))) with (/ 9007199254740992) in G. unfold fexp64. lra. }
    destruct (Rle_lt_or_eq_dec r x Hr) as [R|R]; [right|now left]. pose proof (pred_ge_gt radix2 fexp64 r x Fr F R). lra.
Qed.
Lemma next_pos x : 0 < x -> is_double x -> next_to x (pred64 x).
Proof.
  intros X F. assert (Fp : is_double (pred64 x)) by (apply generic_format_pred; [typeclasses eauto|exact F]). assert (Lp : pred64 x < x) by (apply pred_lt_id; lra).
  assert (Pp : 0 <= pred64 x) by (apply pred_ge_0; [typeclasses eauto|exact X|exact F]). unfold next_to. rewrite !Rabs_pos_eq by lra.
  split; [exact Fp|]. split; [exact Lp|]. split; [nra|]. intros z Fz Lz Sz. assert (0 <= z) by nra. rewrite Rabs_pos_eq in * by lra.
  apply pred_ge_gt; auto. typeclasses eauto.
Qed.
Lemma next_opp x y : next_to x y -> next_to (- x) (- y).
Proof.
  intros (A & B & C & D). unfold next_to. rewrite !Rabs_Ropp. split; [now apply generic_format_opp|]. split; [exact B|]. split; [nra|].
  intros z Fz Lz Sz. rewrite <- (Rabs_Ropp z). apply D; [now apply generic_format_opp|now rewrite Rabs_Ropp|nra].
Qed.
Lemma double_any x u : is_double x -> small u -> let r := round64 (x * round64 (1 + u)) in r = x \/ next_to x r.
Proof.
  intros F U r. destruct (Rtotal_order x 0) as [N|[->|N]].
  - assert (F' : is_double (- x)) by now apply generic_format_opp. destruct (double_pos (- x) u ltac:(lra) F' U) as [E|E]; cbn in E; rewrite noise_opp in E; fold r in E; [left; lra|right].
    replace r with (- pred64 (- x)) by lra. replace x with (- - x) at 1 by ring. apply next_opp. apply next_pos; [lra|exact F'].
  - left. unfold r. rewrite Rmult_0_l. apply round_0. typeclasses eauto.
  - destruct (double_pos x u N F U) as [E|E]; [now left|right]. fold r in E. rewrite E. now apply next_pos.
Qed.

(** ** singles *)
Lemma single_double x : is_single x -> is_double x.
Proof. apply generic_inclusion_mag. intros _. unfold fexp32, fexp64, FLT_exp. lia. Qed.
Lemma single_least x : 0 < x -> is_single x -> bpow radix2 (-149) <= x.
Proof. apply generic_format_ge_bpow. intros e. unfold fexp32, FLT_exp. lia. Qed.
Lemma single_pos x u : 0 < x -> is_single x -> small u -> round32 (round64 (x * round64 (1 + u))) = x.
Proof.
  intros X F U. pose proof (single_double x F) as F64. assert (Own : round32 x = x) by (apply round_generic; [typeclasses eauto|exact F]).
  destruct (double_pos x u X F64 U) as [E|E]; cbn in E; rewrite E; [exact Own|].
  assert (L : pred64 x < x) by (apply pred_lt_id; lra).
  apply Rle_antisym; [rewrite <- Own at 2; apply round_le; try typeclasses eauto; lra|].
  apply round_N_ge_midp; [typeclasses eauto|exact F|].
  pose proof (gap (-149) 24 x X F) as G. fold fexp32 in G.
  pose proof (pred_plus_ulp radix2 fexp64 x X F64) as Ep.
  assert (Ul : ulp radix2 fexp64 (pred64 x) <= ulp radix2 fexp64 x).
  { apply ulp_le_pos; [typeclasses eauto|apply FLT_exp_monotone|apply pred_ge_0; [typeclasses eauto|exact X|exact F64]|lra]. }
  assert (Uu : ulp radix2 fexp64 x <= x * bpow radix2 (1 - 53)).
  { pose proof (ulp_FLT_le radix2 (-1074) 53 x) as A. rewrite Rabs_pos_eq in A by lra. apply A. apply Rle_trans with (2 := single_least x X F). apply bpow_le. lia. }
  change (bpow radix2 (1 - 53)) with (/ 4503599627370496) in Uu. change (bpow radix2 (- (24))) with (/ 16777216) in G. lra.
Qed.
Lemma single_any x u : is_single x -> small u -> round32 (round64 (x * round64 (1 + u))) = x.
Proof.
  intros F U. destruct (Rtotal_order x 0) as [N|[->|N]].
  - assert (F' : is_single (- x)) by now apply generic_format_opp. pose proof (single_pos (- x) u ltac:(lra) F' U) as E. rewrite noise_opp in E.
    unfold round32 in E. rewrite round_NE_opp in E. unfold round32. lra.
  - rewrite Rmult_0_l. unfold round64, round32. rewrite !round_0; try typeclasses eauto. reflexivity.
  - now apply single_pos.
Qed.

(** ** which draws change a number *)
Definition normal (x : R) : Prop := bpow radix2 (-1022) < Rabs x.
Lemma factor_below u : small u -> u < - / 18014398509481984 -> round64 (1 + u) = 1 - / 9007199254740992.
Proof.
  intros S L. destruct (factor u S) as [E|E]; [exfalso|exact E].
  pose proof (gap (-1074) 53 1 ltac:(lra) double_1) as G2. fold fexp64 in G2. change (bpow radix2 (- (53))) with (/ 9007199254740992) in G2.
  assert (B : round64 (1 + u) <= 1 - / 9007199254740992).
  { apply round_N_le_midp; [typeclasses eauto|apply double_below_1|].
    assert (succ radix2 fexp64 (1 - / 9007199254740992) = 1). 
    { assert (P : pred radix2 fexp64 1 = 1 - / 9007199254740992).
      { apply Rle_antisym; [lra|]. apply pred_ge_gt; [typeclasses eauto|apply double_below_1|apply double_1|lra]. }
      rewrite <- P. apply succ_pred; [typeclasses eauto|apply double_1]. }
    lra. }
  lra.
Qed.
Lemma factor_above u : small u -> - / 18014398509481984 < u -> round64 (1 + u) = 1.
Proof.
  intros S L. destruct (factor u S) as [E|E]; [exact E|exfalso].
  assert (B : 1 <= round64 (1 + u)).
  { apply round_N_ge_midp; [typeclasses eauto|apply double_1|]. pose proof (gap (-1074) 53 1 ltac:(lra) double_1) as G2. fold fexp64 in G2.
    change (bpow radix2 (- (53))) with (/ 9007199254740992) in G2. lra. }
  lra.
Qed.
Lemma change_pos x : 0 < x -> is_double x -> normal x -> round64 (x * (1 - / 9007199254740992)) = pred64 x.
Proof.
  intros X F N. unfold normal in N. rewrite Rabs_pos_eq in N by lra.
  set (e := (mag radix2 x - 1)%Z). assert (B : bpow radix2 e <= x). { unfold e. pose proof (bpow_mag_le radix2 x ltac:(lra)) as A. rewrite Rabs_pos_eq in A by lra. exact A. }
  assert (T : x < bpow radix2 (e + 1)). { unfold e. replace (mag radix2 x - 1 + 1)%Z with (mag radix2 x : Z) by lia. pose proof (bpow_mag_gt radix2 x) as A. rewrite Rabs_pos_eq in A by lra. exact A. }
  assert (Lp : pred64 x < x) by (apply pred_lt_id; lra). pose proof (gap (-1074) 53 x X F) as G. fold fexp64 in G. change (bpow radix2 (- (53))) with (/ 9007199254740992) in G.
  destruct (Rle_lt_or_eq_dec _ _ B) as [C|C].
  - assert (U : ulp radix2 fexp64 x = bpow radix2 e * / 4503599627370496).
    { rewrite ulp_neq_0 by lra. unfold cexp, fexp64, FLT_exp. rewrite Z.max_l.
      - replace (mag radix2 x - 53)%Z with (e + -52)%Z by (unfold e; lia). rewrite bpow_plus. reflexivity.
      - assert (bpow radix2 (-1022) < bpow radix2 (e + 1)) as H by lra. apply lt_bpow in H. unfold e in H. lia. }
    pose proof (pred_plus_ulp radix2 fexp64 x X F) as Ep.
    assert (Ul : ulp radix2 fexp64 (pred64 x) <= ulp radix2 fexp64 x).
    { apply ulp_le_pos; [typeclasses eauto|apply FLT_exp_monotone|apply pred_ge_0; [typeclasses eauto|exact X|exact F]|lra]. }
    assert (Fp : is_double (pred64 x)) by (apply generic_format_pred; [typeclasses eauto|exact F]).
    apply Rle_antisym.
    + apply round_N_le_midp; [typeclasses eauto|exact Fp|]. rewrite succ_pred by (try typeclasses eauto; exact F). lra.
    + rewrite <- (round_generic radix2 fexp64 ZnearestE (pred64 x)) by exact Fp. apply round_le; try typeclasses eauto. lra.
  - assert (Fy : is_double (x * (1 - / 9007199254740992))).
    { unfold is_double, fexp64. apply generic_format_FLT. exists (Float radix2 9007199254740991 (e - 53)); cbn [Fnum Fexp].
      - unfold F2R. cbn [Fnum Fexp]. rewrite <- C. unfold Z.sub at 1. rewrite bpow_plus. change (bpow radix2 (- (53))) with (/ 9007199254740992). lra.
      - cbn. lia.
      - rewrite <- C in N. apply lt_bpow in N. lia. }
    unfold round64. rewrite round_generic by (try typeclasses eauto; exact Fy). apply Rle_antisym; [|lra].
    apply pred_ge_gt; [typeclasses eauto|exact Fy|exact F|nra].
Qed.
Lemma change_any x u : is_double x -> normal x -> small u -> u < - / 18014398509481984 -> next_to x (round64 (x * round64 (1 + u))).
Proof.
  intros F N U L. rewrite factor_below by assumption. destruct (Rtotal_order x 0) as [M|[->|M]].
  - assert (F' : is_double (- x)) by now apply generic_format_opp.
    pose proof (change_pos (- x) ltac:(lra) F') as E. unfold normal in *. rewrite Rabs_Ropp in E. specialize (E N). rewrite noise_opp in E.
    replace (round64 _) with (- pred64 (- x)) by lra. replace x with (- - x) at 1 by ring. apply next_opp. apply next_pos; [lra|exact F'].
  - exfalso. unfold normal in N. rewrite Rabs_R0 in N. pose proof (bpow_ge_0 radix2 (-1022)). lra.
  - rewrite change_pos by assumption. now apply next_pos.
Qed.
Lemma same_any x u : is_double x -> small u -> - / 18014398509481984 < u -> round64 (x * round64 (1 + u)) = x.
Proof. intros F U L. rewrite factor_above by assumption. rewrite Rmult_1_r. apply round_generic; [typeclasses eauto|exact F]. Qed.

(** ** arrays *)
Lemma noise_length limit d l : forall draws, length (noise limit d l draws) = length l.
Proof. induction l as [|v l IH]; intros draws; [reflexivity|]. cbn [noise]. destruct (selected limit v); [destruct draws|]; cbn [length]; now rewrite IH. Qed.
Lemma noise_nth limit d l : forall draws k v, nth_error l k = Some v ->
  nth_error (noise limit d l draws) k = Some v \/ selected limit v = true /\ exists u, In u draws /\ nth_error (noise limit d l draws) k = Some (times d v u).
Proof.
  induction l as [|w l IH]; intros draws k v E; [now destruct k|]. cbn [noise]. destruct (selected limit w) eqn:W; [destruct draws as [|u draws]|].
  - destruct k; [now left|]. cbn in E. apply (IH [] k v E).
  - destruct k as [|k]; cbn in E.
    + injection E as ->. right. split; [exact W|]. exists u. split; [now left|reflexivity].
    + destruct (IH draws k v E) as [H|(H & u' & I & H')]; [now left|right]. split; [exact H|]. exists u'. split; [now right|exact H'].
  - destruct k as [|k]; cbn in E; [left; exact E|]. apply (IH draws k v E).
Qed.
Lemma selected_gets limit v : selected limit v = gets_noise limit v.
Proof. destruct v as [x| |b]; cbn; try reflexivity. destruct (Rlt_dec x limit), (Rle_dec limit x); try reflexivity; lra. Qed.
Lemma noise_draw limit d l1 v l2 : forall draws u, gets_noise limit v = true -> nth_error draws (length (filter (gets_noise limit) l1)) = Some u ->
  nth_error (noise limit d (l1 ++ v :: l2) draws) (length l1) = Some (times d v u).
Proof.
  induction l1 as [|w l1 IH]; intros draws u G E; cbn [app filter length noise] in *.
  - rewrite selected_gets, G. destruct draws as [|u' draws]; [discriminate|]. cbn in E. injection E as ->. reflexivity.
  - rewrite selected_gets. destruct (gets_noise limit w) eqn:W; cbn [length nth_error] in *; [destruct draws as [|u' draws]; [discriminate E|]|]; now apply IH.
Qed.
Lemma noise_single limit l : forall draws, (forall x, In (Number x) l -> is_single x) -> (forall u, In u draws -> small u) -> noise limit Single l draws = l.
Proof.
  induction l as [|v l IH]; intros draws F U; [reflexivity|]. cbn [noise]. destruct (selected limit v); [destruct draws as [|u draws]|].
  - f_equal. apply IH; [intros x I; apply F; now right|easy].
  - f_equal; [|apply IH; [intros x I; apply F; now right|intros w I; apply U; now right]].
    destruct v as [x| |b]; cbn; try reflexivity. f_equal. apply single_any; [apply F; now left|apply U; now left].
  - f_equal. apply IH; [intros x I; apply F; now right|exact U].
Qed.

(** ** dictionaries *)
Lemma perturb_nth limit input : forall draws n,
  nth_error (perturb limit input draws) n =
  match nth_error input n with
  | Some (name, Array Double l) => Some (name, Array Double (noise (limit Double) Double l (nth n draws [])))
  | Some (name, Array Single l) => Some (name, Array Single (noise (limit Single) Single l (nth n draws [])))
  | r => r
  end.
Proof.
  induction input as [|[name e] input IH]; intros draws n; [now destruct n|].
  assert (H : forall m, nth m (tl draws) [] = nth (S m) draws []) by (intros m; destruct draws; [now destruct m|reflexivity]).
  destruct n as [|n].
  - destruct e as [[| |o] l|]; cbn; destruct draws; reflexivity.
  - destruct e as [[| |o] l|]; cbn [perturb nth_error]; rewrite IH, H; reflexivity.
Qed.
Lemma nth_small draws n u : all_small draws -> In u (nth n draws []) -> small u.
Proof. intros A I. destruct (nth_in_or_default n draws []) as [H|H]; [exact (A _ _ H I)|rewrite H in I; destruct I]. Qed.

(** ** C107 *)
(** Every number of a float64 array keeps its place; it is what it was, or it was below the limit and is now the next double towards zero. *)
Theorem C107_double_partial limit input draws n name l k v :
  all_small draws -> nth_error input n = Some (name, Array Double l) -> (forall x, In (Number x) l -> is_double x) -> nth_error l k = Some v ->
  exists l' v', nth_error (perturb limit input draws) n = Some (name, Array Double l') /\ length l' = length l /\ nth_error l' k = Some v' /\
                (v' = v \/ exists x y, v = Number x /\ v' = Number y /\ x < limit Double /\ next_to x y).
Proof.
  intros A E F K. rewrite perturb_nth, E. eexists. destruct (noise_nth (limit Double) Double l (nth n draws []) k v K) as [H|(S & u & I & H)].
  - exists v. split; [reflexivity|]. split; [apply noise_length|]. split; [exact H|now left].
  - eexists. split; [reflexivity|]. split; [apply noise_length|]. split; [exact H|].
    destruct v as [x| |b]; cbn [times]; try now left. cbn in S. destruct (Rlt_dec x (limit Double)) as [L|]; [|discriminate].
    destruct (double_any x u) as [Q|Q]; [apply F; now apply nth_error_In in K|now apply (nth_small draws n)|left; now rewrite Q|right].
    exists x, (round64 (x * round64 (1 + u))). auto.
Qed.
(** A number of a float64 array with a draw below minus half a unit in the last place of 1 moves; with a draw above, it does not. *)
Theorem C107_draws_partial limit input draws n name l1 x l2 u :
  all_small draws -> nth_error input n = Some (name, Array Double (l1 ++ Number x :: l2)) -> is_double x -> normal x -> x < limit Double ->
  nth_error (nth n draws []) (length (filter (gets_noise (limit Double)) l1)) = Some u ->
  exists l' y, nth_error (perturb limit input draws) n = Some (name, Array Double l') /\ nth_error l' (length l1) = Some (Number y) /\
               (u < - / 18014398509481984 -> next_to x y) /\ (- / 18014398509481984 < u -> y = x).
Proof.
  intros A E F N L D. rewrite perturb_nth, E. eexists. exists (round64 (x * round64 (1 + u))). split; [reflexivity|].
  assert (G : gets_noise (limit Double) (Number x) = true) by (cbn; destruct (Rle_dec (limit Double) x); [lra|reflexivity]).
  split; [exact (noise_draw _ Double l1 (Number x) l2 _ u G D)|].
  assert (U : small u) by (apply (nth_small draws n); [exact A|now apply nth_error_In in D]).
  split; intros H; [now apply change_any|now apply same_any].
Qed.
(** Fill values, NaN and infinities stay; so do arrays of other dtypes and whatever is not an array; names and lengths stay. *)
Theorem C107_untouched limit input draws :
  map fst (perturb limit input draws) = map fst input /\
  (forall n name o l, nth_error input n = Some (name, Array (Other o) l) -> nth_error (perturb limit input draws) n = Some (name, Array (Other o) l)) /\
  (forall n name, nth_error input n = Some (name, Else) -> nth_error (perturb limit input draws) n = Some (name, Else)) /\
  (forall n name d l k v, nth_error input n = Some (name, Array d l) -> nth_error l k = Some v -> (forall x, v = Number x -> limit d <= x) ->
     exists l', nth_error (perturb limit input draws) n = Some (name, Array d l') /\ length l' = length l /\ nth_error l' k = Some v).
Proof.
  split; [|split; [|split]].
  - revert draws. induction input as [|[name [[| |o] l|]] input IH]; intros draws; [reflexivity|cbn [perturb map fst]; now rewrite IH ..].
  - intros n name o l E. now rewrite perturb_nth, E.
  - intros n name E. now rewrite perturb_nth, E.
  - intros n name d l k v E K H.
    assert (Q : forall draws', nth_error (noise (limit d) d l draws') k = Some v).
    { intros draws'. destruct (noise_nth (limit d) d l draws' k v K) as [Q|(S & u & _ & Q)]; [exact Q|]. rewrite Q.
      destruct v as [x| |b]; [|reflexivity..]. cbn in S. specialize (H x eq_refl). destruct (Rlt_dec x (limit d)); [lra|discriminate]. }
    rewrite perturb_nth, E. destruct d as [| |o]; eexists; (split; [reflexivity|]); (split; [try apply noise_length; reflexivity|]); auto.
Qed.
(** No number ever grows: the noise has one sign. *)
Theorem C107_never_up_partial limit input draws n name l k x :
  all_small draws -> nth_error input n = Some (name, Array Double l) -> (forall x, In (Number x) l -> is_double x) -> nth_error l k = Some (Number x) ->
  exists l' y, nth_error (perturb limit input draws) n = Some (name, Array Double l') /\ nth_error l' k = Some (Number y) /\ Rabs y <= Rabs x.
Proof.
  intros A E F K. destruct (C107_double_partial limit input draws n name l k (Number x) A E F K) as (l' & v' & P & _ & Q & [->|(x' & y & X & -> & _ & N)]).
  - exists l', x. split; [exact P|]. split; [exact Q|lra].
  - injection X as <-. exists l', y. split; [exact P|]. split; [exact Q|]. destruct N as (_ & N & _). lra.
Qed.
(** float32 arrays are never changed, whatever is drawn. *)
Theorem C107_single_partial limit input draws n name l :
  all_small draws -> nth_error input n = Some (name, Array Single l) -> (forall x, In (Number x) l -> is_single x) ->
  nth_error (perturb limit input draws) n = Some (name, Array Single l).
Proof. intros A E F. rewrite perturb_nth, E. rewrite noise_single; [reflexivity|exact F|]. intros u I. now apply (nth_small draws n). Qed.

Lemma single_1 : is_single 1.
Proof. unfold is_single. change 1 with (bpow radix2 0). apply generic_format_bpow. cbn. lia. Qed.
Lemma single_3 : is_single 3.
Proof. unfold is_single, fexp32. apply generic_format_FLT. exists (Float radix2 3 0); cbn; [|lia|lia]. unfold F2R. cbn. lra. Qed.
(** The claim of the docstring for float32: there is a dictionary, with numbers below the limit, that no draws change. *)
Theorem C107_float32_refuted : exists input, Forall (fun p => proper (snd p)) input /\ In ("u"%string, Array Single [Number 1; Number 3]) input /\
  forall limit draws, all_small draws -> perturb limit input draws = input.
Proof.
  exists [("u"%string, Array Single [Number 1; Number 3])].
  assert (F : forall x, In (Number x) [Number 1; Number 3] -> is_single x) by (intros x [E|[E|[]]]; injection E as <-; [apply single_1|apply single_3]).
  split; [constructor; [exact F|constructor]|]. split; [now left|]. intros limit draws A. cbn [perturb]. rewrite noise_single; [reflexivity|exact F|].
  intros u I. destruct draws as [|d draws]; [destruct I|]. apply (A d); [now left|exact I].
Qed.
(** The claim of noise of either sign: 1 is never raised, and some draw lowers it. *)
Theorem C107_sign_refuted : exists input, Forall (fun p => proper (snd p)) input /\
  (forall limit draws, all_small draws -> exists y, perturb limit input draws = [("u"%string, Array Double [Number y])] /\ y <= 1) /\
  exists draws, all_small draws /\ exists y, perturb (fun _ => 10) input draws = [("u"%string, Array Double [Number y])] /\ y < 1.
Proof.
  exists [("u"%string, Array Double [Number 1])].
  assert (F : forall x, In (Number x) [Number 1] -> is_double x) by (intros x [E|[]]; injection E as <-; apply double_1).
  split; [constructor; [exact F|constructor]|]. split.
  - intros limit draws A. cbn [perturb noise]. destruct (selected (limit Double) (Number 1)); [|exists 1; split; [reflexivity|lra]].
    destruct draws as [|[|u d] draws]; cbn [hd]; [exists 1; split; [reflexivity|lra] ..|]. cbn [times]. eexists. split; [reflexivity|].
    assert (U : small u) by (apply (A (u :: d)); now left). destruct (factor u U) as [E|E]; rewrite E, Rmult_1_l.
    + right. apply round_generic; [typeclasses eauto|apply double_1].
    + unfold round64. rewrite round_generic by (try typeclasses eauto; apply double_below_1). lra.
  - exists [[- / 10 ^ 16]]. assert (U : small (- / 10 ^ 16)) by (unfold small; rewrite Rabs_Ropp, Rabs_pos_eq; lra).
    split; [intros l u [<-|[]] [<-|[]]; exact U|]. cbn [perturb noise hd selected times]. destruct (Rlt_dec 1 10) as [L|L]; [|lra].
    eexists. split; [reflexivity|]. rewrite factor_below by (try exact U; lra). rewrite Rmult_1_l. unfold round64.
    rewrite round_generic by (try typeclasses eauto; apply double_below_1). lra.
Qed.
Print Assumptions C107_double_partial.
Print Assumptions C107_draws_partial.
Print Assumptions C107_untouched.
Print Assumptions C107_never_up_partial.
Print Assumptions C107_single_partial.
Print Assumptions C107_float32_refuted.
Print Assumptions C107_sign_refuted.

(** a dictionary of a float64 array with a fill value and a NaN, a float32 array, an array of integers and something else *)
Example C107_case : let limit := fun _ => 10 ^ 30 in
  let input := [("a"%string, Array Double [NaN; Number 1; Number (10 ^ 30); Number (-1)]); ("b"%string, Array Single [Number 3]);
                ("c"%string, Array (Other "int32"%string) [Number 7]); ("d"%string, Else)] in
  let draws := [[- / 10 ^ 16; / 10 ^ 16]; [/ 10 ^ 16]] in
  all_small draws /\ normal 1 /\ exists y, perturb limit input draws =
    [("a"%string, Array Double [NaN; Number y; Number (10 ^ 30); Number (-1)]); ("b"%string, Array Single [Number 3]);
     ("c"%string, Array (Other "int32"%string) [Number 7]); ("d"%string, Else)] /\ next_to 1 y /\ y = 1 - / 9007199254740992.
Proof.
  intros limit input draws. assert (U : small (- / 10 ^ 16)) by (unfold small; rewrite Rabs_Ropp, Rabs_pos_eq; lra). assert (U' : small (/ 10 ^ 16)) by (unfold small; rewrite Rabs_pos_eq; lra).
  split; [intros l u [<-|[<-|[]]] I; cbn in I; repeat destruct I as [<-|I]; assumption || contradiction|].
  assert (N : normal 1). { unfold normal. rewrite Rabs_R1. change 1 with (bpow radix2 0). apply bpow_lt. lia. }
  split; [exact N|]. exists (round64 (1 * round64 (1 + - / 10 ^ 16))). split.
  - unfold input, draws, limit. cbn [perturb noise hd tl selected times].
    destruct (Rlt_dec 1 (10 ^ 30)) as [L|L]; [|exfalso; lra]. destruct (Rlt_dec (10 ^ 30) (10 ^ 30)) as [L'|L']; [exfalso; lra|].
    destruct (Rlt_dec (-1) (10 ^ 30)) as [L2|L2]; [|exfalso; lra]. destruct (Rlt_dec 3 (10 ^ 30)) as [L3|L3]; [|exfalso; lra].
    rewrite (same_any (-1) (/ 10 ^ 16)); [|apply generic_format_opp, double_1|exact U'|lra]. rewrite single_any; [reflexivity|apply single_3|exact U'].
  - split; [apply change_any; [apply double_1|exact N|exact U|lra]|]. rewrite factor_below by (try exact U; lra). rewrite Rmult_1_l. unfold round64.
    rewrite round_generic by (try typeclasses eauto; apply double_below_1). reflexivity.
Qed.
