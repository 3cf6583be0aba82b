(** C119: the limits and colours of a plot are those of the user or fit the data; the dimensions are aligned by name.

    Full statement: infer_cmap_params returns every value that the user gives, and infers the others: the data lie between the limits, the smaller limit first, with limits
    symmetric about 0 and colours "RdBu_r" if the data have both signs, "viridis" otherwise; robust limits lie within the others.  _align_grid_var_dims and _align_plot_var_dims return the
    same values, with the dimensions in a determined order. *)
From Coq Require Import List Bool String QArith Qminmax Qabs Lqa Lia Permutation.
From Verif Require Import HueModel HueProofs.
Import ListNotations.
Local Open Scope Q_scope.
Local Open Scope list_scope.

(** Partial: not if the user gives all three *)
Theorem C119_user_partial data vmin vmax cmap robust a b c : infer_cmap_params data vmin vmax cmap robust = Some (a, b, c) ->
  (forall v, vmin = Some v -> a = v) /\ (forall w, vmax = Some w -> b = w) /\ (forall s, cmap = Some s -> s <> ""%string -> c = s).
Proof.
  unfold infer_cmap_params. destruct (if robust then _ else _) as [xmin xmax]. unfold infer_color_limits.
  assert (K : forall d s, s <> ""%string -> cmap_or d (Some s) = s) by (intros d [|x s] S; [congruence|reflexivity]).
  destruct vmin as [v|], vmax as [w|].
  - destruct (named cmap) eqn:E; cbn [negb]; [discriminate|]. intros [= <- <- <-]. split; [congruence|split; [congruence|]]. intros s -> S. destruct s; [congruence|discriminate].
  - destruct (_ && _); intros [= <- <- <-]; (split; [congruence|split; [congruence|]]); intros s -> S; apply K, S.
  - destruct (_ && _); intros [= <- <- <-]; (split; [congruence|split; [congruence|]]); intros s -> S; apply K, S.
  - destruct (_ && _); intros [= <- <- <-]; (split; [congruence|split; [congruence|]]); intros s -> S; apply K, S.
Qed.
Print Assumptions C119_user_partial.

(** ... and then it always raises *)
Theorem C119_raises data vmin vmax cmap robust :
  infer_cmap_params data vmin vmax cmap robust = None <-> exists v w s, vmin = Some v /\ vmax = Some w /\ cmap = Some s /\ s <> ""%string.
Proof.
  unfold infer_cmap_params. destruct (if robust then _ else _) as [xmin xmax]. unfold infer_color_limits. split.
  - destruct vmin as [v|], vmax as [w|]; [|destruct (_ && _); discriminate..]. destruct cmap as [[|x s]|]; cbn; try discriminate. intros _. exists v, w, (String x s). repeat split. discriminate.
  - intros (v & w & s & -> & -> & -> & S). destruct s; [congruence|reflexivity].
Qed.
Print Assumptions C119_raises.
Theorem C119_all_refuted : exists data v w s, s <> ""%string /\ infer_cmap_params data (Some v) (Some w) (Some s) false = None.
Proof. exists [Some 1; Some 2], (Some 0), (Some 3), "jet"%string. split; [discriminate|reflexivity]. Qed.
Print Assumptions C119_all_refuted.

(** a limit of the user that is NaN is equal to nothing and has no sign: the colours are "viridis" and the other limit is not inferred from it *)
Theorem C119_nan data robust :
  (forall w, infer_cmap_params data (Some None) (Some w) None robust = Some (None, w, "viridis"%string)) /\
  (forall v, infer_cmap_params data (Some v) (Some None) None robust = Some (v, None, "viridis"%string)) /\
  (exists b, infer_cmap_params data (Some None) None None robust = Some (None, b, "viridis"%string)) /\
  (exists a, infer_cmap_params data None (Some None) None robust = Some (a, None, "viridis"%string)).
Proof.
  unfold infer_cmap_params. destruct (if robust then _ else _) as [xmin xmax]. unfold infer_color_limits, nlt, neq, neg. cbn [named negb option_map]. split; [reflexivity|].
  split; [intros [v|]; reflexivity|]. split; [destruct xmax; cbn [andb]; rewrite ?andb_false_r; eauto|destruct xmin; cbn [andb]; rewrite ?andb_false_r; eauto].
Qed.
Print Assumptions C119_nan.

(** without limits of the user *)
Theorem C119_cover data cmap x0 : In (Some x0) data ->
  exists a b c, infer_cmap_params data None None cmap false = Some (Some a, Some b, c) /\
  (forall x, In (Some x) data -> a <= x /\ x <= b) /\
  ((exists x y, In (Some x) data /\ In (Some y) data /\ x < 0 /\ 0 < y) -> a == - b /\ (exists x, In (Some x) data /\ Qabs x == b) /\ (cmap = None -> c = "RdBu_r"%string)) /\
  (~ (exists x y, In (Some x) data /\ In (Some y) data /\ x < 0 /\ 0 < y) -> (exists x, In (Some x) data /\ x == a) /\ (exists x, In (Some x) data /\ x == b) /\ (cmap = None -> c = "viridis"%string)).
Proof.
  intros I0. unfold infer_cmap_params, nanmin, nanmax. assert (I1 := I0). apply valid_in in I1. destruct (valid data) as [|z l] eqn:E; [destruct I1|].
  assert (Hin : forall x, In (Some x) data <-> In x (z :: l)) by (intros x; rewrite <- E; apply valid_in).
  destruct (smallest_in l z) as (p & P & PE). destruct (largest_in l z) as (q & Q & QE).
  set (m := smallest z l) in *. set (M := largest z l) in *.
  assert (L : forall x, In (Some x) data -> m <= x /\ x <= M) by (intros x X; apply Hin in X; split; [now apply smallest_le|now apply largest_ge]).
  unfold infer_color_limits. destruct (nlt (Some m) (Some 0) && nlt (Some 0) (Some M)) eqn:B.
  - apply andb_prop in B. destruct B as [B1 B2]. apply nlt_spec in B1, B2. cbn [max_abs neg option_map]. eexists _, _, _. split; [reflexivity|].
    assert (A1 : Qabs m == - m) by (apply Qabs_neg; lra). assert (A2 : Qabs M == M) by (apply Qabs_pos; lra).
    assert (X1 := Q.le_max_l (Qabs m) (Qabs M)). assert (X2 := Q.le_max_r (Qabs m) (Qabs M)). split; [|split].
    + intros x X. destruct (L x X). split; lra.
    + intros _. split; [reflexivity|]. split; [|intros ->; reflexivity]. destruct (Q.max_spec (Qabs m) (Qabs M)) as [[_ K]|[_ K]].
      * exists q. split; [now apply Hin|]. rewrite K, QE. reflexivity.
      * exists p. split; [now apply Hin|]. rewrite K, PE. reflexivity.
    + intros H. exfalso. apply H. exists p, q. rewrite !Hin. repeat split; try assumption; lra.
  - eexists m, M, _. split; [reflexivity|]. split; [exact L|]. split.
    + intros (x & y & X & Y & X0 & Y0). exfalso. destruct (L x X), (L y Y). apply andb_false_iff in B. destruct B as [B|B]; apply nlt_not in B; lra.
    + intros _. split; [exists p; split; [now apply Hin|now symmetry]|]. split; [exists q; split; [now apply Hin|now symmetry]|]. intros ->. reflexivity.
Qed.
Print Assumptions C119_cover.

(** with one limit of the user the other is its opposite, or that of the data.  Partial: the data need not lie between them *)
Theorem C119_below_partial data v cmap : (exists x, In (Some x) data) ->
  exists b c, infer_cmap_params data (Some (Some v)) None cmap false = Some (Some v, Some b, c) /\
  ((v < 0 /\ exists x, In (Some x) data /\ 0 < x) -> b == - v) /\
  (~ (v < 0 /\ exists x, In (Some x) data /\ 0 < x) -> (exists x, In (Some x) data /\ x == b) /\ forall x, In (Some x) data -> x <= b).
Proof.
  intros [x0 I0]. unfold infer_cmap_params, nanmin, nanmax. assert (I1 := I0). apply valid_in in I1. destruct (valid data) as [|z l] eqn:E; [destruct I1|].
  assert (Hin : forall x, In (Some x) data <-> In x (z :: l)) by (intros x; rewrite <- E; apply valid_in). destruct (largest_in l z) as (q & Q & QE). set (M := largest z l) in *.
  assert (L : forall x, In (Some x) data -> x <= M) by (intros x X; apply Hin in X; now apply largest_ge).
  unfold infer_color_limits. destruct (nlt (Some 0) (Some M) && nlt (Some v) (Some 0)) eqn:B.
  - apply andb_prop in B. destruct B as [B1 B2]. apply nlt_spec in B1, B2. eexists _, _. split; [reflexivity|]. split; [reflexivity|]. intros H. exfalso. apply H. split; [exact B2|]. exists q. rewrite Hin. split; [assumption|]. lra.
  - eexists _, _. split; [reflexivity|]. split.
    + intros (V & x & X & X0). exfalso. apply L in X. apply andb_false_iff in B. destruct B as [B|B]; apply nlt_not in B; lra.
    + intros _. split; [exists q; split; [now apply Hin|now symmetry]|exact L].
Qed.
Print Assumptions C119_below_partial.
Theorem C119_above_partial data w cmap : (exists x, In (Some x) data) ->
  exists a c, infer_cmap_params data None (Some (Some w)) cmap false = Some (Some a, Some w, c) /\
  ((0 < w /\ exists x, In (Some x) data /\ x < 0) -> a == - w) /\
  (~ (0 < w /\ exists x, In (Some x) data /\ x < 0) -> (exists x, In (Some x) data /\ x == a) /\ forall x, In (Some x) data -> a <= x).
Proof.
  intros [x0 I0]. unfold infer_cmap_params, nanmin, nanmax. assert (I1 := I0). apply valid_in in I1. destruct (valid data) as [|z l] eqn:E; [destruct I1|].
  assert (Hin : forall x, In (Some x) data <-> In x (z :: l)) by (intros x; rewrite <- E; apply valid_in). destruct (smallest_in l z) as (q & Q & QE). set (M := smallest z l) in *.
  assert (L : forall x, In (Some x) data -> M <= x) by (intros x X; apply Hin in X; now apply smallest_le).
  unfold infer_color_limits. destruct (nlt (Some M) (Some 0) && nlt (Some 0) (Some w)) eqn:B.
  - apply andb_prop in B. destruct B as [B1 B2]. apply nlt_spec in B1, B2. eexists _, _. split; [reflexivity|]. split; [reflexivity|]. intros H. exfalso. apply H. split; [exact B2|]. exists q. rewrite Hin. split; [assumption|]. lra.
  - eexists _, _. split; [reflexivity|]. split.
    + intros (V & x & X & X0). exfalso. apply L in X. apply andb_false_iff in B. destruct B as [B|B]; apply nlt_not in B; lra.
    + intros _. split; [exists q; split; [now apply Hin|now symmetry]|exact L].
Qed.
Print Assumptions C119_above_partial.

(** the inferred limit cuts the data off, or is on the wrong side of the given one *)
Theorem C119_cover_refuted : exists data v b c x, infer_cmap_params data (Some (Some v)) None None false = Some (Some v, Some b, c) /\ In (Some x) data /\ v <= x /\ b < x.
Proof. exists [Some (-1); Some 20], (-10), 10, "RdBu_r"%string, 20. repeat split; [right; left; reflexivity|discriminate]. Qed.
Print Assumptions C119_cover_refuted.
Theorem C119_order_refuted : exists data v b c, data <> [] /\ infer_cmap_params data (Some (Some v)) None None false = Some (Some v, Some b, c) /\ b < v.
Proof. exists [Some 0; Some 1], 5, 1, "viridis"%string. repeat split. discriminate. Qed.
Print Assumptions C119_order_refuted.

(** the two limits of the user with no colours *)
Theorem C119_both data v w robust : infer_cmap_params data (Some (Some v)) (Some (Some w)) None robust = Some (Some v, Some w, if Qeq_bool v (- w) then "RdBu_r" else "viridis")%string.
Proof. unfold infer_cmap_params. destruct (if robust then _ else _). reflexivity. Qed.
Print Assumptions C119_both.

(** robust limits *)
Theorem C119_robust data cmap a b c a' b' c' : infer_cmap_params data None None cmap false = Some (Some a, Some b, c) -> infer_cmap_params data None None cmap true = Some (Some a', Some b', c') ->
  a <= a' /\ a' <= b' /\ b' <= b.
Proof.
  unfold infer_cmap_params, nanmin, nanmax, min_max_from_percentiles. destruct (valid data) as [|z l] eqn:E; [cbn; discriminate|].
  destruct (percentile_above (z :: l) ltac:(discriminate) 2 ltac:(lia)) as (u & U & U1). destruct (percentile_below (z :: l) ltac:(discriminate) 98 ltac:(lia)) as (t & T & T1).
  assert (P := percentile_mono (z :: l) ltac:(discriminate) 2 98 ltac:(lia)). apply smallest_le in U. apply largest_ge in T.
  set (m := smallest z l) in *. set (M := largest z l) in *. set (lo := percentile (z :: l) 2) in *. set (hi := percentile (z :: l) 98) in *.
  clearbody m M lo hi. unfold infer_color_limits. destruct (nlt (Some m) (Some 0) && nlt (Some 0) (Some M)) eqn:B; destruct (nlt (Some lo) (Some 0) && nlt (Some 0) (Some hi)) eqn:B'.
  - apply andb_prop in B, B'. destruct B as [B1 B2], B' as [B3 B4]. apply nlt_spec in B1, B2, B3, B4. cbn [max_abs neg option_map]. intros [= <- <- _] [= <- <- _].
    assert (A1 : Qabs m == - m) by (apply Qabs_neg; lra). assert (A2 : Qabs M == M) by (apply Qabs_pos; lra). assert (A3 : Qabs lo == - lo) by (apply Qabs_neg; lra). assert (A4 : Qabs hi == hi) by (apply Qabs_pos; lra).
    assert (X1 := Q.le_max_l (Qabs m) (Qabs M)). assert (X2 := Q.le_max_r (Qabs m) (Qabs M)). assert (X3 := Q.le_max_l (Qabs lo) (Qabs hi)). assert (X4 := Q.le_max_r (Qabs lo) (Qabs hi)).
    assert (X5 : Qmax (Qabs lo) (Qabs hi) <= Qmax (Qabs m) (Qabs M)) by (apply Q.max_lub; lra). repeat split; lra.
  - apply andb_prop in B. destruct B as [B1 B2]. apply nlt_spec in B1, B2. cbn [max_abs neg option_map]. intros [= <- <- _] [= <- <- _].
    assert (A1 : Qabs m == - m) by (apply Qabs_neg; lra). assert (A2 : Qabs M == M) by (apply Qabs_pos; lra). assert (X1 := Q.le_max_l (Qabs m) (Qabs M)). assert (X2 := Q.le_max_r (Qabs m) (Qabs M)). repeat split; lra.
  - apply andb_prop in B'. destruct B' as [B3 B4]. apply nlt_spec in B3, B4. apply andb_false_iff in B. exfalso. destruct B as [B|B]; apply nlt_not in B; lra.
  - intros [= <- <- _] [= <- <- _]. repeat split; lra.
Qed.
Print Assumptions C119_robust.

(** Dimensions *)
(** a value depends on the positions along the dimensions only *)
Definition depends {V} (a : array V) : Prop := forall f g, (forall d, In d (dims a) -> f d = g d) -> val a f = val a g.
Lemma mem_spec d l : mem d l = true <-> In d l.
Proof. unfold mem. destruct (in_dec string_dec d l); split; intros; [assumption|reflexivity|discriminate|contradiction]. Qed.
Lemma missing_spec {V} req (a : array V) : missing req a = true <-> exists d, In d req /\ ~ In d (dims a).
Proof.
  unfold missing. rewrite negb_true_iff. split.
  - intros H. induction req as [|d req IH]; [discriminate|]. cbn in H. apply andb_false_iff in H. destruct (mem d (dims a)) eqn:M.
    + destruct H as [H|H]; [discriminate|]. destruct (IH H) as (e & I & J). exists e. split; [right; exact I|exact J].
    + exists d. split; [left; reflexivity|]. intros J. apply mem_spec in J. congruence.
  - intros (d & I & J). apply not_true_iff_false. intros F. rewrite forallb_forall in F. apply J, mem_spec, F, I.
Qed.
Theorem C119_grid_dims V (a : array V) req : depends a ->
  (align_grid_var_dims a req = None <-> exists d, In d req /\ ~ In d (dims a)) /\
  forall r, align_grid_var_dims a req = Some r -> dims r = req /\ depends r /\
    forall f g, (forall d, In d req -> g d = f d) -> (forall d, In d (dims a) -> ~ In d req -> g d = O) -> val r f = val a g.
Proof.
  intros D. unfold align_grid_var_dims. split.
  - rewrite <- missing_spec. destruct (missing req a); [tauto|]. destruct (filter _ _); split; discriminate.
  - intros r. destruct (missing req a); [discriminate|]. set (red := filter _ _).
    assert (R : forall d, In d red <-> In d (dims a) /\ ~ In d req).
    { intros d. unfold red. rewrite filter_In, negb_true_iff, <- not_true_iff_false, mem_spec. tauto. }
    clearbody red. intros H. assert (K : dims r = req /\ forall f g, (forall d, In d req -> g d = f d) -> (forall d, In d (dims a) -> ~ In d req -> g d = O) -> val r f = val a g).
    { destruct red as [|d0 red'] eqn:ER; injection H as <-; cbn [dims val]; (split; [reflexivity|]); intros f g G1 G2; apply D; intros d I.
      - symmetry. apply G1. destruct (in_dec string_dec d req) as [J|J]; [exact J|]. exfalso. apply (proj2 (R d)). tauto.
      - destruct (mem d (d0 :: red')) eqn:M.
        + apply mem_spec, R in M. symmetry. apply G2; tauto.
        + symmetry. apply G1. destruct (in_dec string_dec d req) as [J|J]; [exact J|]. exfalso. apply not_true_iff_false in M. apply M, mem_spec, R. tauto. }
    destruct K as [K1 K2]. split; [exact K1|split; [|exact K2]]. intros f f' F. rewrite K1 in F.
    rewrite (K2 f (fun d => if mem d req then f d else O)), (K2 f' (fun d => if mem d req then f d else O)); [reflexivity|..].
    + intros d I. rewrite (proj2 (mem_spec d req) I). apply F, I.
    + intros d _ N. destruct (mem d req) eqn:M; [|reflexivity]. apply mem_spec in M. contradiction.
    + intros d I. now rewrite (proj2 (mem_spec d req) I).
    + intros d _ N. destruct (mem d req) eqn:M; [|reflexivity]. apply mem_spec in M. contradiction.
Qed.
Print Assumptions C119_grid_dims.

(** Partial: the order of two and more dimensions that are left is not determined *)
Theorem C119_plot_dims_partial V order (a : array V) y x : (forall l, Permutation (order l) l) -> NoDup (dims a) -> NoDup [y; x; "tile"%string] ->
  (align_plot_var_dims order a y x = None <-> ~ In y (dims a) \/ ~ In x (dims a) \/ ~ In "tile"%string (dims a)) /\
  forall r, align_plot_var_dims order a y x = Some r -> val r = val a /\ Permutation (dims r) (dims a) /\ firstn 3 (dims r) = [y; x; "tile"%string] /\
    forall d, Permutation (dims a) [y; x; "tile"%string; d] -> dims r = [y; x; "tile"%string; d].
Proof.
  intros O Na Nf. unfold align_plot_var_dims. set (first := [y; x; "tile"%string]) in *. split.
  - destruct (missing first a) eqn:M.
    + split; [intros _|reflexivity]. apply missing_spec in M. destruct M as (d & [<-|[<-|[<-|[]]]] & J); tauto.
    + split; [discriminate|]. intros H. exfalso. apply not_true_iff_false in M. apply M, missing_spec. destruct H as [H|[H|H]]; eexists; (split; [|exact H]); unfold first; cbn; tauto.
  - intros r. destruct (missing first a) eqn:M; [discriminate|]. intros [= <-]. cbn [val dims].
    assert (P : Permutation (first ++ order (filter (fun d => negb (mem d first)) (dims a))) (dims a)).
    { rewrite O. apply NoDup_Permutation.
      - assert (G : forall l, NoDup l -> NoDup (filter (fun d => negb (mem d first)) l)) by (intros l; apply NoDup_filter). apply G in Na. clear - Nf Na.
        assert (Q : forall d, In d (filter (fun d => negb (mem d first)) (dims a)) -> ~ In d first) by (intros d I; apply filter_In in I; destruct I as [_ I]; apply negb_true_iff, not_true_iff_false in I; now rewrite mem_spec in I).
        revert Nf Na Q. generalize (filter (fun d => negb (mem d first)) (dims a)). generalize first. intros f. induction f as [|e f IH]; intros l Nf Na Q; [exact Na|]. inversion Nf; subst. cbn. constructor.
        + rewrite in_app_iff. intros [I|I]; [contradiction|]. apply (Q e I). left. reflexivity.
        + apply IH; [assumption|assumption|]. intros d I J. apply (Q d I). right. exact J.
      - exact Na.
      - intros d. rewrite in_app_iff, filter_In, negb_true_iff, <- not_true_iff_false, mem_spec. split; [|destruct (in_dec string_dec d first); tauto]. intros [I|[I _]]; [|exact I].
        destruct (in_dec string_dec d (dims a)) as [J|J]; [exact J|]. exfalso. apply not_true_iff_false in M. apply M, missing_spec. exists d. tauto. }
    split; [reflexivity|]. split; [exact P|]. split; [reflexivity|]. intros d Pd. apply (fun H => perm_trans H Pd) in P. change [y; x; "tile"%string; d] with (first ++ [d]) in P. apply Permutation_app_inv_l in P. symmetry in P. apply Permutation_length_1_inv in P. now rewrite P.
Qed.
Print Assumptions C119_plot_dims_partial.
Theorem C119_plot_order_refuted : exists order order' (a : array nat), (forall l, Permutation (order l) l) /\ (forall l, Permutation (order' l) l) /\ NoDup (dims a) /\
  align_plot_var_dims order a "y" "x" <> None /\ align_plot_var_dims order a "y" "x" <> align_plot_var_dims order' a "y" "x".
Proof.
  exists (fun l => l), (@rev string), (Array ["time"; "z"; "tile"; "y"; "x"]%string (fun _ => O)). repeat split.
  - intros l. reflexivity.
  - intros l. symmetry. apply Permutation_rev.
  - cbn. repeat constructor; cbn; intuition discriminate.
  - discriminate.
  - cbv. intros [= E].
Qed.
Print Assumptions C119_plot_order_refuted.

Example C119_case : infer_cmap_params [Some (-10); None; Some 20; Some 3] None None None false = Some (Some (-20), Some 20, "RdBu_r"%string).
Proof. reflexivity. Qed.
Example C119_robust_case : exists a b, infer_cmap_params (map (fun n => Some (inject_Z (Z.of_nat n))) (seq 0 101)) None None None true = Some (Some a, Some b, "viridis"%string) /\ a == 2 /\ b == 98.
Proof. eexists _, _. split; [vm_compute; reflexivity|]. split; reflexivity. Qed.
Example C119_dims_case : exists r, align_grid_var_dims (Array ["tile"; "y"; "x"]%string (fun f => (100 * f "tile" + 10 * f "y" + f "x")%nat)%string) ["x"; "y"]%string = Some r /\
  dims r = ["x"; "y"]%string /\ val r (fun d => if string_dec d "x" then 3 else 4)%nat = 43%nat.
Proof. eexists. split; [reflexivity|]. split; reflexivity. Qed.
