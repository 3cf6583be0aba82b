(** C34: calibrated thresholds.  Model and specification in ThreshModel.v. *)
From Verif Require Import Base Dict ThreshModel ThreshProofs.
From Coq Require Import QArith Qabs Lqa.
Open Scope nat_scope.

(** C34 (partial).  For any sequence of trials and savepoint calls (the arrays of a variable all of one positive length): asking for thresholds raises exactly when
    fewer than two trials were completed; otherwise each savepoint has one row per call it had in the last trial, and each variable recorded at that call has
    an absolute threshold of factor times the largest difference between any two recorded arrays, and a relative one of factor times the largest difference
    divided by the mean magnitude (0 if every mean is 0).  Missing: calls that only earlier trials made, and the relative threshold when it is compared
    with one trial's value instead of the mean; see the refutations. *)
Theorem C34_thresholds_partial : forall len factor os,
  (forall sp v, 0 < len sp v) ->
  Forall (fun o => match o with Call sp kw => NoDup (keys kw) /\ forall v a, get kw v = Some a -> length a = len sp v | _ => True end) os ->
  let h := rev os in
  match thresholds factor (exec_all os) with
  | None => trials h < 2
  | Some th => 2 <= trials h /\ forall sp,
      match get th sp with
      | None => since h sp = 0 /\ forall i v, recorded h sp i v = []
      | Some rows => length rows = since h sp /\ forall i v, i < since h sp ->
          match get (nth i rows []) v with
          | None => recorded h sp i v = []
          | Some t => recorded h sp i v <> [] /\
              (exists D, largest (difference (recorded h sp i v)) D /\ (absolute t == factor * D)%Q) /\
              (((forall x, ~ rel_difference (trials h) (recorded h sp i v) x) /\ relative t = 0%Q) \/
               exists R, largest (rel_difference (trials h) (recorded h sp i v)) R /\ (relative t == factor * R)%Q)
          end
      end
  end.
Proof. intros len factor os Hl F. apply (thresholds_ok len factor (exec_all os) (rev os) Hl). apply exec_all_ok. exact F. Qed.
Print Assumptions C34_thresholds_partial.

(** C34.  With a factor of at least one the spread of the recorded trials is within the absolute threshold at every call of the last trial. *)
Theorem C34_spread_within : forall len factor os th sp rows i v t a b p,
  (forall sp v, 0 < len sp v) ->
  Forall (fun o => match o with Call sp kw => NoDup (keys kw) /\ forall v a, get kw v = Some a -> length a = len sp v | _ => True end) os ->
  (1 <= factor)%Q -> thresholds factor (exec_all os) = Some th -> get th sp = Some rows -> i < since (rev os) sp -> get (nth i rows []) v = Some t ->
  In a (recorded (rev os) sp i v) -> In b (recorded (rev os) sp i v) -> p < length a ->
  (Qabs (nth p a 0 - nth p b 0) <= absolute t)%Q.
Proof.
  intros len factor os th sp rows i v t a b p Hl F Hf Eth Er Hi Et Ia Ib Hp. pose proof (C34_thresholds_partial len factor os Hl F) as H. cbn zeta in H.
  rewrite Eth in H. destruct H as [_ H]. specialize (H sp). rewrite Er in H. destruct H as [_ H]. specialize (H i v Hi). rewrite Et in H.
  destruct H as (_ & (D & (_ & U) & E) & _). rewrite E. assert (Y : (Qabs (nth p a 0 - nth p b 0) <= D)%Q) by (apply U; exists a, b, p; auto).
  pose proof (Qabs_nonneg (nth p a 0 - nth p b 0)%Q). nra.
Qed.
Print Assumptions C34_spread_within.

Definition two_trials : list op :=
  [Begin; Call "s" [("x", [1; -2]%Q)]; Call "s" [("x", [5; 0]%Q); ("y", [0]%Q)]; End; Begin; Call "s" [("x", [2; -4]%Q)]; Call "s" [("x", [5; 0]%Q)]; End]%string.
Example C34_case : option_map (map (fun r => (fst r, map (map (fun kt => (fst kt, Qred (relative (snd kt)), Qred (absolute (snd kt))))) (snd r)))) (thresholds 2 (exec_all two_trials))
  = Some [("s", [[("x", 4 # 3, 4)]; [("x", 0, 0); ("y", 0, 0)]])]%Q%string /\
  recorded (rev two_trials) "s" 0 "x" = [[2; -4]; [1; -2]]%Q /\ thresholds 2 (exec_all (firstn 7 two_trials)) = None.
Proof. vm_compute. auto. Qed.

(** C34.  Merging is commutative and associative, is implied by either argument (so it is satisfied when both are), and is the least such threshold. *)
Theorem C34_merge : forall s t u,
  let same a b := (relative a == relative b)%Q /\ (absolute a == absolute b)%Q in
  let looser a b := (relative b <= relative a)%Q /\ (absolute b <= absolute a)%Q in
  same (merge s t) (merge t s) /\ same (merge s (merge t u)) (merge (merge s t) u) /\
  looser (merge s t) s /\ looser (merge s t) t /\ (looser u s -> looser u t -> looser u (merge s t)) /\
  forall output expected, validates s output expected \/ validates t output expected -> validates (merge s t) output expected.
Proof.
  assert (Case : forall a b, ((a <= b) /\ qmax2 a b = b \/ (b <= a) /\ qmax2 a b = a)%Q).
  { intros a b. unfold qmax2. destruct (Qle_bool a b) eqn:E; [left; split; [now apply Qle_bool_iff|auto]|right; split; [now apply qle_false|auto]]. }
  assert (Comm : forall a b, (qmax2 a b == qmax2 b a)%Q).
  { intros a b. destruct (Case a b) as [[H ->]|[H ->]], (Case b a) as [[H' ->]|[H' ->]]; lra. }
  assert (Assoc : forall a b c, (qmax2 a (qmax2 b c) == qmax2 (qmax2 a b) c)%Q).
  { intros a b c. destruct (Case b c) as [[H1 E1]|[H1 E1]], (Case a b) as [[H2 E2]|[H2 E2]]; rewrite E1, E2;
      destruct (Case a c) as [[H3 E3]|[H3 E3]]; rewrite ?E1, ?E2, ?E3; lra. }
  assert (Lub : forall a b c, (a <= c -> b <= c -> qmax2 a b <= c)%Q) by (intros a b c; destruct (qmax2_or a b) as [->| ->]; auto).
  intros s t u same looser. unfold same, looser, merge. cbn [relative absolute].
  split; [split; apply Comm|]. split; [split; apply Assoc|]. split; [split; apply qmax2_l|]. split; [split; apply qmax2_r|].
  split; [intros [A B] [C D]; split; apply Lub; assumption|]. intros o x V p Hp. cbn zeta. cbn [relative absolute]. split.
  - intros X. destruct V as [V|V]; destruct (V p Hp) as [V1 _]; specialize (V1 X); (eapply Qle_trans; [exact V1|]);
      apply Qmult_le_compat_r; auto using qmax2_l, qmax2_r, Qabs_nonneg.
  - destruct V as [V|V]; destruct (V p Hp) as [_ V2]; (eapply Qle_trans; [exact V2|]); auto using qmax2_l, qmax2_r.
Qed.
Print Assumptions C34_merge.

(** Full statement, first failure: thresholds cover only as many calls as the last trial made, although more were recorded. *)
Theorem C34_shorter_last_trial_refuted : exists os sp i v th, thresholds 1 (exec_all os) = Some th /\
  trials (rev os) = 2 /\ length (recorded (rev os) sp i v) = 1 /\ match get th sp with Some rows => nth_error rows i | None => None end = None.
Proof.
  exists [Begin; Call "s" [("x", [1%Q])]; Call "s" [("x", [2%Q])]; End; Begin; Call "s" [("x", [1%Q])]; End]%string, "s"%string, 1, "x"%string.
  eexists. vm_compute. auto.
Qed.
Print Assumptions C34_shorter_last_trial_refuted.

(** Full statement, second failure: the relative threshold comes from the mean magnitude but validation scales it by the reference value, so with factor one a
    calibration trial can be rejected when validated against another calibration trial. *)
Theorem C34_relative_refuted : exists os t a b, In a (recorded (rev os) "s" 0 "x") /\ In b (recorded (rev os) "s" 0 "x") /\
  option_map (fun th => match get th "s" with Some rows => get (nth 0 rows []) "x" | None => None end) (thresholds 1 (exec_all os)) = Some (Some t) /\
  ~ validates t a b.
Proof.
  exists [Begin; Call "s" [("x", [1%Q])]; End; Begin; Call "s" [("x", [3%Q])]; End]%string. eexists. exists [3%Q], [1%Q].
  split; [vm_compute; auto|]. split; [vm_compute; auto|]. split; [vm_compute; reflexivity|]. intros V. destruct (V 0 ltac:(cbn; lia)) as [V1 _]. cbn in V1.
  specialize (V1 ltac:(discriminate)). vm_compute in V1. auto.
Qed.
Print Assumptions C34_relative_refuted.
