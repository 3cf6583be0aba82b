(** Proofs about the verdict of translate tests. *)
From Verif Require Import Base Dict VerdModel.
Local Open Scope nat_scope.

Section P.
Context {T A : Type}.

Lemma pop_last (l : list string) x : pop (l ++ [x]) = (l, [x]).
Proof. unfold pop. rewrite removelast_last, rev_app_distr. reflexivity. Qed.

(** get after a fold of puts, the last one counts *)
Lemma get_update_not (e d : dict (near T)) x : ~ In x (keys e) -> get (update d e) x = get d x.
Proof.
  unfold update. revert d. induction e as [|[k v] e IH]; cbn [fold_left keys map fst snd In]; intros d H; [reflexivity|].
  rewrite IH by tauto. rewrite get_put. destruct (String.eqb_spec x k) as [->|]; [exfalso; tauto|reflexivity].
Qed.
Lemma get_update_const (l : list string) (d : dict (near T)) n x : In x l -> get (update d (map (fun f => (f, n)) l)) x = Some n.
Proof.
  revert d. induction l as [|k l IH]; [intros d []|]. intros d H. cbn [map]. unfold update. cbn [fold_left fst snd].
  fold (update (put d k n) (map (fun f => (f, n)) l)).
  destruct (in_dec string_dec x l) as [I|I]; [auto|].
  rewrite get_update_not. 2:{ unfold keys. rewrite map_map. cbn [fst]. now rewrite map_id. }
  destruct H as [->|H]; [|tauto]. rewrite get_put, String.eqb_refl. reflexivity.
Qed.
Definition put_all (v : dict T) (d : dict (near T)) := fold_left (fun d kv => put d (fst kv) (Near (snd kv))) v d.
Lemma get_values_not (v : dict T) (d : dict (near T)) x : ~ In x (keys v) -> get (put_all v d) x = get d x.
Proof.
  unfold put_all. revert d. induction v as [|[k n] v IH]; cbn [fold_left keys map fst snd In]; intros d H; [reflexivity|].
  rewrite IH by tauto. rewrite get_put. destruct (String.eqb_spec x k) as [->|]; [exfalso; tauto|reflexivity].
Qed.
Lemma get_values (v : dict T) (d : dict (near T)) x n : NoDup (keys v) -> In (x, n) v -> get (put_all v d) x = Some (Near n).
Proof.
  unfold put_all. revert d. induction v as [|[k m] v IH]; [intros d _ []|]. cbn [keys map fst]. intros d ND [E|H]; inversion ND; subst; cbn [fold_left fst snd].
  - injection E as -> ->. fold (put_all v (put d x (Near n))). rewrite get_values_not by assumption. rewrite get_put, String.eqb_refl. reflexivity.
  - apply IH; assumption.
Qed.
Definition fill (outs : list string) n (d : dict (near T)) := fold_left (fun d k => match get d k with None => put d k (Near n) | Some _ => d end) outs d.
Lemma get_fill outs n (d : dict (near T)) x : get (fill outs n d) x = match get d x with Some r => Some r | None => if in_dec string_dec x outs then Some (Near n) else None end.
Proof.
  unfold fill. revert d. induction outs as [|k outs IH]; intros d; cbn [fold_left]; [destruct (get d x); reflexivity|]. rewrite IH.
  destruct (get d k) as [r|] eqn:E.
  - destruct (get d x) eqn:E'; [reflexivity|]. destruct (in_dec string_dec x outs), (in_dec string_dec x (k :: outs)) as [I|I]; cbn in *; try tauto; try reflexivity.
    destruct I as [->|I]; [congruence|tauto].
  - rewrite get_put. destruct (String.eqb_spec x k) as [->|N].
    + rewrite E. destruct (in_dec string_dec k (k :: outs)); cbn in *; tauto.
    + destruct (get d x) eqn:E'; [reflexivity|]. destruct (in_dec string_dec x outs), (in_dec string_dec x (k :: outs)) as [I|I]; cbn in *; try tauto; try reflexivity.
      destruct I as [->|I]; [congruence|tauto].
Qed.

(** the same thresholds *)
Definition same (o o' : obj T) : Prop :=
  max_error o = max_error o' /\ near_zero o = near_zero o' /\ (forall x, get (ignore o) x = get (ignore o') x) /\ mmr_abs o = mmr_abs o' /\ mmr_rel o = mmr_rel o'
  /\ mmr_ulp o = mmr_ulp o' /\ skip_test o = skip_test o'.
Lemma same_refl o : same o o. Proof. repeat split. Qed.
Lemma same_trans a b c : same a b -> same b c -> same a c.
Proof. intros (?&?&H&?&?&?&?) (?&?&K&?&?&?&?). repeat split; congruence || (intros x; now rewrite H). Qed.

Lemma put_all_ext v (d e : dict (near T)) : (forall x, get d x = get e x) -> forall x, get (put_all v d) x = get (put_all v e) x.
Proof.
  unfold put_all. revert d e. induction v as [|[k n] v IH]; intros d e H x; cbn [fold_left]; [apply H|].
  apply IH. intros y. rewrite !get_put. now rewrite H.
Qed.
Lemma update_ext (l d e : dict (near T)) : (forall x, get d x = get e x) -> forall x, get (update d l) x = get (update e l) x.
Proof.
  unfold update. revert d e. induction l as [|[k n] v IH]; intros d e H x; cbn [fold_left]; [apply H|].
  apply IH. intros y. rewrite !get_put. now rewrite H.
Qed.
Lemma set_ignore_ext outs s (d e d' : dict (near T)) : (forall x, get d x = get e x) -> set_ignore outs s d = Some d' ->
  exists e', set_ignore outs s e = Some e' /\ forall x, get d' x = get e' x.
Proof.
  intros H. unfold set_ignore. destruct (s_ignore s) as [[l|v|]|].
  - intros [= <-]. eexists. split; [reflexivity|]. now apply update_ext.
  - fold (put_all v d). fold (put_all v e). destruct (s_all_other s) as [n|].
    + destruct outs as [outs|]; cbn [bind]; [|discriminate]. intros [= <-]. eexists. split; [reflexivity|]. intros x.
      fold (fill outs n (put_all v d)). fold (fill outs n (put_all v e)). rewrite !get_fill, (put_all_ext v d e H). reflexivity.
    + intros [= <-]. eexists. split; [reflexivity|]. now apply put_all_ext.
  - discriminate.
  - intros [= <-]. eexists. split; [reflexivity|exact H].
Qed.
Lemma put_all_again v (d e : dict (near T)) : (forall x, In x (keys v) -> get e x = get (put_all v d) x) -> forall x, get (put_all v e) x = get e x.
Proof.
  intros H x. destruct (in_dec string_dec x (keys v)) as [I|I]; [|now apply get_values_not]. rewrite H by assumption.
  clear H. revert d e. induction v as [|[k n] v IH]; [destruct I|]. intros d e. unfold put_all. cbn [fold_left fst snd].
  fold (put_all v (put e k (Near n))). fold (put_all v (put d k (Near n))).
  destruct (in_dec string_dec x (keys v)) as [J|J]; [now apply IH|]. rewrite !get_values_not by assumption. rewrite !get_put.
  cbn [keys map fst In] in I. destruct I as [->|I]; [now rewrite String.eqb_refl|tauto].
Qed.
Lemma set_ignore_again outs s (d d' : dict (near T)) : set_ignore outs s d = Some d' -> exists e', set_ignore outs s d' = Some e' /\ forall x, get d' x = get e' x.
Proof.
  unfold set_ignore. destruct (s_ignore s) as [[l|v|]|].
  - intros [= <-]. eexists. split; [reflexivity|]. intros x. destruct (in_dec string_dec x l) as [I|I].
    + now rewrite !get_update_const.
    + rewrite (get_update_not _ (update d _)); [reflexivity|]. unfold keys. rewrite map_map. cbn [fst]. now rewrite map_id.
  - fold (put_all v d). destruct (s_all_other s) as [n|].
    + destruct outs as [outs|]; cbn [bind]; [|discriminate]. intros [= <-]. fold (fill outs n (put_all v d)). eexists. split; [reflexivity|].
      match goal with |- forall x, _ = get (fold_left _ outs ?e) x => fold (fill outs n e) end.
      match goal with |- forall x, _ = get (fill outs n (fold_left _ v ?e)) x => fold (put_all v e) end.
      assert (E : forall x, get (put_all v (fill outs n (put_all v d))) x = get (fill outs n (put_all v d)) x).
      { apply put_all_again with (d := d). intros x I. rewrite get_fill. destruct (get (put_all v d) x) eqn:G; [reflexivity|].
        exfalso. revert d G. induction v as [|[k m] v IH]; [destruct I|]. intros d. unfold put_all. cbn [fold_left fst snd]. fold (put_all v (put d k (Near m))). intros G.
        destruct (in_dec string_dec x (keys v)) as [J|J]; [exact (IH J _ G)|]. rewrite get_values_not, get_put in G by assumption.
        cbn [keys map fst In] in I. destruct I as [->|I]; [|tauto]. cbn [fst] in G. rewrite String.eqb_refl in G. discriminate. }
      intros x. rewrite (get_fill outs n (put_all v (fill _ _ _))), E. rewrite !get_fill.
      destruct (get (put_all v d) x); [reflexivity|]. destruct in_dec; reflexivity.
    + intros [= <-]. eexists. split; [reflexivity|]. intros x. fold (put_all v (put_all v d)). symmetry. apply put_all_again with (d := d). reflexivity.
  - discriminate.
  - intros [= <-]. eexists. split; reflexivity.
Qed.

(** which entries apply *)
Context (known : string -> bool).
Definition applies (backend platform : string) (s : spec T) : Prop :=
  (forall n, s_backend s = Some n -> n = backend) /\ (forall p, s_platform s = Some p -> p = platform).
Definition valid (s : spec T) : Prop := forall n, s_backend s = Some n -> known n = true.
Lemma applies_dec backend platform s : {applies backend platform s} + {~ applies backend platform s}.
Proof.
  unfold applies. destruct (s_backend s) as [n|], (s_platform s) as [p|].
  - destruct (string_dec n backend), (string_dec p platform); [left; split; congruence|right; intros [H K]; auto..].
  - destruct (string_dec n backend); [left; split; congruence|right; intros [H K]; auto].
  - destruct (string_dec p platform); [left; split; congruence|right; intros [H K]; auto].
  - left. split; congruence.
Qed.
Lemma matches_filter backend platform l : Forall valid l ->
  matches known l backend platform = Some (filter (fun s => if applies_dec backend platform s then true else false) l).
Proof.
  induction 1 as [|s l V _ IH]; [reflexivity|]. cbn [matches filter]. rewrite IH. unfold same_backend.
  destruct (applies_dec backend platform s) as [[B P]|N]; destruct (s_backend s) as [n|] eqn:E.
  - rewrite (V n E). cbn [bind]. rewrite (B n eq_refl), String.eqb_refl. unfold given. destruct (s_platform s) as [p|] eqn:E'; [rewrite (P p eq_refl)|]; rewrite String.eqb_refl; reflexivity.
  - cbn [bind]. unfold given. destruct (s_platform s) as [p|] eqn:E'; [rewrite (P p eq_refl)|]; rewrite String.eqb_refl; reflexivity.
  - rewrite (V n E). cbn [bind]. destruct (String.eqb_spec n backend) as [->|]; cbn [andb]; [|reflexivity].
    unfold given. destruct (s_platform s) as [p|] eqn:E'; [destruct (String.eqb_spec p platform) as [->|]|].
    + exfalso. apply N. split; congruence. + reflexivity. + exfalso. apply N. split; congruence.
  - cbn [bind andb]. unfold given. destruct (s_platform s) as [p|] eqn:E'; [destruct (String.eqb_spec p platform) as [->|]|].
    + exfalso. apply N. split; congruence. + reflexivity. + exfalso. apply N. split; congruence.
Qed.
Lemma matches_invalid backend platform l : ~ Forall valid l -> matches known l backend platform = None.
Proof.
  induction l as [|s l IH]; intros H; [exfalso; apply H; constructor|]. cbn [matches]. unfold same_backend.
  destruct (s_backend s) as [n|] eqn:E; [destruct (known n) eqn:K|]; cbn [bind]; [|reflexivity|]; rewrite IH; try reflexivity;
    intros F; apply H; constructor; auto; unfold valid; congruence.
Qed.
Lemma filter_none {X} (f : X -> bool) l : Forall (fun x => f x = false) l -> filter f l = [].
Proof. induction 1 as [|x l E _ IH]; cbn; [reflexivity|]. now rewrite E. Qed.
Lemma matches_none backend platform l : Forall valid l -> Forall (fun s => ~ applies backend platform s) l -> matches known l backend platform = Some [].
Proof.
  intros V N. rewrite matches_filter by assumption. f_equal. apply filter_none. eapply Forall_impl; [|exact N]. cbn.
  intros s H. destruct applies_dec; tauto.
Qed.
Lemma matches_one backend platform l1 s l2 : Forall valid (l1 ++ s :: l2) -> applies backend platform s -> Forall (fun s => ~ applies backend platform s) (l1 ++ l2) ->
  matches known (l1 ++ s :: l2) backend platform = Some [s].
Proof.
  intros V H N. rewrite matches_filter by assumption. f_equal. rewrite filter_app. cbn [filter].
  apply Forall_app in N. destruct N as [N1 N2]. rewrite !filter_none; try (eapply Forall_impl; [|eassumption]; cbn; intros t Ht; destruct applies_dec; tauto).
  destruct applies_dec; [reflexivity|tauto].
Qed.
Lemma matches_two backend platform l1 s l2 t l3 : Forall valid (l1 ++ s :: l2 ++ t :: l3) -> applies backend platform s -> applies backend platform t ->
  exists a b r, matches known (l1 ++ s :: l2 ++ t :: l3) backend platform = Some (a :: b :: r).
Proof.
  intros V H K. rewrite matches_filter by assumption. set (f := fun s => if applies_dec backend platform s then true else false). rewrite filter_app. cbn [filter]. rewrite filter_app. cbn [filter].
  assert (Es : f s = true) by (unfold f; destruct applies_dec; tauto). assert (Et : f t = true) by (unfold f; destruct applies_dec; tauto). rewrite Es, Et.
  destruct (filter f l1) as [|a [|b r]]; cbn [app].
  - destruct (filter f l2) as [|b r]; cbn [app]; eauto.
  - eauto.
  - eauto.
Qed.

Context (gt : T -> T -> bool) (g_err g_zero : T).
Lemma pymax_again (a b : T) : pymax gt (pymax gt a b) b = pymax gt a b.
Proof. unfold pymax. destruct (gt b a) eqn:E; [destruct (gt b b); reflexivity|now rewrite E]. Qed.

Definition raised (gpu : bool) (o : obj T) : obj T :=
  if gpu then Obj (pymax gt (max_error o) g_err) (pymax gt (near_zero o) g_zero) (ignore o) (mmr_abs o) (mmr_rel o) (mmr_ulp o) (skip_test o) else o.
Lemma raised_same gpu a b : same a b -> same (raised gpu a) (raised gpu b).
Proof. destruct gpu; [|auto]. intros (H1&H2&?&?&?&?&?). cbn. repeat split; cbn; try assumption; congruence. Qed.
Lemma apply_same outs s a b a' : same a b -> apply_spec outs s a = Some a' -> exists b', apply_spec outs s b = Some b' /\ same a' b'.
Proof.
  intros (H1&H2&H3&H4&H5&H6&H7). unfold apply_spec. destruct (set_ignore outs s (ignore a)) as [d|] eqn:E; cbn [bind]; [|discriminate]. intros [= <-].
  destruct (set_ignore_ext outs s _ _ _ H3 E) as [e [-> X]]. cbn [bind]. eexists. split; [reflexivity|].
  repeat split; cbn; try assumption; unfold given; [destruct (s_max_error s)|destruct (s_near_zero s)|destruct (s_abs s)|destruct (s_rel s)|destruct (s_ulp s)|destruct (s_skip s)]; congruence.
Qed.
Lemma prepare_same gpu overrides outs name backend platform a b a' : same a b ->
  prepare gt g_err g_zero known gpu overrides outs name backend platform a = Some a' ->
  exists b', prepare gt g_err g_zero known gpu overrides outs name backend platform b = Some b' /\ same a' b'.
Proof.
  intros H. unfold prepare. fold (raised gpu a). fold (raised gpu b). apply (raised_same gpu) in H. revert H. generalize (raised gpu a), (raised gpu b). clear a b.
  intros a b H. destruct overrides as [d|]; [|intros [= <-]; eauto]. unfold process_override. destruct (get d name) as [l|]; [|intros [= <-]; eauto].
  destruct (matches known l backend platform) as [[|s [|]]|]; cbn [bind]; try discriminate; [intros [= <-]; eauto|]. now apply apply_same.
Qed.
Lemma prepare_again gpu overrides outs name backend platform a a' :
  prepare gt g_err g_zero known gpu overrides outs name backend platform a = Some a' ->
  exists b, prepare gt g_err g_zero known gpu overrides outs name backend platform a' = Some b /\ same a' b.
Proof.
  unfold prepare. fold (raised gpu a). fold (raised gpu a').
  assert (R : forall o, same (raised gpu o) (raised gpu (raised gpu o))).
  { intros o. destruct gpu; [|apply same_refl]. repeat split; cbn; now rewrite pymax_again. }
  destruct overrides as [d|]; [|intros [= <-]; eexists; split; [reflexivity|apply R]].
  unfold process_override. destruct (get d name) as [l|]; [|intros [= <-]; eexists; split; [reflexivity|apply R]].
  destruct (matches known l backend platform) as [[|s [|]]|]; cbn [bind]; try discriminate; [intros [= <-]; eexists; split; [reflexivity|apply R]|].
  intros E. unfold apply_spec in *. destruct (set_ignore outs s (ignore (raised gpu a))) as [i|] eqn:I; cbn [bind] in E; [|discriminate]. injection E as <-.
  destruct (set_ignore_again _ _ _ _ I) as [e [I' X]].
  assert (F : forall o, ignore (raised gpu o) = ignore o) by (intros; destruct gpu; reflexivity). rewrite F. cbn [ignore]. rewrite I'. cbn [bind].
  eexists. split; [reflexivity|]. unfold given. destruct gpu; cbn; repeat split; cbn; try exact X;
    destruct (s_max_error s), (s_near_zero s), (s_abs s), (s_rel s), (s_ulp s), (s_skip s); try rewrite pymax_again; reflexivity.
Qed.

Context (legacy : T -> option (near T) -> T -> A -> A -> option bool) (modal : T -> T -> T -> option A -> A -> A -> option bool).
(** a variable agrees *)
Definition good multimodal (o : obj T) (input output refs : dict A) (subset : string -> A -> A) (x : string) : Prop :=
  exists ref val, get refs x = Some ref /\ get output x = Some val
  /\ if multimodal : bool then modal (mmr_abs o) (mmr_rel o) (mmr_ulp o) (get input x) (subset x ref) val = Some true
     else legacy (max_error o) (get (ignore o) x) (near_zero o) (subset x ref) val = Some true.
Lemma agrees_good multimodal o x input ref val : agrees legacy modal multimodal o x input ref val = Some true <->
  if multimodal : bool then modal (mmr_abs o) (mmr_rel o) (mmr_ulp o) (get input x) ref val = Some true else legacy (max_error o) (get (ignore o) x) (near_zero o) ref val = Some true.
Proof. unfold agrees. destruct multimodal; reflexivity. Qed.

Lemma variables_failing multimodal o subset input output refs vars f p : f <> [] ->
  conclude (variables legacy modal multimodal o subset input output refs vars f p) <> Passed.
Proof.
  revert f p. induction vars as [|x vars IH]; intros f p F; cbn [variables].
  - cbn [conclude]. destruct f; [congruence|discriminate].
  - destruct (get refs x) as [ref|]; cbn [bind]; [|discriminate]. unfold one_variable.
    destruct (get output x) as [val|]; [|apply IH; destruct f; discriminate].
    destruct (agrees _ _ _ _ _ _ _ _) as [[]|]; try (apply IH; destruct f; discriminate). rewrite pop_last. cbn [fst snd]. now apply IH.
Qed.
Lemma variables_passed multimodal o subset input output refs vars p :
  conclude (variables legacy modal multimodal o subset input output refs vars [] p) = Passed
  <-> (p <> [] \/ vars <> []) /\ forall x, In x vars -> good multimodal o input output refs subset x.
Proof.
  revert p. induction vars as [|x vars IH]; intros p; cbn [variables].
  - cbn [conclude]. split; [destruct p; [discriminate|intros _; split; [left; discriminate|intros x []]]|].
    intros [[H|H] _]; [destruct p; congruence|congruence].
  - split.
    + destruct (get refs x) as [ref|] eqn:R; cbn [bind]; [|discriminate]. unfold one_variable.
      destruct (get output x) as [val|] eqn:O; [|intros H; exfalso; revert H; now apply variables_failing].
      destruct (agrees _ _ _ _ _ _ _ _) as [[]|] eqn:G; try (intros H; exfalso; revert H; now apply variables_failing).
      rewrite pop_last. cbn [fst snd]. rewrite IH. intros [_ H]. split; [right; discriminate|]. intros y [<-|I]; [|auto].
      exists ref, val. repeat split; auto. now apply agrees_good in G.
    + intros [_ H]. destruct (H x (or_introl eq_refl)) as (ref & val & R & O & G). rewrite R. cbn [bind]. unfold one_variable. rewrite O.
      apply agrees_good in G. rewrite G. rewrite pop_last. cbn [fst snd]. apply IH. split; [left; destruct p; discriminate|].
      intros y I. apply H. right. exact I.
Qed.

Lemma select_spec (d : dict A) names i : select d names = Some i <-> keys i = names /\ Forall (fun kv => get d (fst kv) = Some (snd kv)) i.
Proof.
  revert i. induction names as [|x l IH]; intros i; cbn [select].
  - split; [intros [= <-]; split; [reflexivity|constructor]|]. intros [E _]. destruct i; [reflexivity|discriminate].
  - split.
    + destruct (get d x) as [a|] eqn:G; cbn [bind]; [|discriminate]. destruct (select d l) as [r|] eqn:S'; cbn [bind]; [|discriminate].
      intros [= <-]. destruct (proj1 (IH r) eq_refl) as [K F]. split; [cbn; now f_equal|]. constructor; assumption.
    + intros [K F]. destruct i as [|[y a] i]; [discriminate|]. cbn in K. injection K as -> K. inversion F as [|? ? E F']; subst. cbn [fst snd] in E. rewrite E. cbn [bind].
      rewrite (proj2 (IH i)); [reflexivity|]. split; assumption || reflexivity.
Qed.
End P.
