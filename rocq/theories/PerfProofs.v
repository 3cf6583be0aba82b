(** Proofs about the performance collector. *)
From Verif Require Import Base Dict TimerModel TimerProofs PerfModel.

Section Perf.
  Context {T : Type}.
  Variables (minus plus : T -> T -> T).
  Notation coll := (collector (T := T)).

  Definition dicts_for (f : string -> list T) (t : dict T) (d : dict Z) : Prop :=
    NoDup (keys d) /\ (forall n, get d n = count (f n)) /\ (forall n, get t n = total plus (f n)).

  (** per collection: the intervals function *)
  Fixpoint snaps (h : list (op (T := T) * bool)) : list (string -> list T) :=
    match h with
    | [] => []
    | (Collect, _) :: h' => snaps h' ++ [intervals minus true (step_calls h')]
    | (Clear, _) :: _ => []
    | _ :: h' => snaps h'
    end.
  Lemma snaps_collected h n : map (fun f => f n) (snaps h) = collected minus h n.
  Proof. induction h as [|[[e|e| |] r] h IH]; cbn; auto. rewrite map_app, IH. reflexivity. Qed.

  Definition ndup (t : timer (T := T)) : Prop := NoDup (keys (hit t)).
  Lemma call_ndup t e : ndup t -> ndup (fst (call minus plus t e)).
  Proof.
    unfold ndup. intros N. destruct e; cbn [call].
    - destruct (negb (enabled t)); [exact N|]. destruct (get (starts t) name); exact N.
    - destruct (negb (enabled t)); [exact N|]. destruct (get (starts t) name); [|exact N]. now apply put_NoDup.
    - constructor.
    - destruct (is_null t); exact N.
    - destruct (0 <? Z.of_nat (length (starts t)))%Z; exact N.
  Qed.

  Inductive snap_ok : list (string -> list T) -> list (dict T) -> list (dict Z) -> Prop :=
  | snap_nil : snap_ok [] [] []
  | snap_snoc fs ts ds f t d : snap_ok fs ts ds -> dicts_for f t d -> snap_ok (fs ++ [f]) (ts ++ [t]) (ds ++ [d]).

  Definition cinv (c : coll) (h : list (op (T := T) * bool)) : Prop :=
    inv minus plus false true (step_timer c) (step_calls h) /\ inv minus plus false true (total_timer c) (total_calls h) /\
    ndup (step_timer c) /\ ndup (total_timer c) /\ snap_ok (snaps h) (times_per_step c) (hits_per_step c).

  Lemma inv_dicts t h : inv minus plus false true t h -> ndup t -> dicts_for (intervals minus true h) (acc t) (hit t).
  Proof. intros (_ & _ & _ & A & H & _) N. split; auto. Qed.

  Lemma exec_inv c h o : cinv c h -> let '(c', r) := exec minus plus c o in cinv c' ((o, r) :: h).
  Proof.
    intros (I1 & I2 & N1 & N2 & S). destruct o as [e|e| |]; cbn [exec].
    - pose proof (call_ok minus plus false true _ _ e I1) as C. pose proof (call_ndup _ e N1) as N.
      destruct (call minus plus (step_timer c) e) as [t r]. cbn in N. unfold cinv. cbn [step_timer total_timer step_calls total_calls snaps times_per_step hits_per_step]. tauto.
    - pose proof (call_ok minus plus false true _ _ e I2) as C. pose proof (call_ndup _ e N2) as N.
      destruct (call minus plus (total_timer c) e) as [t r]. cbn in N. unfold cinv. cbn [step_timer total_timer step_calls total_calls snaps times_per_step hits_per_step]. tauto.
    - pose proof (call_ok minus plus false true _ _ Reset I1) as C. cbn [call] in *. 
      unfold cinv. cbn [fst step_timer total_timer step_calls total_calls snaps times_per_step hits_per_step].
      split; [apply C|]. split; auto. split; [constructor|]. split; auto. constructor; auto. now apply inv_dicts.
    - unfold cinv. cbn [step_timer total_timer step_calls total_calls snaps times_per_step hits_per_step]. (split; [exact I1|]); (split; [exact I2|]); (split; [exact N1|]); (split; [exact N2|]). constructor.
  Qed.
  Lemma new_inv : cinv new_collector [].
  Proof.
    assert (J : inv minus plus false true (new_timer true) []).
    { unfold inv. cbn. repeat split; auto; try constructor. }
    unfold cinv. cbn. repeat split; auto; constructor.
  Qed.
  Lemma exec_all_inv os : forall c h, cinv c h -> let '(c', h') := exec_all minus plus os c h in cinv c' h'.
  Proof.
    induction os as [|o os IH]; intros c h I; cbn [exec_all]; auto. pose proof (exec_inv c h o I) as E.
    destruct (exec minus plus c o) as [c' r]. apply IH. auto.
  Qed.

  (** *** the report *)
  Definition times_of (fs : list (string -> list T)) (n : string) : list T :=
    flat_map (fun f : string -> list T => match total plus (f n) with Some t => [t] | None => [] end) fs.
  Lemma snap_times fs ts ds n : snap_ok fs ts ds -> flat_map (fun d => match get d n with Some t => [t] | None => [] end) ts = times_of fs n.
  Proof.
    induction 1 as [|fs ts ds f t d S IH (N & H & A)]; auto. unfold times_of. rewrite !flat_map_app, IH. cbn. rewrite A. reflexivity.
  Qed.
  Lemma get_map_keys {V} (f : string -> V) l n : get (map (fun k => (k, f k)) l) n = if in_dec string_dec n l then Some (f n) else None.
  Proof.
    induction l as [|k l IH]; [reflexivity|]. cbn [map get]. rewrite IH. destruct (String.eqb_spec n k) as [->|N].
    - destruct (in_dec string_dec k (k :: l)) as [|X]; [reflexivity|]. exfalso. apply X. left; auto.
    - destruct (in_dec string_dec n l), (in_dec string_dec n (k :: l)) as [Y|Y]; auto; [destruct Y; right; auto|destruct Y; congruence].
  Qed.
  Lemma info_get fs ts ds n : snap_ok fs ts ds -> get (timing_info ts) n = match times_of fs n with [] => None | l => Some (0%Z, l) end.
  Proof.
    intros S. unfold timing_info, collect_keys. rewrite (get_map_keys (fun k => (0%Z, flat_map (fun d => match get d k with Some t => [t] | None => [] end) ts))).
    rewrite (snap_times fs ts ds n S). destruct in_dec as [I|I]; rewrite nodup_In, in_flat_map in I.
    - destruct (times_of fs n) eqn:E; auto. exfalso. rewrite <- (snap_times fs ts ds n S) in E. destruct I as (d & Id & In'). apply get_some in In'. destruct In' as [v Hv].
      assert (X : In v (flat_map (fun d => match get d n with Some t => [t] | None => [] end) ts)) by (apply in_flat_map; exists d; rewrite Hv; split; auto; left; auto).
      rewrite E in X. destruct X.
    - destruct (times_of fs n) as [|x l] eqn:E; auto. exfalso. apply I. rewrite <- (snap_times fs ts ds n S) in E.
      assert (X : In x (flat_map (fun d => match get d n with Some t => [t] | None => [] end) ts)) by (rewrite E; left; auto).
      apply in_flat_map in X. destruct X as (d & Id & Hd). exists d. split; auto. apply get_some. destruct (get d n); [eauto|destruct Hd].
  Qed.

  Definition value (d : dict Z) (n : string) : Z := match get d n with Some v => v | None => 0%Z end.
  Definition raised (k : Z) (e : option (Z * list T)) : option (Z * list T) := match e with Some (m, ts) => Some ((m + k)%Z, ts) | None => None end.

  Lemma add_one (d : dict Z) : NoDup (keys d) -> forall info : dict (Z * list T), (forall n, In n (keys d) -> In n (keys info)) ->
    exists info', fold_left add_hit d (Some info) = Some info' /\ (forall n, get info' n = raised (value d n) (get info n)) /\ (forall n, In n (keys info) -> In n (keys info')).
  Proof.
    induction d as [|[k v] d IH]; intros N info Sub.
    - exists info. split; auto. split; auto. intros n. unfold value, raised. cbn. destruct (get info n) as [[m ts]|]; auto. now rewrite Z.add_0_r.
    - cbn [keys map] in N. inversion N as [|? ? Nk N']; subst. cbn [fold_left]. unfold add_hit at 2. cbn [bind fst snd].
      destruct (proj2 (get_some info k)) as [[m ts] G]; [apply Sub; left; auto|]. rewrite G.
      assert (K : forall n, In n (keys info) -> In n (keys (put info k ((m + v)%Z, ts)))).
      { intros n I. apply get_some. rewrite get_put. destruct (n =? k)%string; eauto. apply get_some; auto. }
      destruct (IH N' (put info k ((m + v)%Z, ts))) as (info' & E & A & B).
      { intros n I. apply K, Sub. right; auto. }
      exists info'. split; auto. split; auto. intros n. rewrite A, get_put. unfold value at 2. cbn [get].
      destruct (String.eqb_spec n k) as [->|X]; [|reflexivity].
      assert (Z0 : get d k = None) by (apply get_none; auto). unfold value. rewrite Z0, G. cbn. f_equal. f_equal. lia.
  Qed.

  Definition sum (l : list Z) : Z := fold_right Z.add 0%Z l.
  Lemma gather_ok (ds : list (dict Z)) : Forall (fun d => NoDup (keys d)) ds -> forall info, (forall d n, In d ds -> In n (keys d) -> In n (keys info)) ->
    exists info', gather_hits (T := T) ds info = Some info' /\ forall n, get info' n = raised (sum (map (fun d => value d n) ds)) (get info n).
  Proof.
    unfold gather_hits. induction 1 as [|d ds N F IH]; intros info Sub.
    - exists info. split; auto. intros n. cbn. unfold raised. destruct (get info n) as [[m ts]|]; auto. now rewrite Z.add_0_r.
    - cbn [fold_left]. destruct (add_one d N info) as (i1 & E & A & B); [intros n I; apply (Sub d); auto; left; auto|]. rewrite E.
      destruct (IH i1) as (i2 & E2 & A2); [intros d' n I J; apply B, (Sub d'); auto; right; auto|]. exists i2. split; auto.
      intros n. rewrite A2, A. cbn [map sum fold_right]. unfold raised. destruct (get info n) as [[m ts]|]; auto. f_equal. f_equal. unfold sum. lia.
  Qed.

  Lemma filter_sum ds n : sum (map (fun d => value d n) (remove_empty ds)) = sum (map (fun d => value d n) ds).
  Proof. induction ds as [|[|e d] ds IH]; auto. cbn [remove_empty filter map sum fold_right]. fold (remove_empty ds). unfold sum in *. now rewrite IH. Qed.

  Lemma snap_hits fs ts ds n : snap_ok fs ts ds -> sum (map (fun d => value d n) ds) = Z.of_nat (length (concat (map (fun f => f n) fs))).
  Proof.
    induction 1 as [|fs ts ds f t d S IH (N & H & A)]; auto. rewrite !map_app, concat_app, app_length.
    assert (SA : forall a b, sum (a ++ b) = (sum a + sum b)%Z) by (induction a; intros; cbn in *; auto; unfold sum in *; rewrite IHa; lia).
    rewrite SA, IH. cbn. rewrite app_nil_r. unfold value. rewrite H. destruct (f n); cbn [count length]; lia.
  Qed.

  Lemma snap_nodup fs ts ds : snap_ok fs ts ds -> Forall (fun d => NoDup (keys d)) ds.
  Proof. induction 1 as [|fs ts ds f t d S IH (N & H & A)]; auto. apply Forall_app. auto. Qed.
  Lemma snap_keys fs ts ds d n : snap_ok fs ts ds -> In d ds -> In n (keys d) -> In n (keys (timing_info ts)).
  Proof.
    intros S Id In'. apply get_some. rewrite (info_get fs ts ds n S).
    assert (X : exists t, In t (times_of fs n)).
    { clear - S Id In'. induction S as [|fs ts ds f t d0 S IH (N & H & A)]; [destruct Id|]. unfold times_of. rewrite flat_map_app. apply in_app_iff in Id. destruct Id as [I|[->|[]]].
      - destruct (IH I) as [u Hu]. exists u. apply in_app_iff. auto.
      - apply get_some in In'. destruct In' as [v Hv]. rewrite H in Hv. cbn. destruct (f n) eqn:E; [discriminate|]. cbn. eexists. apply in_app_iff. right. left. reflexivity. }
    destruct (times_of fs n); [destruct X as [? []]|]. eauto.
  Qed.

  Lemma report_ok fs ts ds : snap_ok fs ts ds ->
    exists info, gather_hits (remove_empty ds) (timing_info ts) = Some info /\ forall n, get info n = entry_of plus (map (fun f => f n) fs).
  Proof.
    intros S. destruct (gather_ok (remove_empty ds)) with (info := timing_info ts) as (info & E & A).
    - apply Forall_forall. intros d I. apply filter_In in I. destruct I as [I _]. apply (proj1 (Forall_forall _ _) (snap_nodup _ _ _ S) d I).
    - intros d n I J. apply filter_In in I. destruct I as [I _]. eapply snap_keys; eauto.
    - exists info. split; auto. intros n. rewrite A, (info_get fs ts ds n S), filter_sum, (snap_hits fs ts ds n S). unfold entry_of.
      assert (M : flat_map (fun l => match total plus l with Some t => [t] | None => [] end) (map (fun f => f n) fs) = times_of fs n).
      { unfold times_of. clear. induction fs as [|f fs IH]; auto. cbn. now rewrite IH. }
      rewrite M. destruct (times_of fs n); reflexivity.
  Qed.
End Perf.
