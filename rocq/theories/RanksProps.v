(** C64: the performance report attributes to each timer what every rank recorded for it. *)
From Verif Require Import Dict Base RanksModel.
From Coq Require Import QArith OrderedTypeEx Sorting.Sorted Lia.
Open Scope list_scope.
Open Scope nat_scope.

Definition slt (a b : string) : Prop := String.compare a b = Lt.
Lemma slt_trans a b c : slt a b -> slt b c -> slt a c.
Proof. unfold slt. intros H1 H2. apply (String_as_OT.cmp_lt a c). apply (String_as_OT.cmp_lt a b) in H1. apply (String_as_OT.cmp_lt b c) in H2. exact (String_as_OT.lt_trans a b c H1 H2). Qed.
Lemma compare_refl a : String.compare a a = Eq.
Proof. pose proof (String.compare_antisym a a). destruct (String.compare a a); [reflexivity|discriminate|discriminate]. Qed.
Lemma slt_irrefl a : ~ slt a a.
Proof. unfold slt. rewrite compare_refl. discriminate. Qed.

Lemma insert_in x l y : In y (insert x l) <-> y = x \/ In y l.
Proof.
  induction l as [|z l IH]; cbn [insert In]; [intuition|].
  destruct (String.compare x z) eqn:E; cbn [In].
  - apply String.compare_eq_iff in E. subst. intuition.
  - intuition.
  - rewrite IH. intuition.
Qed.
Lemma insert_sorted x l : StronglySorted slt l -> StronglySorted slt (insert x l).
Proof.
  induction l as [|y l IH]; intros H; cbn [insert]; [repeat constructor|].
  inversion H as [|? ? H1 H2]; subst. destruct (String.compare x y) eqn:E; [exact H| |].
  - constructor; [exact H|]. constructor; [exact E|]. eapply Forall_impl; [|exact H2]. intros z Hz. exact (slt_trans _ _ _ E Hz).
  - constructor; [exact (IH H1)|]. apply Forall_forall. intros z Hz. apply insert_in in Hz. destruct Hz as [->|Hz].
    + unfold slt. rewrite String.compare_antisym, E. reflexivity.
    + rewrite Forall_forall in H2. exact (H2 z Hz).
Qed.
Lemma sorted_unique a : forall b, StronglySorted slt a -> StronglySorted slt b -> (forall x, In x a <-> In x b) -> a = b.
Proof.
  induction a as [|x a IH]; intros [|y b] Ha Hb H.
  - reflexivity.
  - destruct (proj2 (H y)). left; reflexivity.
  - destruct (proj1 (H x)). left; reflexivity.
  - inversion Ha as [|? ? A1 A2]; inversion Hb as [|? ? B1 B2]; subst. rewrite Forall_forall in A2, B2.
    assert (x = y) as <-.
    { destruct (proj1 (H x) (or_introl eq_refl)) as [E|E]; [auto|].
      destruct (proj2 (H y) (or_introl eq_refl)) as [F|F]; [auto|].
      destruct (slt_irrefl x). exact (slt_trans _ _ _ (A2 _ F) (B2 _ E)). }
    f_equal. apply IH; [assumption|assumption|]. intros z. split; intros Hz.
    + destruct (proj1 (H z) (or_intror Hz)) as [<-|]; [|assumption]. destruct (slt_irrefl x (A2 _ Hz)).
    + destruct (proj2 (H z) (or_intror Hz)) as [<-|]; [|assumption]. destruct (slt_irrefl x (B2 _ Hz)).
Qed.
Lemma sorted_nodup l : StronglySorted slt l -> NoDup l.
Proof.
  induction l as [|x l IH]; intros H; constructor; inversion H as [|? ? H1 H2]; subst.
  - intros HI. rewrite Forall_forall in H2. exact (slt_irrefl x (H2 x HI)).
  - exact (IH H1).
Qed.

Section Ranks.
  Context {T : Type}.
  Implicit Types (times : list (dict T)) (ranks : list (list (dict T))).

  Lemma samples_recorded times name : samples times name = recorded times name.
  Proof.
    unfold samples, recorded. enough (G : forall acc, fold_left (fun data d => match get d name with Some t => data ++ [t] | None => data end) times acc
      = acc ++ flat_map (fun d => match get d name with Some t => [t] | None => [] end) times) by (rewrite G; reflexivity).
    induction times as [|d times IH]; intros acc; cbn [fold_left flat_map]; [rewrite app_nil_r; reflexivity|].
    rewrite IH. destruct (get d name); [rewrite <- app_assoc; reflexivity|reflexivity].
  Qed.
  Lemma step_keys (d : dict T) ks : StronglySorted slt ks ->
    StronglySorted slt (fold_left (fun ks kv => insert (fst kv) ks) d ks)
    /\ forall k, In k (fold_left (fun ks kv => insert (fst kv) ks) d ks) <-> In k ks \/ In k (keys d).
  Proof.
    revert ks. induction d as [|[k v] d IH]; intros ks H; cbn [fold_left keys map fst In]; [intuition|].
    destruct (IH (insert k ks) (insert_sorted k ks H)) as [A B]. split; [exact A|].
    intros k'. rewrite B, insert_in. unfold keys. intuition.
  Qed.
  Lemma sorted_keys_ok times : StronglySorted slt (sorted_keys times) /\ forall k, In k (sorted_keys times) <-> exists d, In d times /\ In k (keys d).
  Proof.
    unfold sorted_keys. enough (G : forall ks, StronglySorted slt ks ->
      StronglySorted slt (fold_left (fun ks d => fold_left (fun ks kv => insert (fst kv) ks) d ks) times ks)
      /\ forall k, In k (fold_left (fun ks d => fold_left (fun ks kv => insert (fst kv) ks) d ks) times ks) <-> In k ks \/ exists d, In d times /\ In k (keys d)).
    { destruct (G [] ltac:(constructor)) as [A B]. split; [exact A|]. intros k. rewrite B. cbn. intuition. }
    induction times as [|d times IH]; intros ks H; cbn [fold_left].
    - split; [exact H|]. intros k. split; [auto|]. intros [?|(d & [] & _)]; assumption.
    - destruct (step_keys d ks H) as [A B]. destruct (IH _ A) as [C D]. split; [exact C|].
      intros k. rewrite D, B. split.
      + intros [[?|?]|(e & ? & ?)]; [left; assumption|right; exists d; split; [left; reflexivity|assumption]|right; exists e; split; [right; assumption|assumption]].
      + intros [?|(e & [<-|?] & ?)]; [left; left; assumption|left; right; assumption|right; exists e; split; assumption].
  Qed.
  Lemma recorded_iff times k : recorded times k <> [] <-> exists d, In d times /\ In k (keys d).
  Proof.
    unfold recorded. split.
    - induction times as [|d times IH]; cbn [flat_map]; [congruence|]. destruct (get d k) as [v|] eqn:E.
      + intros _. exists d. split; [left; reflexivity|]. unfold keys. apply get_in in E. apply (in_map fst) in E. exact E.
      + intros H. destruct (IH H) as (e & ? & ?). exists e. split; [right; assumption|assumption].
    - intros (d & Hd & Hk) E. induction times as [|e times IH]; [destruct Hd|]. cbn [flat_map] in E.
      destruct Hd as [->|Hd].
      + destruct (get d k) eqn:G; [discriminate|]. apply get_none in G. exact (G Hk).
      + apply IH; [assumption|]. destruct (get e k); [discriminate|exact E].
  Qed.
  Lemma keys_iff times k : In k (sorted_keys times) <-> recorded times k <> [].
  Proof. rewrite recorded_iff. apply sorted_keys_ok. Qed.

  Lemma same_keys ranks a b : same_counts ranks -> In a ranks -> In b ranks -> sorted_keys a = sorted_keys b.
  Proof.
    intros H Ha Hb. apply sorted_unique; try apply sorted_keys_ok. intros k. rewrite !keys_iff.
    pose proof (H a b k Ha Hb) as E. destruct (recorded a k), (recorded b k); cbn in E; try discriminate; intuition congruence.
  Qed.
  Lemma gather_call_ok n (ls : list (list T)) : Forall (fun l => List.length l = n) ls -> gather_call n (map Some ls) = Some ls.
  Proof.
    induction 1 as [|l ls E _ IH]; [reflexivity|]. cbn [map gather_call fold_right].
    unfold gather_call in IH. cbn [bind]. rewrite IH. cbn [bind]. rewrite E, Nat.eqb_refl. reflexivity.
  Qed.
  Lemma gather_keys_ok ranks own : same_counts ranks -> In own ranks -> forall ks pre, sorted_keys own = pre ++ ks ->
    gather_keys own ranks ks (List.length pre) = Some (map (fun k => (k, map (fun times => recorded times k) ranks)) ks).
  Proof.
    intros H Ho. induction ks as [|k ks IH]; intros pre E; [reflexivity|]. cbn [gather_keys]. unfold steps in *.
    assert (R : map (fun times => nth_error (sends times) (List.length pre)) ranks = map Some (map (fun times => recorded times k) ranks)).
    { rewrite map_map. apply map_ext_in. intros a Ha. unfold sends. rewrite (same_keys ranks a own H Ha Ho), E, map_app, nth_error_app2; rewrite map_length; [|lia].
      rewrite Nat.sub_diag. cbn. rewrite samples_recorded. reflexivity. }
    rewrite R, gather_call_ok.
    - cbn [bind]. specialize (IH (pre ++ [k])). rewrite app_length in IH. cbn [List.length] in IH. rewrite Nat.add_1_r in IH.
      rewrite IH; [reflexivity|]. rewrite <- app_assoc. exact E.
    - apply Forall_forall. intros l Hl. apply in_map_iff in Hl. destruct Hl as (a & <- & Ha). rewrite samples_recorded. apply H; assumption.
  Qed.
  Lemma get_map_fun {V} (f : string -> V) ks k : get (map (fun k => (k, f k)) ks) k = if in_dec string_dec k ks then Some (f k) else None.
  Proof.
    induction ks as [|k' ks IH]; [reflexivity|]. cbn [map get]. destruct (String.eqb_spec k k') as [->|N].
    - destruct (in_dec string_dec k' (k' :: ks)) as [_|NI]; [reflexivity|]. destruct NI. left; reflexivity.
    - rewrite IH. destruct (in_dec string_dec k ks), (in_dec string_dec k (k' :: ks)) as [HI|HI]; try reflexivity.
      + destruct HI. right; assumption.
      + destruct HI; [congruence|contradiction].
  Qed.

  (** When every rank records the same timers, each the same number of times, rank 0 gets for every timer the values recorded
      by every rank, in the order of ranks and steps, and an entry for no other name.  Missing for C64: ranks whose timers
      differ, and another root (both refuted below). *)
  Theorem C64_report_by_name_partial ranks : ranks <> [] -> same_counts ranks ->
    exists info, gather_timing ranks 0 = Some info /\ StronglySorted slt (keys info) /\ forall name, get info name = report_of ranks name.
  Proof.
    intros Hne H. destruct ranks as [|own ranks]; [congruence|]. clear Hne. set (all := own :: ranks) in *.
    assert (Ho : In own all) by (left; reflexivity).
    exists (map (fun k => (k, map (fun times => recorded times k) all)) (sorted_keys own)).
    assert (E : gather_timing all 0 = Some (map (fun k => (k, map (fun times => recorded times k) all)) (sorted_keys own))).
    { unfold gather_timing. cbn [nth_error all]. fold all.
      pose proof (gather_keys_ok all own H Ho (sorted_keys own) [] eq_refl) as G. cbn [List.length] in G.
      destruct (sorted_keys own) as [|k ks] eqn:K.
      - replace (forallb _ all) with true; [reflexivity|]. symmetry. apply forallb_forall. intros a Ha. rewrite (same_keys all a own H Ha Ho), K. reflexivity.
      - replace (forallb _ all) with true; [exact G|]. symmetry. apply forallb_forall. intros a Ha. unfold sends. rewrite map_length, (same_keys all a own H Ha Ho), K. apply Nat.eqb_refl. }
    split; [exact E|]. split.
    - unfold keys. rewrite map_map. cbn [fst]. rewrite map_id. apply sorted_keys_ok.
    - intros name. rewrite get_map_fun. unfold report_of. destruct (existsb _ all) eqn:X; destruct (in_dec string_dec name (sorted_keys own)) as [I0|I0]; try reflexivity.
      + destruct I0. apply keys_iff. apply existsb_exists in X. destruct X as (a & Ha & Xa).
        pose proof (H a own name Ha Ho) as L. destruct (recorded a name); [discriminate|]. destruct (recorded own name); [discriminate|congruence].
      + apply keys_iff in I0. assert (X' : existsb (fun times => match recorded times name with [] => false | _ => true end) all = true).
        { apply existsb_exists. exists own. split; [exact Ho|]. destruct (recorded own name); [congruence|reflexivity]. }
        congruence.
  Qed.
End Ranks.
Print Assumptions C64_report_by_name_partial.

(** two steps on two ranks; "mainloop" is recorded in both steps, "io" in the first only *)
Example C64_case :
  let ranks := [[[("mainloop", 4%Q); ("io", 1%Q)]; [("mainloop", 6%Q)]]; [[("io", 2%Q); ("mainloop", 5%Q)]; [("mainloop", 7%Q)]]]%string in
  same_counts ranks
  /\ gather_timing ranks 0 = Some [("io", [[1%Q]; [2%Q]]); ("mainloop", [[4%Q; 6%Q]; [5%Q; 7%Q]])]%string
  /\ report_of ranks "io" = Some [[1%Q]; [2%Q]].
Proof.
  split; [|split; reflexivity]. intros a b n [<-|[<-|[]]] [<-|[<-|[]]]; unfold recorded; cbn [flat_map get app];
  destruct (String.eqb n "mainloop"); destruct (String.eqb n "io"); reflexivity.
Qed.

(** A rank is credited with a timer it never ran: one rank times "checkpoint", the other "diagnostics", the k-th gathers of
    both are matched, and the time of the second is reported under the name of the first, in silence. *)
Theorem C64_report_by_name_refuted : exists (ranks : list (list (dict Z))) info,
  gather_timing ranks 0 = Some info
  /\ get info "checkpoint" = Some [[3%Z]; [8%Z]] /\ report_of ranks "checkpoint" = Some [[3%Z]; []]
  /\ get info "diagnostics" = None /\ report_of ranks "diagnostics" = Some [[]; [8%Z]].
Proof.
  exists [[[("checkpoint", 3%Z)]]; [[("diagnostics", 8%Z)]]]%string. eexists. split; [reflexivity|]. repeat split.
Qed.
Print Assumptions C64_report_by_name_refuted.

(** Any other root than rank 0 fails, whatever the ranks recorded: the buffer is allocated on [root], the gather goes to 0. *)
Theorem C64_other_root_fails {T} (ranks : list (list (dict T))) root own name : root <> 0 -> nth_error ranks root = Some own -> recorded own name <> [] ->
  gather_timing ranks root = None.
Proof.
  intros Hr E Hn. unfold gather_timing, steps. rewrite E. apply keys_iff in Hn. destruct (sorted_keys own); [destruct Hn|]. destruct root; [congruence|reflexivity].
Qed.
Print Assumptions C64_other_root_fails.
Theorem C64_root_refuted : exists (ranks : list (list (dict Q))) root, root < List.length ranks /\ same_counts ranks
  /\ report_of ranks "mainloop" = Some [[4%Q]; [5%Q]] /\ gather_timing ranks 0 <> None /\ gather_timing ranks root = None.
Proof.
  exists [[[("mainloop", 4%Q)]]; [[("mainloop", 5%Q)]]]%string, 1. split; [cbn; lia|]. split; [|split; [reflexivity|split; [discriminate|reflexivity]]].
  intros a b n [<-|[<-|[]]] [<-|[<-|[]]]; unfold recorded; cbn [flat_map get app]; destruct (String.eqb n "mainloop"); reflexivity.
Qed.
Print Assumptions C64_root_refuted.

(** ** Simulated years per day *)
Definition sum (l : list Q) : Q := fold_right Qplus 0%Q l.
Lemma fold_sum l : forall a, (fold_left Qplus l a == a + sum l)%Q.
Proof. induction l as [|x l IH]; intros a; cbn [fold_left sum fold_right]; [ring|]. rewrite IH. fold (sum l). ring. Qed.

(** [n] main loop steps were recorded over all ranks, taking [t] seconds in all, each advancing the simulation by dt_atmos
    seconds: the reported figure times the time taken is the simulated time in years of 365 days (and is positive) *)
Theorem C64_sypd (ranks : list (list (dict Q))) info dt : gather_timing ranks 0 = Some info -> same_counts ranks -> ranks <> [] ->
  let l := flat_map (fun times => recorded times "mainloop"%string) ranks in
  (0 < sum l)%Q ->
  (sypd info dt * (365 * sum l) == dt * inject_Z (Z.of_nat (List.length l)))%Q.
Proof.
  intros E H Hne l Hl. destruct (C64_report_by_name_partial ranks Hne H) as (info' & E' & _ & G). rewrite E in E'. injection E' as <-.
  unfold sypd. rewrite G. unfold report_of.
  assert (X : existsb (fun times => match recorded times "mainloop"%string with [] => false | _ => true end) ranks = true).
  { match goal with |- ?e = true => destruct e eqn:X end; [reflexivity|]. exfalso.
    assert (Z0 : l = []). { unfold l. clear -X. induction ranks as [|a r IH]; [reflexivity|]. cbn [existsb flat_map] in *. apply orb_false_iff in X. destruct X as [X Y].
      rewrite (IH Y). destruct (recorded a _); [reflexivity|discriminate]. }
    rewrite Z0 in Hl. discriminate. }
  rewrite X. rewrite <- flat_map_concat_map. fold l. rewrite fold_sum.
  assert (N : ~ (inject_Z (Z.of_nat (List.length l)) == 0)%Q).
  { destruct l as [|q l0]; [cbn in Hl; discriminate|]. cbn [List.length]. intros N. unfold Qeq in N. cbn in N. lia. }
  field. repeat split; try exact N. intros F. assert (S0 : (sum l == 0)%Q) by (rewrite <- F; ring). rewrite S0 in Hl. discriminate.
Qed.
Print Assumptions C64_sypd.
(** no main loop step recorded anywhere: the figure is -999 *)
Theorem C64_sypd_missing (ranks : list (list (dict Q))) info dt : gather_timing ranks 0 = Some info -> same_counts ranks -> ranks <> [] ->
  (forall times, In times ranks -> recorded times "mainloop"%string = []) -> sypd info dt = (-999)%Q.
Proof.
  intros E H Hne N. destruct (C64_report_by_name_partial ranks Hne H) as (info' & E' & _ & G). rewrite E in E'. injection E' as <-.
  unfold sypd. rewrite G. unfold report_of.
  match goal with |- context [if ?e then _ else _] => destruct e eqn:X end; [|reflexivity].
  apply existsb_exists in X. destruct X as (times & I & X). rewrite (N times I) in X. discriminate.
Qed.
Print Assumptions C64_sypd_missing.
Example C64_sypd_case : exists info, gather_timing [[[("mainloop", 4%Q)]; [("mainloop", 6%Q)]]; [[("mainloop", 5%Q)]; [("mainloop", 7%Q)]]]%string 0 = Some info
  /\ (sypd info 1825 == 10 # 11)%Q.
Proof. eexists. split; reflexivity. Qed.
