(** Proofs for NetcdfModel.v: an invariant over all histories of a monitor. *)
From Verif Require Import Base Dict NetcdfModel.
Open Scope nat_scope.

Section Proofs.
  Context {V : Type}.
  Variable C : nat.
  Hypothesis HC : 1 <= C.
  Notation state := (dict V). Notation monitor := (@monitor V). Notation op := (@op V).

  Lemma filter_none {A} (f : A -> bool) l : (forall x, In x l -> f x = false) -> filter f l = [].
  Proof. induction l as [|a l IH]; cbn; auto. intros H. rewrite (H a) by auto. apply IH. auto. Qed.
  Lemma filter_all {A} (f : A -> bool) l : (forall x, In x l -> f x = true) -> filter f l = l.
  Proof. induction l as [|a l IH]; cbn; auto. intros H. rewrite (H a) by auto. f_equal. apply IH. auto. Qed.

  Lemma in_chunk k i : k * C <= i < k * C + C -> i / C = k.
  Proof. intros H. symmetry. apply (Nat.div_unique i C k (i - k * C)); nia. Qed.
  Lemma chunk_bounds i : i / C * C <= i < i / C * C + C.
  Proof. pose proof (Nat.div_mod i C ltac:(lia)). pose proof (Nat.mod_upper_bound i C ltac:(lia)). nia. Qed.

  Lemma survivors_flush s n cs k0 k :
    k0 * C <= s -> s < n -> n <= k0 * C + C -> (forall c, In c cs -> c <= s) -> (s = k0 * C \/ In s cs) ->
    survivors C n cs k = if k =? k0 then seq s (n - s) else survivors C s cs k.
  Proof.
    intros H1 H2 H3 Hc Hs. unfold survivors. destruct (Nat.eqb_spec k k0) as [->|N].
    - replace C with ((s - k0 * C) + ((n - s) + (k0 * C + C - n))) at 2 by lia.
      rewrite seq_app, filter_app, seq_app, filter_app.
      replace (k0 * C + (s - k0 * C)) with s by lia. replace (s + (n - s)) with n by lia.
      rewrite (filter_none _ (seq (k0 * C) _)), (filter_all _ (seq s _)), (filter_none _ (seq n _)), app_nil_r; [reflexivity| | |].
      + intros i Hi. apply in_seq in Hi. destruct (Nat.ltb_spec i n); [lia|reflexivity].
      + intros i Hi. apply in_seq in Hi. destruct (Nat.ltb_spec i n); [|lia]. cbn.
        apply negb_true_iff. unfold overwritten. apply not_true_is_false. intros E. apply existsb_exists in E.
        destruct E as (c & Ic & E). specialize (Hc c Ic). apply andb_true_iff in E. destruct E as [E _]. apply andb_true_iff in E.
        destruct E as [E _]. apply Nat.ltb_lt in E. lia.
      + intros i Hi. apply in_seq in Hi. destruct Hs as [Hs|Hs]; [lia|].
        destruct (Nat.ltb_spec i n); [|lia]. cbn. apply negb_false_iff. unfold overwritten. apply existsb_exists. exists s.
        split; auto. rewrite (in_chunk k0 s), (in_chunk k0 i), Nat.eqb_refl by lia.
        destruct (Nat.ltb_spec i s); [|lia]. destruct (Nat.ltb_spec s n); [reflexivity|lia].
    - apply filter_ext_in. intros i Hi. apply in_seq in Hi. pose proof (in_chunk k i Hi) as Ek.
      assert (L : (i <? n) = (i <? s)).
      { destruct (Nat.lt_ge_cases k k0); [|assert (k0 < k) by lia];
          destruct (Nat.ltb_spec i n), (Nat.ltb_spec i s); auto; nia. }
      rewrite L. f_equal. f_equal. unfold overwritten. clear L.
      assert (G : forall l, (forall c, In c l -> c <= s) ->
         existsb (fun c => (i <? c) && (c <? n) && (c / C =? i / C)) l = existsb (fun c => (i <? c) && (c <? s) && (c / C =? i / C)) l).
      { induction l as [|c l IH]; intros Hl; cbn [existsb]; auto. rewrite IH by (intros; apply Hl; cbn; auto). f_equal.
        specialize (Hl c (or_introl eq_refl)). destruct (Nat.eq_dec c s) as [->|Ncs].
        - rewrite (in_chunk k0 s), Ek by lia. destruct (Nat.eqb_spec k0 k); [congruence|]. now rewrite !andb_false_r.
        - destruct (Nat.ltb_spec c n), (Nat.ltb_spec c s); auto; lia. }
      apply G. exact Hc.
  Qed.
  Lemma survivors_same n cs k : survivors C n (n :: cs) k = survivors C n cs k.
  Proof.
    unfold survivors. apply filter_ext. intros i. f_equal. f_equal. unfold overwritten. cbn [existsb].
    destruct (Nat.ltb_spec n n); [lia|]. rewrite andb_false_r. reflexivity.
  Qed.
  Lemma survivors_below n cs k i : In i (survivors C n cs k) -> i < n.
  Proof. intros H. apply filter_In in H. destruct H as [_ H]. apply andb_true_iff in H. destruct H as [H _]. now apply Nat.ltb_lt in H. Qed.

  Lemma pick_skipn (ss : list state) s : pick ss (seq s (length ss - s)) = skipn s ss.
  Proof.
    revert s. induction ss as [|x ss IH]; intros [|s]; cbn [length Nat.sub skipn]; auto.
    - cbn [seq pick map nth]. f_equal. rewrite <- seq_shift, map_map. specialize (IH 0). rewrite Nat.sub_0_r in IH. exact IH.
    - rewrite <- IH, <- seq_shift. unfold pick. rewrite map_map. reflexivity.
  Qed.
  Lemma pick_app (ss ss' : list state) is : (forall i, In i is -> i < length ss) -> pick (ss ++ ss') is = pick ss is.
  Proof. intros H. apply map_ext_in. intros i Hi. apply app_nth1. auto. Qed.

  (** ** The buffer *)
  Lemma append_vars_ok (s : state) : forall ch : dict (list V), NoDup (keys s) ->
    (forall n, In n (keys s) -> exists l, get ch n = Some l /\ length l < C) ->
    exists ch', append_vars C s ch = (ch', false) /\
      forall n, get ch' n = match get s n with Some v => option_map (fun l => l ++ [v]) (get ch n) | None => get ch n end.
  Proof.
    induction s as [|[n v] s IH]; intros ch N H.
    - exists ch. split; auto.
    - cbn [keys map fst] in *. inversion N as [|? ? Nn N']; subst. cbn [append_vars].
      destruct (H n (or_introl eq_refl)) as (l & E & L). rewrite E. apply Nat.ltb_lt in L. rewrite L.
      destruct (IH (put ch n (l ++ [v])) N') as (ch' & E' & G).
      { intros n' I. rewrite get_put. destruct (String.eqb_spec n' n) as [->|]; [contradiction|]. apply H. cbn. auto. }
      exists ch'. split; auto. intros n'. rewrite G, get_put. cbn [get].
      destruct (String.eqb_spec n' n) as [->|N2]; [|reflexivity].
      fold (keys s) in Nn. apply get_none in Nn. rewrite Nn, E. reflexivity.
  Qed.

  Lemma get_map_val {A B} (f : A -> B) (d : dict A) n : get (map (fun nv => (fst nv, f (snd nv))) d) n = option_map f (get d n).
  Proof. induction d as [|[k v] d IH]; cbn; auto. destruct (n =? k)%string; auto. Qed.

  Lemma first_ok (s : state) : NoDup (keys s) ->
    exists ch, first_vars C (del s "time") = (ch, false) /\ holds (Some (mkFile [get s "time"] ch)) [s].
  Proof.
    intros N. unfold first_vars. eexists. split.
    - destruct (Nat.eqb_spec C 0); [lia|]. reflexivity.
    - cbn. split; [discriminate|]. split; auto. intros n. rewrite (get_map_val (fun v => [v])), get_del.
      destruct (String.eqb_spec n "time"); cbn; auto. destruct (get s n) eqn:E; cbn; auto.
  Qed.

  Lemma map_Some_len {A} (l : list A) l' : map Some l = l' -> length l = length l'.
  Proof. intros <-. now rewrite map_length. Qed.

  Lemma append_ok (s : state) ts ch ss : NoDup (keys s) -> holds (Some (mkFile ts ch)) ss -> length ss < C ->
    Forall (fun s' => same_keys s' s) ss ->
    exists ch', append_vars C (del s "time") ch = (ch', false) /\ holds (Some (mkFile (ts ++ [get s "time"]) ch')) (ss ++ [s]).
  Proof.
    intros N (Hne & Ht & Hv) L K. cbn [file_times file_vars] in *.
    assert (S : forall n, n <> "time"%string -> In n (keys s) -> exists l, get ch n = Some l /\ length l < C).
    { intros n Nt I. specialize (Hv n). destruct (get ch n) as [l|].
      - exists l. split; auto. destruct Hv as [_ Hv]. apply map_Some_len in Hv. rewrite map_length in Hv. rewrite Hv. exact L.
      - destruct Hv as [?|Hv]; [contradiction|]. destruct ss as [|s0 ss]; [congruence|].
        apply Forall_cons_iff in Hv, K. destruct Hv as [Hv _], K as [K _]. apply get_none in Hv. apply K in I. contradiction. }
    destruct (append_vars_ok (del s "time") ch) as (ch' & E & G); [now apply del_NoDup| |].
    { intros n I. apply get_some in I. destruct I as [v I]. rewrite get_del in I. destruct (String.eqb_spec n "time"); [discriminate|].
      apply S; auto. apply get_some. eauto. }
    exists ch'. split; auto. cbn. split; [destruct ss; discriminate|]. split; [now rewrite map_app, Ht|].
    intros n. rewrite G, get_del. specialize (Hv n). destruct (String.eqb_spec n "time") as [->|Nt].
    - destruct (get ch "time"); tauto.
    - destruct (get s n) as [v|] eqn:Es.
      + destruct (S n Nt) as (l & El & _); [apply get_some; eauto|]. rewrite El in *. cbn. split; auto.
        destruct Hv as [_ Hv]. rewrite !map_app, Hv. cbn. now rewrite Es.
      + destruct (get ch n) as [l|] eqn:El.
        * exfalso. destruct Hv as [_ Hv]. destruct ss as [|s0 ss]; [congruence|]. destruct l as [|v l]; [discriminate|]. cbn in Hv.
          injection Hv as Hv _. apply Forall_cons_iff in K. destruct K as [K _]. apply get_none in Es. apply Es, K, get_some. eauto.
        * destruct Hv as [?|Hv]; auto. right. apply Forall_app. auto.
  Qed.

  (** ** The invariant *)
  Definition buffer_ok (w : @writer V) (ss : list state) : Prop :=
    match chunked w with
    | None => ss = [] /\ times w = []
    | Some ch => holds (Some (mkFile (times w) ch)) ss
    end.
  Definition inv (m : monitor) (h : list (op * bool)) : Prop :=
    let ss := stored h in let n := length ss in let cs := cleanups h in
    Forall (fun s => NoDup (keys s)) ss /\
    (match expected m with None => ss = [] | Some e => exists s0 r, ss = s0 :: r /\ e = keys s0 end) /\
    (forall s0 r, ss = s0 :: r -> Forall (same_keys s0) ss) /\
    i_time (wr m) = n /\
    exists s, s <= n /\ n / C * C <= s /\ (forall c, In c cs -> c <= s) /\ (s = n / C * C \/ In s cs) /\
      buffer_ok (wr m) (skipn s ss) /\
      forall k, holds (files m k) (pick ss (survivors C s cs k)).

  Lemma new_inv : inv new_monitor [].
  Proof.
    split; [constructor|]. split; [reflexivity|]. split; [discriminate|]. split; [reflexivity|].
    exists 0. cbn. rewrite Nat.div_0_l by lia. split; auto. split; auto. split; [tauto|]. split; auto. split; [split; auto|].
    intros k. unfold survivors. rewrite filter_none; [reflexivity|]. intros i _. reflexivity.
  Qed.

  Lemma subset_spec a b : subset a b = true <-> forall x, In x a -> In x b.
  Proof.
    unfold subset. rewrite forallb_forall. split; intros H x I; specialize (H x I); destruct (in_dec string_dec x b); auto; discriminate.
  Qed.
  Lemma same_set_spec (s s' : state) : same_set (keys s) (keys s') = true <-> same_keys s s'.
  Proof. unfold same_set, same_keys. rewrite andb_true_iff, !subset_spec. firstorder. Qed.

  Lemma skipn_snoc {A} (l : list A) x s : s <= length l -> skipn s (l ++ [x]) = skipn s l ++ [x].
  Proof. intros H. rewrite skipn_app. replace (s - length l) with 0 by lia. reflexivity. Qed.

  (** what flushing at [n'] states does, for states [ss] with the buffer from [s] on *)
  Lemma flush_files ss s n0 w fs cs :
    let n := length ss in
    s < n -> n <= n0 / C * C + C -> n0 / C * C <= s ->
    (forall c, In c cs -> c <= s) -> (s = n0 / C * C \/ In s cs) -> i_time w = n0 -> buffer_ok w (skipn s ss) ->
    (forall k, holds (fs k) (pick ss (survivors C s cs k))) ->
    forall k, holds (snd (flush C w fs) k) (pick ss (survivors C n cs k)).
  Proof.
    intros n H1 H2 H3 Hc Hs Ei B Hf k. rewrite (survivors_flush s n cs (n0 / C) k); auto. unfold flush, buffer_ok in *. cbn [snd].
    destruct (chunked w) as [ch|].
    - rewrite Ei. destruct (k =? n0 / C); [|apply Hf]. unfold n. rewrite pick_skipn. exact B.
    - destruct B as [B _]. exfalso. apply (f_equal (@length _)) in B. rewrite skipn_length in B. cbn in B. lia.
  Qed.

  (** storing a state with the right names *)
  Lemma store_ok m h s : inv m h -> NoDup (keys s) -> Forall (fun s' => same_keys s' s) (stored h) ->
    exists w fs, append C (wr m) (files m) s = (w, fs, false) /\
      forall e, (exists s0 r, stored h ++ [s] = s0 :: r /\ e = keys s0) -> inv (mkMonitor (Some e) w fs) ((Store s, false) :: h).
  Proof.
    intros (ND & EX & SK & IT & s0 & L1 & L2 & Hc & Hs & B & F) N K.
    set (ss := stored h) in *. set (n := length ss) in *. set (cs := cleanups h) in *.
    assert (Lb : length (skipn s0 ss) < C) by (rewrite skipn_length; pose proof (chunk_bounds n); unfold n in *; lia).
    assert (A : exists ch, match chunked (wr m) with None => first_vars C (del s "time") | Some ch => append_vars C (del s "time") ch end = (ch, false) /\
       holds (Some (mkFile (times (wr m) ++ [get s "time"]) ch)) (skipn s0 ss ++ [s])).
    { unfold buffer_ok in B. destruct (chunked (wr m)) as [ch|].
      - apply append_ok; auto. rewrite <- (firstn_skipn s0 ss) in K. apply Forall_app in K. tauto.
      - destruct B as [-> ->]. cbn. apply first_ok; auto. }
    destruct A as (ch & E & B'). unfold append. rewrite E, IT. destruct (Nat.eqb_spec C 0); [lia|].
    set (w1 := mkWriter n (Some ch) (times (wr m) ++ [get s "time"])).
    assert (B1 : buffer_ok w1 (skipn s0 (ss ++ [s]))) by (rewrite skipn_snoc by auto; exact B').
    assert (F1 : forall k, holds (files m k) (pick (ss ++ [s]) (survivors C s0 cs k))).
    { intros k. rewrite pick_app; [apply F|]. intros i I. apply survivors_below in I. unfold n in *. lia. }
    assert (ND' : Forall (fun s => NoDup (keys s)) (ss ++ [s])) by (apply Forall_app; auto).
    assert (SK' : forall x r, ss ++ [s] = x :: r -> Forall (same_keys x) (ss ++ [s])).
    { intros x r Ex. apply Forall_app. destruct ss as [|y ss']; cbn in Ex; injection Ex as -> _.
      - split; auto. constructor; auto. intros z. reflexivity.
      - split; [eapply SK; reflexivity|]. constructor; auto. apply Forall_cons_iff in K. tauto. }
    assert (Len : length (ss ++ [s]) = n + 1) by (rewrite app_length; reflexivity).
    pose proof (chunk_bounds n) as Cb.
    destruct (Nat.eqb_spec ((n + 1) mod C) 0) as [E0|E0].
    - pose proof (flush_files (ss ++ [s]) s0 n w1 (files m) cs) as FF. cbn zeta in FF. rewrite Len in FF.
      destruct (flush C w1 (files m)) as [w2 fs2] eqn:Ef. cbn [snd] in FF.
      assert (w2 = mkWriter n None []) as -> by (unfold flush in Ef; injection Ef as <- _; reflexivity).
      cbn [i_time chunked times]. eexists. eexists. split; [reflexivity|]. intros e He.
      unfold inv. cbn [stored cleanups expected wr files i_time]. fold ss. fold cs. rewrite Len.
      split; auto. split; auto. split; auto. split; auto.
      assert (D : (n + 1) / C * C = n + 1) by (pose proof (Nat.div_mod (n + 1) C ltac:(lia)); nia).
      exists (n + 1). split; [lia|]. split; [lia|]. split; [intros c I; specialize (Hc c I); lia|]. split; [auto|].
      split; [split; auto; rewrite <- Len; apply skipn_all|].
      apply FF; auto; lia.
    - eexists. eexists. split; [reflexivity|]. intros e He.
      unfold inv. cbn [stored cleanups expected wr files i_time chunked times]. fold ss. fold cs. rewrite Len.
      split; auto. split; auto. split; auto. split; auto.
      assert (D : (n + 1) / C = n / C).
      { apply in_chunk. pose proof (Nat.div_mod (n + 1) C ltac:(lia)). destruct (Nat.eq_dec (n + 1) (n / C * C + C)) as [Eq|]; [|lia].
        exfalso. apply E0. rewrite Eq. replace (n / C * C + C) with ((n / C + 1) * C) by lia. apply Nat.mod_mul. lia. }
      rewrite D. exists s0. split; [lia|]. split; [lia|]. auto 10.
  Qed.

  Lemma step m h o : inv m h -> (match o with Store s => NoDup (keys s) | Cleanup => True end) ->
    let '(m', r) := exec C m o in inv m' ((o, r) :: h) /\
      (r = true <-> exists s s0, o = Store s /\ nth_error (stored h) 0 = Some s0 /\ ~ same_keys s0 s).
  Proof.
    intros I N. pose proof I as (ND & EX & SK & IT & s0 & L1 & L2 & Hc & Hs & B & F). destruct o as [s|]; cbn [exec].
    - destruct (expected m) as [e|] eqn:Ee.
      + destruct EX as (x & rs & Ex & ->). destruct (same_set (keys x) (keys s)) eqn:Es.
        * apply same_set_spec in Es. destruct (store_ok m h s I N) as (w & fs & -> & A).
          { specialize (SK x rs Ex). rewrite Forall_forall in *. intros y Iy. specialize (SK y Iy). intros z. rewrite <- (SK z). apply Es. }
          split; [apply A; exists x, (rs ++ [s]); rewrite Ex; auto|]. split; [discriminate|]. intros (s' & y & [= <-] & Hy & Hn).
          rewrite Ex in Hy. cbn in Hy. injection Hy as <-. contradiction.
        * split.
          { unfold inv. cbn [stored cleanups]. rewrite Ee. split; auto. split; [eauto|]. eauto 10. }
          split; auto. intros _. exists s, x. rewrite Ex. split; auto. split; auto. intros X. apply same_set_spec in X. congruence.
      + destruct (store_ok m h s I N) as (w & fs & -> & A); [rewrite EX; constructor|].
        split; [apply A; exists s, []; rewrite EX; auto|]. split; [discriminate|]. intros (s' & y & _ & Hy & _). rewrite EX in Hy. discriminate.
    - destruct (flush C (wr m) (files m)) as [w fs] eqn:Ef.
      split; [|split; [discriminate|intros (? & ? & ? & _); discriminate]].
      assert (w = mkWriter (length (stored h)) None []) as -> by (unfold flush in Ef; injection Ef as <- _; now rewrite IT).
      unfold inv. cbn [stored cleanups expected wr files i_time]. split; auto. split; auto. split; auto. split; auto.
      set (ss := stored h) in *. set (n := length ss) in *. set (cs := cleanups h) in *. pose proof (chunk_bounds n) as Cb.
      exists n. split; [lia|]. split; [lia|]. split; [intros c [<-|Ic]; [lia|specialize (Hc c Ic); lia]|]. split; [right; cbn; auto|].
      split; [split; auto; apply skipn_all|]. intros k. rewrite survivors_same.
      destruct (Nat.eq_dec s0 n) as [E|E].
      + subst s0. unfold flush in Ef. assert (B' : chunked (wr m) = None).
        { unfold buffer_ok in B. destruct (chunked (wr m)); auto. destruct B as [B _]. exfalso. apply B. apply skipn_all. }
        rewrite B' in Ef. injection Ef as _ <-. apply F.
      + pose proof (flush_files ss s0 n (wr m) (files m) cs) as FF. cbn zeta in FF. rewrite Ef in FF. cbn [snd] in FF. fold n in FF. apply FF; auto; lia.
  Qed.

  Lemma exec_all_ok os : forall m h, inv m h -> raises_when h ->
    Forall (fun o => match o with Store s => NoDup (keys s) | Cleanup => True end) os ->
    let '(m', h') := exec_all C os m h in inv m' h' /\ raises_when h'.
  Proof.
    induction os as [|o os IH]; intros m h I R N; [cbn; auto|]. apply Forall_cons_iff in N. destruct N as [N1 N2].
    cbn [exec_all]. pose proof (step m h o I N1) as S. destruct (exec C m o) as [m' r]. destruct S as [I' Rr].
    apply IH; auto. intros [|x pre] o' r' post E; cbn in E.
    - injection E as -> -> ->. exact Rr.
    - injection E as _ E. eapply R. exact E.
  Qed.

  Lemma exec_all_app os os' : forall (m : monitor) h,
    exec_all C (os ++ os') m h = let '(m', h') := exec_all C os m h in exec_all C os' m' h'.
  Proof. induction os as [|o os IH]; intros m h; [reflexivity|]. cbn. destruct (exec C m o) as [m' r]. apply IH. Qed.

  Lemma files_ok (os : list op) : Forall (fun o => match o with Store s => NoDup (keys s) | Cleanup => True end) os ->
    let '(m, h) := exec_all C (os ++ [Cleanup]) new_monitor [] in
    raises_when h /\
    forall k, holds (files m k) (pick (stored h) (survivors C (length (stored h)) (cleanups h) k)).
  Proof.
    intros N. rewrite exec_all_app.
    pose proof (exec_all_ok os new_monitor [] new_inv) as S.
    destruct (exec_all C os new_monitor []) as [m h]. destruct S as [I R]; auto. { intros [|] ? ? ?; discriminate. }
    pose proof (exec_all_ok [Cleanup] m h I R) as S. cbn [exec_all] in *. pose proof (step m h Cleanup I Logic.I) as St.
    destruct (exec C m Cleanup) as [m' r] eqn:Ex. destruct S as [(_ & _ & _ & _ & s & L1 & _ & Hc & _ & _ & F) R']; [constructor; auto|].
    split; auto. assert (s = length (stored ((Cleanup, r) :: h))) as ->; auto.
    specialize (Hc (length (stored h)) (or_introl eq_refl)). cbn [stored] in *. lia.
  Qed.

  Lemma survivors_all n cs k : (forall c, In c cs -> c < n -> c mod C = 0) -> survivors C n cs k = seq (k * C) (min C (n - k * C)).
  Proof.
    intros H. unfold survivors.
    replace C with (min C (n - k * C) + (C - min C (n - k * C))) at 2 by lia. rewrite seq_app, filter_app.
    rewrite filter_all, filter_none; [apply app_nil_r| |].
    - intros i I. apply in_seq in I. destruct (Nat.ltb_spec i n); [|reflexivity]. lia.
    - intros i I. apply in_seq in I. destruct (Nat.ltb_spec i n); [|lia]. cbn. apply negb_true_iff. unfold overwritten.
      apply not_true_is_false. intros E. apply existsb_exists in E. destruct E as (c & Ic & E).
      apply andb_true_iff in E. destruct E as [E1 E3]. apply andb_true_iff in E1. destruct E1 as [E1 E2].
      apply Nat.ltb_lt in E1, E2. apply Nat.eqb_eq in E3. specialize (H c Ic E2).
      rewrite (in_chunk k i) in E3 by lia. pose proof (Nat.div_mod c C ltac:(lia)). nia.
  Qed.
  Lemma pick_range (ss : list state) a len : pick ss (seq a (min len (length ss - a))) = firstn len (skipn a ss).
  Proof.
    revert a len. induction ss as [|x ss IH]; intros a len.
    - rewrite skipn_nil, firstn_nil. cbn [length Nat.sub]. rewrite Nat.min_0_r. reflexivity.
    - destruct a as [|a]; cbn [length Nat.sub skipn].
      + destruct len as [|len]; [reflexivity|]. rewrite <- Nat.succ_min_distr. cbn [seq firstn pick map nth]. f_equal.
        rewrite <- seq_shift, map_map. specialize (IH 0 len). rewrite Nat.sub_0_r in IH. exact IH.
      + rewrite <- (IH a len), <- seq_shift. unfold pick. rewrite map_map. reflexivity.
  Qed.
End Proofs.
