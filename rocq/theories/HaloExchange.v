(** Generic theory of one exchange: every interleaving gives the same result, and none gets stuck. *)
From Verif Require Import Base HaloModel.
Open Scope Z_scope.

Section Generic.
  Context {A E Q : Type}.
  Variable pk : E -> Q -> option (list A).
  Variable up : E -> Q -> list A -> option Q.
  Variable bufsize : E -> Z.
  Variable T : Z -> list (Z * E).
  Variable q0 : Z -> Q.
  Variable msg : Z -> Z -> list A.
  Variable qf : Z -> Q.
  Variable R : Z.

  (** every rank in 0..R-1 has distinct neighbours, mutually, and packs [msg s d] for each; sizes agree *)
  Definition consistent : Prop :=
    (forall r, 0 <= r < R -> NoDup (map fst (T r))) /\
    (forall r d, 0 <= r < R -> In d (map fst (T r)) -> 0 <= d < R /\ In r (map fst (T d))) /\
    (forall r d e, 0 <= r < R -> In (d, e) (T r) -> pk e (q0 r) = Some (msg r d)) /\
    (forall r s e, 0 <= r < R -> In (s, e) (T r) -> Z.of_nat (length (msg s r)) = bufsize e) /\
    (forall r, 0 <= r < R -> unpack_all up (T r) (fun s => Some (msg s r)) (q0 r) = Some (qf r)).
  Hypothesis C : consistent.

  Lemma assoc_in {V} k (d : list (Z * V)) v : NoDup (map fst d) -> (assoc k d = Some v <-> In (k, v) d).
  Proof.
    unfold assoc. intros N. split.
    - destruct (find _ d) as [[k' v']|] eqn:F; [|discriminate]. intros [= <-]. apply find_some in F. destruct F as [F1 F2].
      cbn in F2. apply Z.eqb_eq in F2. subst. exact F1.
    - intros I. induction d as [|[k' v'] d IH]; [destruct I|]. cbn in *. inversion N; subst.
      destruct (Z.eqb_spec k' k).
      + subst. destruct I as [[= ->]|I]; [reflexivity|]. exfalso. apply H1. apply (in_map fst) in I. exact I.
      + destruct I as [[= -> ->]|I]; [congruence|]. apply IH; auto.
  Qed.
  Lemma assoc_none {V} k (d : list (Z * V)) : assoc k d = None <-> ~ In k (map fst d).
  Proof.
    unfold assoc. induction d as [|[k' v'] d IH]; cbn; [tauto|]. destruct (Z.eqb_spec k' k).
    - split; [discriminate|]. intros H. exfalso; auto.
    - rewrite IH. tauto.
  Qed.

  Lemma post_all_spec r ts q net : NoDup (map fst ts) -> (forall d e, In (d, e) ts -> pk e q = Some (msg r d)) ->
    exists net', post_all pk r ts q net = Some net' /\
      forall a b, net' a b = if (a =? r) && (if in_dec Z.eq_dec b (map fst ts) then true else false) then net a b ++ [msg r b] else net a b.
  Proof.
    revert net. induction ts as [|[d e] ts IH]; intros net N H; cbn [post_all map fst].
    - exists net. split; auto. intros a b. destruct (in_dec Z.eq_dec b []) as [[]|]. now rewrite andb_false_r.
    - rewrite (H d e) by (left; auto). cbn [bind]. cbn in N. inversion N; subst.
      edestruct (IH (fun a b => if (a =? r) && (b =? d) then net a b ++ [msg r d] else net a b)) as (net' & E1 & E2); auto.
      { intros; apply H; right; auto. }
      exists net'. split; [exact E1|]. intros a b. rewrite E2.
      destruct (in_dec Z.eq_dec b (map fst ts)) as [I|I], (in_dec Z.eq_dec b (d :: map fst ts)) as [J|J].
      + destruct (Z.eqb_spec a r); cbn [andb]; auto. destruct (Z.eqb_spec b d); auto. subst. contradiction.
      + exfalso. apply J. right; auto.
      + destruct J as [<-|J]; [|contradiction]. rewrite Z.eqb_refl. rewrite !andb_true_r, andb_false_r.
        destruct (a =? r); reflexivity.
      + rewrite andb_false_r. destruct (Z.eqb_spec b d); [exfalso; apply J; left; auto|]. now rewrite andb_false_r.
  Qed.

  Lemma unpack_all_ext ts g g' q : (forall s, In s (map fst ts) -> g s = g' s) -> unpack_all up ts g q = unpack_all up ts g' q.
  Proof.
    revert q. induction ts as [|[s e] ts IH]; intros q H; cbn [unpack_all]; auto.
    rewrite <- H by (left; auto). destruct (g s); cbn [bind]; auto. destruct (up e q l); cbn [bind]; auto.
    apply IH. intros; apply H; right; auto.
  Qed.

  Definition started (p : @phase A) : bool := match p with Idle => false | _ => true end.
  Definition received (p : @phase A) (s : Z) : bool :=
    match p with Idle => false | Posted got => match assoc s got with Some _ => true | None => false end | Finished => true end.

  Record inv (st : @sys A Q) : Prop := mkInv {
    i_net : forall s d, 0 <= s < R -> 0 <= d < R ->
      sy_net st s d = if (if in_dec Z.eq_dec d (map fst (T s)) then true else false) && started (sy_ph st s) && negb (received (sy_ph st d) s)
                      then [msg s d] else [];
    i_q : forall r, 0 <= r < R -> sy_q st r = match sy_ph st r with Finished => qf r | _ => q0 r end;
    i_got : forall r got, 0 <= r < R -> sy_ph st r = Posted got ->
      forall s m, assoc s got = Some m -> m = msg s r /\ In s (map fst (T r)) /\ started (sy_ph st s) = true;
    i_fin : forall r, 0 <= r < R -> sy_ph st r = Finished -> forall s, In s (map fst (T r)) -> started (sy_ph st s) = true }.

  Definition rank_of (ev : event) : Z := match ev with EStart r | EFinish r => r | ERecv r _ => r end.

  Lemma assoc_cons {V} (s s' : Z) (m : V) got : assoc s ((s', m) :: got) = if s' =? s then Some m else assoc s got.
  Proof. unfold assoc. cbn. destruct (s' =? s); reflexivity. Qed.

  Lemma inv_initial : inv (initial q0).
  Proof. constructor; cbn; intros; auto; try discriminate. now rewrite andb_false_r. Qed.

  Lemma upd_same {V} (f : Z -> V) r v : upd_fun f r v r = v.
  Proof. unfold upd_fun. now rewrite Z.eqb_refl. Qed.
  Lemma upd_other {V} (f : Z -> V) r v a : a <> r -> upd_fun f r v a = f a.
  Proof. unfold upd_fun. intros. destruct (Z.eqb_spec a r); congruence. Qed.

  Lemma inv_step ev st st' : 0 <= rank_of ev < R -> inv st -> step pk up bufsize T ev st = Some st' -> inv st'.
  Proof.
    intros Hr I. destruct C as (C1 & C2 & C3 & C4 & C5). destruct I as [In_ Iq Ig If_].
    destruct ev as [r|r s|r]; cbn [step rank_of] in *.
    - destruct (sy_ph st r) as [| |] eqn:Ph; try discriminate.
      rewrite (Iq r Hr), Ph. edestruct (post_all_spec r (T r) (q0 r) (sy_net st)) as (net & E1 & E2); [auto|intros; apply C3; auto|].
      rewrite E1. cbn [bind]. intros [= <-]. constructor; cbn [sy_q sy_net sy_ph].
      + intros a b Ha Hb. rewrite E2, In_ by auto.
        destruct (Z.eqb_spec a r) as [->|N].
        * rewrite Ph. cbn [started andb]. rewrite upd_same. cbn [started]. 
          destruct (in_dec Z.eq_dec b (map fst (T r))) as [J|J]; cbn [andb]; [|reflexivity].
          assert (Rc : received (upd_fun (sy_ph st) r (Posted []) b) r = false).
          { destruct (Z.eq_dec b r) as [->|Nb]; [rewrite upd_same; reflexivity|]. rewrite upd_other by auto.
            destruct (received (sy_ph st b) r) eqn:Rc; auto. exfalso. unfold received in Rc.
            destruct (sy_ph st b) as [|got|] eqn:Pb; [discriminate| |].
            - destruct (assoc r got) as [m|] eqn:As; [|discriminate]. destruct (Ig b got Hb Pb r m As) as (_ & _ & S). rewrite Ph in S. discriminate S.
            - assert (S : started (sy_ph st r) = true). { apply (If_ b Hb Pb). apply C2; auto. } rewrite Ph in S. discriminate S. }
          rewrite Rc. reflexivity.
        * cbn [andb]. rewrite (upd_other _ r _ a) by auto.
          destruct (Z.eq_dec b r) as [->|Nb]; [|rewrite upd_other by auto; reflexivity].
          rewrite upd_same, Ph. reflexivity.
      + intros a Ha. rewrite Iq by auto. destruct (Z.eq_dec a r) as [->|N]; [rewrite upd_same, Ph; reflexivity|rewrite upd_other by auto; reflexivity].
      + intros a got Ha. destruct (Z.eq_dec a r) as [->|N].
        * rewrite upd_same. intros [= <-] s m H. discriminate H.
        * rewrite upd_other by auto. intros Pa s m H. destruct (Ig a got Ha Pa s m H) as (X1 & X2 & X3). repeat split; auto.
          destruct (Z.eq_dec s r) as [->|Ns]; [rewrite upd_same; reflexivity|rewrite upd_other by auto; auto].
      + intros a Ha. destruct (Z.eq_dec a r) as [->|N]; [rewrite upd_same; discriminate|]. rewrite upd_other by auto.
        intros Pa s Hs. pose proof (If_ a Ha Pa s Hs) as X.
        destruct (Z.eq_dec s r) as [->|Ns]; [rewrite upd_same; reflexivity|rewrite upd_other by auto; auto].
    - destruct (sy_ph st r) as [|got|] eqn:Ph; try discriminate.
      destruct (sy_net st s r) as [|m rest] eqn:Nt; try discriminate.
      destruct (assoc s (T r)) as [e|] eqn:As; try discriminate. destruct (assoc s got) as [|] eqn:Ag; try discriminate.
      destruct (_ =? bufsize e); try discriminate. intros [= <-].
      assert (IsT : In s (map fst (T r))).
      { apply assoc_in in As; auto. apply (in_map fst) in As. exact As. }
      destruct (C2 r s Hr IsT) as [Hs IrT].
      pose proof (In_ s r Hs Hr) as X. rewrite Nt, Ph in X. cbn [received] in X. rewrite Ag in X. cbn [negb] in X.
      destruct (in_dec Z.eq_dec r (map fst (T s))); [|discriminate X].
      destruct (started (sy_ph st s)) eqn:Ss; [|discriminate X]. cbn in X. injection X as -> ->.
      constructor; cbn [sy_q sy_net sy_ph].
      + intros a b Ha Hb. destruct (Z.eqb_spec a s) as [->|Na]; cbn [andb].
        * destruct (Z.eqb_spec b r) as [->|Nb].
          -- rewrite upd_same. cbn [received]. rewrite assoc_cons, Z.eqb_refl. cbn [negb]. now rewrite andb_false_r.
          -- rewrite In_, (upd_other _ r _ b) by auto.
             destruct (Z.eq_dec s r) as [->|Nsr]; [rewrite upd_same, Ph; reflexivity|rewrite upd_other by auto; reflexivity].
        * rewrite In_ by auto.
          assert (St : started (upd_fun (sy_ph st) r (Posted ((s, msg s r) :: got)) a) = started (sy_ph st a)).
          { destruct (Z.eq_dec a r) as [->|]; [rewrite upd_same, Ph; reflexivity|rewrite upd_other by auto; reflexivity]. }
          rewrite St. destruct (Z.eq_dec b r) as [->|Nb]; [|rewrite upd_other by auto; reflexivity].
          rewrite upd_same, Ph. cbn [received]. rewrite assoc_cons. destruct (Z.eqb_spec s a); [congruence|reflexivity].
      + intros a Ha. rewrite Iq by auto. destruct (Z.eq_dec a r) as [->|N]; [rewrite upd_same, Ph; reflexivity|rewrite upd_other by auto; reflexivity].
      + assert (St : forall a, started (sy_ph st a) = true -> started (upd_fun (sy_ph st) r (Posted ((s, msg s r) :: got)) a) = true).
        { intros a S. destruct (Z.eq_dec a r) as [->|]; [rewrite upd_same; reflexivity|rewrite upd_other by auto; auto]. }
        intros a got' Ha. destruct (Z.eq_dec a r) as [->|N].
        * rewrite upd_same. intros [= <-] s' m'. rewrite assoc_cons. destruct (Z.eqb_spec s s') as [->|].
          -- intros [= <-]. repeat split; auto.
          -- intros H. destruct (Ig r got Hr Ph s' m' H) as (X1 & X2 & X3). repeat split; auto.
        * rewrite upd_other by auto. intros Pa s' m' H. destruct (Ig a got' Ha Pa s' m' H) as (X1 & X2 & X3). repeat split; auto.
      + intros a Ha. destruct (Z.eq_dec a r) as [->|N]; [rewrite upd_same; discriminate|]. rewrite upd_other by auto.
        intros Pa s' Hs'. pose proof (If_ a Ha Pa s' Hs') as X.
        destruct (Z.eq_dec s' r) as [->|]; [rewrite upd_same; reflexivity|rewrite upd_other by auto; auto].
    - destruct (sy_ph st r) as [|got|] eqn:Ph; try discriminate.
      destruct (unpack_all up (T r) (fun s => assoc s got) (sy_q st r)) as [q|] eqn:U; [|discriminate]. cbn [bind]. intros [= <-].
      assert (All : forall s, In s (map fst (T r)) -> assoc s got = Some (msg s r)).
      { clear -U Ig Hr Ph. revert U. generalize (sy_q st r) as qq. 
        assert (G : forall s, assoc s got <> None -> assoc s got = Some (msg s r)).
        { intros s H. destruct (assoc s got) as [m|] eqn:E1; [|congruence]. destruct (Ig r got Hr Ph s m E1) as (-> & _). reflexivity. }
        clear Ig. induction (T r) as [|[s e] ts IH]; cbn [unpack_all map fst]; intros qq U s' H; [destruct H|].
        destruct (assoc s got) as [m|] eqn:E1; [|discriminate U]. cbn [bind] in U. destruct (up e qq m) as [q'|]; [|discriminate U]. cbn [bind] in U.
        destruct H as [<-|H]; [apply G; congruence|]. eapply IH; eauto. }
      assert (q = qf r).
      { rewrite (unpack_all_ext _ _ (fun s => Some (msg s r))) in U by exact All. rewrite Iq, Ph, C5 in U by auto. congruence. }
      subst q. constructor; cbn [sy_q sy_net sy_ph].
      + intros a b Ha Hb. rewrite In_ by auto.
        assert (St : started (upd_fun (sy_ph st) r Finished a) = started (sy_ph st a)).
        { destruct (Z.eq_dec a r) as [->|]; [rewrite upd_same, Ph; reflexivity|rewrite upd_other by auto; reflexivity]. }
        rewrite St. destruct (Z.eq_dec b r) as [->|Nb]; [|rewrite upd_other by auto; reflexivity].
        rewrite upd_same, Ph. cbn [received negb]. rewrite andb_false_r.
        destruct (in_dec Z.eq_dec r (map fst (T a))) as [J|J]; [|reflexivity]. 
        rewrite All by (apply C2; auto). cbn [negb]. rewrite andb_false_r. reflexivity.
      + intros a Ha. destruct (Z.eq_dec a r) as [->|N]; [rewrite !upd_same; reflexivity|rewrite !upd_other by auto; auto].
      + assert (St : forall a, started (sy_ph st a) = true -> started (upd_fun (sy_ph st) r Finished a) = true).
        { intros a S. destruct (Z.eq_dec a r) as [->|]; [rewrite upd_same; reflexivity|rewrite upd_other by auto; auto]. }
        intros a got' Ha. destruct (Z.eq_dec a r) as [->|N]; [rewrite upd_same; discriminate|]. rewrite upd_other by auto.
        intros Pa s' m' H. destruct (Ig a got' Ha Pa s' m' H) as (X1 & X2 & X3). repeat split; auto.
      + assert (St : forall a, started (sy_ph st a) = true -> started (upd_fun (sy_ph st) r Finished a) = true).
        { intros a S. destruct (Z.eq_dec a r) as [->|]; [rewrite upd_same; reflexivity|rewrite upd_other by auto; auto]. }
        intros a Ha. destruct (Z.eq_dec a r) as [->|N].
        * rewrite upd_same. intros _ s Hs. apply St. destruct (Ig r got Hr Ph s _ (All s Hs)) as (_ & _ & X). exact X.
        * rewrite upd_other by auto. intros Pa s Hs. apply St. eapply If_; eauto.
  Qed.

  Lemma inv_run evs st st' : Forall (fun ev => 0 <= rank_of ev < R) evs -> inv st -> run pk up bufsize T evs st = Some st' -> inv st'.
  Proof.
    revert st. induction evs as [|ev evs IH]; intros st F I; cbn [run]; [intros [= <-]; auto|].
    inversion F; subst. destruct (step pk up bufsize T ev st) as [st1|] eqn:S; [|discriminate]. cbn [bind].
    apply IH; auto. eapply inv_step; eauto.
  Qed.

  (** every finished rank holds the same result, whatever the order of events *)
  Lemma exchange_confluent evs st : Forall (fun ev => 0 <= rank_of ev < R) evs ->
    run pk up bufsize T evs (initial q0) = Some st ->
    forall r, 0 <= r < R -> sy_ph st r = Finished -> sy_q st r = qf r.
  Proof.
    intros F H r Hr Ph. pose proof (inv_run _ _ _ F inv_initial H) as I. rewrite (i_q _ I r Hr), Ph. reflexivity.
  Qed.

  (** nothing raises and nothing deadlocks: unless every rank has finished, some event can happen *)
  Lemma exchange_progress evs st : Forall (fun ev => 0 <= rank_of ev < R) evs ->
    run pk up bufsize T evs (initial q0) = Some st ->
    (exists r, 0 <= r < R /\ sy_ph st r <> Finished) ->
    exists ev st', 0 <= rank_of ev < R /\ step pk up bufsize T ev st = Some st'.
  Proof.
    intros F H (r & Hr & N). pose proof (inv_run _ _ _ F inv_initial H) as I. destruct C as (C1 & C2 & C3 & C4 & C5).
    (* is there an idle rank? *)
    assert (D : (exists r, 0 <= r < R /\ sy_ph st r = Idle) \/ forall r, 0 <= r < R -> sy_ph st r <> Idle).
    { destruct (Exists_dec (fun r => sy_ph st r = Idle) (zrange 0 R)) as [X|X].
      - intros x. destruct (sy_ph st x); [left; reflexivity|right; discriminate|right; discriminate].
      - left. apply Exists_exists in X. destruct X as (x & Hx & P). apply in_zrange in Hx. eauto.
      - right. intros x Hx P. apply X. apply Exists_exists. exists x. split; auto. apply in_zrange; auto. }
    destruct D as [(i & Hi & Pi)|NI].
    - exists (EStart i). cbn [step rank_of]. rewrite Pi, (i_q _ I i Hi), Pi.
      edestruct (post_all_spec i (T i) (q0 i) (sy_net st)) as (net & E1 & E2); [auto|intros; apply C3; auto|]. rewrite E1. cbn [bind]. eauto.
    - destruct (sy_ph st r) as [|got|] eqn:Ph; [exfalso; eapply NI; eauto| |congruence].
      destruct (Forall_Exists_dec (fun s => assoc s got <> None) ltac:(intros x; cbn beta; destruct (assoc x got); [left; discriminate|right; intros K; apply K; reflexivity]) (map fst (T r))) as [All|Ex].
      + exists (EFinish r). cbn [step rank_of]. rewrite Ph, (i_q _ I r Hr), Ph.
        rewrite (unpack_all_ext _ _ (fun s => Some (msg s r))).
        * rewrite C5 by auto. cbn [bind]. eauto.
        * intros s Hs. rewrite Forall_forall in All. specialize (All s Hs). destruct (assoc s got) as [m|] eqn:E1; [|congruence].
          destruct (i_got _ I r got Hr Ph s m E1) as (-> & _). reflexivity.
      + apply Exists_exists in Ex. destruct Ex as (s & Hs & X). destruct (assoc s got) eqn:As; [exfalso; apply X; discriminate|].
        destruct (C2 r s Hr Hs) as [Hs' Hr']. exists (ERecv r s). cbn [step rank_of].
        assert (St : started (sy_ph st s) = true) by (specialize (NI s Hs'); destruct (sy_ph st s); auto; congruence).
        rewrite (i_net _ I s r Hs' Hr), St, Ph. cbn [received]. rewrite As. cbn [negb].
        destruct (in_dec Z.eq_dec r (map fst (T s))); [|contradiction]. cbn [andb].
        apply in_map_iff in Hs. destruct Hs as ([s' e] & Es & Hin). cbn in Es. subst s'.
        assert (AT : assoc s (T r) = Some e) by (apply assoc_in; auto). rewrite AT, (C4 r s e Hr Hin), Z.eqb_refl. eauto.
  Qed.
End Generic.
