(** Proofs about the updater life cycle and tags. *)
From Verif Require Import Base UpdaterModel.

Section Proofs.
  Context {M Q : Type}.
  Variable write : nat -> Q -> M -> M.
  Variable packs : Q -> bool.
  Variables neighbours timed : bool.
  Variable m0 : M.
  Notation call := (call write packs neighbours timed).
  Notation run := (run write packs neighbours timed).

  Definition inv (s : updater) (h : list (event * bool)) : Prop :=
    mem s = memory write m0 h /\ started s = length (starts h) /\ fin s = forced h /\ gone s = spent h /\
    (timed = true -> clock s = broken h) /\ (broken h = true -> timed = true -> inflight s = None) /\
    match inflight s with
    | None => length (starts h) = waits h
    | Some (k, q) => k = waits h /\ length (starts h) = S k /\ nth_error (starts h) k = Some q
    end.

  Lemma call_ok s h e : inv s h ->
    let '(s', ok) := call s e in ok = accepted packs neighbours timed h e /\ inv s' ((e, ok) :: h) /\ (ok = false -> mem s' = mem s).
  Proof.
    intros (A & B & C & D & E & F & G). destruct e as [q| | |f]; cbn [UpdaterModel.call accepted].
    - destruct (inflight s) as [[k q']|] eqn:I.
      + destruct G as (-> & L & N). split; [|split; auto].
        * rewrite L. destruct (Nat.eqb_spec (S (waits h)) (waits h)); [lia|reflexivity].
        * unfold inv. cbn [memory starts waits forced existsb fst spent broken]. fold (forced h).
          assert (X : (length (starts h) =? waits h)%nat = false) by (apply Nat.eqb_neq; lia). rewrite X, I. cbn [orb]. repeat split; auto.
      + rewrite G, Nat.eqb_refl. cbn [andb].
        destruct (timed && clock s)%bool eqn:T.
        * apply andb_true_iff in T. destruct T as [T1 T2]. rewrite T1, <- E, T2 by auto. rewrite !andb_false_r. split; auto. split; auto.
          unfold inv. cbn [memory starts waits forced existsb fst spent broken]. fold (forced h).
          assert (X : (length (starts h) =? waits h)%nat = true) by (apply Nat.eqb_eq; lia). rewrite X, I. cbn [orb]. repeat split; auto.
        * assert (Bk : (timed && broken h)%bool = false) by (destruct timed; [rewrite <- E by auto; exact T|reflexivity]).
          rewrite Bk, <- D. cbn [negb]. rewrite andb_true_r.
          destruct (neighbours && gone s)%bool; destruct (packs q); cbn [orb negb andb]; (split; [reflexivity|]); (split; [|auto || discriminate]);
            unfold inv; cbn [memory starts waits forced existsb fst spent broken mem started fin gone clock inflight]; fold (forced h);
            try (assert (X : (length (starts h) =? waits h)%nat = true) by (apply Nat.eqb_eq; lia); rewrite X; cbn [orb]; repeat split; auto; fail).
          rewrite app_length. cbn [length]. repeat split; auto; try lia.
          rewrite nth_error_app2, B, Nat.sub_diag by lia. reflexivity.
    - destruct (inflight s) as [[k q]|] eqn:I.
      + destruct G as (-> & L & N). rewrite L, Nat.eqb_refl.
        assert (T : (timed && clock s)%bool = false).
        { destruct timed; [|reflexivity]. rewrite E by auto. destruct (broken h); auto. specialize (F eq_refl eq_refl). discriminate. }
        rewrite T. split; [reflexivity|]. split; [|discriminate].
        unfold inv. cbn [memory starts waits forced existsb fst spent broken mem started fin gone clock inflight]; fold (forced h).
        rewrite N, A, C, D, (orb_comm (spent h)). repeat split; auto.
      + split; [|split; auto].
        * rewrite G. destruct (Nat.eqb_spec (waits h) (S (waits h))); [lia|reflexivity].
        * unfold inv. cbn [memory starts waits forced existsb fst spent broken]. fold (forced h). rewrite I. repeat split; auto.
    - split; [reflexivity|]. split; [|discriminate].
      unfold inv. cbn [memory starts waits forced existsb fst spent broken mem started fin gone clock inflight orb]. repeat split; auto.
    - split; [reflexivity|]. split; [|discriminate].
      unfold inv. cbn [memory starts waits forced existsb fst spent broken mem started fin gone clock inflight orb]. fold (forced h).
      rewrite A. repeat split; auto.
  Qed.

  Lemma run_inv es s h : inv s h -> let '(s', h') := run es s h in inv s' h'.
  Proof.
    revert s h. induction es as [|e es IH]; intros s h I; cbn [UpdaterModel.run]; auto.
    pose proof (call_ok s h e I) as C. destruct (call s e) as [s' ok]. apply IH. tauto.
  Qed.

  Lemma inv0 : inv (new_updater m0) [].
  Proof. repeat split; auto. Qed.

  Lemma updater_ok es : let '(s, h) := run es (new_updater m0) [] in
    mem s = memory write m0 h /\ (waits h <= length (starts h) <= S (waits h))%nat /\
    forall e, snd (call s e) = accepted packs neighbours timed h e /\ (snd (call s e) = false -> mem (fst (call s e)) = mem s).
  Proof.
    pose proof (run_inv es _ _ inv0) as I. destruct (run es (new_updater m0) []) as [s h]. split; [apply I|]. split.
    - destruct I as (_ & _ & _ & _ & _ & _ & G). destruct (inflight s) as [[k q]|]; lia.
    - intros e. pose proof (call_ok s h e I) as C. destruct (call s e). split; apply C.
  Qed.

  (** without failing packs and forced finalisation nothing is ever spent or broken *)
  Lemma plain_inv es s h : inv s h -> spent h = false -> broken h = false -> forced h = false ->
    (forall e, In e es -> match e with Start q => packs q = true | Force => False | _ => True end) ->
    let '(s', h') := run es s h in inv s' h' /\ spent h' = false /\ broken h' = false /\ forced h' = false.
  Proof.
    revert s h. induction es as [|e es IH]; intros s h I S B F H; cbn [UpdaterModel.run]; auto.
    pose proof (call_ok s h e I) as C. destruct (call s e) as [s' ok]. destruct C as (-> & I' & _).
    assert (He := H e (or_introl eq_refl)).
    apply IH; auto; [..|intros e' X; apply H; right; auto].
    - destruct e; cbn [spent]; auto. destruct (accepted _ _ _ h Wait); auto. rewrite F, S. reflexivity.
    - destruct e; cbn [broken]; auto. destruct (accepted _ _ _ h (Start q)) eqn:X; auto. rewrite B, orb_false_r.
      cbn [accepted] in X. rewrite He, S, B, !andb_false_r in X. cbn [negb] in X. rewrite !andb_true_r in X. exact X.
    - destruct e; cbn [forced existsb fst orb]; auto. destruct He.
  Qed.

  Lemma plain_ok es : (forall e, In e es -> match e with Start q => packs q = true | Force => False | _ => True end) ->
    let '(s, h) := run es (new_updater m0) [] in
    mem s = memory write m0 h /\
    (forall q, packs q = true -> snd (call s (Start q)) = (length (starts h) =? waits h)%nat) /\
    snd (call s Wait) = (length (starts h) =? S (waits h))%nat /\
    (forall e, snd (call s e) = false -> mem (fst (call s e)) = mem s).
  Proof.
    intros H. pose proof (plain_inv es _ _ inv0 eq_refl eq_refl eq_refl H) as P.
    destruct (run es (new_updater m0) []) as [s h]. destruct P as (I & S & B & F). split; [apply I|].
    split; [|split].
    - intros q Hq. pose proof (call_ok s h (Start q) I) as C. destruct (call s (Start q)). destruct C as (-> & _). cbn [snd accepted].
      rewrite Hq, S, B, !andb_false_r. cbn [negb]. rewrite !andb_true_r. reflexivity.
    - pose proof (call_ok s h Wait I) as C. destruct (call s Wait). apply C.
    - intros e. pose proof (call_ok s h e I) as C. destruct (call s e). apply C.
  Qed.
End Proofs.

Lemma tags_above es last : (forall e, In e es -> e <> Interfaces) -> Forall (fun t => last < t) (tags last es) /\ NoDup (tags last es).
Proof.
  revert last. induction es as [|e es IH]; intros last H; cbn; [split; constructor|].
  assert (He := H e (or_introl eq_refl)). assert (H' : forall e, In e es -> e <> Interfaces) by (intros; apply H; right; auto).
  destruct (IH (last + 1) H') as [F N]. rewrite Forall_forall in F.
  destruct e; try congruence; (split; [constructor; [lia|apply Forall_forall; intros x X; apply F in X; lia]|constructor; auto; intros X; apply F in X; lia]).
Qed.
