(** Proofs about timers. *)
From Verif Require Import Base Dict TimerModel.

Section Proofs.
  Context {T : Type}.
  Variables (minus plus : T -> T -> T).
  Notation event := (@event T).

  Definition inv (null init : bool) (s : timer) (h : list (event * bool)) : Prop :=
    is_null s = null /\ enabled s = on init h /\
    (forall n, get (starts s) n = running init h n) /\
    (forall n, get (acc s) n = total plus (intervals minus init h n)) /\
    (forall n, get (hit s) n = count (intervals minus init h n)) /\
    (enabled s = false -> starts s = []).

  Lemma total_snoc l x : total plus (l ++ [x]) = Some (match total plus l with None => x | Some y => plus y x end).
  Proof. destruct l as [|a l]; [reflexivity|]. cbn [total app]. rewrite fold_left_app. reflexivity. Qed.

  Lemma hit_snoc (l : list T) (x : T) :
    count (l ++ [x]) = Some (match count l with None => 1 | Some y => y + 1 end).
  Proof.
    destruct l as [|a l]; [reflexivity|]. cbn [app count]. f_equal. change (a :: l ++ [x]) with ((a :: l) ++ [x]). rewrite app_length. cbn [length]. lia.
  Qed.

  Lemma call_ok null init s h e : inv null init s h ->
    let '(s', r) := call minus plus s e in
    (r = true <-> should_raise null init h e) /\ (r = true -> s' = s) /\ inv null init s' ((e, r) :: h).
  Proof.
    intros (N & E & S & A & H & D). destruct e as [n t|n t| | |]; cbn [call should_raise].
    - destruct (enabled s) eqn:En; cbn [negb].
      + destruct (get (starts s) n) as [t0|] eqn:G.
        * split; [|split; auto].
          -- rewrite <- S, G, <- E. split; [split; congruence|auto].
          -- repeat split; cbn; auto; congruence.
        * split; [rewrite <- S, G; split; [discriminate|intros [_ X]; congruence]|]. split; [discriminate|].
          repeat split; cbn; auto; try congruence.
          intros m. rewrite get_put, String.eqb_sym, <- E. destruct (n =? m)%string; cbn; auto.
      + split; [split; [discriminate|intros [X _]; congruence]|]. split; auto.
        repeat split; cbn; auto; try congruence.
        intros m. rewrite <- E, andb_false_r. auto.
    - destruct (enabled s) eqn:En; cbn [negb].
      + destruct (get (starts s) n) as [t0|] eqn:G.
        * split; [rewrite <- S, G; split; [discriminate|intros [_ X]; congruence]|]. split; [discriminate|].
          repeat split; cbn; auto; try congruence.
          -- intros m. rewrite get_del, String.eqb_sym, <- E. destruct (n =? m)%string; cbn; auto.
          -- intros m. rewrite get_put, String.eqb_sym, <- E, <- !S. destruct (String.eqb_spec n m) as [<-|]; cbn; auto.
             rewrite G, total_snoc, <- A. reflexivity.
          -- intros m. rewrite get_put, String.eqb_sym, <- E, <- !S. destruct (String.eqb_spec n m) as [<-|]; cbn; auto.
             rewrite G, hit_snoc, <- H. reflexivity.
        * split; [|split; auto].
          -- rewrite <- S, G, <- E. split; [split; congruence|auto].
          -- repeat split; cbn; auto; congruence.
      + split; [split; [discriminate|intros [X _]; congruence]|]. split; auto.
        repeat split; cbn; auto; try congruence; intros m; rewrite <- E, andb_false_r; auto.
    - split; [split; [discriminate|tauto]|]. split; [discriminate|]. repeat split; cbn; auto.
    - destruct (is_null s) eqn:Nn.
      + split; [split; auto|]. split; auto. repeat split; cbn; auto; congruence.
      + split; [split; congruence|]. split; [discriminate|]. repeat split; cbn; auto; try congruence.
    - destruct (Z.ltb_spec 0 (Z.of_nat (length (starts s)))) as [L|L].
      + split; [split; auto; intros _|split; auto].
        * destruct (starts s) as [|[n t] d] eqn:Es; [cbn in L; lia|]. exists n. rewrite <- S. cbn. rewrite String.eqb_refl. discriminate.
        * repeat split; cbn; auto; congruence.
      + destruct (starts s) as [|[n t] d] eqn:Es; [|cbn [length] in L; lia].
        split; [|split; [discriminate|]].
        * split; [discriminate|]. intros [n X]. rewrite <- S in X. cbn in X. congruence.
        * repeat split; cbn; auto.
  Qed.

  Lemma run_inv null init es s h : inv null init s h -> let '(s', h') := run minus plus es s h in inv null init s' h'.
  Proof.
    revert s h. induction es as [|e es IH]; intros s h I; cbn [run]; auto.
    pose proof (call_ok null init s h e I) as C. destruct (call minus plus s e) as [s' r]. apply IH. tauto.
  Qed.

  Lemma timer_ok es (null init : bool) : (null = true -> init = false) ->
    let s0 := if null then new_null else new_timer init in
    let '(s, h) := run minus plus es s0 [] in
    (forall e, snd (call minus plus s e) = true <-> should_raise null init h e) /\
    (forall e, snd (call minus plus s e) = true -> fst (call minus plus s e) = s) /\
    (forall n, get (hit s) n = count (intervals minus init h n)) /\
    (forall n, get (acc s) n = total plus (intervals minus init h n)) /\
    (on init h = false -> forall n t, fst (call minus plus s (Start n t)) = s /\ fst (call minus plus s (Stop n t)) = s).
  Proof.
    intros X s0. assert (I0 : inv null init s0 []).
    { unfold s0. destruct null; [rewrite X by auto|]; repeat split; cbn; auto. }
    pose proof (run_inv null init es s0 [] I0) as I. destruct (run minus plus es s0 []) as [s h].
    split; [|split; [|split; [|split]]]; try (apply I).
    - intros e. pose proof (call_ok _ _ _ _ e I) as C. destruct (call minus plus s e). apply C.
    - intros e. pose proof (call_ok _ _ _ _ e I) as C. destruct (call minus plus s e). apply C.
    - destruct I as (_ & E & _). intros Off n t. cbn. rewrite E, Off. auto.
  Qed.
End Proofs.
