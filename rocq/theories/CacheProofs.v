(** Proofs about recording and replaying communication. *)
From Verif Require Import Base CacheModel.

Section Proofs.
  Context {V : Type}.
  Variable data : nat -> V.
  Variable from_none : option V.
  Notation call := (@call V).

  (** what one call, and a program, adds to each part of the record *)
  Definition new_bcast (c : call) (s : @wst V) : list V := match c with Bcast => [data (w_n s)] | _ => [] end.
  Definition new_obj (c : call) (s : @wst V) : list V := match c with Allreduce => [data (w_n s)] | _ => [] end.
  Definition new_buf (c : call) (s : @wst V) : list (option V) :=
    match c with
    | Scatter _ | Recv _ | Gather (Some _) => [Some (data (w_n s))]
    | Gather None => [None]
    | Wait k => match nth_error (w_reqs s) k with Some _ => [Some (data (w_n s))] | None => [] end
    | _ => []
    end.
  Fixpoint adds {T} (f : call -> @wst V -> list T) (prog : list call) (s : wst) : list T :=
    match prog with [] => [] | c :: p => f c s ++ adds f p (w_step data c s) end.

  Lemma record_adds prog s :
    w_bcast (record data prog s) = w_bcast s ++ adds new_bcast prog s /\
    w_obj (record data prog s) = w_obj s ++ adds new_obj prog s /\
    w_buf (record data prog s) = w_buf s ++ adds new_buf prog s.
  Proof.
    unfold record. revert s. induction prog as [|c prog IH]; intros s; cbn [fold_left adds].
    - now rewrite !app_nil_r.
    - destruct (IH (w_step data c s)) as (-> & -> & ->). rewrite !app_assoc.
      assert (E : w_bcast (w_step data c s) = w_bcast s ++ new_bcast c s /\ w_obj (w_step data c s) = w_obj s ++ new_obj c s /\
                  w_buf (w_step data c s) = w_buf s ++ new_buf c s).
      { destruct c as [f| | | |a|[a|]|a|a|k]; cbn; rewrite ?app_nil_r; auto. destruct (nth_error (w_reqs s) k); cbn; rewrite ?app_nil_r; auto. }
      destruct E as (-> & -> & ->). auto.
  Qed.

  Lemma pending_count prog s pending made : in_order prog pending made -> length (w_reqs s) = made ->
    Forall (fun k => (k < made)%nat) pending ->
    (length pending <= length (adds new_buf prog s))%nat.
  Proof.
    revert s pending made. induction prog as [|c prog IH]; intros s pending made I L F; cbn [in_order adds] in *; [subst; cbn; lia|].
    rewrite app_length.
    destruct c as [f| | | |a|[a|]|a|a|k]; cbn [in_order new_buf length] in *;
      try (destruct I as [-> I]; cbn; lia).
    - apply (IH (w_step data (Compute f) s) _ made); auto.
    - apply (IH (w_step data SendCall s) _ made); auto.
    - apply (IH (w_step data Bcast s) _ made); auto.
    - apply (IH (w_step data Allreduce s) _ made); auto.
    - destruct I.
    - eapply (IH (w_step data (Irecv a) s)) in I; cbn [w_step w_reqs].
      + rewrite app_length in I. cbn in *. lia.
      + rewrite app_length. cbn. lia.
      + apply Forall_app. split; [eapply Forall_impl; [|exact F]; cbn; lia|]. constructor; auto.
    - destruct pending as [|j rest]; [destruct I|]. destruct I as [<- I]. inversion F; subst.
      assert (X : nth_error (w_reqs s) k <> None) by (apply nth_error_Some; auto).
      cbn [w_step] in *. destruct (nth_error (w_reqs s) k) as [a|] eqn:E; [|congruence].
      eapply (IH (w_recv data s a)) in I; eauto. cbn. lia.
  Qed.

  (** reader and writer agree; [held] is the recorded data already taken by outstanding requests *)
  Definition agree (s : @wst V) (s' : rst) (pending : list nat) (b o : list V) (r : list (option V)) : Prop :=
    r_mem s' = w_mem s /\ r_out s' = w_out s /\ r_bcast s' = b /\ r_obj s' = o /\ map fst (r_reqs s') = w_reqs s /\
    exists held, r = held ++ r_buf s' /\
      Forall2 (fun k v => exists a, nth_error (r_reqs s') k = Some (a, v)) pending held.

  Lemma nth_error_map_fst (l : list (Z * option V)) k a v : nth_error l k = Some (a, v) -> nth_error (map fst l) k = Some a.
  Proof. intros H. rewrite nth_error_map, H. reflexivity. Qed.

  Lemma replay_agrees p rest s s' pending made : in_order (p ++ rest) pending made -> length (w_reqs s) = made ->
    Forall (fun k => (k < made)%nat) pending ->
    agree s s' pending (adds new_bcast (p ++ rest) s) (adds new_obj (p ++ rest) s) (adds new_buf (p ++ rest) s) ->
    exists fs, replay from_none p s' = Some fs /\ r_mem fs = w_mem (record data p s) /\ r_out fs = w_out (record data p s).
  Proof.
    unfold record. revert s s' pending made. induction p as [|c p IH]; intros s s' pending made I L F A; cbn [app replay fold_left].
    - destruct A as (A1 & A2 & _). eauto.
    - cbn [app] in I, A. cbn [adds] in A. destruct A as (M & O & B & Ob & Rq & held & Hr & H2).
      assert (G : forall pend' made' s1, r_step from_none c s' = Some s1 -> in_order (p ++ rest) pend' made' -> length (w_reqs (w_step data c s)) = made' ->
         Forall (fun k => (k < made')%nat) pend' ->
         agree (w_step data c s) s1 pend' (adds new_bcast (p ++ rest) (w_step data c s)) (adds new_obj (p ++ rest) (w_step data c s)) (adds new_buf (p ++ rest) (w_step data c s)) ->
         exists fs, (do s1 <- r_step from_none c s'; replay from_none p s1) = Some fs /\
           r_mem fs = w_mem (fold_left (fun s c => w_step data c s) p (w_step data c s)) /\ r_out fs = w_out (fold_left (fun s c => w_step data c s) p (w_step data c s))).
      { intros pend' made' s1 E1 E2 E3 E4 E5. rewrite E1. cbn [bind]. eapply IH; eauto. }
      assert (Blocking : forall a, new_bcast c s = [] -> new_obj c s = [] -> new_buf c s = [Some (data (w_n s))] -> w_step data c s = w_recv data s a ->
         r_step from_none c s' = r_recv from_none s' a -> pending = [] -> in_order (p ++ rest) pending made ->
         exists fs, (do s1 <- r_step from_none c s'; replay from_none p s1) = Some fs /\
           r_mem fs = w_mem (fold_left (fun s c => w_step data c s) p (w_step data c s)) /\ r_out fs = w_out (fold_left (fun s c => w_step data c s) p (w_step data c s))).
      { intros a N1 N2 N3 Ew Er Ep I'. rewrite N1 in B. rewrite N2 in Ob. rewrite N3 in Hr. subst pending. inversion H2; subst held. cbn [app] in Hr.
        eapply (G [] made); [rewrite Er; unfold r_recv; rewrite <- Hr; reflexivity|auto| rewrite Ew; auto|constructor|].
        cbn [app] in B, Ob. rewrite Ew in *. repeat split; cbn; auto; try congruence. exists []. split; [reflexivity|constructor]. }
      destruct c as [f| | | |a|[a|]|a|a|k]; cbn [in_order] in I; cbn [new_bcast new_obj new_buf app] in B, Ob, Hr.
      + eapply (G pending made); [reflexivity|auto|auto|auto|]. repeat split; cbn; auto; [congruence|]. exists held. auto.
      + eapply (G pending made); [reflexivity|auto|auto|auto|]. repeat split; cbn; auto. exists held. auto.
      + eapply (G pending made); [cbn; rewrite B; reflexivity|auto|auto|auto|]. repeat split; cbn; auto; [congruence|]. exists held. auto.
      + eapply (G pending made); [cbn; rewrite Ob; reflexivity|auto|auto|auto|]. repeat split; cbn; auto; [congruence|]. exists held. auto.
      + destruct I as [E I]. eapply (Blocking a); eauto; reflexivity.
      + destruct I as [E I]. eapply (Blocking a); eauto; reflexivity.
      + destruct I.
      + destruct I as [E I]. eapply (Blocking a); eauto; reflexivity.
      + assert (F' : Forall (fun k => (k < S made)%nat) (pending ++ [made])).
        { apply Forall_app. split; [eapply Forall_impl; [|exact F]; cbn; lia|]. constructor; auto. }
        assert (L' : length (w_reqs (w_step data (Irecv a) s)) = S made) by (cbn; rewrite app_length; cbn; lia).
        pose proof (pending_count _ (w_step data (Irecv a) s) _ _ I L' F') as C. rewrite Hr, !app_length in C.
        assert (HL : length pending = length held) by (clear - H2; induction H2; cbn; congruence). rewrite HL in C. cbn [length] in C.
        destruct (r_buf s') as [|v buf] eqn:Eb; [cbn in C; lia|].
        eapply (G (pending ++ [made]) (S made)); [cbn; rewrite Eb; reflexivity|auto|cbn; rewrite app_length; cbn; lia|auto|].
        repeat split; cbn; auto.
        { rewrite map_app. cbn. congruence. }
        exists (held ++ [v]). split; [rewrite <- app_assoc; exact Hr|]. apply Forall2_app.
        * clear - H2. induction H2 as [|k w ? ? (a' & E)]; constructor; auto. exists a'. rewrite nth_error_app1; auto. apply nth_error_Some. congruence.
        * constructor; [|constructor]. exists a. assert (length (r_reqs s') = made) by (rewrite <- (map_length fst), Rq; auto).
          rewrite nth_error_app2, H, Nat.sub_diag by lia. reflexivity.
      + destruct pending as [|j rest']; [destruct I|]. destruct I as [<- I]. inversion F as [|? ? F1 F2]; subst. inversion H2 as [|? v ? l' (a & E) H3]; subst.
        pose proof (nth_error_map_fst _ _ _ _ E) as E'. rewrite Rq in E'. rewrite E' in Hr. cbn [app] in Hr. inversion Hr; subst.
        eapply (G rest' (length (w_reqs s))); [cbn; rewrite E; reflexivity|auto|cbn; rewrite E'; reflexivity|auto|].
        cbn [w_step] in *. rewrite E' in *. repeat split; cbn; auto; try congruence. exists l'. split; auto.
  Qed.

  Lemma replay_ok p rest m : in_order (p ++ rest) [] 0 ->
    exists fs, replay from_none p (r_start m (record data (p ++ rest) (w_start m))) = Some fs /\
      r_mem fs = w_mem (record data p (w_start m)) /\ r_out fs = w_out (record data p (w_start m)).
  Proof.
    intros I. apply (replay_agrees p rest _ _ [] 0); auto.
    destruct (record_adds (p ++ rest) (w_start m)) as (E1 & E2 & E3). cbn [w_start w_bcast w_obj w_buf app] in E1, E2, E3.
    unfold agree, r_start. cbn. repeat split; auto. exists []. split; auto.
  Qed.
End Proofs.
