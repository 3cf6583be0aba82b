(** Proofs about LocalComm. *)
From Verif Require Import Base LocalModel LocalSpec.
Open Scope Z_scope.

Lemma key_eqb_eq a b : key_eqb a b = true <-> a = b.
Proof.
  destruct a as [[x y] z], b as [[x' y'] z']. cbn. rewrite !andb_true_iff, !Z.eqb_eq. split.
  - intros [[-> ->] ->]. reflexivity.
  - intros [= -> -> ->]. auto.
Qed.
Lemma key_eqb_refl a : key_eqb a a = true.
Proof. now apply key_eqb_eq. Qed.

Section Proofs.
  Context {V : Type}.
  Notation st := (@st V). Notation op := (@op V).
  Variable total : Z.

  Lemma trace_app (ops1 ops2 : list op) (s : st) : trace (ops1 ++ ops2) s = trace ops1 s ++ trace ops2 (exec ops1 s).
  Proof.
    revert s. induction ops1 as [|c ops IH]; intros s; [reflexivity|]. cbn [app trace exec]. destruct (step c s) as [o s'].
    rewrite IH, app_assoc. reflexivity.
  Qed.
  Lemma exec_app (ops1 ops2 : list op) (s : st) : exec (ops1 ++ ops2) s = exec ops2 (exec ops1 s).
  Proof. revert s. induction ops1 as [|c ops IH]; intros s; [reflexivity|]. apply IH. Qed.

  Definition queue (s : st) k : list V := match sr s k with Some q => q | None => [] end.

  (** ** point to point *)
  Definition p2p (s : st) (t : list (@event V)) : Prop :=
    forall k, sent k t = got k t ++ queue s k /\ (sr s k = None <-> sent k t = []).

  Lemma sent_app k (t t' : list (@event V)) : sent k (t ++ t') = sent k t ++ sent k t'.
  Proof. apply flat_map_app. Qed.
  Lemma got_app k (t t' : list (@event V)) : got k (t ++ t') = got k t ++ got k t'.
  Proof. apply flat_map_app. Qed.

  Lemma p2p_quiet s s' t o : p2p s t -> sr s' = sr s -> (forall k, sent k o = []) -> (forall k, got k o = []) -> p2p s' (t ++ o).
  Proof.
    intros P E So Go k. destruct (P k) as [P1 P2]. unfold queue in *. rewrite E, sent_app, got_app, So, Go, !app_nil_r. auto.
  Qed.

  Lemma p2p_recv s t r l src tag : p2p s t ->
    let '(o, s') := do_recv s r l src tag in p2p s' (t ++ observe_recv o s' r l src tag).
  Proof.
    intros P. unfold do_recv, observe_recv. destruct (sr s (src, r, tag)) as [[|v q]|] eqn:E; cbn [ok].
    - now rewrite app_nil_r.
    - intros k. destruct (P k) as [P1 P2]. rewrite sent_app, got_app. unfold queue, upd_key in *. cbn [sr with_arr with_sr arr].
      cbn [sent got flat_map app]. unfold upd_at. rewrite Z.eqb_refl. destruct (key_eqb k (src, r, tag)) eqn:K.
      + apply key_eqb_eq in K. subst k. rewrite E in *. rewrite app_nil_r, <- app_assoc. cbn. split; [exact P1|].
        split; [discriminate|]. intros H. rewrite H in P1. destruct (got (src, r, tag) t); discriminate.
      + cbn. rewrite !app_nil_r. auto.
    - now rewrite app_nil_r.
  Qed.

  Lemma p2p_step s t c : p2p s t -> let '(o, s') := step c s in p2p s' (t ++ observe c s o s').
  Proof.
    intros P. destruct c; cbn [step observe].
    - apply p2p_quiet with (1 := P); reflexivity.
    - apply p2p_quiet with (1 := P); reflexivity.
    - unfold do_send. intros k. destruct (P k) as [P1 P2]. rewrite sent_app, got_app. cbn [sent got flat_map app].
      unfold queue, upd_key in *. cbn [sr with_sr]. destruct (key_eqb k (r, dest, tag)) eqn:K.
      + apply key_eqb_eq in K. subst k. rewrite P1, !app_nil_r. split; [now rewrite app_assoc|].
        split; [discriminate|]. intros H. apply app_eq_nil in H. destruct H; discriminate.
      + rewrite !app_nil_r. auto.
    - apply p2p_recv. exact P.
    - apply p2p_quiet with (1 := P); reflexivity.
    - destruct (nth_error (reqs s) k) as [q|].
      + apply p2p_recv. exact P.
      + now rewrite app_nil_r.
    - unfold do_bcast. destruct (root =? 0); cbn [negb].
      + unfold get_buffer. destruct (r =? 0); apply p2p_quiet with (1 := P); reflexivity.
      + now rewrite app_nil_r.
    - unfold do_scatter. destruct (root =? 0); cbn [negb].
      + unfold get_buffer. destruct (nth_error _ _) as [[rows|]|]; [destruct (nth_error rows _)|idtac|idtac];
        destruct (r =? 0); apply p2p_quiet with (1 := P); reflexivity.
      + now rewrite app_nil_r.
    - unfold do_gather. cbn zeta. destruct (r =? root); cbn [andb].
      + destruct (all_some _); apply p2p_quiet with (1 := P); reflexivity.
      + apply p2p_quiet with (1 := P); reflexivity.
  Qed.

  Lemma p2p_exec ops s t : p2p s t -> p2p (exec ops s) (t ++ trace ops s).
  Proof.
    revert s t. induction ops as [|c ops IH]; intros s t P; cbn [exec trace]; [now rewrite app_nil_r|].
    pose proof (p2p_step s t c P) as H. destruct (step c s) as [o s']. cbn [snd]. rewrite app_assoc. apply IH. exact H.
  Qed.
  Lemma p2p_run (a : Z -> V) tb ops : p2p (exec ops (initial total a tb)) (trace ops (initial total a tb)).
  Proof. apply (p2p_exec ops _ []). intros k. split; [reflexivity|]. split; reflexivity. Qed.

  Lemma fifo (a : Z -> V) tb ops k : exists rest, sent k (trace ops (initial total a tb)) = got k (trace ops (initial total a tb)) ++ rest.
  Proof. destruct (p2p_run a tb ops k) as [H _]. eauto. Qed.

  Lemma recv_outcome (a : Z -> V) tb ops r l src tag :
    let s := exec ops (initial total a tb) in let t := trace ops (initial total a tb) in let k := (src, r, tag) in
    match skipn (length (got k t)) (sent k t) with
    | v :: _ => fst (step (Recv r l src tag) s) = Returned None /\ arr (snd (step (Recv r l src tag) s)) l = v /\
        (forall l', l' <> l -> arr (snd (step (Recv r l src tag) s)) l' = arr s l') /\
        tab (snd (step (Recv r l src tag) s)) = tab s
    | [] => snd (step (Recv r l src tag) s) = s /\
        fst (step (Recv r l src tag) s) = Raised (match sent k t with [] => ConcurrencyError | _ => IndexError end)
    end.
  Proof.
    intros s t k. destruct (p2p_run a tb ops k) as [P1 P2]. fold s t in P1, P2.
    assert (Eq : skipn (length (got k t)) (sent k t) = queue s k) by (rewrite P1, skipn_app, Nat.sub_diag, skipn_all; reflexivity).
    rewrite Eq. unfold queue. cbn [step]. unfold do_recv. fold k.
    destruct (sr s k) as [[|v q]|] eqn:E; cbn [fst snd].
    - split; [reflexivity|]. destruct (sent k t); [|reflexivity]. exfalso. destruct P2 as [_ P2]. specialize (P2 eq_refl). congruence.
    - unfold queue in P1. cbn [arr with_arr tab with_sr]. unfold upd_at. rewrite Z.eqb_refl. repeat split; auto.
      intros l' Hl. apply Z.eqb_neq in Hl. now rewrite Hl.
    - split; [reflexivity|]. destruct P2 as [P2 _]. rewrite P2 by congruence. reflexivity.
  Qed.

  (** a deferred receive is a receive at the time of wait() *)
  Lemma wait_is_recv s k q : nth_error (reqs s) k = Some q ->
    step (Wait k : op) s = step (Recv (rq_rank q) (rq_buf q) (rq_src q) (rq_tag q)) s.
  Proof. intros E. cbn [step]. now rewrite E. Qed.

  (** ** collectives *)
  Definition binv (s : st) (t : list (@event V)) : Prop :=
    bcasts s = offered t /\ (length (offered t) = ib s 0) /\
    forall r, length (bcast_results r t) = ib s r /\
      forall k x, nth_error (bcast_results r t) k = Some (Some x) -> nth_error (offered t) k = Some x.

  Lemma offered_app (t t' : list (@event V)) : offered (t ++ t') = offered t ++ offered t'.
  Proof. apply flat_map_app. Qed.
  Lemma bres_app r (t t' : list (@event V)) : bcast_results r (t ++ t') = bcast_results r t ++ bcast_results r t'.
  Proof. apply flat_map_app. Qed.

  Lemma binv_quiet s s' t o : binv s t -> bcasts s' = bcasts s -> ib s' = ib s -> offered o = [] -> (forall r, bcast_results r o = []) -> binv s' (t ++ o).
  Proof.
    intros (B1 & B2 & B3) E1 E2 O1 O2. unfold binv. rewrite offered_app, O1, app_nil_r, E1, E2. repeat split; auto;
    rewrite bres_app, O2, app_nil_r; apply B3.
  Qed.

  Lemma binv_step s t c : binv s t -> let '(o, s') := step c s in binv s' (t ++ observe c s o s').
  Proof.
    intros B. destruct c; cbn [step observe].
    - apply binv_quiet with (1 := B); reflexivity.
    - apply binv_quiet with (1 := B); reflexivity.
    - apply binv_quiet with (1 := B); reflexivity.
    - unfold do_recv, observe_recv. destruct (sr s _) as [[|v q]|]; apply binv_quiet with (1 := B); reflexivity.
    - apply binv_quiet with (1 := B); reflexivity.
    - destruct (nth_error (reqs s) k) as [q|]; [|now rewrite app_nil_r].
      unfold do_recv, observe_recv. destruct (sr s _) as [[|v w]|]; apply binv_quiet with (1 := B); reflexivity.
    - unfold do_bcast. destruct (root =? 0); cbn [negb]; [|now rewrite app_nil_r].
      destruct B as (B1 & B2 & B3). unfold get_buffer.
      destruct (Z.eqb_spec r 0) as [->|Hr].
      + unfold binv. cbn [bcasts ib with_bcasts]. rewrite !offered_app. cbn [app offered flat_map].
        rewrite app_length, B1, B2. cbn [length]. unfold upd_at at 1. rewrite Z.eqb_refl. split; [reflexivity|]. split; [lia|].
        assert (En : nth_error (offered t ++ [ref]) (ib s 0) = Some ref) by (rewrite <- B2, nth_error_app2, Nat.sub_diag by lia; reflexivity).
        rewrite En. intros r. destruct (B3 r) as [B4 B5]. rewrite bres_app. cbn [bcast_results flat_map app]. unfold upd_at. rewrite app_nil_r.
        destruct (Z.eqb_spec r 0) as [->|Hr].
        * rewrite app_length, B4. cbn [length]. split; [lia|]. intros k x H.
          destruct (Nat.lt_ge_cases k (length (offered t))) as [L|L].
          -- rewrite nth_error_app1 in H by lia. rewrite nth_error_app1 by lia. auto.
          -- rewrite nth_error_app2 in H by lia. rewrite nth_error_app2 by lia. rewrite B4, <- B2 in H.
             destruct (k - length (offered t))%nat as [|k']; cbn in *; [congruence|destruct k'; discriminate].
        * rewrite app_nil_r. split; auto. intros k x H. rewrite nth_error_app1; [auto|]. apply nth_error_Some. rewrite (B5 k x H). discriminate.
      + unfold binv. cbn [bcasts ib with_bcasts]. rewrite !offered_app. cbn [app offered flat_map]. rewrite app_nil_r.
        unfold upd_at at 1. destruct (Z.eqb_spec 0 r); [congruence|]. split; [auto|]. split; [auto|].
        intros r'. destruct (B3 r') as [B4 B5]. rewrite bres_app. cbn [bcast_results flat_map app]. unfold upd_at. rewrite app_nil_r.
        destruct (Z.eqb_spec r' r) as [->|Hr'].
        * rewrite app_length, B4. cbn [length]. split; [lia|]. intros k x H.
          destruct (Nat.lt_ge_cases k (ib s r)) as [L|L].
          -- rewrite nth_error_app1 in H by lia. auto.
          -- rewrite nth_error_app2 in H by lia. destruct (k - length (bcast_results r t))%nat as [|k'] eqn:Ek; cbn in H; [|destruct k'; discriminate].
             assert (k = ib s r) by lia. subst k. rewrite B1 in H. destruct (nth_error (offered t) (ib s r)); congruence.
        * rewrite app_nil_r. auto.
    - unfold do_scatter. destruct (root =? 0); cbn [negb]; [|now rewrite app_nil_r].
      unfold get_buffer. destruct (nth_error _ _) as [[rows|]|]; [destruct (nth_error rows _)|idtac|idtac];
      destruct (r =? 0); apply binv_quiet with (1 := B); reflexivity.
    - unfold do_gather. cbn zeta. destruct (r =? root); cbn [andb].
      + destruct (all_some _); apply binv_quiet with (1 := B); reflexivity.
      + apply binv_quiet with (1 := B); reflexivity.
  Qed.

  Lemma binv_run (a : Z -> V) tb ops : binv (exec ops (initial total a tb)) (trace ops (initial total a tb)).
  Proof.
    assert (G : forall ops s t, binv s t -> binv (exec ops s) (t ++ trace ops s)).
    { clear. induction ops as [|c ops IH]; intros s t P; cbn [exec trace]; [now rewrite app_nil_r|].
      pose proof (binv_step s t c P) as H. destruct (step c s) as [o s']. cbn [snd]. rewrite app_assoc. apply IH. exact H. }
    apply (G ops _ []). repeat split; cbn; auto. intros k x H. destruct k; discriminate.
  Qed.

  Lemma bcast_root_value (a : Z -> V) tb ops r k x :
    nth_error (bcast_results r (trace ops (initial total a tb))) k = Some (Some x) ->
    nth_error (offered (trace ops (initial total a tb))) k = Some x.
  Proof. intros H. destruct (binv_run a tb ops) as (_ & _ & B). destruct (B r) as [_ B']. auto. Qed.

  Lemma bcast_succeeds (a : Z -> V) tb ops r ref :
    let s := exec ops (initial total a tb) in let t := trace ops (initial total a tb) in
    r = 0 \/ (length (bcast_results r t) < length (offered t))%nat -> exists x, fst (step (Bcast r ref 0) s) = Returned (Some x).
  Proof.
    intros s t H. destruct (binv_run a tb ops) as (B1 & B2 & B3). fold s t in B1, B2, B3. destruct (B3 r) as [B4 _].
    cbn [step]. unfold do_bcast. cbn [Z.eqb negb]. unfold get_buffer. cbn [fst].
    assert (L : nth_error (if r =? 0 then bcasts s ++ [ref] else bcasts s) (ib s r) <> None).
    { apply nth_error_Some. rewrite B1. destruct (Z.eqb_spec r 0) as [->|Hr]; [rewrite app_length; cbn; lia|]. destruct H; lia. }
    destruct (nth_error _ _) as [x|]; [eauto|congruence].
  Qed.

  (** scatter *)
  Definition sinv (s : st) (t : list (@event V)) : Prop :=
    scatters s = scattered t /\ (length (scattered t) = is_ s 0) /\
    forall r, length (scatter_results r t) = is_ s r /\
      forall k x, nth_error (scatter_results r t) k = Some (Some x) ->
        exists rows, nth_error (scattered t) k = Some (Some rows) /\ nth_error rows (Z.to_nat r) = Some x.

  Lemma scat_app (t t' : list (@event V)) : scattered (t ++ t') = scattered t ++ scattered t'.
  Proof. apply flat_map_app. Qed.
  Lemma sres_app r (t t' : list (@event V)) : scatter_results r (t ++ t') = scatter_results r t ++ scatter_results r t'.
  Proof. apply flat_map_app. Qed.

  Lemma sinv_quiet s s' t o : sinv s t -> scatters s' = scatters s -> is_ s' = is_ s -> scattered o = [] -> (forall r, scatter_results r o = []) -> sinv s' (t ++ o).
  Proof.
    intros (B1 & B2 & B3) E1 E2 O1 O2. unfold sinv. rewrite scat_app, O1, app_nil_r, E1, E2. repeat split; auto;
    rewrite sres_app, O2, app_nil_r; apply B3.
  Qed.

  Lemma sinv_call s t r v res s' : sinv s t ->
    scatters s' = (if r =? 0 then scatters s ++ [v] else scatters s) -> is_ s' = upd_at (is_ s) r (S (is_ s r)) ->
    (forall x, res = Some x -> exists rows, nth_error (if r =? 0 then scatters s ++ [v] else scatters s) (is_ s r) = Some (Some rows) /\ nth_error rows (Z.to_nat r) = Some x) ->
    sinv s' (t ++ (if r =? 0 then [ScatterRoot v] else []) ++ [ScatterCall r res]).
  Proof.
    intros (B1 & B2 & B3) E1 E2 Hres. unfold sinv. rewrite E1, E2, !scat_app. cbn [scattered flat_map app]. rewrite app_nil_r, <- B1.
    assert (E : scattered (if r =? 0 then [ScatterRoot v] else []) = if r =? 0 then [v] else []) by (destruct (r =? 0); reflexivity).
    assert (E' : forall r', scatter_results r' (if r =? 0 then [ScatterRoot v] else [] : list (@event V)) = []) by (intros; destruct (r =? 0); reflexivity).
    rewrite E. split; [destruct (r =? 0); [reflexivity|now rewrite app_nil_r]|].
    assert (Eq : scatters s ++ (if r =? 0 then [v] else []) = if r =? 0 then scatters s ++ [v] else scatters s) by (destruct (r =? 0); [reflexivity|apply app_nil_r]).
    rewrite Eq. rewrite <- B1 in B2. split.
    - unfold upd_at. destruct (Z.eqb_spec r 0) as [->|Hr]; [rewrite Z.eqb_refl, app_length; cbn; lia|]. destruct (Z.eqb_spec 0 r); [congruence|auto].
    - intros r'. destruct (B3 r') as [B4 B5]. rewrite sres_app, sres_app, E'. cbn [scatter_results flat_map app]. rewrite app_nil_r. unfold upd_at.
      assert (Old : forall k x, nth_error (scatter_results r' t) k = Some (Some x) -> exists rows,
        nth_error (if r =? 0 then scatters s ++ [v] else scatters s) k = Some (Some rows) /\ nth_error rows (Z.to_nat r') = Some x).
      { intros k x H. destruct (B5 k x H) as (rows & H1 & H2). exists rows. split; auto. rewrite <- B1 in H1. destruct (r =? 0); auto.
        rewrite nth_error_app1; auto. apply nth_error_Some. congruence. }
      destruct (Z.eqb_spec r' r) as [->|Hr'].
      + rewrite app_length, B4. cbn [length]. split; [lia|]. intros k x H.
        destruct (Nat.lt_ge_cases k (is_ s r)) as [L|L].
        * rewrite nth_error_app1 in H by lia. auto.
        * rewrite nth_error_app2 in H by lia. destruct (k - length (scatter_results r t))%nat as [|k'] eqn:Ek; cbn in H; [|destruct k'; discriminate].
          assert (k = is_ s r) by lia. subst k. apply Hres. congruence.
      + rewrite app_nil_r. auto.
  Qed.

  Lemma sinv_step s t c : sinv s t -> let '(o, s') := step c s in sinv s' (t ++ observe c s o s').
  Proof.
    intros B. destruct c; cbn [step observe].
    - apply sinv_quiet with (1 := B); reflexivity.
    - apply sinv_quiet with (1 := B); reflexivity.
    - apply sinv_quiet with (1 := B); reflexivity.
    - unfold do_recv, observe_recv. destruct (sr s _) as [[|v q]|]; apply sinv_quiet with (1 := B); reflexivity.
    - apply sinv_quiet with (1 := B); reflexivity.
    - destruct (nth_error (reqs s) k) as [q|]; [|now rewrite app_nil_r].
      unfold do_recv, observe_recv. destruct (sr s _) as [[|v w]|]; apply sinv_quiet with (1 := B); reflexivity.
    - unfold do_bcast. destruct (root =? 0); cbn [negb]; [|now rewrite app_nil_r].
      unfold get_buffer. destruct (r =? 0); apply sinv_quiet with (1 := B); reflexivity.
    - unfold do_scatter. destruct (root =? 0); cbn [negb]; [|now rewrite app_nil_r].
      unfold get_buffer. set (v := match send with Some l => Some (tab s l) | None => None end).
      destruct (nth_error (if r =? 0 then _ else _) (is_ s r)) as [[rows|]|] eqn:E; [destruct (nth_error rows (Z.to_nat r)) as [row|] eqn:E2| |];
        cbn [ok]; apply sinv_call with (1 := B); try reflexivity; try discriminate.
      cbn [arr with_arr]. unfold upd_at. rewrite Z.eqb_refl. intros x [= <-]. eauto.
    - unfold do_gather. cbn zeta. destruct (r =? root); cbn [andb].
      + destruct (all_some _); apply sinv_quiet with (1 := B); reflexivity.
      + apply sinv_quiet with (1 := B); reflexivity.
  Qed.

  Lemma sinv_run (a : Z -> V) tb ops : sinv (exec ops (initial total a tb)) (trace ops (initial total a tb)).
  Proof.
    assert (G : forall ops s t, sinv s t -> sinv (exec ops s) (t ++ trace ops s)).
    { clear. induction ops as [|c ops IH]; intros s t P; cbn [exec trace]; [now rewrite app_nil_r|].
      pose proof (sinv_step s t c P) as H. destruct (step c s) as [o s']. cbn [snd]. rewrite app_assoc. apply IH. exact H. }
    apply (G ops _ []). repeat split; cbn; auto. intros k x H. destruct k; discriminate.
  Qed.

  Lemma scatter_pieces (a : Z -> V) tb ops r k x :
    nth_error (scatter_results r (trace ops (initial total a tb))) k = Some (Some x) ->
    exists rows, nth_error (scattered (trace ops (initial total a tb))) k = Some (Some rows) /\ nth_error rows (Z.to_nat r) = Some x.
  Proof. intros H. destruct (sinv_run a tb ops) as (_ & _ & B). destruct (B r) as [_ B']. auto. Qed.

  (** gather *)
  Definition valid_gathers (ops : list op) : Prop :=
    Forall (fun c => match c with Gather r _ _ _ => 0 <= r < total | _ => True end) ops.
  Definition latest (r : Z) (t : list (@event V)) : option V := hd_error (contributions r t).
  Definition ginv (s : st) (t : list (@event V)) : Prop :=
    gathers s = map (fun r => latest r t) (zrange 0 total).

  Lemma contr_app r (t t' : list (@event V)) : contributions r (t ++ t') = contributions r t' ++ contributions r t.
  Proof. unfold contributions. rewrite flat_map_app. apply rev_app_distr. Qed.

  Lemma ginv_quiet s s' t o : ginv s t -> gathers s' = gathers s -> (forall r, contributions r o = []) -> ginv s' (t ++ o).
  Proof.
    intros G E O. unfold ginv. rewrite E, G. apply map_ext. intros r. unfold latest. rewrite contr_app, O. reflexivity.
  Qed.

  Lemma set_nth_map {T} (f : Z -> T) a n r v : a <= r < n ->
    set_nth (Z.to_nat (r - a)) v (map f (zrange a n)) = map (fun x => if x =? r then v else f x) (zrange a n).
  Proof.
    intros H. remember (Z.to_nat (r - a)) as m eqn:E. revert a H E. induction m as [|m IH]; intros a H E.
    - rewrite zrange_cons by lia. cbn [map set_nth]. assert (r = a) by lia. subst. rewrite Z.eqb_refl. f_equal.
      apply map_ext_in. intros x Hx. apply in_zrange in Hx. destruct (Z.eqb_spec x a); [lia|reflexivity].
    - rewrite zrange_cons by lia. cbn [map set_nth]. destruct (Z.eqb_spec a r); [lia|]. f_equal. apply IH; lia.
  Qed.

  Lemma ginv_contrib s s' t r v o : 0 <= r < total -> ginv s t ->
    gathers s' = set_nth (Z.to_nat r) (Some v) (gathers s) -> (forall r', contributions r' o = []) ->
    ginv s' (t ++ Contributed r v :: o).
  Proof.
    intros Hr G E O. unfold ginv. rewrite E, G. replace r with (r - 0) at 1 by lia. rewrite set_nth_map by lia.
    apply map_ext. intros x. unfold latest. rewrite contr_app. replace (Contributed r v :: o) with ([Contributed r v] ++ o) by reflexivity.
    rewrite contr_app, O. cbn [app]. unfold contributions at 2. cbn [flat_map app]. destruct (Z.eqb_spec x r); reflexivity.
  Qed.

  Lemma ginv_step s t c : ginv s t -> (match c with Gather r _ _ _ => 0 <= r < total | _ => True end) ->
    let '(o, s') := step c s in ginv s' (t ++ observe c s o s').
  Proof.
    intros B Hv. destruct c; cbn [step observe].
    - apply ginv_quiet with (1 := B); reflexivity.
    - apply ginv_quiet with (1 := B); reflexivity.
    - apply ginv_quiet with (1 := B); reflexivity.
    - unfold do_recv, observe_recv. destruct (sr s _) as [[|v q]|]; apply ginv_quiet with (1 := B); reflexivity.
    - apply ginv_quiet with (1 := B); reflexivity.
    - destruct (nth_error (reqs s) k) as [q|]; [|now rewrite app_nil_r].
      unfold do_recv, observe_recv. destruct (sr s _) as [[|v w]|]; apply ginv_quiet with (1 := B); reflexivity.
    - unfold do_bcast. destruct (root =? 0); cbn [negb]; [|now rewrite app_nil_r].
      unfold get_buffer. destruct (r =? 0); apply ginv_quiet with (1 := B); reflexivity.
    - unfold do_scatter. destruct (root =? 0); cbn [negb]; [|now rewrite app_nil_r].
      unfold get_buffer. destruct (nth_error _ _) as [[rows|]|]; [destruct (nth_error rows _)|idtac|idtac];
      destruct (r =? 0); apply ginv_quiet with (1 := B); reflexivity.
    - unfold do_gather. cbn zeta. destruct (r =? root); cbn [andb].
      + destruct (all_some _); apply (ginv_contrib s); auto.
      + apply (ginv_contrib s); auto.
  Qed.

  Lemma ginv_run (a : Z -> V) tb ops : valid_gathers ops -> ginv (exec ops (initial total a tb)) (trace ops (initial total a tb)).
  Proof.
    assert (G : forall ops s t, valid_gathers ops -> ginv s t -> ginv (exec ops s) (t ++ trace ops s)).
    { clear. induction ops as [|c ops IH]; intros s t F P; cbn [exec trace]; [now rewrite app_nil_r|]. inversion F; subst.
      pose proof (ginv_step s t c P H1) as H. destruct (step c s) as [o s']. cbn [snd]. rewrite app_assoc. apply IH; auto. }
    intros F. apply (G ops _ []); auto. unfold ginv. cbn [gathers initial].
    unfold latest, contributions. cbn. unfold zrange. rewrite map_map. rewrite Z.sub_0_r.
    generalize (Z.to_nat total) as m. intros m. generalize 0%nat as i. induction m; intros i; cbn; [reflexivity|]. f_equal. apply IHm.
  Qed.

  Lemma all_some_map {T} (f : Z -> option T) l rows : all_some (map f l) = Some rows <-> map f l = map Some rows.
  Proof.
    revert rows. induction l as [|x l IH]; intros rows; cbn.
    - split; [intros [= <-]; reflexivity|]. destruct rows; [reflexivity|discriminate].
    - destruct (f x) as [v|]; [|split; [discriminate|destruct rows; discriminate]].
      destruct (all_some (map f l)) as [vs|] eqn:E.
      + destruct (IH vs) as [I _]. specialize (I eq_refl). rewrite I. split; [intros [= <-]; reflexivity|].
        destruct rows as [|y rows]; [discriminate|]. cbn. intros [= <- H]. f_equal. f_equal.
        revert H. clear. revert rows. induction vs as [|z vs IH]; intros [|w rows]; cbn; try discriminate; auto. intros [= <- H]. f_equal. auto.
      + split; [discriminate|]. destruct rows as [|y rows]; [discriminate|]. cbn. intros [= <- H].
        destruct (IH rows) as [_ I]. specialize (I H). congruence.
  Qed.

  (** the root's gather delivers every rank's most recent contribution, in rank order; it raises exactly when some rank
      has never contributed *)
  Lemma gather_latest (a : Z -> V) tb ops r send recv : valid_gathers ops -> 0 <= r < total ->
    let s := exec ops (initial total a tb) in
    let t := trace (ops ++ [Gather r send recv r]) (initial total a tb) in
    let '(o, s') := step (Gather r send recv r) s in
    (o = Returned None /\ map Some (tab s' recv) = map (fun i => hd_error (contributions i t)) (zrange 0 total)) \/
    (o = Raised ConcurrencyError /\ tab s' = tab s /\ exists i, 0 <= i < total /\ contributions i t = []).
  Proof.
    intros F Hr s t. destruct (step (Gather r send recv r) s) as [o s'] eqn:E.
    assert (G : ginv s' t).
    { unfold t. rewrite trace_app. fold s. cbn [trace]. rewrite E, app_nil_r.
      pose proof (ginv_step s _ (Gather r send recv r) (ginv_run a tb ops F) Hr) as G. rewrite E in G. exact G. }
    cbn [step] in E. unfold do_gather in E. cbn zeta in E. rewrite Z.eqb_refl in E.
    destruct (all_some _) as [rows|] eqn:Al; inversion E; subst; clear E.
    - left. split; auto. cbn [tab with_tab with_gathers]. unfold upd_at. rewrite Z.eqb_refl.
      unfold ginv in G. cbn [gathers with_tab with_gathers] in *. rewrite G in Al. apply all_some_map in Al. symmetry. exact Al.
    - right. split; auto. split; auto. unfold ginv in G. cbn [gathers with_gathers] in *. rewrite G in Al.
      revert Al. clear. intros Al.
      assert (H : forall l, all_some (map (fun r => latest r t) l) = None -> exists i, In i l /\ contributions i t = []).
      { induction l as [|x l IH]; cbn; [discriminate|]. unfold latest at 1. destruct (contributions x t) eqn:C; cbn.
        - intros _. exists x. auto.
        - destruct (all_some (map _ l)) eqn:E; [discriminate|]. intros _. destruct (IH eq_refl) as (i & H1 & H2). exists i. auto. }
      destruct (H _ Al) as (i & H1 & H2). apply in_zrange in H1. eauto.
  Qed.
End Proofs.
