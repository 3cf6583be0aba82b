(** Property theorems C62: scattering and gathering whole states.  Model: DistModel.v (on DecompModel.v). *)
From Verif Require Import Dict Base PartModel DecompModel DecompSpec DecompProofs3 DistModel DistProofs.
From Coq Require Import QArith.
Open Scope Z_scope.

Local Arguments is_time : simpl never.

(** C62, scatter.  On every rank, every quantity of the sent state arrives under its own name with exactly the rank's region; the time
    arrives; no other name of the receiving state is touched.  Missing: the time already in the receiving state when the sent
    state has none, which is lost (C62_scatter_keeps_time_refuted). *)
Theorem C62_scatter_state_by_name_partial : forall (A T : Type) rnd l ratio (send recv res : state A T) r,
  NoDup (keys send) -> scatter_state rnd l ratio send recv r = Some res ->
  (forall n v, get send n = Some v -> n <> "time"%string ->
     exists q q' sl, v = Fld q /\ get res n = Some (Fld q') /\
       subtile_slice rnd l ratio r (q_dims q) (q_extent q) true = Some sl /\
       q_extent q' = map (fun s => snd s - fst s) sl /\
       (get recv n = None -> q_dims q' = q_dims q) /\
       forall p, inside sl p -> q_view q' (unshift sl p) = q_view q p) /\
  (forall n, ~ In n (keys send) -> n <> "time"%string -> get res n = get recv n) /\
  (forall t, get send "time" = Some (Tm t) -> get res "time" = Some (Tm t)).
Proof.
  intros A T rnd l ratio send recv res r ND. unfold scatter_state.
  destruct (scatter_names _ _ _ _ _ _ _) as [st|] eqn:E; cbn [bind]; [|discriminate].
  assert (NF : NoDup (field_names send)) by (apply NoDup_filter; exact ND).
  destruct (scatter_names_spec rnd l ratio send r _ NF _ _ E) as [S1 S2].
  set (time := match get send "time" with Some v => v | None => PyNone end).
  intros [= <-].
  assert (G : forall n, n <> "time"%string ->
    get (match time with PyNone => del (put st "time" time) "time" | _ => put st "time" time end) n = get st n).
  { intros n Hn. apply String.eqb_neq in Hn. destruct time; rewrite ?get_del, ?get_put, Hn; reflexivity. }
  split; [|split].
  - intros n v Hv Hn. rewrite G by exact Hn.
    assert (Hi : In n (field_names send)) by (apply in_field_names; split; [apply get_some; eauto|exact Hn]).
    destruct (S2 n Hi) as (q & q' & H1 & H2 & (R1 & R2) & H4 & _).
    unfold subtile_extent in R1. destruct (subtile_slice _ _ _ _ _ _ _) as [sl|] eqn:Es; cbn [bind] in R1; [|discriminate].
    exists q, q', sl. split; [congruence|]. split; [exact H2|]. split; [exact Es|]. split; [congruence|]. split; [exact H4|].
    intros p Hp. eapply scatter_region; eassumption.
  - intros n H1 H2. rewrite G by exact H2. apply S1. rewrite in_field_names. tauto.
  - intros t Ht. unfold time. rewrite Ht. rewrite get_put. reflexivity.
Qed.
Print Assumptions C62_scatter_state_by_name_partial.

(** C62, gather.  If the dictionaries of all ranks hold the quantities in the same order, every point of every gathered quantity comes
    from the quantity of that name on a rank to whose region it belongs; the time is the root's; no other name of the receiving
    state is touched.  Missing: dictionaries in different orders (C62_gather_state_order_refuted). *)
Theorem C62_gather_state_by_name_partial : forall rnd, float_like rnd ->
  forall l, 0 < fst l <= 2 ^ 52 /\ 0 < snd l <= 2 ^ 52 ->
  forall (A T : Type) ratio zero (send : Z -> state A T) recv res,
  (forall r, 0 <= r < tile_ranks l -> NoDup (keys (send r)) /\
     (forall n v, In (n, v) (send r) -> n <> "time"%string -> exists q, v = Fld q) /\
     field_names (send r) = field_names (send 0)) ->
  gather_state rnd l ratio zero send recv = Some res ->
  (forall n q0, get (send 0) n = Some (Fld q0) -> n <> "time"%string ->
     exists q', get res n = Some (Fld q') /\
       (get recv n = None -> q_dims q' = q_dims q0) /\
       (forall v, get recv n = Some v -> exists q1, v = Fld q1 /\ q_dims q' = q_dims q1 /\ q_extent q' = q_extent q1) /\
       forall p, plane_field (q_dims q') (q_extent q') -> in_extent (q_extent q') p ->
         exists r sl q, 0 <= r < tile_ranks l /\ get (send r) n = Some (Fld q) /\
           subtile_slice rnd l ratio r (q_dims q') (q_extent q') true = Some sl /\ inside sl p /\
           q_view q' p = q_view q (unshift sl p)) /\
  (forall n, ~ In n (keys (send 0)) -> get res n = get recv n) /\
  (forall v, get (send 0) "time" = Some v -> get res "time" = Some v).
Proof.
  intros rnd FL l HL A T ratio zero send recv res H E.
  assert (HT : 0 < tile_ranks l) by (unfold tile_ranks; nia).
  destruct (H 0 ltac:(lia)) as (ND0 & HF0 & _).
  destruct (gather_items_spec rnd l ratio zero send _ ND0 0 recv res E) as (I1 & I2 & I3 & I4 & I5).
  split; [|split; [exact I3|exact I4]].
  intros n q0 Hn Ht. pose proof (named_in _ _ _ Hn Ht) as Hi. apply In_nth_error in Hi. destruct Hi as [j Hj].
  destruct (I5 j n q0 Hj) as (q' & Q1 & (Q2 & g0 & Q3) & Q4 & Q5). exists q'. split; [exact Q1|]. split; [intros X; apply Q4; exact X|].
  split; [exact Q5|]. intros p HP Hp. destruct (gather_loop_some rnd l ratio _ _ _ _ _ _ _ Q3) as [L1 L2].
  assert (R0 : In 0 (ranks l)) by (apply in_zrange; lia).
  destruct (L1 0 R0) as (sl0 & Hs0 & _).
  destruct (coverage rnd FL l HL ratio _ _ _ _ HP Hp Hs0) as (rc & slc & Hrc & Hsc & Hic).
  destruct (L2 p) as [(r & sl & X1 & X2 & X3 & X4)|[_ X]].
  2: { exfalso. eapply X; [apply in_zrange; exact Hrc|exact Hsc|exact Hic]. }
  pose proof X1 as X1'. apply in_zrange in X1. destruct (H r X1) as (NDr & HFr & Hor).
  destruct (Q2 r X1') as (qr & Hqr & _). cbn [Nat.add] in *.
  exists r, sl, qr. split; [exact X1|]. split.
  - rewrite sent_named in Hqr. rewrite nth_error_map in Hqr. destruct (nth_error (named (send r)) j) as [[m qm]|] eqn:Ej; [|discriminate].
    cbn in Hqr. injection Hqr as ->. apply named_get; [exact NDr|].
    assert (m = n) as <-; [|apply nth_error_In in Ej; exact Ej].
    pose proof (map_nth_error fst _ _ Ej) as M1. pose proof (map_nth_error fst _ _ Hj) as M2.
    rewrite (names_length _ HFr), Hor in M1. rewrite I2 in M2. cbn in *. congruence.
  - split; [exact X2|]. split; [exact X3|]. rewrite X4. unfold block. rewrite Hqr. reflexivity.
Qed.
Print Assumptions C62_gather_state_by_name_partial.

(** C62, round trip.  Scattering a state to every rank and gathering what the ranks got gives a state with the same names, the same
    quantities and the same time. *)
Theorem C62_gather_state_undoes_scatter_state : forall rnd, float_like rnd ->
  forall l, 0 < fst l <= 2 ^ 52 /\ 0 < snd l <= 2 ^ 52 ->
  forall (A T : Type) ratio zero (send : state A T) (loc : Z -> state A T),
  NoDup (keys send) ->
  (forall n q, get send n = Some (Fld q) -> n <> "time"%string -> plane_field (q_dims q) (q_extent q)) ->
  (forall r, 0 <= r < tile_ranks l -> scatter_state rnd l ratio send [] r = Some (loc r)) ->
  exists res, gather_state rnd l ratio zero loc [] = Some res /\
    (forall n, n <> "time"%string ->
       match get send n, get res n with
       | Some (Fld q), Some (Fld q') => q_dims q' = q_dims q /\ q_extent q' = q_extent q /\
                                        forall p, in_extent (q_extent q) p -> q_view q' p = q_view q p
       | None, None => True
       | _, _ => False
       end) /\
    get res "time" = match get send "time" with Some PyNone => None | v => v end.
Proof.
  intros rnd FL l HL A T ratio zero send loc ND HP HS.
  assert (HT : 0 < tile_ranks l) by (unfold tile_ranks; nia).
  set (time := match get send "time" with Some v => v | None => PyNone end).
  assert (NF : NoDup (field_names send)) by (apply NoDup_filter; exact ND).
  (* the state of each rank: the fields in the order of the sent state, then the time *)
  assert (X : forall r, 0 <= r < tile_ranks l -> exists st, scatter_names rnd l ratio send r (field_names send) [] = Some st /\
    keys st = field_names send /\ loc r = (st ++ match time with PyNone => [] | _ => [("time"%string, time)] end)%list).
  { intros r Hr. specialize (HS r Hr). unfold scatter_state in HS.
    destruct (scatter_names _ _ _ _ _ _ _) as [st|] eqn:E; cbn [bind] in HS; [|discriminate]. exists st. split; [reflexivity|].
    assert (K : keys st = field_names send) by (apply (scatter_names_keys rnd l ratio send r _ _ _ NF) in E; [exact E|intros n _ []]).
    split; [exact K|]. fold time in HS. injection HS as <-.
    assert (Hnt : ~ In "time"%string (keys st)) by (rewrite K, in_field_names; tauto).
    assert (P : forall v, put st "time" v = (st ++ [("time"%string, v)])%list).
    { clear -Hnt. induction st as [|[n w] st IH]; intros v; [reflexivity|]. cbn [put].
      destruct (String.eqb_spec "time" n) as [<-|N]; [exfalso; apply Hnt; cbn; auto|].
      cbn. f_equal. apply IH. intros I. apply Hnt. cbn. auto. }
    rewrite P. destruct time; try reflexivity. rewrite app_nil_r. clear -Hnt. induction st as [|[n w] st IH]; [reflexivity|].
    cbn [app del]. destruct (String.eqb_spec "time" n) as [<-|N]; [exfalso; apply Hnt; cbn; auto|].
    f_equal. apply IH. intros I. apply Hnt. cbn. auto. }
  assert (NT : forall r, 0 <= r < tile_ranks l -> NoDup (keys (loc r)) /\
    (forall n v, In (n, v) (loc r) -> n <> "time"%string -> exists q, v = Fld q) /\
    field_names (loc r) = field_names send /\
    (forall n, In n (field_names send) -> exists q q', get send n = Some (Fld q) /\ get (loc r) n = Some (Fld q') /\
       received rnd l ratio r q q' /\ q_dims q' = q_dims q) /\
    get (loc r) "time" = match time with PyNone => None | v => Some v end).
  { intros r Hr. destruct (X r Hr) as (st & E & K & L).
    destruct (scatter_names_spec rnd l ratio send r _ NF _ _ E) as [S1 S2].
    assert (Hnt : ~ In "time"%string (keys st)) by (rewrite K, in_field_names; tauto).
    assert (GA : forall n, n <> "time"%string -> get (loc r) n = get st n).
    { intros n Hn. rewrite L. clear -Hn. induction st as [|[m w] st IH]; cbn.
      - apply String.eqb_neq in Hn. destruct time; cbn; rewrite ?Hn; reflexivity.
      - destruct (n =? m)%string; [reflexivity|exact IH]. }
    assert (KL : keys (loc r) = (keys st ++ match time with PyNone => [] | _ => ["time"%string] end)%list).
    { rewrite L. unfold keys. rewrite map_app. f_equal. destruct time; reflexivity. }
    assert (NDL : NoDup (keys (loc r))).
    { rewrite KL. destruct time; rewrite ?app_nil_r; try (apply (NoDup_Add (Add_app _ _ []))); rewrite ?app_nil_r, K; try exact NF;
      (split; [exact NF|rewrite in_field_names; tauto]). }
    split; [exact NDL|]. split; [|split; [|split]].
    - intros n v Hi Hn. assert (Hg : get (loc r) n = Some v) by (apply in_get; assumption).
      assert (Hk : In n (field_names send)).
      { rewrite <- K. apply get_some. exists v. rewrite <- GA by exact Hn. exact Hg. }
      destruct (S2 n Hk) as (q & q' & _ & H2 & _). exists q'. rewrite GA in Hg by exact Hn. congruence.
    - unfold field_names. rewrite KL, K, filter_app. replace (filter _ (match time with PyNone => [] | _ => _ end)) with (@nil string) by (destruct time; reflexivity).
      rewrite app_nil_r. unfold field_names. clear. induction (keys send) as [|n ns IH]; [reflexivity|]. cbn.
      destruct (negb (is_time n)) eqn:En; cbn; [rewrite En; f_equal; exact IH|exact IH].
    - intros n Hn. destruct (S2 n Hn) as (q & q' & H1 & H2 & H3 & H4 & _). exists q, q'. rewrite in_field_names in Hn.
      rewrite GA by tauto. auto.
    - rewrite L. clear -Hnt. induction st as [|[m w] st IH]; cbn [app get].
      + destruct time; reflexivity.
      + destruct (String.eqb_spec "time" m) as [<-|]; [exfalso; apply Hnt; cbn; auto|]. rewrite IH; [destruct time; reflexivity|].
        intros I. apply Hnt. cbn. auto. }
  assert (R0 : 0 <= 0 < tile_ranks l) by lia.
  destruct (NT 0 R0) as (ND0 & HF0 & FN0 & GF0 & GT0).
  (* position j of the sent names, on every rank *)
  assert (POS : forall j n q0, nth_error (named (loc 0)) j = Some (n, q0) ->
    exists q, get send n = Some (Fld q) /\ n <> "time"%string /\ received rnd l ratio 0 q q0 /\ q_dims q0 = q_dims q /\
      forall r, 0 <= r < tile_ranks l -> exists qr, nth_error (sent (loc r)) j = Some qr /\ received rnd l ratio r q qr).
  { intros j n q0 Hj. pose proof (map_nth_error fst _ _ Hj) as M. rewrite (names_length _ HF0), FN0 in M. cbn in M.
    pose proof (nth_error_In _ _ M) as Hn.
    pose proof (nth_error_In _ _ Hj) as Hg. apply (named_get _ _ _ ND0) in Hg.
    destruct (GF0 n Hn) as (q & q' & G1 & G2 & G3 & G4). rewrite Hg in G2. injection G2 as <-.
    exists q. split; [exact G1|]. split; [apply in_field_names in Hn; tauto|]. split; [exact G3|]. split; [exact G4|].
    intros r Hr. destruct (NT r Hr) as (NDr & HFr & FNr & GFr & _).
    pose proof M as M'. rewrite <- FNr, <- (names_length _ HFr) in M'. rewrite nth_error_map in M'.
    destruct (nth_error (named (loc r)) j) as [[m qr]|] eqn:Ej; [|discriminate]. cbn in M'. injection M' as ->.
    exists qr. rewrite sent_named, nth_error_map, Ej. split; [reflexivity|].
    pose proof (nth_error_In _ _ Ej) as Hgr. apply (named_get _ _ _ NDr) in Hgr.
    destruct (GFr n Hn) as (p & p' & P1 & P2 & P3 & _). rewrite Hgr in P2. injection P2 as <-.
    assert (p = q) as -> by congruence. exact P3. }
  assert (RUN : exists res, gather_state rnd l ratio zero loc [] = Some res).
  { unfold gather_state. assert (LEN : forall r, In r (ranks l) -> List.length (sent (loc r)) = List.length (named (loc 0))).
    { intros r Hr. apply in_zrange in Hr. destruct (NT r Hr) as (_ & HFr & FNr & _). rewrite sent_named, map_length.
      rewrite <- (map_length fst (named (loc r))), <- (map_length fst (named (loc 0))), (names_length _ HFr), (names_length _ HF0). congruence. }
    assert (ONE : forall j n q0 st, nth_error (named (loc 0)) j = Some (n, q0) -> get st n = None ->
      exists st', gather_one rnd l ratio zero loc j q0 st n = Some st' /\ forall m, m <> n -> get st' m = get st m).
    { intros j n q0 st Hj Hst. destruct (POS j n q0 Hj) as (q & P1 & P2 & P3 & P4 & P5). unfold gather_one.
      assert (M : matches l loc j (q_extent q0) = true).
      { apply forallb_forall. intros r Hr. apply in_zrange in Hr. destruct (P5 r Hr) as (qr & N1 & N2). rewrite N1.
        apply list_eqb_eq. destruct N2 as [N2 N3]. unfold scatter in N3. destruct P3 as [P3 _]. rewrite P3 in N3. cbn [bind] in N3.
        unfold subtile_extent in N2. destruct (subtile_slice _ _ _ _ _ _ _) as [sl|]; cbn [bind] in *; [|discriminate].
        destruct (list_eqb _ _) eqn:El; [|discriminate]. apply list_eqb_eq in El. unfold shape_of in El. congruence. }
      rewrite M, Hst.
      destruct (scatter_gather rnd FL l HL ratio (q_dims q) (q_extent q) (q_view q) (fun _ => zero) (block loc j q0) (HP n q P1 P2)) as (shape & g & C1 & C2 & C3 & C4).
      { intros r Hr. destruct (P5 r Hr) as (qr & N1 & N2). unfold block. rewrite N1. apply N2. }
      destruct P3 as [P3 _]. assert (shape = q_extent q0) as -> by congruence. rewrite P4.
      rewrite C3. cbn [bind]. eexists. split; [reflexivity|]. intros m Hm. rewrite get_put. apply String.eqb_neq in Hm. rewrite Hm. reflexivity. }
    clear POS.
    enough (Y : forall pre items st k, loc 0 = (pre ++ items)%list -> k = List.length (named pre) ->
      (forall n, In n (keys items) -> n <> "time"%string -> get st n = None) ->
      exists res, gather_items rnd l ratio zero loc k items st = Some res).
    { apply (Y [] (loc 0) [] 0%nat); auto. }
    intros pre items. revert pre. induction items as [|[n v] items IH]; intros pre st k EL EK Hst; cbn [gather_items].
    - rewrite app_nil_r in EL. replace (forallb _ _) with true; [eauto|]. symmetry. apply forallb_forall. intros r Hr.
      apply Nat.eqb_eq. rewrite LEN by exact Hr. congruence.
    - assert (EL' : loc 0 = ((pre ++ [(n, v)]) ++ items)%list) by (rewrite <- app_assoc; exact EL).
      destruct (is_time n) eqn:Et.
      + apply IH with (pre := (pre ++ [(n, v)])%list); [exact EL'| |].
        * unfold named. rewrite flat_map_app. cbn. rewrite Et. rewrite !app_nil_r. exact EK.
        * intros m Hm Hmt. rewrite get_put. apply String.eqb_neq in Hmt. rewrite Hmt. apply Hst; [cbn; auto|]. apply String.eqb_neq in Hmt. exact Hmt.
      + pose proof Et as Et'. apply is_time_false in Et. destruct (HF0 n v) as [q0 ->]; [rewrite EL; apply in_or_app; cbn; auto|exact Et|]. cbn [as_field bind].
        assert (Hj : nth_error (named (loc 0)) k = Some (n, q0)).
        { rewrite EL. unfold named. rewrite flat_map_app. fold (named pre). rewrite nth_error_app2 by lia. rewrite EK, Nat.sub_diag.
          cbn. rewrite Et'. reflexivity. }
        destruct (ONE k n q0 st Hj (Hst n ltac:(cbn; auto) Et)) as (st' & -> & Hst'). cbn [bind].
        apply IH with (pre := (pre ++ [(n, Fld q0)])%list); [exact EL'| |].
        * unfold named. rewrite flat_map_app, app_length. cbn. rewrite Et'. cbn. fold (named pre). lia.
        * intros m Hm Hmt. rewrite Hst'; [apply Hst; [cbn; auto|exact Hmt]|]. intros ->.
          rewrite EL in ND0. unfold keys in ND0. rewrite map_app in ND0. cbn in ND0. apply NoDup_remove_2 in ND0.
          apply ND0. apply in_or_app. right. exact Hm. }
  destruct RUN as [res E]. exists res. split; [exact E|].
  destruct (gather_items_spec rnd l ratio zero loc _ ND0 0 [] res E) as (I1 & I2 & I3 & I4 & I5).
  split.
  - intros n Hn. destruct (get send n) as [v|] eqn:Ev.
    + assert (Hi : In n (field_names send)) by (apply in_field_names; split; [apply get_some; eauto|exact Hn]).
      destruct (GF0 n Hi) as (q & q0 & G1 & G2 & _). rewrite Ev in G1. injection G1 as ->.
      pose proof (named_in _ _ _ G2 Hn) as Hj. apply In_nth_error in Hj. destruct Hj as [j Hj].
      destruct (I5 j n q0 Hj) as (q' & Q1 & (Q2 & g0 & Q3) & Q4 & _). rewrite Q1. destruct (Q4 eq_refl) as [D1 D2].
      destruct (POS j n q0 Hj) as (p & P1 & P2 & P3 & P4 & P5). assert (p = q) as -> by congruence. clear P1.
      destruct (scatter_gather rnd FL l HL ratio (q_dims q) (q_extent q) (q_view q) g0 (block loc j q0) (HP n q Ev Hn)) as (shape & g & C1 & C2 & C3 & C4).
      { intros r Hr. destruct (P5 r Hr) as (qr & N1 & N2). unfold block. rewrite N1. apply N2. }
      destruct P3 as [P3 _]. assert (shape = q_extent q0) as -> by congruence.
      split; [congruence|]. rewrite P4 in D2. split; [congruence|]. intros p Hp. cbn [Nat.add] in Q3. rewrite D1, P4, D2 in Q3.
      rewrite C3 in Q3. injection Q3 as <-. apply C4. exact Hp.
    + rewrite I3; [exact I|]. intros Hk. assert (In n (field_names (loc 0))) by (apply in_field_names; auto).
      rewrite FN0 in H. apply in_field_names in H. destruct H as [H _]. apply get_some in H. destruct H as [v Hv]. congruence.
  - destruct (get (loc 0) "time") as [v|] eqn:Et.
    + rewrite (I4 v eq_refl). unfold time in GT0. destruct (get send "time") as [[| |]|]; congruence.
    + rewrite I3 by (apply get_none; exact Et). unfold time in GT0. destruct (get send "time") as [[| |]|]; cbn in *; congruence.
Qed.
Print Assumptions C62_gather_state_undoes_scatter_state.

(** C62 fails: scattering a state without a time into a state with one removes the time ("only variables which are scattered will
    be written to", communicator.py:351). *)
Theorem C62_scatter_keeps_time_refuted : exists (send recv res : state Z Z),
  NoDup (keys send) /\ ~ In "time"%string (keys send) /\ get recv "time" = Some (Tm 7) /\
  scatter_state (fun q => q) (1, 1) 1 send recv 0 = Some res /\ get res "time" = None.
Proof.
  pose (q := mkQ [Dim AJ false; Dim AI false] [1; 1] (fun _ : list Z => 5)).
  exists [("u"%string, Fld q)], [("time"%string, Tm 7)].
  eexists. split; [repeat constructor; intros []|]. split; [intros [H|[]]; discriminate|]. split; [reflexivity|].
  split; [vm_compute; reflexivity|]. reflexivity.
Qed.
Print Assumptions C62_scatter_keeps_time_refuted.

(** C62 fails: two ranks with the same two variables of the same shape, in different orders: the gathered u has the values of v on the
    second rank. *)
Theorem C62_gather_state_order_refuted : exists (send : Z -> state Z Z) res q u1 v1,
  (forall n, In n (keys (send 0)) <-> In n (keys (send 1))) /\
  gather_state (fun q => q) (1, 2) 1 0 send [] = Some res /\
  get res "u" = Some (Fld q) /\ get (send 1) "u" = Some (Fld u1) /\ get (send 1) "v" = Some (Fld v1) /\
  q_extent q = [1; 4] /\ q_view q [0; 2] = q_view v1 [0; 0] /\ q_view v1 [0; 0] <> q_view u1 [0; 0].
Proof.
  pose (fld := fun c : Z => mkQ [Dim AJ false; Dim AI false] [1; 2] (fun _ : list Z => c)).
  pose (u := "u"%string). pose (v := "v"%string).
  exists (fun r => if r =? 0 then [(u, Fld (fld 10)); (v, Fld (fld 20))] else [(v, Fld (fld 21)); (u, Fld (fld 11))]).
  eexists. eexists. exists (fld 11), (fld 21). split; [intros n; cbn; tauto|].
  split; [unfold gather_state, gather_items, gather_one; vm_compute; reflexivity|].
  split; [reflexivity|]. split; [reflexivity|]. split; [reflexivity|]. split; [reflexivity|].
  split; [vm_compute; reflexivity|]. vm_compute. discriminate.
Qed.
Print Assumptions C62_gather_state_order_refuted.

(** two ranks side by side; a centered and a staggered variable, and a time *)
Example C62_case :
  let send : state Z Z :=
    [("u"%string, Fld (mkQ [Dim AJ false; Dim AI true] [2; 5] (fun p => match p with [y; x] => 10 * y + x | _ => 0 end)));
     ("time"%string, Tm 3);
     ("v"%string, Fld (mkQ [Dim AV false; Dim AJ false; Dim AI false] [1; 2; 4] (fun p => match p with [z; y; x] => 100 + 10 * y + x | _ => 0 end)))] in
  let loc r := match scatter_state (fun q => q) (1, 2) 1 send [] r with Some s => s | None => [] end in
  let at_ (o : option (item Z Z)) p := match o with Some (Fld q) => q_view q p | _ => 0 end in
  keys (loc 1) = ["u"; "v"; "time"]%string /\ at_ (get (loc 1) "u") [1; 0] = 12 /\ at_ (get (loc 1) "v") [0; 1; 1] = 113 /\
  match gather_state (fun q => q) (1, 2) 1 0 loc [] with
  | Some res => map (at_ (get res "u")) [[0; 0]; [1; 2]; [1; 4]] = [0; 12; 14] /\ get res "time" = Some (Tm 3)
  | None => False
  end.
Proof. vm_compute. repeat split. Qed.
