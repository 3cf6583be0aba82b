(** Lemmas for DistProps.v. *)
From Verif Require Import Dict Base PartModel DecompModel DecompSpec DecompProofs3 DistModel.
From Coq Require Import QArith.
Open Scope Z_scope.

Local Arguments is_time : simpl never.
Lemma is_time_true n : is_time n = true <-> n = "time"%string.
Proof. apply String.eqb_eq. Qed.
Lemma is_time_false n : is_time n = false <-> n <> "time"%string.
Proof. apply String.eqb_neq. Qed.

Lemma in_field_names {A T} (st : state A T) n : In n (field_names st) <-> In n (keys st) /\ n <> "time"%string.
Proof. unfold field_names. rewrite filter_In. unfold is_time. rewrite Bool.negb_true_iff, String.eqb_neq. tauto. Qed.

Section P.
  Context {A T : Type}.
  Variables (rnd : Q -> Q) (l : layout) (ratio : Q) (zero : A).
  Notation state := (state A T).
  Notation quantity := (quantity A).

  (** what rank r has to receive for q *)
  Definition received (r : Z) (q q' : quantity) : Prop :=
    subtile_extent rnd l ratio (q_dims q) (q_extent q) r = Some (q_extent q') /\
    scatter rnd l ratio (q_dims q) (q_extent q) (q_view q) r = Some (q_view q').

  Lemma scatter_one_spec (send st st' : state) r n : scatter_one rnd l ratio send r st n = Some st' ->
    exists q q', get send n = Some (Fld q) /\ received r q q' /\ st' = put st n (Fld q') /\
      (get st n = None -> q_dims q' = q_dims q) /\
      (forall v, get st n = Some v -> exists q0, v = Fld q0 /\ q_dims q' = q_dims q0).
  Proof.
    unfold scatter_one. destruct (get send n) as [v|] eqn:Ev; cbn [bind]; [|discriminate].
    destruct v as [q| |]; cbn [as_field bind]; try discriminate.
    destruct (subtile_extent _ _ _ _ _ _) as [shape|] eqn:Es; cbn [bind]; [|discriminate].
    destruct (scatter _ _ _ _ _ _ _) as [piece|] eqn:Ep; cbn [bind]; [|discriminate].
    destruct (get st n) as [v'|] eqn:Et.
    - destruct v' as [q0| |]; cbn [as_field bind]; try discriminate.
      destruct (list_eqb _ _); [|discriminate]. intros [= <-].
      exists q, (mkQ (q_dims q0) shape piece). repeat split; auto; [discriminate|].
      intros v [= <-]. exists q0. auto.
    - intros [= <-]. exists q, (mkQ (q_dims q) shape piece). repeat split; auto; discriminate.
  Qed.

  Lemma scatter_names_spec (send : state) r names : NoDup names -> forall st st',
    scatter_names rnd l ratio send r names st = Some st' ->
    (forall n, ~ In n names -> get st' n = get st n) /\
    (forall n, In n names -> exists q q', get send n = Some (Fld q) /\ get st' n = Some (Fld q') /\ received r q q' /\
      (get st n = None -> q_dims q' = q_dims q) /\
      (forall v, get st n = Some v -> exists q0, v = Fld q0 /\ q_dims q' = q_dims q0)).
  Proof.
    induction names as [|n names IH]; intros ND st st'; cbn [scatter_names].
    - intros [= <-]. split; [reflexivity|intros n []].
    - inversion ND; subst. destruct (scatter_one _ _ _ send r st n) as [st1|] eqn:E1; cbn [bind]; [|discriminate].
      intros E. destruct (scatter_one_spec _ _ _ _ _ E1) as (q & q' & Hq & Hr & -> & Hf & Ho).
      destruct (IH H2 _ _ E) as [I1 I2]. split.
      + intros m Hm. cbn in Hm. rewrite I1 by tauto. rewrite get_put. destruct (String.eqb_spec m n) as [->|]; [tauto|auto].
      + intros m [<-|Hm].
        * exists q, q'. rewrite I1 by auto. rewrite get_put, String.eqb_refl. auto 10.
        * destruct (I2 m Hm) as (p & p' & P1 & P2 & P3 & P4 & P5). exists p, p'. rewrite get_put in P4, P5.
          destruct (String.eqb_spec m n) as [->|]; [tauto|auto 10].
  Qed.

  (** from an empty state: the order of insertion *)
  Lemma scatter_names_keys (send : state) r names : forall st st', NoDup names -> (forall n, In n names -> ~ In n (keys st)) ->
    scatter_names rnd l ratio send r names st = Some st' -> keys st' = (keys st ++ names)%list.
  Proof.
    induction names as [|n names IH]; intros st st' ND Hn; cbn [scatter_names].
    - intros [= <-]. rewrite app_nil_r. reflexivity.
    - inversion ND; subst. destruct (scatter_one _ _ _ send r st n) as [st1|] eqn:E1; cbn [bind]; [|discriminate].
      intros E. destruct (scatter_one_spec _ _ _ _ _ E1) as (q & q' & _ & _ & -> & _).
      assert (K : keys (put st n (Fld q')) = (keys st ++ [n])%list).
      { rewrite keys_put. destruct in_dec as [X|]; [exfalso; apply (Hn n (or_introl eq_refl) X)|reflexivity]. }
      assert (Hn' : forall m, In m names -> ~ In m (keys (put st n (Fld q')))).
      { intros m Hm. rewrite K, in_app_iff. intros [X|[<-|[]]]; [|tauto]. apply (Hn m (or_intror Hm) X). }
      rewrite (IH _ _ H2 Hn' E), K, <- app_assoc. reflexivity.
  Qed.

  (** ** gather *)
  Lemma gather_loop_some {B} rs dims ext shape (buf : Z -> index -> B) : forall g0 g,
    gather_loop rnd rs l ratio dims ext shape buf g0 = Some g ->
    (forall r, In r rs -> exists sl, subtile_slice rnd l ratio r dims ext true = Some sl /\ shape_of sl = shape) /\
    forall p, (exists r sl, In r rs /\ subtile_slice rnd l ratio r dims ext true = Some sl /\ inside sl p /\ g p = buf r (unshift sl p)) \/
      (g p = g0 p /\ forall r sl, In r rs -> subtile_slice rnd l ratio r dims ext true = Some sl -> ~ inside sl p).
  Proof.
    induction rs as [|r rs IH]; intros g0 g; cbn [gather_loop].
    - intros [= <-]. split; [intros r []|]. intros p. right. split; [reflexivity|intros r sl []].
    - destruct (subtile_slice _ _ _ r _ _ _) as [sl|] eqn:Es; cbn [bind]; [|discriminate].
      destruct (list_eqb _ _) eqn:El; [|discriminate]. apply list_eqb_eq in El. intros E. destruct (IH _ _ E) as [I1 I2]. split.
      + intros r' [<-|H]; eauto.
      + intros p. destruct (I2 p) as [(r' & sl' & H1 & H2 & H3 & H4)|[H1 H2]]; [left; exists r', sl'; cbn; auto|].
        rewrite H1. unfold put_slice. destruct (in_slices sl p) eqn:Ein.
        * left. exists r, sl. apply in_slices_iff in Ein. cbn. auto.
        * right. split; [reflexivity|]. intros r' sl' [<-|H] Hs; [|eauto].
          assert (sl' = sl) as -> by congruence. rewrite <- in_slices_iff, Ein. discriminate.
  Qed.

  Lemma gather_ext {B} rs dims ext shape (b b' : Z -> index -> B) : forall g0,
    (forall r, In r rs -> forall p, b r p = b' r p) ->
    forall g, gather_loop rnd rs l ratio dims ext shape b g0 = Some g ->
    exists g', gather_loop rnd rs l ratio dims ext shape b' g0 = Some g' /\ forall p, g p = g' p.
  Proof.
    enough (X : forall g0 g0', (forall p, g0 p = g0' p) -> (forall r, In r rs -> forall p, b r p = b' r p) ->
      forall g, gather_loop rnd rs l ratio dims ext shape b g0 = Some g ->
      exists g', gather_loop rnd rs l ratio dims ext shape b' g0' = Some g' /\ forall p, g p = g' p) by (intros; eapply X; eauto).
    induction rs as [|r rs IH]; intros g0 g0' H0 Hb g; cbn [gather_loop].
    - intros [= <-]. eauto.
    - destruct (subtile_slice _ _ _ r _ _ _) as [sl|]; cbn [bind]; [|discriminate].
      destruct (list_eqb _ _); [|discriminate]. apply IH.
      + intros p. unfold put_slice. destruct in_slices; [apply Hb; cbn; auto|auto].
      + intros r' Hr. apply Hb. cbn. auto.
  Qed.

  (** the k-th gather: a name of the root, with the k-th quantities of all ranks *)
  Definition gathered (send : Z -> state) (k : nat) (q q' : quantity) : Prop :=
    (forall r, In r (ranks l) -> exists qr, nth_error (sent (send r)) k = Some qr /\ q_extent qr = q_extent q) /\
    exists g0, gather rnd l ratio (q_dims q') (q_extent q') (q_extent q) (block send k q) g0 = Some (q_view q').

  Lemma gather_one_spec (send : Z -> state) k q (st st' : state) n : gather_one rnd l ratio zero send k q st n = Some st' ->
    exists q', st' = put st n (Fld q') /\ gathered send k q q' /\
      (get st n = None -> q_dims q' = q_dims q /\ q_extent q' = global_extent l (q_dims q) (q_extent q)) /\
      (forall v, get st n = Some v -> exists q0, v = Fld q0 /\ q_dims q' = q_dims q0 /\ q_extent q' = q_extent q0).
  Proof.
    unfold gather_one. destruct (matches _ _ _ _) eqn:Em; [|discriminate].
    assert (HM : forall r, In r (ranks l) -> exists qr, nth_error (sent (send r)) k = Some qr /\ q_extent qr = q_extent q).
    { intros r Hr. unfold matches in Em. rewrite forallb_forall in Em. specialize (Em r Hr).
      destruct (nth_error _ _) as [qr|]; [|discriminate]. apply list_eqb_eq in Em. eauto. }
    destruct (get st n) as [v|] eqn:Et.
    - destruct v as [q0| |]; cbn [as_field bind]; try discriminate.
      destruct (gather _ _ _ _ _ _ _ _) as [g|] eqn:Eg; cbn [bind]; [|discriminate]. intros [= <-].
      exists (mkQ (q_dims q0) (q_extent q0) g). split; [reflexivity|]. split; [split; [exact HM|eexists; exact Eg]|].
      split; [discriminate|]. intros v [= <-]. exists q0. auto.
    - destruct (gather _ _ _ _ _ _ _ _) as [g|] eqn:Eg; cbn [bind]; [|discriminate]. intros [= <-].
      eexists (mkQ _ _ g). split; [reflexivity|]. split; [split; [exact HM|eexists; exact Eg]|].
      split; [auto|discriminate].
  Qed.

  Definition named (st : state) : list (string * quantity) :=
    flat_map (fun kv => if is_time (fst kv) then [] else match snd kv with Fld q => [(fst kv, q)] | _ => [] end) st.
  Lemma sent_named (st : state) : sent st = map snd (named st).
  Proof.
    induction st as [|[n v] st IH]; [reflexivity|]. cbn. rewrite map_app. fold (sent st) (named st). rewrite IH.
    destruct (is_time n); [reflexivity|]. destruct v; reflexivity.
  Qed.

  Lemma gather_items_spec (send : Z -> state) items : NoDup (keys items) -> forall k st st',
    gather_items rnd l ratio zero send k items st = Some st' ->
    (forall r, In r (ranks l) -> List.length (sent (send r)) = (k + List.length (named items))%nat) /\
    map fst (named items) = field_names items /\
    (forall n, ~ In n (keys items) -> get st' n = get st n) /\
    (forall v, get items "time" = Some v -> get st' "time" = Some v) /\
    (forall j n q, nth_error (named items) j = Some (n, q) ->
       exists q', get st' n = Some (Fld q') /\ gathered send (k + j) q q' /\
        (get st n = None -> q_dims q' = q_dims q /\ q_extent q' = global_extent l (q_dims q) (q_extent q)) /\
        (forall v, get st n = Some v -> exists q0, v = Fld q0 /\ q_dims q' = q_dims q0 /\ q_extent q' = q_extent q0)).
  Proof.
    induction items as [|[n v] items IH]; intros ND k st st'; cbn [gather_items].
    - destruct (forallb _ _) eqn:Ef; [|discriminate]. intros [= <-]. repeat split; auto; try discriminate.
      + intros r Hr. rewrite forallb_forall in Ef. specialize (Ef r Hr). apply Nat.eqb_eq in Ef. cbn. lia.
      + intros j n q. destruct j; discriminate.
    - inversion ND as [|? ? Hn ND']; subst. fold (keys items) in *. destruct (is_time n) eqn:Et.
      + apply is_time_true in Et. subst n. intros E. destruct (IH ND' _ _ _ E) as (I1 & I2 & I3 & I4 & I5).
        split; [exact I1|]. split; [exact I2|]. split; [|split].
        * intros m Hm. cbn in Hm. rewrite I3 by tauto. rewrite get_put. destruct (String.eqb_spec m "time"); [subst; tauto|reflexivity].
        * intros w. cbn. intros [= <-]. rewrite I3 by exact Hn. rewrite get_put. reflexivity.
        * intros j m q Hj. cbn in Hj. destruct (I5 j m q Hj) as (q' & Q1 & Q2 & Q3). exists q'. split; [exact Q1|]. split; [exact Q2|].
          rewrite get_put in Q3. destruct (String.eqb_spec m "time") as [->|]; [|exact Q3].
          exfalso. apply nth_error_In in Hj. change (In ("time"%string, q) (named items)) in Hj.
          apply (in_map fst) in Hj. rewrite I2 in Hj. apply in_field_names in Hj. cbn in Hj. tauto.
      + destruct v as [q| |]; cbn [as_field bind]; try discriminate.
        destruct (gather_one _ _ _ _ _ _ _ _ _) as [st1|] eqn:E1; cbn [bind]; [|discriminate]. intros E.
        destruct (gather_one_spec _ _ _ _ _ _ E1) as (q1 & -> & G1 & G2 & G3).
        destruct (IH ND' _ _ _ E) as (I1 & I2 & I3 & I4 & I5).
        assert (Nn : named ((n, Fld q) :: items) = (n, q) :: named items) by (cbn; rewrite Et; reflexivity).
        rewrite Nn. cbn [List.length map fst]. split; [intros r Hr; rewrite (I1 r Hr); lia|].
        split; [rewrite I2; unfold field_names; cbn; rewrite Et; reflexivity|]. split; [|split].
        * intros m Hm. cbn in Hm. rewrite I3 by tauto. rewrite get_put. destruct (String.eqb_spec m n) as [->|]; [tauto|reflexivity].
        * intros w. cbn [get]. destruct (String.eqb_spec "time" n) as [<-|]; [discriminate Et|]. apply I4.
        * intros [|j] m p.
          -- cbn [nth_error]. intros [= <- <-]. exists q1. rewrite I3 by exact Hn. rewrite get_put, String.eqb_refl, Nat.add_0_r. auto.
          -- cbn [nth_error]. intros Hj. destruct (I5 j m p Hj) as (q' & Q1 & Q2 & Q3). exists q'. split; [exact Q1|].
             replace (k + S j)%nat with (S k + j)%nat by lia. split; [exact Q2|].
             rewrite get_put in Q3. destruct (String.eqb_spec m n) as [->|]; [|exact Q3].
             exfalso. apply nth_error_In, (in_map fst) in Hj. rewrite I2 in Hj. apply in_field_names in Hj. cbn in Hj. tauto.
  Qed.

  (** same order of names: the k-th quantity of every rank has the name of the root's *)
  Lemma named_get (st : state) n q : NoDup (keys st) -> In (n, q) (named st) -> get st n = Some (Fld q).
  Proof.
    intros ND H. apply in_get; [exact ND|]. unfold named in H. apply in_flat_map in H. destruct H as ([m v] & H & H').
    cbn in H'. destruct (is_time m); [destruct H'|]. destruct v; [|destruct H'|destruct H'].
    destruct H' as [[= <- <-]|[]]. exact H.
  Qed.
  Lemma named_in (st : state) n q : get st n = Some (Fld q) -> n <> "time"%string -> In (n, q) (named st).
  Proof.
    intros H Hn. apply get_in in H. unfold named. apply in_flat_map. exists (n, Fld q). split; [exact H|]. cbn.
    apply is_time_false in Hn. rewrite Hn. cbn. auto.
  Qed.
  Lemma names_length (st : state) : (forall n v, In (n, v) st -> n <> "time"%string -> exists q, v = Fld q) ->
    map fst (named st) = field_names st.
  Proof.
    induction st as [|[n v] st IH]; intros H; [reflexivity|]. cbn. fold (named st). unfold field_names. cbn.
    rewrite map_app, IH by (intros; eapply H; cbn; eauto). destruct (is_time n) eqn:E; [reflexivity|].
    apply is_time_false in E. destruct (H n v (or_introl eq_refl) E) as [q ->]. reflexivity.
  Qed.
End P.
