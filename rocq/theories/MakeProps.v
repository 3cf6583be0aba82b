(** C100: allocating states and locals. *)
From Verif Require Import Base Dict PartModel DecompModel HaloModel GridModel GridProofs ViewModel AllocModel AllocProofs AllocProps MakeModel.

Scheme cls_mut := Induction for cls Sort Prop with cty_mut := Induction for cty Sort Prop.

(** [q] as declared, its memory filled by [fill] *)
Definition as_declared {A} (s : sizer) (b : string) (m : meta) (q : quantity A) : Prop :=
  dims q = mdims m /\ units q = munits m /\ backend q = b /\ dt (data q) = mdtype m /\
  exists ns, map (points s) (mdims m) = map Some ns /\
    shape (data q) = map (fun '(d, n) => before s d + n + behind s d) (combine (mdims m) ns) /\
    origin q = map (before s) (mdims m) /\ extent q = ns.

Section C100.
  Context {A : Type} (zero one wrong : A) (Float : dtype).

  Lemma allocate_made s b (fill : list Z -> A) m ns : sizes_ok s -> map (points s) (mdims m) = map Some ns ->
    exists axs q, Forall ok3 axs /\ allocate Float s b fill (mdims m) (munits m) (mdtype m) true = Some q /\
      q = Quantity (Arr (map n3 axs) fill (mdtype m)) (mdims m) (munits m) (map o3 axs) (map e3 axs) (n_halo s) b [] /\
      as_declared s b m q /\ length axs = length (mdims m).
  Proof.
    intros Z K. destruct (axes_of s (mdims m) ns Z K) as (axs & F & O & E & S & M & O' & N).
    assert (L : length (mdims m) = length axs) by (rewrite (points_length _ _ _ K), <- M, map_length; reflexivity).
    exists axs. eexists. split; [exact F|]. split; [apply (allocate_is Float s b fill _ _ _ true ns axs F O E S M L); left; reflexivity|].
    split; [reflexivity|]. split; [|congruence]. unfold as_declared. cbn [dims units backend data dt shape origin extent].
    do 4 (split; [reflexivity|]). exists ns. split; [exact K|]. split; [exact N|]. split; [exact O'|exact M].
  Qed.

  (** the memory of a Local *)
  Lemma local_is b (fill : list Z -> A) d ds u axs nh : Forall ok3 axs -> axs <> [] -> length axs = length ds ->
    forall allow, precision_ok Float d allow ->
    exists r, local wrong Float (Quantity (Arr (map n3 axs) fill d) ds u (map o3 axs) (map e3 axs) nh b []) allow =
        Some (Quantity r ds u (map o3 axs) (map e3 axs) 0 b []) /\ shape r = map n3 axs /\ dt r = d /\
      forall i, within (map n3 axs) i -> elt r i = wrong.
  Proof.
    intros F N L allow P. unfold local, whole. cbn [data shape]. rewrite resolve_colon; [|destruct axs; [now destruct N|discriminate]|apply sizes_pos', F].
    cbn [bind]. rewrite whole_axes by exact F.
    destruct (assign_scalar (Arr (map n3 axs) fill d) _ wrong d (whole_ok axs F)) as (r & E & Rs & Rd & Ri). cbn [dt]. rewrite E. cbn [bind].
    exists r. cbn [shape dt dims units backend origin extent] in *. unfold new_quantity. rewrite Rd, Rs. rewrite precision_test by exact P.
    rewrite !map_length, L, Nat.eqb_refl. cbn [andb]. split; [reflexivity|]. split; [reflexivity|]. split; [reflexivity|].
    intros i W. rewrite !map_map in Ri. cbn [e3 o3] in Ri. rewrite <- (Ri i W). f_equal. symmetry. apply plus_zero.
    rewrite (within_length _ _ W). apply map_length.
  Qed.

  (** what [init] gives for a field *)
  Definition given_to (s : sizer) (b : string) (fill : list Z -> A) (k : kind) (m : meta) (q : quantity A) (l : bool) : Prop :=
    as_declared s b m q /\
    match k with
    | KLocal => l = true /\ nhalo q = 0 /\ forall i, within (shape (data q)) i -> elt (data q) i = wrong
    | _ => l = false /\ nhalo q = n_halo s /\ forall i, elt (data q) i = fill i
    end.

  Lemma init_all s b fill : sizes_ok s -> forall c, complete s c ->
    exists t, init wrong Float s b fill c = Some t /\
      (forall p k m, declared c p = Some (k, m) -> exists q l, held t p = Some (q, l) /\ given_to s b fill k m q l) /\
      (forall p q l, held t p = Some (q, l) -> exists k m, declared c p = Some (k, m)).
  Proof.
    intros Z. apply (cls_mut
      (fun c => complete s c -> exists t, init wrong Float s b fill c = Some t /\
        (forall p k m, declared c p = Some (k, m) -> exists q l, held t p = Some (q, l) /\ given_to s b fill k m q l) /\
        (forall p q l, held t p = Some (q, l) -> exists k m, declared c p = Some (k, m)))
      (fun ct => match ct with CState c1 => complete s c1 -> exists t, init wrong Float s b fill c1 = Some t /\
        (forall p k m, declared c1 p = Some (k, m) -> exists q l, held t p = Some (q, l) /\ given_to s b fill k m q l) /\
        (forall p q l, held t p = Some (q, l) -> exists k m, declared c1 p = Some (k, m)) | _ => True end)).
    - intros _. exists TNil. split; [reflexivity|]. split; intros p; [intros k m X|intros q l X]; destruct p; discriminate.
    - intros n ct Hct c IH. cbn [complete]. intros [C1 C2]. destruct (IH C2) as (t & Et & D & D'). cbn [init]. destruct ct as [k [m|]|c1|]; try contradiction.
      + destruct C1 as [Nm [ns K]]. destruct (allocate_made s b fill m ns Z K) as (axs & q & F & E & Eq & Dq & L). rewrite E. cbn [bind].
        assert (X : exists q' l, (match k with KLocal => do q' <- local wrong Float q true; Some (NQ q' true) | _ => Some (NQ q false) end = Some (NQ q' l)) /\ given_to s b fill k m q' l).
        { destruct k; [exists q, false|exists q, false|].
          1,2: split; [reflexivity|]; split; [exact Dq|]; subst q; cbn; auto.
          destruct (local_is b fill (mdtype m) (mdims m) (munits m) axs (n_halo s) F) with (allow := true) as (r & Er & Rs & Rd & Ri).
          { intros ->. cbn in L. destruct (mdims m); [now destruct Nm|discriminate]. }
          { exact L. }
          { left. reflexivity. }
          rewrite Eq, Er. eexists. exists true. split; [reflexivity|]. split.
          - subst q. unfold as_declared in Dq |- *. cbn [dims units backend data dt shape origin extent] in Dq |- *. rewrite Rd, Rs. exact Dq.
          - cbn [data]. rewrite Rs. auto. }
        destruct X as (q' & l & -> & G). cbn [bind]. rewrite Et. cbn [bind]. eexists. split; [reflexivity|]. split.
        * intros p k' m' X. destruct p as [|a p]; [discriminate|]. cbn [declared held] in *. destruct (String.eqb_spec a n) as [->|N].
          -- destruct p; [|discriminate]. injection X as <- <-. eauto.
          -- apply D. exact X.
        * intros p q1 l1 X. destruct p as [|a p]; [discriminate|]. cbn [declared held] in *. destruct (String.eqb_spec a n) as [->|N].
          -- destruct p; [|discriminate]. eauto.
          -- eapply D'. exact X.
      + destruct (Hct C1) as (t1 & E1 & D1 & D1'). rewrite E1. cbn [bind]. rewrite Et. cbn [bind]. eexists. split; [reflexivity|]. split.
        * intros p k' m' X. destruct p as [|a p]; [discriminate|]. cbn [declared held] in *. destruct (String.eqb_spec a n) as [->|N]; [|apply D; exact X].
          apply D1. exact X.
        * intros p q1 l1 X. destruct p as [|a p]; [discriminate|]. cbn [declared held] in *. destruct (String.eqb_spec a n) as [->|N]; [|eapply D'; exact X].
          eapply D1'. exact X.
    - intros k [m|]; exact I.
    - intros c H. exact H.
    - exact I.
  Qed.

  Lemma has_local_declared c p k m : has KLocal c = false -> declared c p = Some (k, m) -> k <> KLocal.
  Proof.
    revert c p. apply (cls_mut
      (fun c => forall p, has KLocal c = false -> declared c p = Some (k, m) -> k <> KLocal)
      (fun ct => match ct with CState c1 => forall p, has KLocal c1 = false -> declared c1 p = Some (k, m) -> k <> KLocal | _ => True end)).
    - intros p _ X. destruct p; discriminate.
    - intros n ct Hct c IH p Hl X. cbn [has] in Hl. apply Bool.orb_false_iff in Hl. destruct Hl as [H1 H2]. destruct p as [|a p]; [discriminate|].
      cbn [declared] in X. destruct (a =? n)%string; [|exact (IH _ H2 X)]. destruct ct as [k' [m'|]|c1|]; try discriminate.
      + destruct p; [|discriminate]. injection X as -> ->. intros ->. discriminate.
      + exact (Hct _ H1 X).
    - intros k' m'. exact I.
    - intros c H. exact H.
    - exact I.
  Qed.

  (** *** State.zeros, ones and empty *)
  Theorem C100_zeros_ones : forall s b dd c, sizes_ok (with_dims s dd) -> complete (with_dims s dd) c -> has KLocal c = false ->
    forall value x, (x = state_zeros zero wrong Float s b dd c /\ value = zero) \/ (x = state_ones one wrong Float s b dd c /\ value = one) ->
    exists t, x = Some t /\ forall p,
      (forall k m, declared c p = Some (k, m) -> exists q, held t p = Some (q, false) /\ as_declared (with_dims s dd) b m q /\
         nhalo q = n_halo s /\ forall i, elt (data q) i = value) /\
      (declared c p = None -> held t p = None).
  Proof.
    intros s b dd c Z C H value x X. assert (Y : x = init wrong Float (with_dims s dd) b (fun _ => value) c).
    { destruct X as [[-> ->]|[-> ->]]; unfold state_zeros, state_ones, allocated; now rewrite H. }
    subst x. destruct (init_all (with_dims s dd) b (fun _ => value) Z c C) as (t & E & D & D'). exists t. split; [exact E|]. intros p. split.
    - intros k m Dp. destruct (D p k m Dp) as (q & l & Hq & G1 & G2). pose proof (has_local_declared c p k m H Dp) as N.
      exists q. destruct k; try contradiction; destruct G2 as (-> & G2 & G3); auto.
    - intros Dp. destruct (held t p) as [[q l]|] eqn:Hq; [|reflexivity]. destruct (D' p q l Hq) as (k & m & Dp'). congruence.
  Qed.

  (** *** State.full: the compute domains hold the value *)
  Lemma fill_is (q : quantity A) x axs : Forall ok3 axs -> axs <> [] -> shape (data q) = map n3 axs -> origin q = map o3 axs -> extent q = map e3 axs ->
    exists d, fill_q q x = Some (Quantity d (dims q) (units q) (origin q) (extent q) (nhalo q) (backend q) (attrs q)) /\
      shape d = shape (data q) /\ dt d = dt (data q) /\ forall i, within (extent q) i -> elt d (plus (origin q) i) = x.
  Proof.
    intros F N S O E. unfold fill_q, compute. rewrite S, O, E, view_colon by assumption. cbn [bind]. unfold setitem.
    destruct (assign_scalar (data q) axs x (dt (data q)) F) as (r & -> & Rs & Rd & Ri). cbn [bind]. rewrite O, E. exists r. rewrite Rs, Rd. auto.
  Qed.
  Lemma declared_axes s b m (q : quantity A) : sizes_ok s -> as_declared s b m q ->
    exists axs, Forall ok3 axs /\ shape (data q) = map n3 axs /\ origin q = map o3 axs /\ extent q = map e3 axs /\ length axs = length (mdims m).
  Proof.
    intros Z (_ & _ & _ & _ & ns & K & S & O & E). destruct (axes_of s (mdims m) ns Z K) as (axs & F & O1 & E1 & S1 & M & O' & N).
    exists axs. split; [exact F|]. split; [congruence|]. split; [congruence|]. split; [congruence|]. rewrite (points_length _ _ _ K), <- M, map_length. reflexivity.
  Qed.


  Scheme tree_mut := Induction for tree Sort Prop with node_mut := Induction for node Sort Prop.
  (** all quantities of a state have the right axes *)
  Fixpoint sound (s : sizer) (b : string) (t : tree A) : Prop :=
    match t with
    | TNil => True
    | TCons _ x r => match x with NQ q _ => exists m, as_declared s b m q /\ mdims m <> [] | NState u => sound s b u end /\ sound s b r
    end.
  Lemma init_sound s b fill : sizes_ok s -> forall c t, complete s c -> init wrong Float s b fill c = Some t -> sound s b t.
  Proof.
    intros Z. apply (cls_mut
      (fun c => forall t, complete s c -> init wrong Float s b fill c = Some t -> sound s b t)
      (fun ct => match ct with CState c1 => forall t, complete s c1 -> init wrong Float s b fill c1 = Some t -> sound s b t | _ => True end)).
    - intros t _ [= <-]. exact I.
    - intros n ct Hct c IH t [C1 C2] E.
      destruct (init_all s b fill Z c C2) as (tc & Ec & _). destruct ct as [k [m|]|c1|]; try contradiction.
      + (* through a class of one field *)
        assert (C0 : complete s (CCons n (CQ k (Some m)) CNil)) by (split; [exact C1|exact I]).
        destruct (init_all s b fill Z _ C0) as (t0 & E0 & D0 & _).
        destruct (D0 [n] k m) as (q & l & Hq & G & _). { cbn. now rewrite String.eqb_refl. }
        cbn [init] in E, E0. match type of E with bind ?e _ = _ => destruct e as [x|] eqn:Ex; [|discriminate] end.
        cbn [bind] in E, E0. rewrite Ec in E. cbn [bind] in E. injection E as <-. injection E0 as <-.
        cbn [held] in Hq. rewrite String.eqb_refl in Hq. cbn [sound]. split; [|exact (IH _ C2 Ec)].
        destruct x as [q0 l0|u]; [|destruct u; discriminate]. injection Hq as -> ->. exists m. split; [exact G|apply C1].
      + cbn [init] in E. destruct (init wrong Float s b fill c1) as [t1|] eqn:E1; [|discriminate]. cbn [bind] in E. rewrite Ec in E. cbn [bind] in E.
        injection E as <-. cbn [sound]. split; [exact (Hct _ C1 eq_refl)|exact (IH _ C2 Ec)].
    - intros k m. exact I.
    - intros c H. exact H.
    - exact I.
  Qed.
  (** [q'] is [q] with [x] in its compute domain *)
  Definition filled (x : A) (q q' : quantity A) : Prop :=
    dims q' = dims q /\ units q' = units q /\ backend q' = backend q /\ nhalo q' = nhalo q /\ origin q' = origin q /\ extent q' = extent q /\
    shape (data q') = shape (data q) /\ dt (data q') = dt (data q) /\
    forall i, within (extent q) i -> elt (data q') (plus (origin q) i) = x.
  Lemma fill_all s b x : sizes_ok s -> forall t : tree A, sound s b t ->
    exists t', fill_tree t x = Some t' /\
      forall p, match held t p with Some (q, l) => exists q', held t' p = Some (q', l) /\ filled x q q' | None => held t' p = None end.
  Proof.
    intros Z. apply (tree_mut A
      (fun t => sound s b t -> exists t', fill_tree t x = Some t' /\
         forall p, match held t p with Some (q, l) => exists q', held t' p = Some (q', l) /\ filled x q q' | None => held t' p = None end)
      (fun y => match y with NState t => sound s b t -> exists t', fill_tree t x = Some t' /\
         forall p, match held t p with Some (q, l) => exists q', held t' p = Some (q', l) /\ filled x q q' | None => held t' p = None end | _ => True end)).
    - intros _. exists TNil. split; [reflexivity|]. intros p. destruct p; reflexivity.
    - intros n y Hy r IH [S1 S2]. destruct (IH S2) as (r' & Er & Hr). cbn [fill_tree]. destruct y as [q l|u].
      + destruct S1 as (m & D & Nm). destruct (declared_axes s b m q Z D) as (axs & F & Sh & O & E & L).
        destruct (fill_is q x axs F) as (d & Ed & Sd & Td & Vd); try assumption.
        { intros ->. cbn in L. destruct (mdims m); [now destruct Nm|discriminate]. }
        rewrite Ed. cbn [bind]. rewrite Er. cbn [bind]. eexists. split; [reflexivity|]. intros p. destruct p as [|a p]; [reflexivity|]. cbn [held].
        destruct (a =? n)%string; [|apply Hr]. destruct p; [|reflexivity]. eexists. split; [reflexivity|].
        unfold filled. cbn [dims units backend nhalo origin extent data]. do 6 (split; [reflexivity|]). split; [exact Sd|]. split; [exact Td|exact Vd].
      + destruct (Hy S1) as (u' & Eu & Hu). rewrite Eu. cbn [bind]. rewrite Er. cbn [bind]. eexists. split; [reflexivity|]. intros p.
        destruct p as [|a p]; [reflexivity|]. cbn [held]. destruct (a =? n)%string; [|apply Hr]. apply Hu.
    - intros q l. exact I.
    - intros t H. exact H.
  Qed.

  Theorem C100_full_partial : forall s b dd junk c value, sizes_ok (with_dims s dd) -> complete (with_dims s dd) c -> has KLocal c = false ->
    exists t, state_full wrong Float s b dd junk value c = Some t /\ forall p,
      (forall k m, declared c p = Some (k, m) -> exists q, held t p = Some (q, false) /\ as_declared (with_dims s dd) b m q /\
         nhalo q = n_halo s /\ forall i, within (extent q) i -> elt (data q) (plus (origin q) i) = value) /\
      (declared c p = None -> held t p = None).
  Proof.
    intros s b dd junk c value Z C H. unfold state_full, state_empty, allocated. rewrite H.
    destruct (init_all (with_dims s dd) b junk Z c C) as (t & E & D & D'). rewrite E. cbn [bind].
    destruct (fill_all (with_dims s dd) b value Z t (init_sound _ _ _ Z c t C E)) as (t' & E' & F). exists t'. split; [exact E'|]. intros p. specialize (F p). split.
    - intros k m Dp. destruct (D p k m Dp) as (q & l & Hq & G1 & G2). rewrite Hq in F. destruct F as (q' & Hq' & F1 & F2 & F3 & F4 & F5 & F6 & F7 & F8 & F9).
      pose proof (has_local_declared c p k m H Dp) as N. exists q'. rewrite Hq'.
      assert (X : l = false /\ nhalo q = n_halo s) by (destruct k; try contradiction; destruct G2 as (? & ? & _); auto). destruct X as [-> X].
      split; [reflexivity|]. split; [|split; [congruence|rewrite F6, F5; exact F9]].
      unfold as_declared in *. rewrite F1, F2, F3, F5, F6, F7, F8. exact G1.
    - intros Dp. destruct (held t p) as [[q l]|] eqn:Hq; [|exact F]. destruct (D' p q l Hq) as (k & m & Dp'). congruence.
  Qed.

  (** *** Local memory *)
  Theorem C100_make_local_partial : forall s b m ns allow, sizes_ok s -> map (points s) (mdims m) = map Some ns -> mdims m <> [] ->
    precision_ok Float (mdtype m) allow ->
    exists q, make_local zero wrong Float s b (mdims m) (mdtype m) (munits m) allow = Some q /\ as_declared s b m q /\
      forall i, within (shape (data q)) i -> elt (data q) i = wrong.
  Proof.
    intros s b m ns allow Z K Nm P. unfold make_local, zeros. destruct (axes_of s (mdims m) ns Z K) as (axs & F & O & E & S & M & O' & N).
    assert (L : length (mdims m) = length axs) by (rewrite (points_length _ _ _ K), <- M, map_length; reflexivity).
    rewrite (allocate_is Float s b (fun _ => zero) _ _ _ allow ns axs F O E S M L P). cbn [bind].
    destruct (local_is b (fun _ => zero) (mdtype m) (mdims m) (munits m) axs (n_halo s) F) with (allow := allow) as (r & Er & Rs & Rd & Ri).
    { intros ->. cbn in L. destruct (mdims m); [now destruct Nm|discriminate]. } { congruence. } { exact P. }
    rewrite Er. eexists. split; [reflexivity|]. split; [|cbn [data]; rewrite Rs; exact Ri].
    unfold as_declared. cbn [dims units backend data origin extent]. rewrite Rs, Rd. do 4 (split; [reflexivity|]). exists ns. auto.
  Qed.
  Theorem C100_locals_partial : forall s b dd junk c, sizes_ok (with_dims s dd) -> complete (with_dims s dd) c -> has KQuantity c = false ->
    exists t, make_locals wrong Float s b dd junk c = Some t /\ forall p,
      (forall m, declared c p = Some (KLocal, m) -> exists q, held t p = Some (q, true) /\ as_declared (with_dims s dd) b m q /\
         forall i, within (shape (data q)) i -> elt (data q) i = wrong) /\
      (declared c p = None -> held t p = None).
  Proof.
    intros s b dd junk c Z C H. unfold make_locals. rewrite H. destruct (init_all (with_dims s dd) b junk Z c C) as (t & E & D & D'). exists t. split; [exact E|].
    intros p. split.
    - intros m Dp. destruct (D p _ m Dp) as (q & l & Hq & G1 & (-> & _ & G2)). eauto.
    - intros Dp. destruct (held t p) as [[q l]|] eqn:Hq; [|reflexivity]. destruct (D' p q l Hq) as (k & m & Dp'). congruence.
  Qed.
  (** classes of the other sort are refused *)
  Theorem C100_sort_refused : forall s b dd (junk : list Z -> A) value c, (exists p m, declared c p = Some (KLocal, m)) ->
    state_zeros zero wrong Float s b dd c = None /\ state_ones one wrong Float s b dd c = None /\ state_empty wrong Float s b dd junk c = None /\
    state_full wrong Float s b dd junk value c = None.
  Proof.
    intros s b dd junk value c (p & m & Dp). destruct (has KLocal c) eqn:Hl; [|now destruct (has_local_declared c p _ m Hl Dp)].
    unfold state_zeros, state_ones, state_full, state_empty, allocated. rewrite Hl. auto.
  Qed.

  (** *** make_as_state *)
  Lemma retype_back c : has KQuantity c = false -> retype KQuantity KLocal (retype KLocal KQuantity c) = c.
  Proof.
    revert c. apply (cls_mut
      (fun c => has KQuantity c = false -> retype KQuantity KLocal (retype KLocal KQuantity c) = c)
      (fun ct => match ct with CState c1 => has KQuantity c1 = false -> retype KQuantity KLocal (retype KLocal KQuantity c1) = c1 | _ => True end)).
    - reflexivity.
    - intros n ct Hct c IH Hq. cbn [has] in Hq. apply Bool.orb_false_iff in Hq. destruct Hq as [H1 H2]. cbn [retype]. rewrite (IH H2).
      destruct ct as [k m|c1|]; [|rewrite (Hct H1); reflexivity|reflexivity]. destruct k; [discriminate|reflexivity|reflexivity].
    - intros k m. exact I.
    - intros c H. exact H.
    - exact I.
  Qed.
  Lemma retype_declared c p m : declared c p = Some (KLocal, m) -> declared (retype KLocal KQuantity c) p = Some (KQuantity, m).
  Proof.
    revert c p. apply (cls_mut
      (fun c => forall p, declared c p = Some (KLocal, m) -> declared (retype KLocal KQuantity c) p = Some (KQuantity, m))
      (fun ct => match ct with CState c1 => forall p, declared c1 p = Some (KLocal, m) -> declared (retype KLocal KQuantity c1) p = Some (KQuantity, m) | _ => True end)).
    - intros p X. destruct p; discriminate.
    - intros n ct Hct c IH p X. destruct p as [|a p]; [discriminate|]. cbn [retype declared] in *. destruct (a =? n)%string; [|auto].
      destruct ct as [k [m'|]|c1|]; try discriminate; [|auto]. destruct p; [|discriminate]. injection X as -> ->. reflexivity.
    - intros k m'. exact I.
    - intros c H. exact H.
    - exact I.
  Qed.
  Lemma retype_complete s c : complete s c -> complete s (retype KLocal KQuantity c).
  Proof.
    revert c. apply (cls_mut (fun c => complete s c -> complete s (retype KLocal KQuantity c))
      (fun ct => match ct with CState c1 => complete s c1 -> complete s (retype KLocal KQuantity c1) | _ => True end)).
    - auto.
    - intros n ct Hct c IH [C1 C2]. cbn [retype complete]. split; [|auto]. destruct ct as [k [m|]|c1|]; auto.
    - intros k m. exact I.
    - auto.
    - exact I.
  Qed.
  Theorem C100_as_state_partial : forall s b dd junk c, sizes_ok (with_dims s dd) -> complete (with_dims s dd) c -> has KQuantity c = false ->
    exists t, make_as_state wrong Float s b dd junk c = (c, Some t) /\ forall p m,
      declared c p = Some (KLocal, m) -> exists q, held t p = Some (q, false) /\ as_declared (with_dims s dd) b m q /\ nhalo q = n_halo s.
  Proof.
    intros s b dd junk c Z C H. unfold make_as_state. rewrite H.
    destruct (init_all (with_dims s dd) b junk Z _ (retype_complete _ c C)) as (t & E & D & _). rewrite E, retype_back by exact H. exists t. split; [reflexivity|].
    intros p m Dp. destruct (D p _ m (retype_declared c p m Dp)) as (q & l & Hq & G1 & (-> & G2 & _)). eauto.
  Qed.
End C100.

(** a case: two levels, a data dimension given at allocation *)
Definition C100_m1 : meta := Meta [H AI false; H AJ true] "K" Float64.
Definition C100_m2 : meta := Meta [Data "tracers"; H AV false] "" (Other "int64").
Definition C100_class (k : kind) : cls :=
  CCons "a" (CQ k (Some C100_m1)) (CCons "inner" (CState (CCons "b" (CQ k (Some C100_m2)) CNil)) CNil).
Example C100_case : sizes_ok (with_dims C97_sizer [("tracers"%string, 5)]) /\
  complete (with_dims C97_sizer [("tracers"%string, 5)]) (C100_class KLocal) /\ has KQuantity (C100_class KLocal) = false /\
  complete (with_dims C97_sizer [("tracers"%string, 5)]) (C100_class KQuantity) /\ has KLocal (C100_class KQuantity) = false /\
  declared (C100_class KLocal) ["inner"; "b"]%string = Some (KLocal, C100_m2) /\ precision_ok Float64 (mdtype C100_m1) false.
Proof.
  split; [exact C97_sizes|]. split; [|split; [reflexivity|]; split; [|split; [reflexivity|]; split; [reflexivity|right; left; reflexivity]]].
  all: cbn; split; [split; [discriminate|exists [4; 4]; reflexivity]|]; split; [|exact I]; split; [|exact I]; split; [discriminate|exists [5; 2]; reflexivity].
Qed.

(** State.full leaves the halo as it was *)
Theorem C100_full_refuted : exists t (q : quantity Z),
  state_full 123456789 Float64 C97_sizer "st:numpy:cpu:IJK" [("tracers"%string, 5)] (fun _ => 666) 7 (C100_class KQuantity) = Some t /\
  held t ["a"%string] = Some (q, false) /\ within (shape (data q)) [0; 0] /\ elt (data q) [0; 0] = 666 /\ elt (data q) [2; 2] = 7.
Proof. eexists. eexists. split; [vm_compute; reflexivity|]. split; [vm_compute; reflexivity|]. split; [repeat constructor; lia|]. split; vm_compute; reflexivity. Qed.

(** a Local of a factory with two halo points allows no halo at all *)
Theorem C100_local_halo_refuted : exists q : quantity Z,
  make_local 0 123456789 Float64 C97_sizer "st:numpy:cpu:IJK" [H AI false; H AJ false] Float64 "K" false = Some q /\
  n_halo C97_sizer = 2 /\ shape (data q) = [9; 8] /\ extent q = [4; 3] /\ nhalo q = 0.
Proof. eexists. repeat split; vm_compute; reflexivity. Qed.

(** after a failed make_as_state the class holds no locals any more: make_locals, which worked before, and make_as_state are refused *)
Theorem C100_as_state_refuted : exists c' (junk : list Z -> Z) s b good bad t,
  make_locals 123456789 Float64 s b good junk (C100_class KLocal) = Some t /\
  make_as_state 123456789 Float64 s b bad junk (C100_class KLocal) = (c', None) /\ c' <> C100_class KLocal /\
  forall s b dd junk, make_locals 123456789 Float64 s b dd junk c' = None /\ make_as_state 123456789 Float64 s b dd junk c' = (c', None).
Proof.
  exists (C100_class KQuantity), (fun _ => 666), C97_sizer, "st:numpy:cpu:IJK"%string, [("tracers"%string, 5)], []. eexists.
  split; [vm_compute; reflexivity|]. split; [vm_compute; reflexivity|]. split; [discriminate|]. intros. split; reflexivity.
Qed.

Print Assumptions C100_zeros_ones.
Print Assumptions C100_full_partial.
Print Assumptions C100_make_local_partial.
Print Assumptions C100_locals_partial.
Print Assumptions C100_sort_refused.
Print Assumptions C100_as_state_partial.
Print Assumptions C100_full_refuted.
Print Assumptions C100_local_halo_refuted.
Print Assumptions C100_as_state_refuted.
