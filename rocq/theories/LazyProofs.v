(** Lemmas about LazyModel: an invariant of the attributes that every property keeps. *)
From Verif Require Import LazyModel.

(** ** Programs up to the continuations of their collective operations *)
Inductive eqp {V A} : prog V A -> prog V A -> Prop :=
| eqRet a : eqp (Ret a) (Ret a)
| eqFail : eqp Fail Fail
| eqXch c d k k' : (forall v, eqp (k v) (k' v)) -> eqp (Xch c d k) (Xch c d k').

Lemma eqp_refl {V A} (p : prog V A) : eqp p p.
Proof. induction p; constructor; auto. Qed.

Lemma eqp_sym {V A} (p q : prog V A) : eqp p q -> eqp q p.
Proof. induction 1; constructor; auto. Qed.

Lemma pbind_assoc {V A B C} (p : prog V A) (f : A -> prog V B) (g : B -> prog V C) :
  eqp (pbind p (fun x => pbind (f x) g)) (pbind (pbind p f) g).
Proof. induction p; cbn; [apply eqp_refl|constructor|constructor; auto]. Qed.

Lemma pbind_eqp {V A B} (p q : prog V A) (f g : A -> prog V B) :
  eqp p q -> (forall a, eqp (f a) (g a)) -> eqp (pbind p f) (pbind q g).
Proof. induction 1; cbn; intros; auto; constructor; auto. Qed.

Section Runs.
  Context {V Rank : Type} (net : call -> (Rank -> list V) -> Rank -> list V).

  Lemma runs_eqp {A} (p q : Rank -> prog V A) n out :
    runs net p n out -> (forall r, eqp (p r) (q r)) -> runs net q n out.
  Proof.
    intros H. revert q. induction H as [p out E|p c d k n out E H IH]; intros q Q.
    - apply Done. intros r. specialize (Q r). rewrite (E r) in Q. inversion Q. reflexivity.
    - apply Step with (c := c) (d := d) (k := fun r => match q r with Xch _ _ k => k | _ => fun _ => Fail end).
      + intros r. specialize (Q r). rewrite (E r) in Q. inversion Q. reflexivity.
      + apply IH. intros r. specialize (Q r). rewrite (E r) in Q. inversion Q; subst. auto.
  Qed.

  Lemma runs_ext {A} (p q : Rank -> prog V A) n out : runs net p n out -> (forall r, p r = q r) -> runs net q n out.
  Proof. intros H E. apply (runs_eqp p); [exact H|]. intros r. rewrite E. apply eqp_refl. Qed.

  Lemma runs_out {A} (p : Rank -> prog V A) n out out' : runs net p n out -> (forall r, out r = out' r) -> runs net p n out'.
  Proof.
    intros H. revert out'. induction H as [p out E|p c d k n out E H IH]; intros o' O.
    - apply Done. intros r. rewrite (E r), O. reflexivity.
    - apply Step with (c := c) (d := d) (k := k); auto.
  Qed.

  Lemma runs_bind {A B} (p : Rank -> prog V A) n a (q : Rank -> A -> prog V B) m b :
    runs net p n a -> runs net (fun r => q r (a r)) m b -> runs net (fun r => pbind (p r) (q r)) (n + m) b.
  Proof.
    intros H. revert q m b. induction H as [p out E|p c d k n out E H IH]; intros q m b Q.
    - apply (runs_ext (fun r => q r (out r))); [exact Q|]. intros r. rewrite (E r). reflexivity.
    - apply Step with (c := c) (d := d) (k := fun r v => pbind (k r v) (q r)).
      + intros r. rewrite (E r). reflexivity.
      + apply IH. exact Q.
  Qed.

  (** what a collective operation brings depends only on what the ranks hand in *)
  Hypothesis net_ext : forall c d d' r, (forall r', d r' = d' r') -> net c d r = net c d' r.

  (** there is at most one outcome *)
  Lemma runs_det_eqp {A} (p : Rank -> prog V A) n a :
    runs net p n a -> forall q n' a', runs net q n' a' -> (forall r, eqp (p r) (q r)) -> forall r, n = n' /\ a r = a' r.
  Proof.
    intros H. induction H as [p out E|p c d k m out E H IH]; intros q n' a' H' Q r;
      inversion H' as [p1 o1 E1|p1 c1 d1 k1 m1 o1 E1 H1]; subst.
    - specialize (Q r). rewrite E, E1 in Q. inversion Q. auto.
    - specialize (Q r). rewrite E, E1 in Q. inversion Q.
    - specialize (Q r). rewrite E, E1 in Q. inversion Q.
    - assert (Dd : forall x, c = c1 /\ d x = d1 x /\ forall v, eqp (k x v) (k1 x v))
        by (intros x; pose proof (Q x) as Qx; rewrite (E x), (E1 x) in Qx; inversion Qx; auto).
      destruct (Dd r) as [-> _].
      destruct (IH _ _ _ H1) with (r := r) as [-> ?].
      + intros x. rewrite (net_ext c1 d d1 x) by (intros y; apply Dd). apply Dd.
      + auto.
  Qed.
  Lemma runs_det {A} (p : Rank -> prog V A) n a n' a' : runs net p n a -> runs net p n' a' -> forall r, n = n' /\ a r = a' r.
  Proof. intros H H'. apply (runs_det_eqp p n a H p n' a' H'). intros r. apply eqp_refl. Qed.
End Runs.

(** ** Assignments *)
Definition setl {V} (l : list (string * value V)) (s : st V) : st V :=
  fold_left (fun s av => St (fun b => if String.eqb b (fst av) then Some (Obj (next s) (snd av)) else attr s b) (S (next s))) l s.

Lemma puts_eq {V} (l : list (string * value V)) s : puts l s = Ret (tt, setl l s).
Proof. revert s. induction l as [|[a v] l IH]; intros s; [reflexivity|]. cbn. unfold mbind. cbn. apply IH. Qed.

Lemma setl_app {V} (l l' : list (string * value V)) s : setl (l ++ l')%list s = setl l' (setl l s).
Proof. unfold setl. apply fold_left_app. Qed.

Lemma setl_other {V} (l : list (string * value V)) s a : ~ In a (map fst l) -> attr (setl l s) a = attr s a.
Proof.
  revert s. induction l as [|[b v] l IH]; intros s N; [reflexivity|]. cbn [setl fold_left].
  change (attr (setl l (St (fun b0 => if String.eqb b0 (fst (b, v)) then Some (Obj (next s) (snd (b, v))) else attr s b0) (S (next s)))) a = attr s a).
  rewrite IH by (intros I; apply N; right; exact I). cbn.
  destruct (String.eqb_spec a b); [|reflexivity]. subst. contradict N. left. reflexivity.
Qed.

Lemma setl_in {V} (l : list (string * value V)) s a :
  In a (map fst l) -> exists o, attr (setl l s) a = Some o /\ In (a, what o) l.
Proof.
  revert s. induction l as [|[b v] l IH]; intros s I; [destruct I|]. cbn [setl fold_left].
  change (exists o, attr (setl l (St (fun b0 => if String.eqb b0 (fst (b, v)) then Some (Obj (next s) (snd (b, v))) else attr s b0) (S (next s)))) a = Some o /\ In (a, what o) ((b, v) :: l)).
  destruct (in_dec string_dec a (map fst l)) as [J|J].
  - destruct (IH (St (fun b0 => if String.eqb b0 (fst (b, v)) then Some (Obj (next s) (snd (b, v))) else attr s b0) (S (next s))) J) as (o & E & K).
    exists o. split; [exact E|right; exact K].
  - rewrite setl_other by exact J. destruct I as [I|I]; [|contradiction]. cbn in I. subst b. cbn. rewrite String.eqb_refl.
    exists (Obj (next s) v). split; [reflexivity|left; reflexivity].
Qed.

(** ** The attributes and the groups in which they are computed *)
Inductive grp := G0 | Gxyz | Gaxyz | Gdx | Gdxa | Gdxc | Garea | Gareac | Gec | Gew | Ges | Gee | Gtrig | Gl2c | Gdivg | Gv | Gz | Ga
  | Gedge | Gvect | G2d | Gda | Ggrid | Gagrid | Grarea | Grareac | Grdx | Grdy | Grdxa | Grdya | Grdxc | Grdyc.
Lemma grp_dec (a b : grp) : {a = b} + {a <> b}.
Proof. decide equality. Defined.

Definition sgs (n : string) : list string := map (fun i => (n ++ digit (S i))%string) (seq 0 9).
Definition groups : list (grp * list string) :=
  [(G0, ["_grid_64"; "_agrid_64"; "_ak"; "_bk"]); (Gxyz, ["_dgrid_xyz_64"]); (Gaxyz, ["_agrid_xyz_64"]);
   (Gdx, ["_dx_64"; "_dy_64"; "_dx"; "_dy"]); (Gdxa, ["_dx_agrid"; "_dy_agrid"]);
   (Gdxc, ["_dxc_64"; "_dyc_64"; "_dx_center"; "_dy_center"]); (Garea, ["_area"; "_area64"]); (Gareac, ["_area_c"]);
   (Gec, ["_ec1_64"; "_ec2_64"; "_ec1"; "_ec2"]); (Gew, ["_ew1"; "_ew2"]); (Ges, ["_es1"; "_es2"]); (Gee, ["_ee1"; "_ee2"]);
   (Gtrig, (sgs "_cos_sg" ++ sgs "_sin_sg" ++ ["_sin_sg5_64"; "_cosa_u"; "_cosa_v"; "_cosa_s"; "_sina_u"; "_sina_u_64"; "_sina_v";
            "_sina_v_64"; "_rsin_u"; "_rsin_v"; "_rsina"; "_rsin2"; "_cosa"; "_sina"])%list);
   (Gl2c, ["_l2c_v"; "_l2c_u"]); (Gdivg, ["_del6_u"; "_del6_v"; "_divg_u"; "_divg_v"]);
   (Gv, ["_vlon_64"; "_vlat_64"; "_vlon"; "_vlat"]);
   (Gz, ["_z11_64"; "_z12_64"; "_z21_64"; "_z22_64"; "_z11"; "_z12"; "_z21"; "_z22"]); (Ga, ["_a11"; "_a12"; "_a21"; "_a22"]);
   (Gedge, ["_edge_w"; "_edge_e"; "_edge_s"; "_edge_n"]);
   (Gvect, ["_edge_vect_w"; "_edge_vect_e"; "_edge_vect_s"; "_edge_vect_n"]); (G2d, ["_edge_vect_e_2d"; "_edge_vect_w_2d"]);
   (Gda, ["_da_min"; "_da_max"; "_da_min_c"; "_da_max_c"]); (Ggrid, ["_grid"]); (Gagrid, ["_agrid"]);
   (Grarea, ["rarea"]); (Grareac, ["rarea_c"]); (Grdx, ["rdx"]); (Grdy, ["rdy"]); (Grdxa, ["rdxa"]); (Grdya, ["rdya"]);
   (Grdxc, ["rdxc"]); (Grdyc, ["rdyc"])].

Fixpoint group_in (l : list (grp * list string)) (a : string) : option grp :=
  match l with [] => None | (g, names) :: l => if existsb (String.eqb a) names then Some g else group_in l a end.
Definition group (a : string) : option grp := group_in groups a.
Fixpoint names_in (l : list (grp * list string)) (g : grp) : list string :=
  match l with [] => [] | (g', names) :: l => ((if grp_dec g g' then names else []) ++ names_in l g)%list end.

Lemma group_names a g : group a = Some g -> In a (names_in groups g).
Proof.
  unfold group. generalize groups. induction l as [|[g' names] l IH]; cbn; [discriminate|].
  destruct (existsb (String.eqb a) names) eqn:E.
  - intros [= ->]. destruct (grp_dec g g); [|contradiction]. apply in_or_app. left.
    apply existsb_exists in E. destruct E as (x & I & E). apply String.eqb_eq in E. subst. exact I.
  - intros H. apply in_or_app. right. auto.
Qed.

Section Inv.
  Context {V Rank : Type} (net : call -> (Rank -> list V) -> Rank -> list V).
  Hypothesis net_ext : forall c d d' r, (forall r', d r' = d' r') -> net c d r = net c d' r.
  Variable D : string -> Rank -> value V.

  (** exactly the attributes of the groups [done] are set, to the values [D] *)
  Definition Inv (done : list grp) (s : Rank -> st V) : Prop :=
    forall r a, match group a, attr (s r) a with
                | Some g, Some o => In g done /\ what o = D a r
                | Some g, None => ~ In g done
                | None, o => o = None
                end.
  Definition keeps (s s' : Rank -> st V) : Prop := forall r a o, attr (s r) a = Some o -> attr (s' r) a = Some o.

  Lemma Inv_get done s a g r : Inv done s -> group a = Some g -> In g done -> exists o, attr (s r) a = Some o /\ what o = D a r.
  Proof.
    intros H G I. specialize (H r a). rewrite G in H. destruct (attr (s r) a) as [o|]; [|contradiction]. exists o. tauto.
  Qed.
  Lemma Inv_none done s a g r : Inv done s -> group a = Some g -> ~ In g done -> attr (s r) a = None.
  Proof. intros H G I. specialize (H r a). rewrite G in H. destruct (attr (s r) a) as [o|]; tauto. Qed.

  Lemma Inv_set done s g (l : Rank -> list (string * value V)) :
    Inv done s -> ~ In g done ->
    (forall r, map fst (l r) = names_in groups g) ->
    (forall r, Forall (fun av => group (fst av) = Some g /\ snd av = D (fst av) r) (l r)) ->
    Inv (g :: done) (fun r => setl (l r) (s r)) /\ keeps s (fun r => setl (l r) (s r)).
  Proof.
    intros H N Names Vals.
    assert (K : forall r a, ~ In a (map fst (l r)) -> group a <> Some g).
    { intros r a Na G. apply Na. rewrite Names. apply group_names, G. }
    split.
    - intros r a. destruct (in_dec string_dec a (map fst (l r))) as [I|I].
      + destruct (setl_in (l r) (s r) a I) as (o & -> & J).
        pose proof (proj1 (Forall_forall _ _) (Vals r) _ J) as [G E]. cbn [fst snd] in G, E. rewrite G. split; [left; reflexivity|exact E].
      + rewrite setl_other by exact I. specialize (H r a). pose proof (K r a I) as NG.
        destruct (group a) as [g'|], (attr (s r) a); try exact H; cbn; try tauto. intuition congruence.
    - intros r a o E. rewrite setl_other; [exact E|]. intros I.
      pose proof (Names r) as Nr. apply in_map_iff in I. destruct I as ([b v] & <- & J).
      pose proof (proj1 (Forall_forall _ _) (Vals r) _ J) as [G _]. cbn [fst snd] in *.
      pose proof (H r b) as Hb. rewrite G, E in Hb. tauto.
  Qed.

  (** [spec av pre dep gain m post]: from a state with the groups [pre] and none of [av], all ranks running [m] finish; only groups
      of [dep] are computed, those of [gain] are there at the end, no attribute that was set has changed, and the results are as in
      [post]. *)
  Definition spec {A} (av pre dep gain : list grp) (m : Rank -> M V A) (post : Rank -> A -> st V -> Prop) : Prop :=
    forall done s, Inv done s -> incl pre done -> (forall g, In g av -> ~ In g done) ->
    exists n a s' done',
      runs net (fun r => m r (s r)) n (fun r => (a r, s' r)) /\ Inv done' s' /\ incl done done' /\
      (forall g, In g done' -> In g done \/ In g dep) /\ incl gain done' /\ keeps s s' /\ (forall r, post r (a r) (s' r)).

  Lemma keeps_trans s s' s'' : keeps s s' -> keeps s' s'' -> keeps s s''.
  Proof. intros H H' r a o E. apply H', H, E. Qed.
  Lemma keeps_refl s : keeps s s.
  Proof. intros r a o E. exact E. Qed.

  Lemma spec_weak {A} av pre dep gain av' pre' dep' gain' (m : Rank -> M V A) post :
    spec av pre dep gain m post -> incl av av' -> incl pre pre' -> incl dep dep' -> incl gain' (gain ++ pre')%list -> spec av' pre' dep' gain' m post.
  Proof.
    intros S Av Pre Dep Gain done s H P N.
    destruct (S done s H) as (n & a & s' & done' & R & I & Inc & Dp & Gn & K & Q).
    { intros g Hg. apply P, Pre, Hg. }
    { intros g Hg. apply N, Av, Hg. }
    exists n, a, s', done'. split; [exact R|]. split; [exact I|]. split; [exact Inc|]. split.
    { intros g Hg. destruct (Dp g Hg); [left; assumption|right; apply Dep; assumption]. }
    split; [|split; assumption].
    intros g Hg. apply Gain, in_app_or in Hg. destruct Hg as [Hg|Hg]; [apply Gn, Hg|apply Inc, P, Hg].
  Qed.

  Lemma spec_bind {A B} av pre dep dep2 gain gain2 (m : Rank -> M V A) (f : Rank -> A -> M V B) post post2 :
    spec av pre dep gain m post ->
    (forall g, In g av -> ~ In g dep) ->
    (forall a, (forall r, exists s, post r (a r) s) -> spec av (gain ++ pre)%list dep2 gain2 (fun r => f r (a r)) post2) ->
    spec av pre (dep ++ dep2)%list (gain ++ gain2)%list (fun r => mbind (m r) (f r)) post2.
  Proof.
    intros S1 Dis S2 done s H P N.
    destruct (S1 done s H P N) as (n & a & s1 & d1 & R1 & I1 & Inc1 & Dp1 & G1 & K1 & Q1).
    destruct (S2 a (fun r => ex_intro _ (s1 r) (Q1 r)) d1 s1 I1) as (n2 & b & s2 & d2 & R2 & I2 & Inc2 & Dp2 & G2 & K2 & Q2).
    { intros g Hg. apply in_app_or in Hg. destruct Hg as [Hg|Hg]; [apply G1, Hg|apply Inc1, P, Hg]. }
    { intros g Hg J. destruct (Dp1 g J) as [J'|J']; [exact (N g Hg J')|exact (Dis g Hg J')]. }
    exists (n + n2)%nat, b, s2, d2. split.
    { unfold mbind. apply (runs_bind net _ n (fun r => (a r, s1 r))); [exact R1|exact R2]. }
    split; [exact I2|]. split; [intros g Hg; apply Inc2, Inc1, Hg|]. split.
    { intros g Hg. destruct (Dp2 g Hg) as [J|J]; [destruct (Dp1 g J) as [J'|J']; [left; exact J'|right; apply in_or_app; left; exact J']|right; apply in_or_app; right; exact J]. }
    split. { intros g Hg. apply in_app_or in Hg. destruct Hg as [Hg|Hg]; [apply Inc2, G1, Hg|apply G2, Hg]. }
    split; [exact (keeps_trans _ _ _ K1 K2)|exact Q2].
  Qed.

  Lemma spec_eqp {A} av pre dep gain (m m' : Rank -> M V A) post :
    spec av pre dep gain m post -> (forall r s, eqp (m r s) (m' r s)) -> spec av pre dep gain m' post.
  Proof.
    intros S E done s H P N. destruct (S done s H P N) as (n & a & s' & d & R & Rest).
    exists n, a, s', d. split; [|exact Rest]. apply (runs_eqp net (fun r => m r (s r))); [exact R|]. intros r. apply E.
  Qed.

  Lemma spec_assoc {A B C} av pre dep gain (m : Rank -> M V A) (f : Rank -> A -> M V B) (g : Rank -> B -> M V C) post :
    spec av pre dep gain (fun r => mbind (m r) (fun x => mbind (f r x) (g r))) post ->
    spec av pre dep gain (fun r => mbind (mbind (m r) (f r)) (g r)) post.
  Proof. intros S. apply (spec_eqp _ _ _ _ _ _ _ S). intros r s. unfold mbind. apply pbind_assoc. Qed.

  Lemma spec_ret {A} av pre (a : Rank -> A) (post : Rank -> A -> st V -> Prop) :
    (forall r s, post r (a r) s) -> spec av pre [] [] (fun r => mret (a r)) post.
  Proof.
    intros Q done s H P N. exists 0%nat, a, s, done. split; [apply Done; intros r; reflexivity|].
    repeat split; auto using incl_refl, keeps_refl; intros g [].
  Qed.

  Lemma spec_use av pre a g : group a = Some g -> In g pre ->
    spec av pre [] [] (fun _ => use a) (fun r v _ => v = data (D a r)).
  Proof.
    intros G I done s H P N. exists 0%nat, (fun r => data (D a r)), s, done. split.
    - apply Done. intros r. destruct (Inv_get done s a g r H G (P _ I)) as (o & E & <-).
      unfold use, mbind, get. cbn. rewrite E. reflexivity.
    - repeat split; auto using incl_refl, keeps_refl; intros x [].
  Qed.

  Lemma spec_xch av pre c (d : Rank -> list V) :
    spec av pre [] [] (fun r => xch c (d r)) (fun r v _ => v = net c d r).
  Proof.
    intros done s H P N. exists 1%nat, (net c d), s, done. split.
    - apply Step with (c := c) (d := d) (k := fun r v => Ret (v, s r)); [intros r; reflexivity|]. apply Done. intros r. reflexivity.
    - repeat split; auto using incl_refl, keeps_refl; intros x [].
  Qed.

  (** the end of a computation: the attributes of a group are assigned *)
  Lemma spec_tail {A} g (m : Rank -> M V A) (x : Rank -> A) (l : Rank -> list (string * value V)) pre (post : Rank -> A -> st V -> Prop) :
    (forall r s, m r s = Ret (x r, setl (l r) s)) ->
    (forall r, map fst (l r) = names_in groups g) ->
    (forall r, Forall (fun av => group (fst av) = Some g /\ snd av = D (fst av) r) (l r)) ->
    (forall r s, post r (x r) s) ->
    spec [g] pre [g] [g] m post.
  Proof.
    intros E Names Vals Q done s H P N.
    destruct (Inv_set done s g l H (N g (or_introl eq_refl)) Names Vals) as [H' K].
    exists 0%nat, x, (fun r => setl (l r) (s r)), (g :: done). split.
    - apply Done. intros r. apply E.
    - split; [exact H'|]. split; [intros y Hy; right; exact Hy|]. split; [intros y [Hy|Hy]; [right; left; exact Hy|left; exact Hy]|].
      split; [intros y [Hy|[]]; left; exact Hy|]. split; [exact K|intros r; apply Q].
  Qed.

  Lemma spec_ensure a g pre dep gain (fill : Rank -> M V unit) :
    group a = Some g -> In g gain ->
    spec [g] pre dep gain fill (fun _ _ _ => True) ->
    spec [] pre dep [g] (fun r => ensure a (fill r)) (fun _ _ _ => True).
  Proof.
    intros G I S done s H P _.
    destruct (in_dec grp_dec g done) as [J|J].
    - exists 0%nat, (fun _ => tt), s, done. split.
      + apply Done. intros r. destruct (Inv_get done s a g r H G J) as (o & E & _).
        unfold ensure, mbind, get. cbn. rewrite E. reflexivity.
      + repeat split; auto using incl_refl, keeps_refl. intros y [Hy|[]]. subst. exact J.
    - destruct (S done s H P) as (n & u & s' & d' & R & I' & Inc & Dp & Gn & K & _).
      { intros y [<-|[]]. exact J. }
      exists n, u, s', d'. split.
      + apply (runs_ext net (fun r => fill r (s r))); [exact R|]. intros r.
        unfold ensure, mbind, get. cbn. rewrite (Inv_none done s a g r H G J). reflexivity.
      + repeat split; auto. intros y [Hy|[]]. subst. apply Gn, I.
  Qed.

  (** a property: it returns the attribute, which is set *)
  Definition gives (a : string) (r : Rank) (o : option (obj V)) (s : st V) : Prop :=
    exists o', o = Some o' /\ attr s a = Some o' /\ what o' = D a r.

  Lemma spec_lazy a g pre dep gain (fill : Rank -> M V unit) :
    group a = Some g -> In g gain ->
    spec [g] pre dep gain fill (fun _ _ _ => True) ->
    spec [] pre dep [g] (fun r => lazy a (fill r)) (gives a).
  Proof.
    intros G I S done s H P N.
    destruct (spec_ensure a g pre dep gain fill G I S done s H P N) as (n & u & s' & d' & R & I' & Inc & Dp & Gn & K & _).
    exists (n + 0)%nat, (fun r => attr (s' r) a), s', d'. split.
    - unfold lazy. unfold mbind at 1. apply (runs_bind net _ n (fun r => (u r, s' r))); [exact R|].
      apply Done. intros r. reflexivity.
    - repeat split; auto. intros r. destruct (Inv_get d' s' a g r I' G (Gn g (or_introl eq_refl))) as (o & E & W).
      exists o. auto.
  Qed.

  (** once its group is there, a property does nothing but return the attribute *)
  Lemma lazy_hit a g (fill : M V unit) done s r : group a = Some g -> In g done -> Inv done s -> lazy a fill (s r) = Ret (attr (s r) a, s r).
  Proof.
    intros G I H. destruct (Inv_get done s a g r H G I) as (o & E & _).
    unfold lazy, ensure, mbind, get. cbn. rewrite E. cbn. rewrite E. reflexivity.
  Qed.

  Lemma spec_dat a pre dep gain (m : Rank -> M V (option (obj V))) :
    spec [] pre dep gain m (gives a) -> spec [] pre dep gain (fun r => dat (m r)) (fun r v _ => v = data (D a r)).
  Proof.
    intros S done s H P N. destruct (S done s H P N) as (n & o & s' & d' & R & I' & Inc & Dp & Gn & K & Q).
    exists (n + 0)%nat, (fun r => data (D a r)), s', d'. split.
    - unfold dat, mbind at 1. apply (runs_bind net _ n (fun r => (o r, s' r))); [exact R|].
      apply Done. intros r. destruct (Q r) as (o' & E & _ & W). cbn. rewrite E. cbn. rewrite W. reflexivity.
    - repeat split; auto.
  Qed.
End Inv.
