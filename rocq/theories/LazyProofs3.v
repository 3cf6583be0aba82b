(** Every property of LazyModel, and sequences of them. *)
From Verif Require Import LazyModel LazyProofs LazyProofs2.

(** the attribute behind a property *)
Definition name_of (t : term) : string :=
  match t with
  | dx => "_dx" | dy => "_dy" | dxa => "_dx_agrid" | dya => "_dy_agrid" | dxc => "_dx_center" | dyc => "_dy_center"
  | ec1 => "_ec1" | ec2 => "_ec2" | ew1 => "_ew1" | ew2 => "_ew2" | es1 => "_es1" | es2 => "_es2" | ee1 => "_ee1" | ee2 => "_ee2"
  | cos_sg i => "_cos_sg" ++ digit (S i) | sin_sg i => "_sin_sg" ++ digit (S i)
  | cosa => "_cosa" | sina => "_sina" | cosa_u => "_cosa_u" | cosa_v => "_cosa_v" | cosa_s => "_cosa_s" | sina_u => "_sina_u"
  | sina_v => "_sina_v" | rsin_u => "_rsin_u" | rsin_v => "_rsin_v" | rsina => "_rsina" | rsin2 => "_rsin2"
  | l2c_v => "_l2c_v" | l2c_u => "_l2c_u" | divg_u => "_divg_u" | divg_v => "_divg_v" | del6_u => "_del6_u" | del6_v => "_del6_v"
  | vlon => "_vlon" | vlat => "_vlat" | z11 => "_z11" | z12 => "_z12" | z21 => "_z21" | z22 => "_z22"
  | a11 => "_a11" | a12 => "_a12" | a21 => "_a21" | a22 => "_a22"
  | edge_w => "_edge_w" | edge_e => "_edge_e" | edge_s => "_edge_s" | edge_n => "_edge_n"
  | edge_vect_w_1d => "_edge_vect_w" | edge_vect_w => "_edge_vect_w_2d" | edge_vect_e_1d => "_edge_vect_e"
  | edge_vect_e => "_edge_vect_e_2d" | edge_vect_s => "_edge_vect_s" | edge_vect_n => "_edge_vect_n"
  | da_min => "_da_min" | da_max => "_da_max" | da_min_c => "_da_min_c" | da_max_c => "_da_max_c"
  | area => "_area" | area64 => "_area64" | area_c => "_area_c" | rarea => "rarea" | rarea_c => "rarea_c"
  | rdx => "rdx" | rdy => "rdy" | rdxa => "rdxa" | rdya => "rdya" | rdxc => "rdxc" | rdyc => "rdyc"
  | grid => "_grid" | agrid => "_agrid" | lon => "_grid" | lat => "_grid" | lon_agrid => "_agrid" | lat_agrid => "_agrid"
  | ak => "_ak" | bk => "_bk"
  end.

(** the nine supergrid angles have the digits 1 to 9 *)
Definition valid (t : term) : Prop := match t with cos_sg i | sin_sg i => (i < 9)%nat | _ => True end.
(** the four terms that are views of another one *)
Definition view (t : term) : option nat :=
  match t with lon | lon_agrid => Some 0%nat | lat | lat_agrid => Some 1%nat | _ => None end.

Lemma name_group t : valid t -> exists g, group (name_of t) = Some g.
Proof.
  destruct t; intros H; try (eexists; reflexivity);
    (do 9 (destruct i as [|i]; [eexists; reflexivity|])); cbn in H; lia.
Qed.

Section All.
  Context {V Rank : Type} (net : call -> (Rank -> list V) -> Rank -> list V).
  Variable comp : Rank -> string -> nat -> list V -> V.
  Variable round : V -> V.
  Variable init : Rank -> string -> V.
  Notation DD cart := (D net comp round init cart).
  Notation sp cart := (spec net (DD cart)).
  Notation rd cart t := (fun r => read cart (comp r) round t).

  Definition content cart (t : term) (r : Rank) : value V :=
    match view t with Some i => part_of net comp round init cart (name_of t) i r | None => DD cart (name_of t) r end.

  Definition all_groups := map fst groups.
  Lemma in_all g : In g all_groups.
  Proof. destruct g; cbn; tauto. Qed.

  (** what reading [t] returns, in the state [s] afterwards *)
  Definition result cart (t : term) (r : Rank) (o : option (obj V)) (s : st V) : Prop :=
    exists o', o = Some o' /\ what o' = content cart t r /\ (view t = None -> attr s (name_of t) = Some o').

  Lemma spec_post {A} cart av pre dep gain (m : Rank -> M V A) (post post' : Rank -> A -> st V -> Prop) :
    sp cart av pre dep gain m post -> (forall r a s, post r a s -> post' r a s) -> sp cart av pre dep gain m post'.
  Proof.
    intros Sp Q done s H P N. destruct (Sp done s H P N) as (n & a & s' & d & R & I' & Inc & Dp & Gn & K & Q').
    exists n, a, s', d. repeat split; auto.
  Qed.

  Definition full cart g (m : Rank -> M V (option (obj V))) (a : string) : Prop :=
    sp cart [] [G0] all_groups [g] m (gives (DD cart) a).
  Lemma to_full cart g dep m a : sp cart [] [G0] dep [g] m (gives (DD cart) a) -> full cart g m a.
  Proof.
    intros Sp. eapply spec_weak; [exact Sp|apply incl_refl|apply incl_refl|intros x _; apply in_all|].
    intros x Hx. apply in_or_app. left. exact Hx.
  Qed.
  Lemma gives_result cart t g (m : Rank -> M V (option (obj V))) :
    view t = None -> group (name_of t) = Some g -> full cart g m (name_of t) ->
    exists g', group (name_of t) = Some g' /\ sp cart [] [G0] all_groups [g'] m (result cart t).
  Proof.
    intros Vw G F. exists g. split; [exact G|]. eapply spec_post; [exact F|].
    intros r o s (o' & E & At & W). exists o'. unfold content. rewrite Vw. auto.
  Qed.
  Lemma view_result cart t i g m :
    view t = Some i -> group (name_of t) = Some g -> sp cart [] [G0] [g] [g] m (gives (DD cart) (name_of t)) ->
    exists g', group (name_of t) = Some g' /\ sp cart [] [G0] all_groups [g'] (fun r => component (comp r) (m r) i) (result cart t).
  Proof.
    intros Vw G F. exists g. split; [exact G|].
    eapply spec_post; [eapply spec_weak; [apply (r_comp net comp round init cart g _ i m F)|..]|].
    - apply incl_refl.
    - apply incl_refl.
    - intros x _. apply in_all.
    - intros x Hx. apply in_or_app. left. exact Hx.
    - intros r o s (o' & E & W). exists o'. unfold content. rewrite Vw. split; [exact E|]. split; [exact W|discriminate].
  Qed.

  Lemma r_ak cart a : group a = Some G0 -> full cart G0 (fun _ => get a) a.
  Proof.
    intros G done s H P _. exists 0%nat, (fun r => attr (s r) a), s, done. split; [apply Done; reflexivity|].
    repeat split; auto using incl_refl, keeps_refl.
    intros r. destruct (Inv_get _ done s a G0 r H G (P _ (or_introl eq_refl))) as (o & E & W). exists o. auto.
  Qed.

  Ltac pl L := eapply gives_result; [reflexivity|reflexivity|eapply to_full; apply L].
  Ltac rc g a dep L := eapply gives_result; [reflexivity|reflexivity|eapply to_full; eapply (r_rec net comp round init _ g a dep); [apply L|reflexivity|reflexivity|cbn; intuition congruence|reflexivity]].
  Ltac sg cart i H := do 9 (destruct i as [|i]; [pl (r_trig net comp round init cart); reflexivity|]); cbn in H; lia.

  Lemma r_read cart t : valid t ->
    exists g, group (name_of t) = Some g /\ sp cart [] [G0] all_groups [g] (rd cart t) (result cart t).
  Proof.
    destruct t; intros Hv.
    1-2: pl (r_dx net comp round init cart); reflexivity.
    1-2: pl (r_dxa net comp round init cart); reflexivity.
    1-2: pl (r_dxc net comp round init cart); reflexivity.
    1-2: pl (r_ec net comp round init cart); reflexivity.
    1-2: pl (r_ew net comp round init cart); reflexivity.
    1-2: pl (r_es net comp round init cart); reflexivity.
    1-2: pl (r_ee net comp round init cart); reflexivity.
    1: sg cart i Hv.
    1: sg cart i Hv.
    1-11: pl (r_trig net comp round init cart); reflexivity.
    1-2: pl (r_l2c net comp round init cart); reflexivity.
    1-4: pl (r_divg net comp round init cart); reflexivity.
    1-2: pl (r_v net comp round init cart); reflexivity.
    1-4: pl (r_z net comp round init cart); reflexivity.
    1-4: pl (r_a net comp round init cart); reflexivity.
    1-4: pl (r_edge net comp round init cart); reflexivity.
    1: pl (r_vect net comp round init cart); reflexivity.
    1: pl (r_2d net comp round init cart); reflexivity.
    1: pl (r_vect net comp round init cart); reflexivity.
    1: pl (r_2d net comp round init cart); reflexivity.
    1-2: pl (r_vect net comp round init cart); reflexivity.
    1-4: pl (r_da net comp round init cart); reflexivity.
    1-2: pl (r_area net comp round init cart); reflexivity.
    1: pl (r_areac net comp round init cart).
    1: rc Garea "_area" [Garea] (r_area net comp round init cart "_area" eq_refl).
    1: rc Gareac "_area_c" [Gxyz; Gaxyz; Gareac] (r_areac net comp round init cart).
    1: rc Gdx "_dx" [Gdx] (r_dx net comp round init cart "_dx" eq_refl).
    1: rc Gdx "_dy" [Gdx] (r_dx net comp round init cart "_dy" eq_refl).
    1: rc Gdxa "_dx_agrid" [Gdxa] (r_dxa net comp round init cart "_dx_agrid" eq_refl).
    1: rc Gdxa "_dy_agrid" [Gdxa] (r_dxa net comp round init cart "_dy_agrid" eq_refl).
    1: rc Gdxc "_dx_center" [Gxyz; Gaxyz; Gdxc] (r_dxc net comp round init cart "_dx_center" eq_refl).
    1: rc Gdxc "_dy_center" [Gxyz; Gaxyz; Gdxc] (r_dxc net comp round init cart "_dy_center" eq_refl).
    1: pl (r_grid net comp round init cart).
    1: pl (r_agrid net comp round init cart).
    1-2: eapply view_result; [reflexivity|reflexivity|apply (r_grid net comp round init cart)].
    1-2: eapply view_result; [reflexivity|reflexivity|apply (r_agrid net comp round init cart)].
    1-2: eapply gives_result; [reflexivity|reflexivity|apply r_ak; reflexivity].
  Qed.

  (** once its group is there, a property communicates nothing and changes no attribute *)
  Definition still (m : Rank -> M V (option (obj V))) (s : Rank -> st V) : Prop :=
    exists o s', (forall r, m r (s r) = Ret (o r, s' r)) /\ forall r, attr (s' r) = attr (s r).

  Lemma hit_lazy cart a g (fill : Rank -> M V unit) done s : group a = Some g -> In g done -> Inv (DD cart) done s -> still (fun r => lazy a (fill r)) s.
  Proof.
    intros G J H. exists (fun r => attr (s r) a), s. split; [|reflexivity].
    intros r. exact (lazy_hit (DD cart) a g (fill r) done s r G J H).
  Qed.
  Lemma hit_comp cart a g (fill : Rank -> M V unit) i done s : group a = Some g -> In g done -> Inv (DD cart) done s ->
    still (fun r => component (comp r) (lazy a (fill r)) i) s.
  Proof.
    intros G J H. exists (fun r => Some (Obj (next (s r)) (part_of net comp round init cart a i r))), (fun r => St (attr (s r)) (S (next (s r)))).
    split; [|reflexivity]. intros r. unfold component, mbind. rewrite (lazy_hit (DD cart) a g (fill r) done s r G J H).
    cbn [pbind fst snd]. destruct (Inv_get _ done s a g r H G J) as (o & -> & W). unfold wrap, part_of. rewrite W. reflexivity.
  Qed.

  Lemma r_hit cart t g done s : valid t -> group (name_of t) = Some g -> In g done -> Inv (DD cart) done s -> still (rd cart t) s.
  Proof.
    destruct t; intros Hv G J H;
      try (eapply hit_lazy; [exact G|exact J|exact H]); try (eapply hit_comp; [exact G|exact J|exact H]);
      try (eexists; exists s; split; [intros r; reflexivity|reflexivity]).
    all: cbn [read]; cbn [valid] in Hv; apply Nat.ltb_lt in Hv; rewrite Hv; eapply hit_lazy; [exact G|exact J|exact H].
  Qed.

  Lemma reads_hit cart ts : forall done s, Forall valid ts -> (forall t, In t ts -> exists g, group (name_of t) = Some g /\ In g done) ->
    Inv (DD cart) done s -> exists l s', (forall r, reads cart (comp r) round ts (s r) = Ret (l r, s' r)) /\ forall r, attr (s' r) = attr (s r).
  Proof.
    induction ts as [|t ts IH]; intros done s Vd Gs H.
    - exists (fun _ => []), s. split; reflexivity.
    - inversion Vd as [|? ? Vt Vts]; subst. destruct (Gs t (or_introl eq_refl)) as (g & G & J).
      destruct (r_hit cart t g done s Vt G J H) as (o & s1 & E & At).
      assert (H1 : Inv (DD cart) done s1) by (intros r a; rewrite At; apply H).
      destruct (IH done s1 Vts (fun x Hx => Gs x (or_intror Hx)) H1) as (l & s2 & E2 & At2).
      exists (fun r => o r :: l r), s2. split.
      + intros r. cbn [reads]. unfold mbind. rewrite E. cbn [pbind fst snd]. rewrite E2. reflexivity.
      + intros r. rewrite At2. apply At.
  Qed.

  Lemma r_reads cart ts : Forall valid ts -> forall done s, Inv (DD cart) done s -> In G0 done ->
    exists n out s' done', runs net (fun r => reads cart (comp r) round ts (s r)) n (fun r => (out r, s' r)) /\
      Inv (DD cart) done' s' /\ incl done done' /\ keeps s s' /\
      (forall t, In t ts -> exists g, group (name_of t) = Some g /\ In g done') /\
      forall r, Forall2 (fun t o => result cart t r o (s' r)) ts (out r).
  Proof.
    intros Vd. induction Vd as [|t ts Vt Vts IH]; intros done s H P.
    - exists 0%nat, (fun _ => []), s, done. split; [apply Done; reflexivity|].
      split; [exact H|]. split; [apply incl_refl|]. split; [apply keeps_refl|]. split; [intros t []|constructor].
    - destruct (r_read cart t Vt) as (g & G & Sp).
      destruct (Sp done s H) as (n1 & o & s1 & d1 & R1 & I1 & Inc1 & _ & G1 & K1 & Q1); [intros x [<-|[]]; exact P|intros x []|].
      destruct (IH d1 s1 I1 (Inc1 _ P)) as (n2 & out & s2 & d2 & R2 & I2 & Inc2 & K2 & Gs & Q2).
      exists (n1 + (n2 + 0))%nat, (fun r => o r :: out r), s2, d2. split.
      + cbn [reads]. apply (runs_bind net _ n1 (fun r => (o r, s1 r))); [exact R1|]. cbn [fst snd].
        apply (runs_bind net _ n2 (fun r => (out r, s2 r))); [exact R2|]. apply Done. reflexivity.
      + split; [exact I2|]. split; [intros x Hx; apply Inc2, Inc1, Hx|]. split; [exact (keeps_trans _ _ _ K1 K2)|]. split.
        * intros x [<-|Hx]; [|apply Gs, Hx]. exists g. split; [exact G|]. apply Inc2, G1. left. reflexivity.
        * intros r. constructor; [|apply Q2]. destruct (Q1 r) as (o' & E & W & At). exists o'. split; [exact E|]. split; [exact W|].
          intros Vw. apply K2, At, Vw.
  Qed.

  Lemma fresh_inv cart : Inv (DD cart) [G0] (fun r => fresh round (init r)).
  Proof.
    intros r a. unfold fresh. cbn [attr].
    destruct (String.eqb_spec a "_grid_64"); [subst; split; [left|]; reflexivity|].
    destruct (String.eqb_spec a "_agrid_64"); [subst; split; [left|]; reflexivity|].
    destruct (String.eqb_spec a "_ak"); [subst; split; [left|]; reflexivity|].
    destruct (String.eqb_spec a "_bk"); [subst; split; [left|]; reflexivity|].
    destruct (group a) as [g|] eqn:G; [|reflexivity]. intros [<-|[]].
    apply group_names in G. cbn in G. destruct G as [G|[G|[G|[G|[]]]]]; congruence.
  Qed.

  Lemma reads_app cart c ts us s : eqp (reads cart c round (ts ++ us)%list s)
    (pbind (reads cart c round ts s) (fun p => pbind (reads cart c round us (snd p)) (fun q => Ret ((fst p ++ fst q)%list, snd q)))).
  Proof.
    revert s. induction ts as [|t ts IH]; intros s.
    - cbn [reads List.app]. unfold mret. cbn [pbind fst snd].
      induction (reads cart c round us s) as [[q s']| |]; cbn; constructor; auto.
    - cbn [reads List.app]. unfold mbind.
      induction (read cart c round t s) as [[o s']| |cl d k IHk]; cbn [pbind fst snd]; [|constructor|constructor; auto].
      specialize (IH s'). unfold mret.
      assert (E : forall p q : prog V (list (option (obj V)) * st V), eqp p q -> eqp (pbind p (fun x => Ret (o :: fst x, snd x))) (pbind q (fun x => Ret (o :: fst x, snd x)))).
      { intros p q E. apply pbind_eqp; [exact E|]. intros; apply eqp_refl. }
      specialize (E _ _ IH).
      assert (T : forall p q r : prog V (list (option (obj V)) * st V), eqp p q -> eqp q r -> eqp p r).
      { intros p q r A. revert r. induction A as [| |c0 d0 k0 k1 Ek IHk]; intros r B; [exact B|exact B|]. inversion B; subst. constructor. auto. }
      eapply T; [exact E|]. clear.
      induction (reads cart c round ts s') as [[l s2]| |]; cbn [pbind fst snd]; [|constructor|constructor; auto].
      induction (reads cart c round us s2) as [[l' s3]| |]; cbn [pbind fst snd]; [|constructor|constructor; auto].
      apply eqp_refl.
  Qed.
End All.
