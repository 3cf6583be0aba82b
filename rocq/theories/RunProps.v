(** C101: NDSLRuntime objects. *)
From Verif Require Import Base Dict RunModel.

Scheme cls_mut := Induction for cls Sort Prop with body_mut := Induction for body Sort Prop.

Lemma upd_same l i f : nth_error (update l i f) i = option_map f (nth_error l i).
Proof. revert i. induction l as [|o l IH]; intros [|i]; cbn; auto. Qed.
Lemma upd_other l i j f : i <> j -> nth_error (update l i f) j = nth_error l j.
Proof. revert i j. induction l as [|o l IH]; intros [|i] [|j] N; cbn; auto; try contradiction. Qed.
Lemma upd_length l i f : length (update l i f) = length l.
Proof. revert i. induction l as [|o l IH]; intros [|i]; cbn; auto. Qed.

(** ** the check for quantities *)
Definition scan (limit : nat) (l : list obj) (i : nat) (d : dict val) : option (list (nat * string)) :=
  fold_right (fun '(k, v) acc =>
    do a <- acc; match v with VQuantity => Some ((i, k) :: a) | VRuntime j => do c <- check limit l j; Some (c ++ a) | _ => Some a end) (Some []) d.
Lemma check_S limit l i : check (S limit) l i = match nth_error l i with None => Some [] | Some o => scan limit l i (attrs o) end.
Proof. reflexivity. Qed.

Lemma check_exact limit l : forall i w, check limit l i = Some w ->
  forall j k, In (j, k) w <-> reaches l i j /\ holds_quantity l j k.
Proof.
  induction limit as [|limit IH]; intros i w E; [discriminate|]. rewrite check_S in E.
  destruct (nth_error l i) as [o|] eqn:Eo.
  2:{ injection E as <-. intros j k. split; [intros []|]. intros [R [o [E' _]]]. inversion R; subst; congruence. }
  assert (X : forall d w, scan limit l i d = Some w -> forall j k,
    In (j, k) w <-> (j = i /\ In (k, VQuantity) d) \/ exists n m, In (n, VRuntime m) d /\ reaches l m j /\ holds_quantity l j k).
  { induction d as [|[n v] d IHd]; intros w0 Ed j k; unfold scan in Ed; cbn [fold_right] in Ed.
    - injection Ed as <-. cbn. split; [intros []|]. intros [[_ []]|(n & m & [] & _)].
    - change (bind (scan limit l i d) (fun a => match v with VQuantity => Some ((i, n) :: a) | VRuntime j => do c <- check limit l j; Some (c ++ a) | _ => Some a end) = Some w0) in Ed.
      destruct (scan limit l i d) as [a|] eqn:Es; [|discriminate]. cbn [bind] in Ed. specialize (IHd a eq_refl j k). destruct v as [| | |m].
      + injection Ed as <-. cbn [In]. rewrite IHd. split.
        * intros [[= <- <-]|[[-> I]|(n' & m & I & R)]]; [left; auto|left; auto|right; exists n', m; auto].
        * intros [[-> [[= ->]|I]]|(n' & m & [[=]|I] & R)]; [left; reflexivity|right; left; auto|right; right; exists n', m; auto].
      + injection Ed as <-. rewrite IHd. cbn [In]. split.
        * intros [[-> I]|(n' & m & I & R)]; [left; auto|right; exists n', m; auto].
        * intros [[-> [[=]|I]]|(n' & m & [[=]|I] & R)]; [left; auto|right; exists n', m; auto].
      + injection Ed as <-. rewrite IHd. cbn [In]. split.
        * intros [[-> I]|(n' & m & I & R)]; [left; auto|right; exists n', m; auto].
        * intros [[-> [[=]|I]]|(n' & m & [[=]|I] & R)]; [left; auto|right; exists n', m; auto].
      + destruct (check limit l m) as [c|] eqn:Ec; [|discriminate]. cbn [bind] in Ed. injection Ed as <-. rewrite in_app_iff, IHd, (IH m c Ec). cbn [In]. split.
        * intros [R|[[-> I]|(n' & m' & I & R)]]; [right; exists n, m; auto|left; auto|right; exists n', m'; auto].
        * intros [[-> [[=]|I]]|(n' & m' & [[= <- <-]|I] & R)]; [right; left; auto|left; exact R|right; right; exists n', m'; auto]. }
  intros j k. rewrite (X _ _ E). split.
  - intros [[-> I]|(n & m & I & R & Hq)].
    + split; [constructor|]. exists o. auto.
    + split; [|exact Hq]. eapply r_step; eauto.
  - intros [R Hq]. inversion R as [|? o' n m ? E' I R']; subst.
    + destruct Hq as (o' & E' & I). left. split; [reflexivity|]. congruence.
    + right. exists n, m. rewrite Eo in E'. injection E' as <-. auto.
Qed.

(** it ends when no runtime holds itself, and the nesting is within the limit *)
Definition ranked (l : list obj) (rank : nat -> nat) : Prop :=
  forall i o k j, nth_error l i = Some o -> In (k, VRuntime j) (attrs o) -> (rank j < rank i)%nat.
Lemma check_ends l rank : ranked l rank -> forall limit i, (rank i < limit)%nat -> exists w, check limit l i = Some w.
Proof.
  intros R limit. induction limit as [|limit IH]; intros i L; [lia|]. rewrite check_S. destruct (nth_error l i) as [o|] eqn:Eo; [|eauto].
  assert (X : forall d, (forall k j, In (k, VRuntime j) d -> (rank j < rank i)%nat) -> exists w, scan limit l i d = Some w).
  { induction d as [|[n v] d IHd]; intros Hd; [eexists; reflexivity|]. destruct IHd as [a Ea]. { intros k j I. apply (Hd k). right. exact I. }
    change (exists w, bind (scan limit l i d) (fun a => match v with VQuantity => Some ((i, n) :: a) | VRuntime j => do c <- check limit l j; Some (c ++ a) | _ => Some a end) = Some w).
    rewrite Ea. cbn [bind]. destruct v as [| | |m]; eauto. destruct (IH m) as [c Ec]; [|rewrite Ec; eexists; reflexivity].
    pose proof (Hd n m (or_introl eq_refl)). lia. }
  apply X. intros k j I. exact (R i o k j Eo I).
Qed.
(** it does not end when a runtime holds itself *)
Lemma check_through limit l i o k m : nth_error l i = Some o -> In (k, VRuntime m) (attrs o) -> check limit l m = None -> check (S limit) l i = None.
Proof.
  intros Eo I E. rewrite check_S, Eo. induction (attrs o) as [|[n v] d IHd]; [destruct I|].
  change (bind (scan limit l i d) (fun a => match v with VQuantity => Some ((i, n) :: a) | VRuntime j => do c <- check limit l j; Some (c ++ a) | _ => Some a end) = None).
  destruct I as [[= -> ->]|I].
  - destruct (scan limit l i d); [cbn [bind]; now rewrite E|reflexivity].
  - rewrite (IHd I). reflexivity.
Qed.

(** ** what construction leaves alone *)
Section Frame.
  Variables (limit : nat) (orch : bool).
  Notation run_init := (run_init limit orch).
  Notation run_body := (run_body limit orch).

  Lemma run_sub n k b p self arg w : run_init (CSub n k b p) self arg w =
    let w := match top w with None => World (objs w) (Some self) (warnings w) | Some _ => w end in
    let (w, ok) := run_body b (run_init p self arg) self arg w in if ok then post_init limit orch self w else (w, false).
  Proof. reflexivity. Qed.
  Lemma body_super r super self arg w : run_body (BSuper r) super self arg w =
    let (w, ok) := super w in if ok then run_body r super self arg w else (w, false).
  Proof. reflexivity. Qed.
  Lemma body_set n e r super self arg w : run_body (BSet n e r) super self arg w = run_body r super self arg (on w self (set_attr n (eval self arg e))).
  Proof. reflexivity. Qed.
  Definition alloc (c : cls) (w : world) : world := World (objs w ++ [Obj [] false (type_of c) []]) (top w) (warnings w).
  Lemma body_new n c r super self arg w : run_body (BNew n c r) super self arg w =
    let (w1, ok) := run_init c (length (objs w)) (Some self) (alloc c w) in
    if ok then run_body r super self arg (on w1 self (set_attr n (VRuntime (length (objs w))))) else (w1, false).
  Proof. reflexivity. Qed.

  (** [w'] differs from [w] in object [self] and in new objects only; the top level is kept *)
  Definition frame (self : nat) (w w' : world) : Prop :=
    (length (objs w) <= length (objs w'))%nat /\
    (forall i, i <> self -> (i < length (objs w))%nat -> nth_error (objs w') i = nth_error (objs w) i) /\
    (forall t, top w = Some t -> top w' = Some t).
  Lemma frame_refl s w : frame s w w.
  Proof. split; [lia|]. split; auto. Qed.
  Lemma frame_trans s w w1 w2 : frame s w w1 -> frame s w1 w2 -> frame s w w2.
  Proof.
    intros (L1 & F1 & T1) (L2 & F2 & T2). split; [lia|]. split; [|auto]. intros i N L. rewrite F2 by lia. auto.
  Qed.
  Lemma frame_on s w f : frame s w (on w s f).
  Proof. unfold on. split; [cbn; rewrite upd_length; lia|]. split; [|auto]. intros i N L. cbn. apply upd_other. congruence. Qed.
  Lemma frame_post s w : frame s w (fst (post_init limit orch s w)).
  Proof.
    unfold post_init. destruct (nth_error (objs w) s) as [o|]; [|apply frame_refl]. destruct (initialised o); [|apply frame_refl].
    assert (X : forall w0, objs w0 = objs w -> top w0 = top w -> frame s w (if callable (ty o) then on w0 s (patch orch s) else w0)).
    { intros w0 E1 E2. apply frame_trans with w0.
      - split; [rewrite E1; lia|]. rewrite E1, E2. auto.
      - destruct (callable (ty o)); [apply frame_on|apply frame_refl]. }
    destruct (match top w with Some t => (t =? s)%nat | None => false end).
    - destruct (check limit (objs w) s); [|apply frame_refl]. apply X; reflexivity.
    - apply X; reflexivity.
  Qed.
  Lemma frame_new s w c w' : (s < length (objs w))%nat \/ True -> frame (length (objs w)) (alloc c w) w' -> s <> length (objs w) -> frame s w w'.
  Proof.
    intros _ (L & F & T) N. unfold alloc in *. cbn [objs top] in *. rewrite app_length in *. cbn [length] in *. split; [lia|]. split; [|exact T].
    intros i Ni Li. rewrite F by lia. rewrite nth_error_app1 by lia. reflexivity.
  Qed.
  Lemma frame_self w c w' s : (s < length (objs w))%nat -> frame (length (objs w)) (alloc c w) w' -> nth_error (objs w') s = nth_error (objs w) s.
  Proof.
    intros L (L' & F & T). unfold alloc in *. cbn [objs] in *. rewrite app_length in *. cbn [length] in *. rewrite F by lia. apply nth_error_app1. lia.
  Qed.

  Lemma run_frame : forall c self arg w, (self < length (objs w))%nat -> frame self w (fst (run_init c self arg w)).
  Proof.
    apply (cls_mut
      (fun c => forall self arg w, (self < length (objs w))%nat -> frame self w (fst (run_init c self arg w)))
      (fun b => forall super self arg w, (forall w, (self < length (objs w))%nat -> frame self w (fst (super w))) ->
         (self < length (objs w))%nat -> frame self w (fst (run_body b super self arg w)))).
    - intros self arg w L. cbn. apply frame_on.
    - intros n k b Hb p Hp self arg w L. rewrite run_sub. cbv zeta.
      set (w0 := match top w with None => World (objs w) (Some self) (warnings w) | Some _ => w end).
      assert (F0 : frame self w w0). { unfold w0. destruct (top w) as [t|] eqn:Et; [apply frame_refl|]. split; [cbn; lia|]. split; [auto|]. intros t. congruence. }
      assert (L0 : (self < length (objs w0))%nat) by (destruct F0; lia).
      specialize (Hb (run_init p self arg) self arg w0 (fun w => Hp self arg w) L0).
      destruct (run_body b (run_init p self arg) self arg w0) as [w1 ok] eqn:E1. cbn [fst] in Hb. apply (frame_trans _ _ _ _ F0). destruct ok; [|exact Hb].
      apply (frame_trans _ _ _ _ Hb). apply frame_post.
    - intros super self arg w _ L. cbn. apply frame_refl.
    - intros r Hr super self arg w Hs L. rewrite body_super. pose proof (Hs w L) as F. destruct (super w) as [w1 ok]. cbn [fst] in F. destruct ok; [|exact F].
      apply (frame_trans _ _ _ _ F). apply Hr; [exact Hs|]. destruct F; lia.
    - intros n e r Hr super self arg w Hs L. rewrite body_set. pose proof (frame_on self w (set_attr n (eval self arg e))) as F.
      apply (frame_trans _ _ _ _ F). apply Hr; [exact Hs|]. destruct F; lia.
    - intros n c Hc r Hr super self arg w Hs L. rewrite body_new.
      pose proof (Hc (length (objs w)) (Some self) (alloc c w)) as F.
      destruct (run_init c (length (objs w)) (Some self) (alloc c w)) as [w1 ok]. cbn [fst] in F.
      assert (F1 : frame self w w1). { apply (frame_new self w c); [left; exact L| |lia]. apply F. unfold alloc. cbn. rewrite app_length. cbn. lia. }
      destruct ok; [|exact F1]. apply (frame_trans _ _ _ _ F1). pose proof (frame_on self w1 (set_attr n (VRuntime (length (objs w))))) as F2.
      apply (frame_trans _ _ _ _ F2). apply Hr; [exact Hs|]. destruct F1, F2; lia.
  Qed.
End Frame.

(** ** what construction does to the object *)
Section Track.
  Variables (limit : nat) (orch : bool).
  Notation run_init := (run_init limit orch).
  Notation run_body := (run_body limit orch).
  Notation post_init := (post_init limit orch).

  (** calls of orchestrate that patch an object *)
  Fixpoint patches (c : cls) : nat := match c with CRuntime => 0 | CSub _ _ b p => S (supers b * patches p) end.
  Lemma patches_depth c : one_super c -> patches c = depth c.
  Proof. induction c as [|n k b p IH]; cbn; [auto|]. intros [-> O]. rewrite IH by exact O. lia. Qed.

  Definition grows (m : nat) (o o' : obj) : Prop :=
    callable (ty o') = callable (ty o) /\ length (seen o') = (length (seen o) + (if orch && callable (ty o) then m else 0))%nat /\
    (orch = false -> ty o' = ty o).
  Lemma grows_trans m n o o1 o2 : grows m o o1 -> grows n o1 o2 -> grows (m + n) o o2.
  Proof.
    intros (C1 & L1 & T1) (C2 & L2 & T2). split; [congruence|]. split; [rewrite L2, L1, C1; destruct (orch && callable (ty o)); lia|].
    intros E. rewrite T2, T1 by exact E. reflexivity.
  Qed.
  Lemma post_grows self w o w' : nth_error (objs w) self = Some o -> post_init self w = (w', true) ->
    initialised o = true /\ exists o', nth_error (objs w') self = Some o' /\ initialised o' = true /\ grows 1 o o' /\ attrs o' = attrs o /\
      seen o' = (if orch && callable (ty o) then [attrs o] else []) ++ seen o /\
      (orch && callable (ty o) = true -> exists n p, ty o' = TPatched self n p).
  Proof.
    unfold RunModel.post_init. intros Eo. rewrite Eo. destruct (initialised o) eqn:Ei; [|discriminate].
    assert (X : forall w0, objs w0 = objs w -> (if callable (ty o) then on w0 self (patch orch self) else w0, true) = (w', true) ->
      true = true /\ exists o', nth_error (objs w') self = Some o' /\ initialised o' = true /\ grows 1 o o' /\ attrs o' = attrs o /\
        seen o' = (if orch && callable (ty o) then [attrs o] else []) ++ seen o /\ (orch && callable (ty o) = true -> exists n p, ty o' = TPatched self n p)).
    { intros w0 E0 [= <-]. split; [reflexivity|]. destruct (callable (ty o)) eqn:Ec.
      - unfold on. cbn [objs]. rewrite upd_same, E0, Eo. cbn [option_map]. eexists. split; [reflexivity|]. unfold patch, grows.
        destruct orch; cbn [andb initialised ty attrs seen callable length]; rewrite ?Ec, ?Ei.
        + split; [reflexivity|]. split; [split; [reflexivity|split; [lia|discriminate]]|]. split; [reflexivity|]. split; [reflexivity|]. intros _. eexists. eexists. reflexivity.
        + split; [reflexivity|]. split; [split; [reflexivity|split; [lia|auto]]|]. split; [reflexivity|]. split; [reflexivity|]. discriminate.
      - exists o. rewrite E0, Bool.andb_false_r. unfold grows. rewrite Ec, Bool.andb_false_r. split; [exact Eo|]. split; [exact Ei|].
        split; [split; [reflexivity|split; [lia|auto]]|]. split; [reflexivity|]. split; [reflexivity|discriminate]. }
    destruct (match top w with Some t => (t =? self)%nat | None => false end).
    - destruct (check limit (objs w) self); [|discriminate]. apply X. reflexivity.
    - apply X. reflexivity.
  Qed.

  Lemma body_grows super self arg m :
    (forall w o w', nth_error (objs w) self = Some o -> super w = (w', true) ->
       exists o', nth_error (objs w') self = Some o' /\ initialised o' = true /\ grows m o o') ->
    forall b w o w', nth_error (objs w) self = Some o -> run_body b super self arg w = (w', true) ->
      exists o', nth_error (objs w') self = Some o' /\ initialised o' = (initialised o || negb (supers b =? 0)%nat)%bool /\ grows (supers b * m) o o'.
  Proof.
    intros Hs. induction b as [|r IH|n e r IH|n c r IH]; intros w o w' Eo E.
    - cbn in E. injection E as <-. exists o. split; [exact Eo|]. split; [cbn; now rewrite Bool.orb_false_r|]. split; [reflexivity|].
      split; [cbn; destruct (orch && callable (ty o)); lia|auto].
    - rewrite body_super in E. destruct (super w) as [w1 ok] eqn:E1. destruct ok; [|discriminate]. destruct (Hs w o w1 Eo E1) as (o1 & Eo1 & I1 & G1).
      destruct (IH _ _ _ Eo1 E) as (o2 & Eo2 & I2 & G2). exists o2. split; [exact Eo2|]. split; [rewrite I2, I1; cbn; now rewrite Bool.orb_true_r|].
      cbn [supers Nat.mul]. eapply grows_trans; eauto.
    - rewrite body_set in E. assert (Eo1 : nth_error (objs (on w self (set_attr n (eval self arg e)))) self = Some (set_attr n (eval self arg e) o)).
      { unfold on. cbn [objs]. rewrite upd_same, Eo. reflexivity. }
      destruct (IH _ _ _ Eo1 E) as (o2 & Eo2 & I2 & G2). exists o2. split; [exact Eo2|]. split; [exact I2|exact G2].
    - rewrite body_new in E. pose proof (run_frame limit orch c (length (objs w)) (Some self) (alloc c w)) as F.
      destruct (run_init c (length (objs w)) (Some self) (alloc c w)) as [w1 ok] eqn:E1. cbn [fst] in F. destruct ok; [|discriminate].
      assert (L : (self < length (objs w))%nat) by (apply nth_error_Some; congruence).
      assert (Ew1 : nth_error (objs w1) self = Some o). { rewrite (frame_self w c w1 self L); [exact Eo|]. apply F. unfold alloc. cbn. rewrite app_length. cbn. lia. }
      assert (Eo1 : nth_error (objs (on w1 self (set_attr n (VRuntime (length (objs w)))))) self = Some (set_attr n (VRuntime (length (objs w))) o)).
      { unfold on. cbn [objs]. rewrite upd_same, Ew1. reflexivity. }
      destruct (IH _ _ _ Eo1 E) as (o2 & Eo2 & I2 & G2). exists o2. split; [exact Eo2|]. split; [exact I2|exact G2].
  Qed.
  Lemma run_grows c : forall self arg w o w', nth_error (objs w) self = Some o -> run_init c self arg w = (w', true) ->
    exists o', nth_error (objs w') self = Some o' /\ initialised o' = true /\ grows (patches c) o o'.
  Proof.
    induction c as [|n k b p IH]; intros self arg w o w' Eo E.
    - cbn in E. injection E as <-. cbn. rewrite upd_same, Eo. eexists. split; [reflexivity|]. split; [reflexivity|]. split; [reflexivity|].
      split; [cbn; destruct (orch && callable (ty o)); lia|auto].
    - rewrite run_sub in E. cbv zeta in E. set (w0 := match top w with None => World (objs w) (Some self) (warnings w) | Some _ => w end) in E.
      assert (Eo0 : nth_error (objs w0) self = Some o) by (unfold w0; destruct (top w); exact Eo).
      destruct (run_body b (run_init p self arg) self arg w0) as [w1 ok] eqn:E1. destruct ok; [|discriminate].
      destruct (body_grows (run_init p self arg) self arg (patches p) (fun w o w' => IH self arg w o w') b w0 o w1 Eo0 E1) as (o1 & Eo1 & I1 & G1).
      destruct (post_grows self w1 o1 w' Eo1 E) as (_ & o2 & Eo2 & I2 & G2 & _). exists o2. split; [exact Eo2|]. split; [exact I2|].
      cbn [patches]. replace (S (supers b * patches p)) with (supers b * patches p + 1)%nat by lia. eapply grows_trans; eauto.
  Qed.

  Lemma create_run c arg w w' i : create limit orch c arg w = (w', Some i) -> i = length (objs w) /\ run_init c i arg (alloc c w) = (w', true).
  Proof.
    unfold create. fold (alloc c w). destruct (run_init c (length (objs w)) arg (alloc c w)) as [w1 ok] eqn:E. destruct ok; [|discriminate].
    intros [= <- <-]. auto.
  Qed.
  Lemma alloc_nth c w : nth_error (objs (alloc c w)) (length (objs w)) = Some (Obj [] false (type_of c) []).
  Proof. unfold alloc. cbn [objs]. rewrite nth_error_app2, Nat.sub_diag by lia. reflexivity. Qed.

  Lemma callable_spec c : callable (type_of c) = true <-> defines_call c.
  Proof.
    split.
    - induction c as [|n k b p IH]; [discriminate|]. cbn. destruct k; [constructor|]. intros C. apply inherited_call, IH, C.
    - induction 1 as [n b p|n k b p D IH]; cbn; [reflexivity|]. rewrite IH. apply orb_true_r.
  Qed.

  (** *** how often a runtime is orchestrated *)
  Theorem C101_count_partial : forall c arg w w' i, one_super c -> create limit orch c arg w = (w', Some i) ->
    exists o, nth_error (objs w') i = Some o /\
      (orch = true -> defines_call c -> length (seen o) = depth c) /\ (orch = false \/ ~ defines_call c -> seen o = []).
  Proof.
    intros c arg w w' i O E. apply create_run in E. destruct E as [-> E].
    destruct (run_grows c _ _ _ _ _ (alloc_nth c w) E) as (o & Eo & _ & _ & L & _). exists o. split; [exact Eo|]. rewrite patches_depth in L by exact O.
    cbn [seen length] in L. rewrite Nat.add_0_l in L. split.
    - intros Oe D. apply callable_spec in D. cbn [ty] in L. rewrite L, Oe, D. reflexivity.
    - intros D. apply length_zero_iff_nil. rewrite L. cbn [ty]. destruct D as [->|D]; [reflexivity|]. rewrite <- callable_spec in D.
      destruct (callable (type_of c)); [now destruct D|]. now rewrite andb_false_r.
  Qed.
  (** a direct subclass of NDSLRuntime is orchestrated once, when it has all its attributes *)
  Theorem C101_direct_partial : forall name b arg w w' i, orch = true -> create limit orch (CSub name true b CRuntime) arg w = (w', Some i) ->
    exists o, nth_error (objs w') i = Some o /\ seen o = [attrs o].
  Proof.
    intros name b arg w w' i Oe E. apply create_run in E. destruct E as [-> E]. pose proof (alloc_nth (CSub name true b CRuntime) w) as Eo.
    rewrite run_sub in E. cbv zeta in E. set (wa := alloc (CSub name true b CRuntime) w) in *. set (w0 := match top wa with None => World (objs wa) (Some (length (objs w))) (warnings wa) | Some _ => wa end) in E.
    assert (Eo0 : nth_error (objs w0) (length (objs w)) = Some (Obj [] false (type_of (CSub name true b CRuntime)) [])) by (unfold w0; destruct (top wa); exact Eo).
    destruct (run_body b (run_init CRuntime (length (objs w)) arg) (length (objs w)) arg w0) as [w1 ok] eqn:E1. destruct ok; [|discriminate].
    destruct (body_grows (run_init CRuntime (length (objs w)) arg) (length (objs w)) arg (patches CRuntime) (fun w o w' => run_grows CRuntime _ _ w o w') b w0 _ w1 Eo0 E1) as (o1 & Eo1 & I1 & C1 & L1 & _).
    destruct (post_grows _ w1 o1 w' Eo1 E) as (_ & o2 & Eo2 & I2 & G2 & A2 & S2 & _). exists o2. split; [exact Eo2|]. rewrite S2, C1, A2, Oe. cbn [type_of ty callable orb andb].
    assert (S1 : seen o1 = []). { rewrite Oe in L1. cbn [patches] in L1. rewrite Nat.mul_0_r in L1. cbn in L1. destruct (seen o1); [reflexivity|discriminate]. }
    rewrite S1. reflexivity.
  Qed.
  (** whoever does not call super().__init__ gets an exception *)
  Theorem C101_super_required : forall name k b p arg w, supers b = 0%nat -> snd (create limit orch (CSub name k b p) arg w) = None.
  Proof.
    intros name k b p arg w Sb. destruct (create limit orch (CSub name k b p) arg w) as [w' r] eqn:E. cbn. destruct r as [i|]; [|reflexivity]. exfalso.
    apply create_run in E. destruct E as [-> E]. pose proof (alloc_nth (CSub name k b p) w) as Eo.
    rewrite run_sub in E. cbv zeta in E. set (wa := alloc (CSub name k b p) w) in *. set (w0 := match top wa with None => World (objs wa) (Some (length (objs w))) (warnings wa) | Some _ => wa end) in E.
    assert (Eo0 : nth_error (objs w0) (length (objs w)) = Some (Obj [] false (type_of (CSub name k b p)) [])) by (unfold w0; destruct (top wa); exact Eo).
    destruct (run_body b (run_init p (length (objs w)) arg) (length (objs w)) arg w0) as [w1 ok] eqn:E1. destruct ok; [|discriminate].
    destruct (body_grows (run_init p (length (objs w)) arg) (length (objs w)) arg (patches p) (fun w o w' => run_grows p _ _ w o w') b w0 _ w1 Eo0 E1) as (o1 & Eo1 & I1 & _).
    rewrite Sb in I1. cbn in I1. destruct (post_grows _ w1 o1 w' Eo1 E) as (I2 & _). congruence.
  Qed.

  (** *** which objects are checked *)
  Lemma run_quiet : forall c self arg w t, top w = Some t -> (t < length (objs w))%nat -> t <> self -> (self < length (objs w))%nat ->
    warnings (fst (run_init c self arg w)) = warnings w.
  Proof.
    apply (cls_mut
      (fun c => forall self arg w t, top w = Some t -> (t < length (objs w))%nat -> t <> self -> (self < length (objs w))%nat ->
         warnings (fst (run_init c self arg w)) = warnings w)
      (fun b => forall super self arg w t, (forall w, (self < length (objs w))%nat -> frame self w (fst (super w))) ->
         (forall w, top w = Some t -> (t < length (objs w))%nat -> (self < length (objs w))%nat -> warnings (fst (super w)) = warnings w) ->
         top w = Some t -> (t < length (objs w))%nat -> (self < length (objs w))%nat -> warnings (fst (run_body b super self arg w)) = warnings w)).
    - reflexivity.
    - intros n k b Hb p Hp self arg w t T Lt Nt Ls. rewrite run_sub, T. cbv zeta.
      specialize (Hb (run_init p self arg) self arg w t (fun w => run_frame limit orch p self arg w) (fun w A B C => Hp self arg w t A B Nt C) T Lt Ls).
      pose proof (run_frame limit orch (CSub n k b p) self arg w Ls) as F.
      destruct (run_body b (run_init p self arg) self arg w) as [w1 ok] eqn:E1. cbn [fst] in Hb. destruct ok; [|exact Hb].
      rewrite <- Hb. unfold RunModel.post_init. destruct (nth_error (objs w1) self) as [o|]; [|reflexivity]. destruct (initialised o); [|reflexivity].
      assert (T1 : top w1 = Some t). { rewrite run_sub, T in F. cbv zeta in F. rewrite E1 in F. destruct F as (_ & _ & F). specialize (F t T).
        unfold RunModel.post_init in F. destruct (nth_error (objs w1) self) as [o'|]; [|exact F]. destruct (initialised o'); [|exact F].
        destruct (match top w1 with Some t0 => (t0 =? self)%nat | None => false end); [destruct (check limit (objs w1) self)|]; [| exact F |].
        all: destruct (callable (ty o')); exact F. }
      rewrite T1. destruct (Nat.eqb_spec t self); [contradiction|]. destruct (callable (ty o)); reflexivity.
    - reflexivity.
    - intros r Hr super self arg w t Fs Hs T Lt Ls. rewrite body_super. pose proof (Fs w Ls) as F. pose proof (Hs w T Lt Ls) as Q. destruct (super w) as [w1 ok]. cbn [fst] in F, Q.
      destruct ok; [|exact Q]. destruct F as (L1 & _ & T1). rewrite (Hr super self arg w1 t Fs Hs (T1 _ T)) by lia. exact Q.
    - intros n e r Hr super self arg w t Fs Hs T Lt Ls. rewrite body_set. rewrite (Hr super self arg _ t Fs Hs); [reflexivity|exact T| |]; unfold on; cbn [objs]; rewrite upd_length; lia.
    - intros n c Hc r Hr super self arg w t Fs Hs T Lt Ls. rewrite body_new.
      assert (La : length (objs (alloc c w)) = S (length (objs w))) by (unfold alloc; cbn; rewrite app_length; cbn; lia).
      pose proof (run_frame limit orch c (length (objs w)) (Some self) (alloc c w)) as F. pose proof (Hc (length (objs w)) (Some self) (alloc c w) t T) as Q.
      destruct (run_init c (length (objs w)) (Some self) (alloc c w)) as [w1 ok]. cbn [fst] in F, Q. rewrite La in F, Q. specialize (Q ltac:(lia) ltac:(lia) ltac:(lia)).
      specialize (F ltac:(lia)). destruct F as (L1 & _ & T1). rewrite La in L1. destruct ok; [|exact Q].
      rewrite (Hr super self arg _ t Fs Hs); [exact Q|exact (T1 t T)| |]; unfold on; cbn [objs]; rewrite upd_length; lia.
  Qed.

  (** once some runtime was created, successfully or not, no other is checked *)
  Theorem C101_later_unchecked : forall c arg w, (exists t, top w = Some t /\ (t < length (objs w))%nat) ->
    warnings (fst (create limit orch c arg w)) = warnings w.
  Proof.
    intros c arg w (t & T & L). unfold create. fold (alloc c w). pose proof (run_quiet c (length (objs w)) arg (alloc c w) t T) as Q.
    destruct (run_init c (length (objs w)) arg (alloc c w)) as [w1 ok]. cbn [fst] in *. apply Q; unfold alloc; cbn; rewrite ?app_length; cbn; lia.
  Qed.

  (** the first runtime is checked with all it holds *)
  Lemma body_quiet b self arg w : top w = Some self -> (self < length (objs w))%nat ->
    warnings (fst (run_body b (run_init CRuntime self arg) self arg w)) = warnings w /\ top (fst (run_body b (run_init CRuntime self arg) self arg w)) = Some self.
  Proof.
    revert w. induction b as [|r IH|n e r IH|n c r IH]; intros w T L.
    - auto.
    - rewrite body_super. destruct (IH (on w self (fun o => Obj (attrs o) true (ty o) (seen o)))) as [A B]; [exact T|unfold on; cbn; now rewrite upd_length|]. split; [exact A|exact B].
    - rewrite body_set. match goal with |- context [on w self ?f] => destruct (IH (on w self f)) as [A B] end; [exact T|unfold on; cbn; now rewrite upd_length|]. rewrite A, B. auto.
    - rewrite body_new. assert (La : length (objs (alloc c w)) = S (length (objs w))) by (unfold alloc; cbn; rewrite app_length; cbn; lia).
      pose proof (run_frame limit orch c (length (objs w)) (Some self) (alloc c w)) as F. pose proof (run_quiet c (length (objs w)) (Some self) (alloc c w) self T) as Q.
      destruct (run_init c (length (objs w)) (Some self) (alloc c w)) as [w1 ok]. cbn [fst] in F, Q. rewrite La in F, Q. specialize (Q ltac:(lia) ltac:(lia) ltac:(lia)).
      specialize (F ltac:(lia)). destruct F as (L1 & _ & T1). rewrite La in L1. specialize (T1 _ T). destruct ok; [|split; [exact Q|exact T1]].
      match goal with |- context [on w1 self ?f] => destruct (IH (on w1 self f)) as [A B] end; [exact T1|unfold on; cbn; rewrite upd_length; lia|]. rewrite A, B. auto.
  Qed.
  Lemma reaches_attrs l l' : length l = length l' -> (forall i o, nth_error l i = Some o -> exists o', nth_error l' i = Some o' /\ attrs o' = attrs o) ->
    forall i j, reaches l i j -> reaches l' i j.
  Proof.
    intros L H i j R. induction R as [|i o k m j E I R IH]; [constructor|]. destruct (H _ _ E) as (o' & E' & A). eapply r_step; [exact E'| |exact IH]. rewrite A. exact I.
  Qed.
  Theorem C101_first_partial : forall name k b arg w w', top w = None -> warnings w = [] -> create limit orch (CSub name k b CRuntime) arg w = (w', Some (length (objs w))) ->
    forall i n, In (i, n) (warnings w') <-> reaches (objs w') (length (objs w)) i /\ holds_quantity (objs w') i n.
  Proof.
    intros name k b arg w w' T W E. apply create_run in E. destruct E as [_ E]. rewrite run_sub in E. cbv zeta in E.
    set (wa := alloc (CSub name k b CRuntime) w) in *. replace (top wa) with (@None nat) in E by (symmetry; exact T).
    set (self := length (objs w)) in *. set (w0 := World (objs wa) (Some self) (warnings wa)) in E.
    assert (L0 : (self < length (objs w0))%nat) by (unfold w0, wa, self, alloc; cbn; rewrite app_length; cbn; lia).
    destruct (body_quiet b self arg w0 eq_refl L0) as [Q1 Q2].
    destruct (run_body b (run_init CRuntime self arg) self arg w0) as [w1 ok]. cbn [fst] in Q1, Q2. destruct ok; [|discriminate].
    unfold RunModel.post_init in E. destruct (nth_error (objs w1) self) as [o|] eqn:Eo; [|discriminate]. destruct (initialised o); [|discriminate].
    rewrite Q2, Nat.eqb_refl in E. destruct (check limit (objs w1) self) as [l|] eqn:El; [|discriminate]. injection E as <-.
    assert (Wq : warnings (if callable (ty o) then on (World (objs w1) (Some self) (warnings w1 ++ l)) self (patch orch self) else World (objs w1) (Some self) (warnings w1 ++ l)) = l).
    { destruct (callable (ty o)); cbn [on warnings]; rewrite Q1; unfold w0, wa, alloc; cbn [warnings]; rewrite W; reflexivity. }
    rewrite Wq. clear Wq. set (l' := objs _).
    assert (A1 : forall i o, nth_error (objs w1) i = Some o -> exists o', nth_error l' i = Some o' /\ attrs o' = attrs o).
    { intros i o1 Ei. unfold l'. destruct (callable (ty o)); [|eauto]. unfold on. cbn [objs]. destruct (Nat.eq_dec self i) as [->|N].
      - rewrite upd_same, Ei. eexists. split; [reflexivity|]. unfold patch. destruct orch; reflexivity.
      - rewrite upd_other by exact N. eauto. }
    assert (Ll : length (objs w1) = length l') by (unfold l'; destruct (callable (ty o)); [unfold on; cbn [objs]; now rewrite upd_length|reflexivity]).
    assert (A2 : forall i o, nth_error l' i = Some o -> exists o', nth_error (objs w1) i = Some o' /\ attrs o' = attrs o).
    { intros i o1 Ei. assert (i < length (objs w1))%nat by (rewrite Ll; apply nth_error_Some; congruence).
      destruct (nth_error (objs w1) i) as [o2|] eqn:E2; [|apply nth_error_None in E2; lia]. destruct (A1 _ _ E2) as (o3 & E3 & A). exists o2. split; [reflexivity|]. congruence. }
    intros i n. rewrite (check_exact _ _ _ _ El). split; intros [R (q & Eq & I)].
    - split; [exact (reaches_attrs _ _ Ll A1 _ _ R)|]. destruct (A1 _ _ Eq) as (q' & Eq' & A). exists q'. rewrite A. auto.
    - split; [exact (reaches_attrs _ _ (eq_sym Ll) A2 _ _ R)|]. destruct (A2 _ _ Eq) as (q' & Eq' & A). exists q'. rewrite A. auto.
  Qed.
End Track.

(** ** who may read a Local *)
Lemma subtype_refl t : subtype t t = true.
Proof. destruct t; cbn [subtype]; destruct (rty_dec _ _); congruence. Qed.
(** the classes made for single objects that occur in [t] were made for [i] *)
Fixpoint made_for (i : nat) (t : rty) : Prop :=
  match t with TRuntime => True | TSub _ _ p => made_for i p | TPatched j _ p => j = i /\ made_for i p end.
Lemma made_for_class i c : made_for i (type_of c).
Proof. induction c; cbn; auto. Qed.
Lemma subtype_patched i j n p t : made_for j t -> subtype t (TPatched i n p) = true -> i = j.
Proof.
  induction t as [|name k t IH|i' n' t IH]; cbn [made_for subtype]; intros M E.
  - destruct (rty_dec _ _); discriminate.
  - destruct (rty_dec _ _); [discriminate|]. auto.
  - destruct M as [-> M]. destruct (rty_dec _ _) as [[= <- <- <-]|_]; [reflexivity|]. auto.
Qed.
Section Guard.
  Variables (limit : nat) (orch : bool).
  Definition tidy (w : world) : Prop := forall i o, nth_error (objs w) i = Some o -> made_for i (ty o).
  Lemma tidy_on w i f : tidy w -> (forall o, made_for i (ty o) -> made_for i (ty (f o))) -> tidy (on w i f).
  Proof.
    intros T H j o E. unfold on in E. cbn [objs] in E. destruct (Nat.eq_dec i j) as [<-|N].
    - rewrite upd_same in E. destruct (nth_error (objs w) i) as [o1|] eqn:E1; [|discriminate]. injection E as <-. apply H, T, E1.
    - rewrite upd_other in E by exact N. apply T, E.
  Qed.
  Lemma tidy_alloc c w : tidy w -> tidy (alloc c w).
  Proof.
    intros T i o E. unfold alloc in E. cbn [objs] in E. destruct (Nat.lt_ge_cases i (length (objs w))) as [L|L].
    - rewrite nth_error_app1 in E by lia. apply T, E.
    - rewrite nth_error_app2 in E by lia. destruct (i - length (objs w))%nat as [|[|m]]; cbn in E; try discriminate. injection E as <-. apply made_for_class.
  Qed.
  Lemma tidy_post i w : tidy w -> tidy (fst (post_init limit orch i w)).
  Proof.
    intros T. unfold post_init. destruct (nth_error (objs w) i) as [o|]; [|exact T]. destruct (initialised o); [|exact T].
    assert (X : forall w0, objs w0 = objs w -> tidy (if callable (ty o) then on w0 i (patch orch i) else w0)).
    { intros w0 E0. assert (T0 : tidy w0) by (intros j o1 Ej; rewrite E0 in Ej; apply T, Ej). destruct (callable (ty o)); [|exact T0].
      apply tidy_on; [exact T0|]. intros o1 M. unfold patch. destruct orch; [|exact M]. cbn. auto. }
    destruct (match top w with Some t => (t =? i)%nat | None => false end); [destruct (check limit (objs w) i)|]; [apply X; reflexivity|exact T|apply X; reflexivity].
  Qed.
  Lemma run_tidy : forall c self arg w, tidy w -> tidy (fst (run_init limit orch c self arg w)).
  Proof.
    apply (cls_mut
      (fun c => forall self arg w, tidy w -> tidy (fst (run_init limit orch c self arg w)))
      (fun b => forall super self arg w, (forall w, tidy w -> tidy (fst (super w))) -> tidy w -> tidy (fst (run_body limit orch b super self arg w)))).
    - intros self arg w T. cbn. apply tidy_on; [exact T|]. auto.
    - intros n k b Hb p Hp self arg w T. rewrite run_sub. cbv zeta. set (w0 := match top w with None => World (objs w) (Some self) (warnings w) | Some _ => w end).
      assert (T0 : tidy w0) by (unfold w0; destruct (top w); exact T). specialize (Hb (run_init limit orch p self arg) self arg w0 (fun w => Hp self arg w) T0).
      destruct (run_body limit orch b (run_init limit orch p self arg) self arg w0) as [w1 ok]. cbn [fst] in Hb. destruct ok; [|exact Hb]. apply tidy_post, Hb.
    - intros super self arg w _ T. exact T.
    - intros r Hr super self arg w Hs T. rewrite body_super. specialize (Hs w T) as T1. destruct (super w) as [w1 ok]. cbn [fst] in T1. destruct ok; [|exact T1]. apply Hr; auto.
    - intros n e r Hr super self arg w Hs T. rewrite body_set. apply Hr; [exact Hs|]. apply tidy_on; [exact T|]. auto.
    - intros n c Hc r Hr super self arg w Hs T. rewrite body_new. specialize (Hc (length (objs w)) (Some self) (alloc c w) (tidy_alloc c w T)).
      destruct (run_init limit orch c (length (objs w)) (Some self) (alloc c w)) as [w1 ok]. cbn [fst] in Hc. destruct ok; [|exact Hc].
      apply Hr; [exact Hs|]. apply tidy_on; [exact Hc|]. auto.
  Qed.
  Lemma create_tidy c arg w : tidy w -> tidy (fst (create limit orch c arg w)).
  Proof.
    intros T. unfold create. fold (alloc c w). pose proof (run_tidy c (length (objs w)) arg (alloc c w) (tidy_alloc c w T)) as T1.
    destruct (run_init limit orch c (length (objs w)) arg (alloc c w)) as [w1 ok]. exact T1.
  Qed.
  Lemma program_tidy l w : tidy w -> tidy (program limit orch l w).
  Proof. revert w. induction l as [|[c a] l IH]; intros w T; [exact T|]. apply IH, create_tidy, T. Qed.

  (** an orchestrated object is the only one that may read its locals; code outside of a method never may *)
  Theorem C101_read_partial : forall l c arg w' i, orch = true -> defines_call c ->
    create limit orch c arg (program limit orch l start) = (w', Some i) ->
    forall caller, may_read w' caller i = true <-> caller = Some i.
  Proof.
    intros l c arg w' i Oe Cc E caller. apply callable_spec in Cc. set (w := program limit orch l start) in *.
    assert (T : tidy w') by (pose proof (create_tidy c arg w (program_tidy l start (fun i o E => ltac:(destruct i; discriminate)))) as T; rewrite E in T; exact T).
    apply create_run in E. destruct E as [-> E]. pose proof (alloc_nth c w) as Eo.
    destruct (run_grows limit orch c _ _ _ _ _ Eo E) as (o & Ew & _ & (Cg & _)). cbn [ty] in Cg.
    assert (P : exists n p, ty o = TPatched (length (objs w)) n p).
    { destruct c as [|name k b p]; [discriminate|]. rewrite run_sub in E. cbv zeta in E. set (wa := alloc (CSub name k b p) w) in *.
      set (w0 := match top wa with None => World (objs wa) (Some (length (objs w))) (warnings wa) | Some _ => wa end) in E.
      assert (Eo0 : nth_error (objs w0) (length (objs w)) = Some (Obj [] false (type_of (CSub name k b p)) [])) by (unfold w0; destruct (top wa); exact Eo).
      destruct (run_body limit orch b (run_init limit orch p (length (objs w)) arg) (length (objs w)) arg w0) as [w1 ok] eqn:E1. destruct ok; [|discriminate].
      destruct (body_grows limit orch (run_init limit orch p (length (objs w)) arg) (length (objs w)) arg (patches p) (fun w o w' => run_grows limit orch p _ _ w o w') b w0 _ w1 Eo0 E1) as (o1 & Eo1 & I1 & C1 & _).
      destruct (post_grows limit orch _ w1 o1 w' Eo1 E) as (_ & o2 & Eo2 & _ & _ & _ & _ & P). rewrite Ew in Eo2. injection Eo2 as <-. apply P. rewrite C1, Oe. exact Cc. }
    destruct P as (n & p & P). unfold may_read. destruct caller as [j|]; [|split; discriminate]. rewrite Ew. split.
    - destruct (nth_error (objs w') j) as [a|] eqn:Ej; [|discriminate]. rewrite P. intros S. rewrite (subtype_patched _ _ _ _ _ (T _ _ Ej) S). reflexivity.
    - intros [= ->]. rewrite Ew. apply subtype_refl.
  Qed.
End Guard.

(** the check ends for every limit above the depth of the nesting *)
Theorem C101_check_partial : forall l rank limit i, ranked l rank -> (rank i < limit)%nat ->
  exists w, check limit l i = Some w /\ forall j k, In (j, k) w <-> reaches l i j /\ holds_quantity l j k.
Proof. intros l rank limit i R L. destruct (check_ends l rank R limit i L) as [w E]. exists w. split; [exact E|]. exact (check_exact limit l i w E). Qed.

(** ** cases *)
Definition leaf : cls := CSub "Leaf" true (BSuper (BSet "q" EQuantity (BSet "tmp" ELocal BNil))) CRuntime.
Definition model : cls := CSub "Model" true (BSuper (BNew "leaf" leaf (BSet "mine" EQuantity BNil))) CRuntime.
Definition derived : cls := CSub "Derived" false (BSuper (BSet "more" EOther BNil)) model.
Example C101_case : one_super derived /\ defines_call derived /\ depth derived = 2%nat /\
  exists w w', create 1000 true model None start = (w, Some 0%nat) /\ warnings w = [(1, "q"); (0, "mine")]%nat%string /\
    create 1000 true derived None w = (w', Some 2%nat) /\ ranked (objs w) (fun i => match i with O => 1 | _ => 0 end)%nat.
Proof.
  split; [cbn; auto|]. split; [apply inherited_call, own_call|]. split; [reflexivity|]. eexists. eexists. split; [vm_compute; reflexivity|].
  split; [vm_compute; reflexivity|]. split; [vm_compute; reflexivity|].
  intros [|[|[|i]]] o k j E I; try discriminate; injection E as <-; cbn in I.
  - destruct I as [[= <- <-]|[[=]|[]]]. lia.
  - destruct I as [[=]|[[=]|[]]].
Qed.

(** a class derived from another runtime is orchestrated twice, first without its own attributes *)
Theorem C101_twice_refuted : exists w o, create 1000 true derived None start = (w, Some 0%nat) /\ nth_error (objs w) 0 = Some o /\
  exists first, seen o = [attrs o; first] /\ get (attrs o) "more" = Some VOther /\ get first "more" = None.
Proof. eexists. eexists. split; [vm_compute; reflexivity|]. split; [reflexivity|]. eexists. repeat split; reflexivity. Qed.
(** the second model of a program is not checked *)
Theorem C101_later_refuted : exists w w', create 1000 true leaf None start = (w, Some 0%nat) /\ warnings w = [(0%nat, "q"%string)] /\
  create 1000 true model None w = (w', Some 1%nat) /\ holds_quantity (objs w') 1 "mine" /\ warnings w' = warnings w.
Proof.
  eexists. eexists. split; [vm_compute; reflexivity|]. split; [reflexivity|]. split; [vm_compute; reflexivity|]. split; [|reflexivity].
  eexists. split; [reflexivity|]. cbn. auto.
Qed.
(** a runtime that keeps a reference to its owner makes the construction of the owner fail, whatever the recursion limit *)
Definition child : cls := CSub "Child" true (BSuper (BSet "owner" EArg BNil)) CRuntime.
Definition owner : cls := CSub "Owner" true (BSuper (BNew "child" child BNil)) CRuntime.
Lemma C101_cycle l a b o p : nth_error l a = Some o -> nth_error l b = Some p -> (exists k, In (k, VRuntime b) (attrs o)) -> (exists k, In (k, VRuntime a) (attrs p)) ->
  forall limit, check limit l a = None /\ check limit l b = None.
Proof.
  intros Ea Eb [k I] [k' I'] limit. induction limit as [|limit [A B]]; [auto|]. split.
  - exact (check_through limit l a o k b Ea I B).
  - exact (check_through limit l b p k' a Eb I' A).
Qed.
Theorem C101_cycle_refuted : forall limit orch, snd (create limit orch owner None start) = None.
Proof.
  intros limit orch. unfold create, owner, child.
  cbn [objs start length app type_of RunModel.run_init RunModel.run_body top warnings on RunModel.update set_attr initialised ty seen eval put attrs].
  unfold post_init at 1. cbn [objs nth_error initialised top Nat.eqb].
  cbn [ty callable orb on RunModel.update objs top warnings].
  destruct orch.
  - cbn [patch attrs initialised ty seen length]. unfold set_attr. cbn [attrs put initialised ty seen].
    unfold post_init. cbn [objs nth_error initialised top Nat.eqb].
    match goal with |- context [check limit ?l 0] => destruct (C101_cycle l 0 1 _ _ eq_refl eq_refl ltac:(cbn; eauto) ltac:(cbn; eauto) limit) as [-> _] end. reflexivity.
  - cbn [patch attrs initialised ty seen length]. unfold set_attr. cbn [attrs put initialised ty seen].
    unfold post_init. cbn [objs nth_error initialised top Nat.eqb].
    match goal with |- context [check limit ?l 0] => destruct (C101_cycle l 0 1 _ _ eq_refl eq_refl ltac:(cbn; eauto) ltac:(cbn; eauto) limit) as [-> _] end. reflexivity.
Qed.
(** another object of the same class may read a Local, unless the configuration is an orchestrated one *)
Theorem C101_read_refuted : exists l, 
  may_read (program 1000 false l start) (Some 1%nat) 0 = true /\ may_read (program 1000 true l start) (Some 1%nat) 0 = false.
Proof. exists [(leaf, None); (leaf, None)]. split; vm_compute; reflexivity. Qed.

Print Assumptions C101_count_partial.
Print Assumptions C101_direct_partial.
Print Assumptions C101_super_required.
Print Assumptions C101_later_unchecked.
Print Assumptions C101_first_partial.
Print Assumptions C101_check_partial.
Print Assumptions C101_read_partial.
Print Assumptions C101_twice_refuted.
Print Assumptions C101_later_refuted.
Print Assumptions C101_cycle_refuted.
Print Assumptions C101_read_refuted.
