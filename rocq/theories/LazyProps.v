(** C93 and C94: the metric terms, read one after the other. *)
From Verif Require Import LazyModel LazyProofs LazyProofs2 LazyProofs3.

(** What GridDefinitions declares of a term: ndsl/grid/generation.py 92-214.  None: not declared there. *)
Definition declared (t : term) : option (list dimn * string) :=
  match t with
  | grid => Some ([II; JI; LL], "radians") | agrid => Some ([I; J; LL], "radians")
  | lon | lat => Some ([II; JI], "radians") | lon_agrid | lat_agrid => Some ([I; J], "radians")
  | area => Some ([I; J], "m^2") | area_c => Some ([II; JI], "m^2")
  | rarea => Some ([I; J], "1/m^2") | rarea_c => Some ([II; JI], "1/m^2")
  | dx => Some ([I; JI], "m") | dy => Some ([II; J], "m") | dxc => Some ([II; J], "m") | dyc => Some ([I; JI], "m")
  | dxa | dya => Some ([I; J], "m")
  | rdx => Some ([I; JI], "1/m") | rdy => Some ([II; J], "1/m") | rdxc => Some ([II; J], "1/m") | rdyc => Some ([I; JI], "1/m")
  | rdxa | rdya => Some ([I; J], "1/m")
  | ak | bk => Some ([KI], "m")
  | ec1 | ec2 => Some ([I; J; XYZ], "m") | ew1 | ew2 => Some ([II; JI; XYZ], "m") | es1 | es2 => Some ([I; JI; XYZ], "m")
  | cosa_u | sina_u | rsin_u => Some ([II; J], "") | cosa_v | sina_v | rsin_v => Some ([I; JI], "")
  | cosa_s | rsin2 => Some ([I; J], "") | rsina | cosa | sina => Some ([II; JI], "")
  | cos_sg _ | sin_sg _ => Some ([I; J], "")
  | l2c_u => Some ([I; JI], "") | l2c_v => Some ([II; J], "") | ee1 | ee2 => Some ([II; JI; XYZ], "")
  | del6_u | divg_u => Some ([I; JI], "") | del6_v | divg_v => Some ([II; J], "")
  | z11 | z12 | z21 | z22 | a11 | a12 | a21 | a22 => Some ([I; J], "")
  | edge_s | edge_n => Some ([II], "") | edge_e | edge_w => Some ([I; JI], "")
  | edge_vect_s | edge_vect_n => Some ([I], "") | edge_vect_e_1d | edge_vect_w_1d => Some ([J], "")
  | edge_vect_e | edge_vect_w => Some ([I; J], "")
  | vlon | vlat | da_min | da_max | da_min_c | da_max_c | area64 => None
  end.
(** the terms whose declared dimensions, or units, are not the actual ones *)
Definition other_dims (t : term) : bool := match t with ew1 | ew2 => true | _ => false end.
Definition other_units (t : term) : bool :=
  match t with
  | ec1 | ec2 | ew1 | ew2 | es1 | es2 | rarea | rarea_c | rdx | rdy | rdxc | rdyc | rdxa | rdya | ak | bk => true
  | _ => false
  end.
(** the terms that do not have the model's float type: area64, the four edge factors, and the four global numbers *)
Definition is_wide (t : term) : bool :=
  match t with area64 | edge_w | edge_e | edge_s | edge_n | da_min | da_max | da_min_c | da_max_c => true | _ => false end.

(** a result that exists: the object returned for the [i]-th read *)
Definition nth_obj {V} (l : list (option (obj V))) (i : nat) : option (obj V) :=
  match nth_error l i with Some (Some o) => Some o | _ => None end.

Section Props.
  Context {V Rank : Type} (net : call -> (Rank -> list V) -> Rank -> list V).
  Hypothesis net_ext : forall c d d' r, (forall r', d r' = d' r') -> net c d r = net c d' r.
  Variable cart : bool.
  Variable comp : Rank -> string -> nat -> list V -> V.
  Variable round : V -> V.
  Variable init : Rank -> string -> V.
  (** all ranks read [ts] *)
  Notation reading ts := (session cart comp round init (fun _ => ts)).

  Lemma session_run ts : Forall valid ts ->
    exists n out s done, runs net (fun r => reads cart (comp r) round ts (fresh round (init r))) n (fun r => (out r, s r)) /\
      runs net (reading ts) n out /\
      Inv (D net comp round init cart) done s /\ (forall t, In t ts -> exists g, group (name_of t) = Some g /\ In g done) /\
      forall r, Forall2 (fun t o => result net comp round init cart t r o (s r)) ts (out r).
  Proof.
    intros Vd. destruct (r_reads net comp round init cart ts Vd [G0] _ (fresh_inv net comp round init cart) (or_introl eq_refl))
      as (n & out & s & d & R & H & _ & _ & Gs & Q).
    exists n, out, s, d. split; [exact R|]. split; [|split; [exact H|split; [exact Gs|exact Q]]].
    replace n with (n + 0)%nat by lia. unfold session. apply (runs_bind net _ n (fun r => (out r, s r))); [exact R|]. apply Done. reflexivity.
  Qed.

  Lemma Forall2_at {A B} (P : A -> B -> Prop) l l' i a : Forall2 P l l' -> nth_error l i = Some a -> exists b, nth_error l' i = Some b /\ P a b.
  Proof.
    intros H. revert i. induction H as [|x y l l' Pxy H IH]; intros [|i] E; cbn in E; try discriminate.
    - injection E as <-. exists y. split; [reflexivity|exact Pxy].
    - apply IH in E. exact E.
  Qed.

  Lemma run_content ts n out r i t : Forall valid ts -> runs net (reading ts) n out -> nth_error ts i = Some t ->
    exists o, nth_obj (out r) i = Some o /\ what o = content net comp round init cart t r.
  Proof.
    intros Vd R E. destruct (session_run ts Vd) as (n' & out' & s & d & _ & R' & _ & _ & Q).
    destruct (runs_det net net_ext _ _ _ _ _ R R' r) as [_ ->].
    destruct (Forall2_at _ _ _ i t (Q r) E) as (o & Eo & o' & -> & W & _). exists o'. unfold nth_obj. rewrite Eo. auto.
  Qed.

  (** All ranks read the same terms, in any order and as often as they like: the reads all return, and each returns a quantity with
      the content it would have had, had nothing else been read before. *)
  Theorem C93_order ts : Forall valid ts ->
    exists n out, runs net (reading ts) n out /\
      forall r i t, nth_error ts i = Some t ->
        exists o m solo o', nth_obj (out r) i = Some o /\ runs net (reading [t]) m solo /\ solo r = [Some o'] /\ what o = what o'.
  Proof.
    intros Vd. destruct (session_run ts Vd) as (n & out & _ & _ & _ & R & _). exists n, out. split; [exact R|].
    intros r i t E. destruct (run_content ts n out r i t Vd R E) as (o & Eo & W).
    assert (Vt : Forall valid [t]) by (constructor; [rewrite Forall_forall in Vd; apply Vd, (nth_error_In _ _ E)|constructor]).
    destruct (session_run [t] Vt) as (m & solo & s & d & _ & R1 & _ & _ & Q1).
    specialize (Q1 r). inversion Q1 as [|? o1 ? l1 (o' & -> & W' & _) Q2]; subst. inversion Q2; subst.
    exists o, m, solo, o'. split; [exact Eo|]. split; [exact R1|]. split; [symmetry; assumption|]. rewrite W, W'. reflexivity.
  Qed.

  (** There is no other outcome. *)
  Theorem C93_determined ts n out n' out' : runs net (reading ts) n out -> runs net (reading ts) n' out' -> forall r, n = n' /\ out r = out' r.
  Proof. exact (runs_det net net_ext _ n out n' out'). Qed.

  (** A term that is not a view is computed once: reading it again returns the same object, whatever was read in between. *)
  Theorem C93_same_object ts n out r i j t : Forall valid ts -> runs net (reading ts) n out ->
    nth_error ts i = Some t -> nth_error ts j = Some t -> view t = None -> nth_obj (out r) i = nth_obj (out r) j.
  Proof.
    intros Vd R Ei Ej Vw. destruct (session_run ts Vd) as (n' & out' & s & d & _ & R' & _ & _ & Q).
    destruct (runs_det net net_ext _ _ _ _ _ R R' r) as [_ ->].
    destruct (Forall2_at _ _ _ i t (Q r) Ei) as (o & Eo & o' & -> & _ & At).
    destruct (Forall2_at _ _ _ j t (Q r) Ej) as (p & Ep & p' & -> & _ & At').
    unfold nth_obj. rewrite Eo, Ep. specialize (At Vw). specialize (At' Vw). congruence.
  Qed.

  (** Reading terms again costs no communication and changes nothing of what was read (there is at least one rank). *)
  Theorem C93_again ts us n out : inhabited Rank -> Forall valid ts -> incl us ts -> runs net (reading ts) n out ->
    exists out', runs net (reading (ts ++ us)%list) n out' /\ forall r, firstn (length ts) (out' r) = out r.
  Proof.
    intros [r0] Vd Inc R. destruct (session_run ts Vd) as (n' & out0 & s & d & Rr & R' & H & Gs & Q).
    destruct (runs_det net net_ext _ _ _ _ _ R R' r0) as [-> _].
    assert (Vu : Forall valid us) by (rewrite Forall_forall in *; auto).
    destruct (reads_hit net comp round init cart us d s Vu (fun t Ht => Gs t (Inc t Ht)) H) as (l & s' & E & _).
    exists (fun r => (out0 r ++ l r)%list). split.
    - assert (Rn : runs net (fun r => reads cart (comp r) round (ts ++ us)%list (fresh round (init r))) (n' + 0) (fun r => ((out0 r ++ l r)%list, s' r))).
      { eapply (runs_eqp net (fun r => pbind (reads cart (comp r) round ts (fresh round (init r)))
          (fun p => pbind (reads cart (comp r) round us (snd p)) (fun q => Ret ((fst p ++ fst q)%list, snd q))))).
        - apply (runs_bind net _ n' (fun r => (out0 r, s r))); [exact Rr|]. apply Done. intros r. cbn [fst snd]. rewrite E. reflexivity.
        - intros r. apply eqp_sym, reads_app. }
      replace n' with (n' + 0 + 0)%nat by lia.
      unfold session. apply (runs_bind net _ _ (fun r => ((out0 r ++ l r)%list, s' r))); [exact Rn|]. apply Done. reflexivity.
    - intros r. destruct (runs_det net net_ext _ _ _ _ _ R R' r) as [_ ->].
      assert (L : length ts = length (out0 r)) by (clear - Q; specialize (Q r); induction Q; cbn; congruence).
      rewrite L, firstn_app, Nat.sub_diag, firstn_all. cbn. apply app_nil_r.
  Qed.

  (** Whatever was read before, a term has the dimensions that GridDefinitions declares, but for ew1 and ew2. *)
  Theorem C94_dims ts n out r i t ds u : Forall valid ts -> runs net (reading ts) n out ->
    nth_error ts i = Some t -> declared t = Some (ds, u) -> other_dims t = false ->
    exists o, nth_obj (out r) i = Some o /\ dims (what o) = ds.
  Proof.
    intros Vd R E Dc Ot. destruct (run_content ts n out r i t Vd R E) as (o & Eo & W). exists o. split; [exact Eo|]. rewrite W.
    assert (Vt : valid t) by (rewrite Forall_forall in Vd; apply Vd, (nth_error_In _ _ E)). clear - Dc Ot Vt.
    destruct t; try discriminate; injection Dc as <- <-; try reflexivity;
      (do 9 (destruct i as [|i]; [reflexivity|])); cbn in Vt; lia.
  Qed.
  (** ... the declared units, but for the unit vectors, the reciprocals, ak and bk, *)
  Theorem C94_units ts n out r i t ds u : Forall valid ts -> runs net (reading ts) n out ->
    nth_error ts i = Some t -> declared t = Some (ds, u) -> other_units t = false ->
    exists o, nth_obj (out r) i = Some o /\ units (what o) = u.
  Proof.
    intros Vd R E Dc Ot. destruct (run_content ts n out r i t Vd R E) as (o & Eo & W). exists o. split; [exact Eo|]. rewrite W.
    assert (Vt : valid t) by (rewrite Forall_forall in Vd; apply Vd, (nth_error_In _ _ E)). clear - Dc Ot Vt.
    destruct t; try discriminate; injection Dc as <- <-; try reflexivity;
      (do 9 (destruct i as [|i]; [reflexivity|])); cbn in Vt; lia.
  Qed.
  (** ... and the model's float type, but for area64, the edge factors and the four numbers reduced over all ranks. *)
  Theorem C94_precision ts n out r i t : Forall valid ts -> runs net (reading ts) n out ->
    nth_error ts i = Some t -> exists o, nth_obj (out r) i = Some o /\ wide (what o) = is_wide t.
  Proof.
    intros Vd R E. destruct (run_content ts n out r i t Vd R E) as (o & Eo & W). exists o. split; [exact Eo|]. rewrite W.
    assert (Vt : valid t) by (rewrite Forall_forall in Vd; apply Vd, (nth_error_In _ _ E)). clear - Vt.
    destruct t; try reflexivity; (do 9 (destruct i as [|i]; [reflexivity|])); cbn in Vt; lia.
  Qed.
End Props.
Print Assumptions C93_order.
Print Assumptions C93_determined.
Print Assumptions C93_same_object.
Print Assumptions C93_again.
Print Assumptions C94_dims.
Print Assumptions C94_units.
Print Assumptions C94_precision.

(** Two ranks that exchange what they hand in; numbers whose text tells how they were computed. *)
Definition text_comp (r : bool) (name : string) (i : nat) (args : list string) : string :=
  name ++ digit i ++ "(" ++ String.concat "," args ++ ")".
Definition swap_net (c : call) (d : bool -> list string) (r : bool) : list string := d (negb r).
Definition text_init (r : bool) (a : string) : string := if r then a ++ "+" else a.
Notation text := (session false text_comp (fun x => x) text_init).

Lemma swap_ext c d d' r : (forall r', d r' = d' r') -> swap_net c d r = swap_net c d' r.
Proof. intros E. apply E. Qed.

Example C93_case : Forall valid [rdx; sin_sg 4; a11; rdx] /\
  exists n out, runs swap_net (text (fun _ => [rdx; sin_sg 4; a11; rdx])) n out /\
    option_map what (nth_obj (out true) 0) =
      Some (Value [I; JI] "m^-1" false "reciprocal0(fill_corners_dgrid0(great_circle_distance_along_axis0(_grid_64),great_circle_distance_along_axis1(_grid_64)))").
Proof.
  assert (Vd : Forall valid [rdx; sin_sg 4; a11; rdx]) by (repeat constructor; cbn; lia). split; [exact Vd|].
  destruct (session_run swap_net false text_comp (fun x => x) text_init _ Vd) as (n & out & _ & _ & _ & R & _).
  exists n, out. split; [exact R|].
  destruct (run_content swap_net swap_ext _ _ _ _ _ _ _ true 0 rdx Vd R eq_refl) as (o & -> & W). cbn [option_map]. rewrite W.
  vm_compute. reflexivity.
Qed.

(** two ranks, run one collective operation after the other *)
Definition same_call (c c' : call) : {c = c'} + {c <> c'}.
Proof. decide equality. apply Bool.bool_dec. Defined.
Fixpoint exec {A} (fuel : nat) (p q : prog string A) : option (nat * A * A) :=
  match fuel, p, q with
  | _, Ret a, Ret b => Some (0%nat, a, b)
  | S fuel, Xch c d k, Xch c' d' k' =>
    if same_call c c' then
      match exec fuel (k d') (k' d) with Some (n, a, b) => Some (S n, a, b) | None => None end
    else None
  | _, _, _ => None
  end.
Lemma exec_runs {A} fuel (p : bool -> prog string A) n a b :
  exec fuel (p true) (p false) = Some (n, a, b) -> runs swap_net p n (fun r => if r then a else b).
Proof.
  revert p n a b. induction fuel as [|fuel IH]; intros p n a b E.
  - destruct (p true) as [x| |] eqn:Et, (p false) as [y| |] eqn:Ef; try discriminate. cbn in E. injection E as <- <- <-.
    apply Done. intros [|]; assumption.
  - destruct (p true) as [x| |c d k] eqn:Et, (p false) as [y| |c' d' k'] eqn:Ef; try discriminate; cbn [exec] in E.
    + injection E as <- <- <-. apply Done. intros [|]; assumption.
    + destruct (same_call c c') as [<-|]; [|discriminate].
      destruct (exec fuel (k d') (k' d)) as [[[m a'] b']|] eqn:Ex; [|discriminate]. injection E as <- <- <-.
      apply Step with (c := c) (d := fun r : bool => if r then d else d') (k := fun r : bool => if r then k else k').
      * intros [|]; assumption.
      * apply IH. exact Ex.
Qed.

(** When the ranks read the same terms in different orders, a rank gets other values: one rank's first halo update meets the other
    rank's first one, which is that of another term. *)
Theorem C93_order_refuted : exists ts : bool -> list term,
  (forall t, In t (ts true) <-> In t (ts false)) /\
  exists n out, runs swap_net (text ts) n out /\
    exists o m solo o', nth_obj (out true) 0 = Some o /\ nth_error (ts true) 0 = Some dx /\
      runs swap_net (text (fun _ => [dx])) m solo /\ solo true = [Some o'] /\ what o <> what o'.
Proof.
  exists (fun r : bool => if r then [dx; dxc] else [dxc; dx]). split; [intros t; cbn; tauto|].
  eexists 2%nat, _. split; [apply (exec_runs 3); vm_compute; reflexivity|].
  eexists _, 1%nat, _, _. split; [vm_compute; reflexivity|]. split; [reflexivity|].
  split; [apply (exec_runs 3); vm_compute; reflexivity|]. split; [reflexivity|]. cbn. discriminate.
Qed.
Print Assumptions C93_order_refuted.

(** When only one of them reads a term, it waits for ever. *)
Theorem C93_alone_refuted : ~ exists n out, runs swap_net (text (fun r => if r then [dx] else [])) n out.
Proof.
  intros (n & out & R). inversion R as [p o E|p c d k m o E R']; subst.
  - specialize (E true). vm_compute in E. discriminate E.
  - specialize (E false). vm_compute in E. discriminate E.
Qed.
Print Assumptions C93_alone_refuted.

(** What GridDefinitions declares is not what MetricTerms returns: dimensions, units; and not every term has the model's type. *)
Theorem C94_declared_refuted :
  exists n out, runs swap_net (text (fun _ => [ew1; rdx; edge_w])) n out /\
    (exists o, nth_obj (out true) 0 = Some o /\ declared ew1 = Some ([II; JI; XYZ], "m") /\ dims (what o) = [II; J; XYZ]) /\
    (exists o, nth_obj (out true) 1 = Some o /\ declared rdx = Some ([I; JI], "1/m") /\ units (what o) = "m^-1") /\
    (exists o, nth_obj (out true) 2 = Some o /\ wide (what o) = true).
Proof.
  assert (Vd : Forall valid [ew1; rdx; edge_w]) by (repeat constructor).
  destruct (session_run swap_net false text_comp (fun x => x) text_init _ Vd) as (n & out & _ & _ & _ & R & _).
  exists n, out. split; [exact R|].
  destruct (run_content swap_net swap_ext _ _ _ _ _ _ _ true 0 ew1 Vd R eq_refl) as (o & E & W).
  destruct (run_content swap_net swap_ext _ _ _ _ _ _ _ true 1 rdx Vd R eq_refl) as (o1 & E1 & W1).
  destruct (run_content swap_net swap_ext _ _ _ _ _ _ _ true 2 edge_w Vd R eq_refl) as (o2 & E2 & W2).
  split; [exists o; rewrite W; auto|]. split; [exists o1; rewrite W1; auto|exists o2; rewrite W2; auto].
Qed.
Print Assumptions C94_declared_refuted.

Example C94_case : declared sina_u = Some ([II; J], "") /\ other_dims sina_u = false /\ other_units sina_u = false /\
  exists n out, runs swap_net (text (fun _ => [dy; sina_u])) n out /\
    exists o, nth_obj (out false) 1 = Some o /\ dims (what o) = [II; J] /\ units (what o) = "" /\ wide (what o) = false.
Proof.
  split; [reflexivity|]. split; [reflexivity|]. split; [reflexivity|].
  assert (Vd : Forall valid [dy; sina_u]) by (repeat constructor).
  destruct (session_run swap_net false text_comp (fun x => x) text_init _ Vd) as (n & out & _ & _ & _ & R & _).
  exists n, out. split; [exact R|].
  destruct (run_content swap_net swap_ext _ _ _ _ _ _ _ false 1 sina_u Vd R eq_refl) as (o & E & W).
  exists o. rewrite W. auto.
Qed.
