(** C137: converting winds with CubedToLatLon. *)
From Verif Require Import Base Dict WrapModel C2lModel.
Local Open Scope string_scope.

Section C137.
  Context {A : Type} (truth : nat -> bool) (exchange : A -> A -> A * A) (mock_u mock_v : A -> A) (ord2 ord4 : A -> A -> A -> A -> A * A).
  Notation convert := (call exchange mock_u mock_v ord2 ord4).

  Lemma set_at (m : @memory A) p a q : set m p a q = if (q =? p)%nat then a else m q.
  Proof. reflexivity. Qed.
  Lemma set_eq (m : @memory A) p a : set m p a p = a.
  Proof. rewrite set_at, Nat.eqb_refl. reflexivity. Qed.
  Lemma set_ne (m : @memory A) p a q : q <> p -> set m p a q = m q.
  Proof. intros H. rewrite set_at. apply Nat.eqb_neq in H. now rewrite H. Qed.

  Lemma made order size s c : make truth order size s = Some c -> c = Converter (negb (order =? 2)%Z) (size =? 1)%Z (Wrapped ["u"] (Some ["v"]) true).
  Proof.
    unfold make. destruct (size =? 1)%Z; [intros [= <-]; reflexivity|]. destruct (check_for_attribute truth s "u") as [[]|]; cbn [bind]; [intros [= <-]; reflexivity| |discriminate].
    destruct (check_for_attribute truth s "v") as [[]|]; cbn [bind]; [discriminate|intros [= <-]; reflexivity|discriminate].
  Qed.
  Lemma update_is s : update (Wrapped ["u"] (Some ["v"]) true) s = match under s "u", under s "v" with Some x, Some y => Some [Start [x] (Some [y]); Wait] | _, _ => None end.
  Proof.
    unfold update, start, under. cbn [y_names x_names map]. destruct s as [l|l|]; [| |reflexivity]; cbn [getattribute getitem GridModel.all_some];
      destruct (get l "u"); cbn [bind]; try reflexivity; destruct (get l "v"); cbn [bind]; reflexivity.
  Qed.

  (** *** second order: ua and va from u and v as they are, nothing else is written, no exchange *)
  Theorem C137_second : forall size s c s' m u v ua va, make truth 2 size s = Some c -> ua <> va ->
    exists m', convert c s' m u v ua va = Some m' /\
    only m m' [(ua, fst (ord2 (m u) (m v) (m ua) (m va))); (va, snd (ord2 (m u) (m v) (m ua) (m va)))].
  Proof.
    intros size s c s' m u v ua va M D. rewrite (made _ _ _ _ M). unfold call. cbn [do_ord4 Z.eqb Pos.eqb negb bind]. destruct (ord2 _ _ _ _) as [a b]. eexists. split; [reflexivity|]. split.
    - intros p z [[= <- <-]|[[= <- <-]|[]]]; cbn [fst snd]; [rewrite set_ne by congruence; apply set_eq|apply set_eq].
    - intros p N. cbn in N. rewrite !set_ne; intuition.
  Qed.

  (** *** fourth order on several ranks: the vector the state has as u and v is exchanged; ua and va are computed from the arguments after that *)
  Theorem C137_state : forall size s c s' m u v ua va su sv, make truth 4 size s = Some c -> size <> 1 -> under s' "u" = Some su -> under s' "v" = Some sv ->
    su <> sv -> ua <> va -> ~ List.In ua [su; sv] -> ~ List.In va [su; sv] ->
    let after p := if (p =? su)%nat then fst (exchange (m su) (m sv)) else if (p =? sv)%nat then snd (exchange (m su) (m sv)) else m p in
    exists m', convert c s' m u v ua va = Some m' /\
    only m m' [(su, after su); (sv, after sv); (ua, fst (ord4 (after u) (after v) (m ua) (m va))); (va, snd (ord4 (after u) (after v) (m ua) (m va)))].
  Proof.
    intros size s c s' m u v ua va su sv M S U V D1 D2 D3 D4 after. rewrite (made _ _ _ _ M). apply Z.eqb_neq in S. rewrite S. unfold call. cbn [do_ord4 one_rank updater Z.eqb Pos.eqb negb].
    rewrite update_is, U, V. cbn [bind effect]. destruct (exchange (m su) (m sv)) as [x y] eqn:E. cbn [fst snd] in after. cbn [bind].
    assert (AF : forall p, set (set m su x) sv y p = after p).
    { intros p. rewrite !set_at. unfold after. destruct (Nat.eqb_spec p sv) as [->|]; [|reflexivity]. destruct (Nat.eqb_spec sv su); [congruence|reflexivity]. }
    cbn in D3, D4. assert (AU : after ua = m ua). { unfold after. destruct (Nat.eqb_spec ua su); [intuition congruence|]. destruct (Nat.eqb_spec ua sv); [intuition congruence|reflexivity]. }
    assert (AV : after va = m va). { unfold after. destruct (Nat.eqb_spec va su); [intuition congruence|]. destruct (Nat.eqb_spec va sv); [intuition congruence|reflexivity]. }
    rewrite !AF, AU, AV. destruct (ord4 _ _ _ _) as [a b]. eexists. split; [reflexivity|]. split.
    - intros p z [[= <- <-]|[[= <- <-]|[[= <- <-]|[[= <- <-]|[]]]]]; cbn [fst snd].
      + rewrite (set_ne _ va), (set_ne _ ua) by (intuition congruence). now rewrite AF.
      + rewrite !(set_ne _ va), !(set_ne _ ua) by (intuition congruence). now rewrite AF.
      + rewrite set_ne by congruence. apply set_eq.
      + apply set_eq.
    - intros p N. cbn in N. rewrite !set_ne; intuition.
  Qed.

  (** *** so if the arguments are what the state has, their halos are exchanged before they are used *)
  Theorem C137_fourth_partial : forall size s c s' m u v ua va, make truth 4 size s = Some c -> size <> 1 -> under s' "u" = Some u -> under s' "v" = Some v ->
    NoDup [u; v; ua; va] ->
    let x := fst (exchange (m u) (m v)) in let y := snd (exchange (m u) (m v)) in
    exists m', convert c s' m u v ua va = Some m' /\ only m m' [(u, x); (v, y); (ua, fst (ord4 x y (m ua) (m va))); (va, snd (ord4 x y (m ua) (m va)))].
  Proof.
    intros size s c s' m u v ua va M S U V ND x y. inversion ND as [|? ? N1 ND1]; subst. inversion ND1 as [|? ? N2 ND2]; subst. inversion ND2 as [|? ? N3 _]; subst. cbn in N1, N2, N3.
    assert (D1 : u <> v) by intuition. assert (D2 : ua <> va) by intuition. assert (D3 : ~ List.In ua [u; v]) by (cbn; intuition). assert (D4 : ~ List.In va [u; v]) by (cbn; intuition).
    pose proof (C137_state size s c s' m u v ua va u v M S U V D1 D2 D3 D4) as H. cbv beta zeta in H. rewrite !Nat.eqb_refl in H.
    destruct (Nat.eqb_spec v u); [congruence|]. exact H.
  Qed.

  (** *** on one rank the arguments' own halos are filled from the other side *)
  Theorem C137_one_rank : forall s c s' m u v ua va, make truth 4 1 s = Some c -> NoDup [u; v; ua; va] ->
    exists m', convert c s' m u v ua va = Some m' /\
    only m m' [(u, mock_u (m u)); (v, mock_v (m v)); (ua, fst (ord4 (mock_u (m u)) (mock_v (m v)) (m ua) (m va))); (va, snd (ord4 (mock_u (m u)) (mock_v (m v)) (m ua) (m va)))].
  Proof.
    intros s c s' m u v ua va M ND. rewrite (made _ _ _ _ M). inversion ND as [|? ? N1 ND1]; subst. inversion ND1 as [|? ? N2 ND2]; subst. inversion ND2 as [|? ? N3 _]; subst. cbn in N1, N2, N3.
    unfold call. cbn [do_ord4 one_rank Z.eqb Pos.eqb negb bind].
    rewrite (set_ne m u _ v) by intuition. rewrite (set_ne _ v _ u), (set_ne _ v _ ua), (set_ne _ v _ va), (set_ne _ u _ ua), (set_ne _ u _ va) by intuition. rewrite !set_eq.
    destruct (ord4 _ _ _ _) as [a b]. eexists. split; [reflexivity|]. split.
    - intros p z [[= <- <-]|[[= <- <-]|[[= <- <-]|[[= <- <-]|[]]]]]; cbn [fst snd].
      + rewrite !(set_ne _ va), !(set_ne _ ua), (set_ne _ v) by intuition. apply set_eq.
      + rewrite !(set_ne _ va), !(set_ne _ ua) by intuition. apply set_eq.
      + rewrite set_ne by intuition. apply set_eq.
      + apply set_eq.
    - intros p N. cbn in N. rewrite !set_ne; intuition.
  Qed.

  (** *** a state without u or v: with fourth order on several ranks the conversion raises, nothing is written *)
  Theorem C137_missing : forall size s c s' m u v ua va, make truth 4 size s = Some c -> size <> 1 -> under s' "u" = None \/ under s' "v" = None -> convert c s' m u v ua va = None.
  Proof.
    intros size s c s' m u v ua va M S N. rewrite (made _ _ _ _ M). apply Z.eqb_neq in S. rewrite S. unfold call. cbn [do_ord4 one_rank updater Z.eqb Pos.eqb negb]. rewrite update_is.
    destruct (under s' "u"), (under s' "v"); destruct N; try discriminate; reflexivity.
  Qed.

  (** *** dictionaries refused when a converter is made for several ranks: those with v and without u *)
  Theorem C137_checked_partial : forall order size l, size <> 1 -> make truth order size (Dictionary l) = None <-> get l "u" = None /\ get l "v" <> None.
  Proof.
    intros order size l S. apply Z.eqb_neq in S. unfold make. rewrite S. cbn [check_for_attribute bind]. destruct (get l "u"); cbn [bind]; [intuition discriminate|].
    destruct (get l "v"); intuition congruence.
  Qed.
End C137.
Print Assumptions C137_second.
Print Assumptions C137_state.
Print Assumptions C137_fourth_partial.
Print Assumptions C137_one_rank.
Print Assumptions C137_missing.
Print Assumptions C137_checked_partial.

(** *** cases: arrays are one value with a flag, halos exchanged or not *)
Local Definition arr := (Z * bool)%type.
Local Definition exch (a b : arr) : arr * arr := ((fst a, true), (fst b, true)).
Local Definition mock (a : arr) : arr := (fst a, true).
Local Definition o2 (u v ua va : arr) : arr * arr := ((fst u + fst v, false), (fst u - fst v, false)).
Local Definition o4 (u v ua va : arr) : arr * arr := ((fst u + fst v, snd u && snd v), (fst u - fst v, snd u && snd v)).
Local Definition start_memory : nat -> arr := fun p => (Z.of_nat p + 5, false).
Local Definition winds : state nat := Dictionary [("u", 0%nat); ("v", 1%nat)].
Local Definition yes : nat -> bool := fun _ => true.
Example C137_case : exists c c2 m m2, make yes 4 6 winds = Some c /\ make yes 2 6 winds = Some c2 /\ NoDup [0; 1; 2; 3]%nat /\
  call exch mock mock o2 o4 c winds start_memory 0 1 2 3 = Some m /\ map m [0; 1; 2; 3; 4]%nat = [(5, true); (6, true); (11, true); (-1, true); (9, false)] /\
  call exch mock mock o2 o4 c2 winds start_memory 0 1 2 3 = Some m2 /\ map m2 [0; 1; 2; 3; 4]%nat = [(5, false); (6, false); (11, false); (-1, false); (9, false)].
Proof. do 4 eexists. do 2 (split; [reflexivity|]). split; [repeat constructor; cbn; lia|]. repeat split. Qed.

(** *** arguments that are not what the state has: their halos are not exchanged, others are *)
Theorem C137_arguments_refuted : exists c m, make yes 4 6 winds = Some c /\ call exch mock mock o2 o4 c winds start_memory 4 5 2 3 = Some m /\
  snd (m 4%nat) = false /\ snd (m 5%nat) = false /\ snd (m 2%nat) = false /\ snd (m 0%nat) = true.
Proof. do 2 eexists. repeat split. Qed.
Print Assumptions C137_arguments_refuted.
(** *** a state with neither u nor v, or without v, is accepted, and the conversion raises *)
Theorem C137_checked_refuted : exists (s s2 : state nat) c c2, make yes 4 6 s = Some c /\ under s "u" = None /\ under s "v" = None /\ make yes 4 6 s2 = Some c2 /\ under s2 "v" = None /\
  call exch mock mock o2 o4 c s start_memory 0 1 2 3 = None /\ call exch mock mock o2 o4 c2 s2 start_memory 0 1 2 3 = None.
Proof. exists (Dictionary []), (Dictionary [("u", 0%nat)]). do 2 eexists. repeat split. Qed.
Print Assumptions C137_checked_refuted.
(** *** an order that is neither 2 nor 4 is accepted, and taken for 4 *)
Theorem C137_order_refuted : exists order, order <> 2 /\ order <> 4 /\ make yes order 6 winds <> None /\ make yes order 6 winds = make yes 4 6 winds.
Proof. exists 3. repeat split; discriminate. Qed.
Print Assumptions C137_order_refuted.
