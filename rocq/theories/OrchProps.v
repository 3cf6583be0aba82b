(** C108: orchestrating a method of an object. *)
From Verif Require Import Base Dict OrchModel OrchProofs.
Open Scope Z_scope.

Local Notation CALL := "__call__"%string.
(** the class is the user's, and the address is free *)
Definition possible (w : world) (c : cls) (a : Z) : Prop := forallb (fun f => (f <? n_user w)%nat) (functions_of c) = true /\ in_use w a = false.

Lemma held_history fs l0 c a l : let w := steps (start fs) l0 in let o := length (objs w) in
  possible w c a -> is_live (steps w (New c a :: l)) o = true ->
  let w' := steps w (New c a :: l) in fine w' /\ exists x, held w' l o c a x.
Proof.
  intros w o [U A] L w'. destruct (steps_fine l0 (start fs) (start_fine fs) (start_known fs)) as [F K]. fold w in F, K.
  destruct (step_fine w (New c a) F K) as [F1 K1]. unfold w' in *. cbn [steps fold_left] in *. fold (steps (step w (New c a)) l) in *.
  split; [now apply steps_fine|]. apply (held_steps _ [] o c a _ F1 K1 (held_new w c a F U A) l L).
Qed.

(** A method that was not orchestrated runs as it is.  One that was runs as a program, on its own object, with the configuration that its
    function was first orchestrated with; whatever other objects came and went, and whatever became of their addresses. *)
Theorem C108_method_partial fs l0 c a l m f : let w := steps (start fs) l0 in let o := length (objs w) in
  possible w c a -> is_live (steps w (New c a :: l)) o = true -> m <> CALL -> method_of c m = Some f ->
  (configs l o m = [] -> call (steps w (New c a :: l)) o m = Some (Python f o)) /\
  (configs l o m <> [] -> exists k, first_config l o c f = Some k /\ call (steps w (New c a :: l)) o m = Some (Program k (Python f o))).
Proof.
  intros w o P L N M. destruct (held_history fs l0 c a l P L) as (F & x & Hd). fold w in F, Hd. fold o in Hd. set (w' := steps w (New c a :: l)) in *.
  pose proof Hd as [A B C D E FU G H I]. specialize (H m f N M). pose proof (FU m f M) as Lf.
  assert (Fl : exists n, length (funcs w') = S n) by (pose proof (f_user w' F); destruct (length (funcs w')); [lia|eauto]). destruct Fl as [n Fl].
  assert (CALLm : (m =? CALL)%string = false) by now apply String.eqb_neq.
  split; intros Cf; unfold call; rewrite A; cbn [bind]; rewrite CALLm.
  - rewrite Cf in H. rewrite H, D, M by exact N. cbn [bind]. rewrite Fl. now apply run_user.
  - destruct (configs_first l o c m f M Cf) as [k Q]. exists k. split; [exact Q|]. destruct (configs l o m); [congruence|]. rewrite H. specialize (G f Lf). rewrite Q in G.
    destruct G as (b & G1 & G2). rewrite G1. unfold run_bound. rewrite G2. cbn [bind b_func b_obj b_config]. rewrite Fl, run_user by assumption. reflexivity.
Qed.
(** The same for the call of the object; each further orchestration puts a program around those there are. *)
Theorem C108_call_partial fs l0 c a l f : let w := steps (start fs) l0 in let o := length (objs w) in
  possible w c a -> is_live (steps w (New c a :: l)) o = true -> method_of c CALL = Some f ->
  (configs l o CALL = [] -> call (steps w (New c a :: l)) o CALL = Some (Python f o)) /\
  (forall k1 ks, configs l o CALL = k1 :: ks -> exists k, first_config l o c f = Some k /\ call (steps w (New c a :: l)) o CALL = Some (nest (Program k (Python f o)) ks)).
Proof.
  intros w o P L M. destruct (held_history fs l0 c a l P L) as (F & x & Hd). fold w in F, Hd. fold o in Hd. set (w' := steps w (New c a :: l)) in *.
  pose proof Hd as [A B C D E FU G H I]. specialize (I f M). pose proof (FU CALL f M) as Lf.
  assert (Fl : exists n, length (funcs w') = S n) by (pose proof (f_user w' F); destruct (length (funcs w')); [lia|eauto]). destruct Fl as [n Fl].
  unfold call. rewrite A. cbn [bind]. rewrite String.eqb_refl. split.
  - intros Cf. rewrite Cf in I. rewrite I. cbn [bind]. rewrite Fl. now apply run_user.
  - intros k1 ks Cf. rewrite Cf in I. destruct I as (g & k & I1 & I2 & I3 & I4 & I5). exists k. split; [exact I4|]. rewrite I1. cbn [bind].
    apply (run_ext w' w' (ext_refl w') (S g)); [apply I5|].
    specialize (I5 o). cbn [run_func] in I5. destruct (nth_error (funcs w') g) eqn:Q; [|discriminate]. now apply nth_lt in Q.
Qed.
(** So an object that is orchestrated with one configuration, at most once by its call, runs with that. *)
Lemma first_same l o c f k : (forall k' m args, In (Orchestrate o k' m args) l -> orchestrated k' = true -> k' = k) -> forall k', first_config l o c f = Some k' -> k' = k.
Proof.
  induction l as [|p l IH]; intros H k'; [discriminate|]. specialize (IH (fun k3 m3 a3 I3 => H k3 m3 a3 (or_intror I3))). destruct p as [| | |o' k2 m args]; cbn [first_config]; try apply IH.
  destruct (Nat.eqb_spec o' o) as [->|]; cbn [andb]; [|apply IH].
  destruct (orchestrated k2) eqn:Ok; cbn [andb]; [|apply IH].
  destruct (match method_of c m with Some f' => (f' =? f)%nat | None => false end); [|apply IH].
  intros [= <-]. eapply H; [now left|exact Ok].
Qed.
Theorem C108_one_configuration_partial fs l0 c a l m f k : let w := steps (start fs) l0 in let o := length (objs w) in
  possible w c a -> is_live (steps w (New c a :: l)) o = true -> method_of c m = Some f ->
  (forall k' m' args, In (Orchestrate o k' m' args) l -> orchestrated k' = true -> k' = k) ->
  configs l o m <> [] -> (m = CALL -> length (configs l o m) = 1%nat) ->
  call (steps w (New c a :: l)) o m = Some (Program k (Python f o)).
Proof.
  intros w o P L M H N One. destruct (string_dec m CALL) as [->|Nm].
  - specialize (One eq_refl). destruct (configs l o CALL) as [|k1 [|k2 ks]] eqn:Cf; [congruence| |discriminate].
    destruct (proj2 (C108_call_partial fs l0 c a l f P L M) k1 [] Cf) as (k' & Q & R). apply (first_same l o c f k H) in Q. subst k'. exact R.
  - destruct (proj2 (C108_method_partial fs l0 c a l m f P L Nm M) N) as (k' & Q & R). apply (first_same l o c f k H) in Q. subst k'. exact R.
Qed.

(** Without orchestration, and when there is no such method, nothing changes; the latter is an exception. *)
Theorem C108_nothing w o k m args :
  (orchestrated k = false -> orchestrate w o k m args = (w, true)) /\
  (orchestrated k = true -> forall x, nth_error (objs w) o = Some x -> method_of (class x) m = None -> orchestrate w o k m args = (w, false)).
Proof. split; [intros K; unfold orchestrate; now rewrite K|]. intros K x X M. unfold orchestrate. now rewrite K, X, M. Qed.

(** ** annotations *)
Definition annotation_of (w : world) (f : nat) (arg : string) : option annotation := do g <- nth_error (funcs w) f; get (annotations g) arg.
Lemma get_flag_types d a : get (flag_types d) a = match get d a with Some AQuantity | Some AState => Some Compiletime | r => r end.
Proof. induction d as [|[b t] d IH]; [reflexivity|]. cbn. destruct (a =? b)%string; [now destruct t|exact IH]. Qed.
Lemma get_flag_args args : forall d a, get (flag_args args d) a = if existsb (String.eqb a) args then Some Compiletime else get d a.
Proof.
  unfold flag_args. induction args as [|b args IH]; intros d a; [reflexivity|]. cbn [fold_left existsb]. rewrite IH, get_put.
  destruct (a =? b)%string, (existsb (String.eqb a) args); reflexivity.
Qed.
Lemma orchestrate_funcs w o k m args x f : orchestrated k = true -> nth_error (objs w) o = Some x -> method_of (class x) m = Some f ->
  exists more, funcs (fst (orchestrate w o k m args)) = funcs (flag w f args) ++ more.
Proof.
  intros K X M. unfold orchestrate. rewrite K, X, M. cbn [negb]. unfold bind_to. destruct (find _ _ _); destruct (m =? CALL)%string; cbn [fst funcs]; eauto using app_nil_r; exists []; now rewrite app_nil_r.
Qed.
Lemma annotation_flag w f args g' arg : annotation_of (flag w f args) g' arg =
  if (g' =? f)%nat then match annotation_of w f arg, nth_error (funcs w) f with
    | _, None => None
    | r, Some _ => if existsb (String.eqb arg) args then Some Compiletime else match r with Some AQuantity | Some AState => Some Compiletime | _ => r end end
  else annotation_of w g' arg.
Proof.
  unfold annotation_of, flag. destruct (nth_error (funcs w) f) as [h|] eqn:H; cbn [funcs]; rewrite ?set_nth_error, ?H; destruct (Nat.eqb_spec g' f) as [->|]; rewrite ?H; cbn [bind annotations]; try reflexivity.
  rewrite get_flag_types, get_flag_args. destruct (existsb _ _); [reflexivity|]. destruct (get (annotations h) arg) as [[]|]; reflexivity.
Qed.
(** After orchestrate the arguments that were named, and those annotated as quantities or states, are compile-time arguments of the
    function; other arguments and other functions keep their annotations. *)
Theorem C108_flags w o k m args x f arg : orchestrated k = true -> nth_error (objs w) o = Some x -> method_of (class x) m = Some f -> (f < length (funcs w))%nat ->
  let w' := fst (orchestrate w o k m args) in
  (In arg args -> annotation_of w' f arg = Some Compiletime) /\
  (annotation_of w f arg = Some AQuantity \/ annotation_of w f arg = Some AState -> annotation_of w' f arg = Some Compiletime) /\
  (~ In arg args -> annotation_of w f arg <> Some AQuantity -> annotation_of w f arg <> Some AState -> annotation_of w' f arg = annotation_of w f arg) /\
  (forall f', f' <> f -> (f' < length (funcs w))%nat -> annotation_of w' f' arg = annotation_of w f' arg).
Proof.
  intros K X M L w'. destruct (orchestrate_funcs w o k m args x f K X M) as [more E]. fold w' in E. destruct (flag_same w f args) as (_ & _ & _ & Len & _).
  assert (Q : forall f', (f' < length (funcs w))%nat -> annotation_of w' f' arg = annotation_of (flag w f args) f' arg) by (intros f' L'; unfold annotation_of; rewrite E, nth_error_app1 by lia; reflexivity).
  rewrite Q by exact L. rewrite annotation_flag, Nat.eqb_refl. destruct (nth_error (funcs w) f) as [g|] eqn:G; [|apply nth_error_None in G; lia].
  assert (B : existsb (String.eqb arg) args = true <-> In arg args).
  { rewrite existsb_exists. split; [intros (b & I & Eb); apply String.eqb_eq in Eb; now subst|intros I; exists arg; split; [exact I|apply String.eqb_refl]]. }
  split; [|split; [|split]].
  - intros I. apply B in I. rewrite I. now destruct (annotation_of w f arg).
  - intros [-> | ->]; now destruct (existsb _ _).
  - intros N N1 N2. destruct (existsb _ _) eqn:Ex; [exfalso; now apply N, B|]. destruct (annotation_of w f arg) as [[]|]; congruence.
  - intros f' N L'. rewrite Q by exact L'. rewrite annotation_flag. destruct (Nat.eqb_spec f' f); [congruence|reflexivity].
Qed.
(** Once a compile-time argument, always one. *)
Theorem C108_flags_stay w l f arg : annotation_of w f arg = Some Compiletime -> annotation_of (steps w l) f arg = Some Compiletime.
Proof.
  revert w. induction l as [|p l IH]; intros w H; [exact H|]. cbn. apply IH. clear IH l.
  destruct p as [c a|o a|o|o k m args]; cbn [step].
  - now destruct (_ && _).
  - destruct (nth_error _ _); [now destruct (_ && _)|exact H].
  - destruct (nth_error _ _); [now destruct (existsb _ _)|exact H].
  - destruct (is_live w o) eqn:Lv; [|exact H]. unfold is_live in Lv. destruct (nth_error (objs w) o) as [x|] eqn:X; [|discriminate].
    destruct (orchestrated k) eqn:K; [|rewrite orchestrate_not by auto; exact H]. destruct (method_of (class x) m) as [g|] eqn:M; [|rewrite orchestrate_not by eauto; exact H].
    destruct (orchestrate_funcs w o k m args x g K X M) as [more E].
    assert (Q : annotation_of (flag w g args) f arg = Some Compiletime).
    { rewrite annotation_flag. destruct (Nat.eqb_spec f g) as [->|]; [|exact H]. rewrite H. unfold annotation_of in H. destruct (nth_error (funcs w) g); [now destruct (existsb _ _)|discriminate]. }
    unfold annotation_of in *. rewrite E, nth_error_app1; [exact Q|]. destruct (nth_error (funcs (flag w g args)) f) eqn:G; [now apply nth_lt in G|discriminate].
Qed.
(** An orchestrated object is never given up: the cache keeps it for the rest of the process. *)
Theorem C108_kept fs l0 o k m args x f l : let w := steps (start fs) l0 in
  orchestrated k = true -> nth_error (objs w) o = Some x -> live x = true -> method_of (class x) m = Some f ->
  is_live (steps w (Orchestrate o k m args :: l)) o = true.
Proof.
  intros w K X L M. destruct (steps_fine l0 (start fs) (start_fine fs) (start_known fs)) as [F Kn]. fold w in F, Kn.
  assert (B : exists b y, nth_error (bounds (step w (Orchestrate o k m args))) b = Some y /\ b_obj y = o).
  { cbn [step]. unfold is_live. rewrite X, L. destruct (orchestrate_did w o k m args x f K X M) as (_ & _ & H3 & _). rewrite H3. destruct (find (cache w) (address x) f) as [b|] eqn:Fd.
    - apply find_in in Fd. destruct (f_cache w F _ _ _ Fd) as (y & z & Y & _ & Z1 & Lz & Az). exists b, y. split; [exact Y|]. now apply (f_addr w F _ _ z x).
    - exists (length (bounds w)), (Bound f k o). split; [now rewrite nth_app, Nat.eqb_refl|reflexivity]. }
  destruct (step_fine w (Orchestrate o k m args) F Kn) as [F1 K1]. destruct B as (b & y & Y & <-).
  cbn [steps fold_left]. fold (steps (step w (Orchestrate (b_obj y) k m args)) l). destruct (steps_fine l _ F1 K1) as [F2 _].
  assert (E : forall l w1, ext w1 (steps w1 l)) by (intros l1; induction l1 as [|p l1 IH]; intros w1; [apply ext_refl|cbn; eapply ext_trans; [apply step_ext|apply IH]]).
  destruct (E l (step w (Orchestrate (b_obj y) k m args))) as (_ & _ & E3). now apply (f_bound _ F2 b y), E3.
Qed.

(** ** what does not hold *)
Definition k1 := Config 1 true.
Definition k2 := Config 2 true.
Definition two_methods : cls := Sub [("run"%string, 0%nat); (CALL, 1%nat)] Object.
(** A second configuration is ignored for a method ... *)
Theorem C108_second_configuration_refuted : exists l, let w := steps (start [[]; []]) l in
  In (Orchestrate 0 k2 "run" []) l /\ last l (Free 0) = Orchestrate 0 k2 "run"%string [] /\ call w 0 "run"%string = Some (Program k1 (Python 0 0)).
Proof. exists [New two_methods 7; Orchestrate 0 k1 "run"%string []; Orchestrate 0 k2 "run"%string []]. split; [cbn; auto|]. split; reflexivity. Qed.
(** ... and for the call it is put around the first. *)
Theorem C108_nested_refuted : exists l, let w := steps (start [[]; []]) l in
  last l (Free 0) = Orchestrate 0 k2 CALL [] /\ call w 0 CALL = Some (Program k2 (Program k1 (Python 1 0))).
Proof. exists [New two_methods 7; Orchestrate 0 k1 CALL []; Orchestrate 0 k2 CALL []]. split; reflexivity. Qed.
(** Another name of the same function gets the configuration of the first name. *)
Theorem C108_alias_refuted : exists c, let w := steps (start [[]]) [New c 7; Orchestrate 0 k1 "step"%string []; Orchestrate 0 k2 CALL []] in
  call w 0 CALL = Some (Program k1 (Python 0 0)).
Proof. exists (Sub [("step"%string, 0%nat); (CALL, 0%nat)] Object). reflexivity. Qed.
(** A copy of an orchestrated object runs on the original. *)
Theorem C108_copy_refuted : exists l, let w := steps (start [[]; []]) l in
  is_live w 1 = true /\ call w 1 CALL = Some (Program k1 (Python 1 0)) /\ call w 1 "run"%string = Some (Program k1 (Python 0 0)).
Proof. exists [New two_methods 7; Orchestrate 0 k1 CALL []; Orchestrate 0 k1 "run"%string []; Copy 0 8]. split; [reflexivity|]. split; reflexivity. Qed.
(** A compile-time argument is one for every object of the class, and for those of classes that inherit the method. *)
Theorem C108_flags_shared_refuted : exists base sub, let w := steps (start [[("n"%string, AOther "int"%string)]]) [New base 7; New sub 8; Orchestrate 1 k1 "run"%string []] in
  annotation_of w 0 "n" = Some (AOther "int"%string) /\ call w 1 "run"%string = Some (Program k1 (Python 0 1)) /\
  annotation_of (steps w [Orchestrate 0 k1 "run"%string ["n"%string]]) 0 "n" = Some Compiletime.
Proof. exists (Sub [("run"%string, 0%nat)] Object), (Sub [] (Sub [("run"%string, 0%nat)] Object)). split; [reflexivity|]. split; reflexivity. Qed.
(** Arguments named in a second orchestration of the call are flagged on the wrapper, not on the user's function. *)
Theorem C108_flags_lost_refuted : exists l, let w := steps (start [[]; [("n"%string, AOther "int"%string)]]) l in
  last l (Free 0) = Orchestrate 0 k1 CALL ["n"%string] /\ call w 0 CALL = Some (Program k1 (Program k1 (Python 1 0))) /\ annotation_of w 1 "n" = Some (AOther "int"%string).
Proof. exists [New two_methods 7; Orchestrate 0 k1 CALL []; Orchestrate 0 k1 CALL ["n"%string]]. split; [reflexivity|]. split; reflexivity. Qed.

Print Assumptions C108_method_partial.
Print Assumptions C108_call_partial.
Print Assumptions C108_one_configuration_partial.
Print Assumptions C108_nothing.
Print Assumptions C108_flags.
Print Assumptions C108_flags_stay.
Print Assumptions C108_kept.
Print Assumptions C108_second_configuration_refuted.
Print Assumptions C108_nested_refuted.
Print Assumptions C108_alias_refuted.
Print Assumptions C108_copy_refuted.
Print Assumptions C108_flags_shared_refuted.
Print Assumptions C108_flags_lost_refuted.

(** objects that come and go at one address, a class that inherits, an orchestration that is switched off; the last object runs as itself *)
Example C108_case : let l0 := [New two_methods 7; Free 0; New two_methods 7; Orchestrate 1 k2 "run"%string []; Free 1] in
  let w := steps (start [[("q"%string, AQuantity)]; []]) l0 in let o := length (objs w) in
  let l := [Orchestrate 2 (Config 3 false) "run"%string []; Orchestrate 2 k1 "run"%string []; New two_methods 9; Orchestrate 3 k2 CALL []; Orchestrate 2 k1 CALL ["x"%string]] in
  o = 2%nat /\ is_live w 0 = false /\ is_live w 1 = true /\ possible w two_methods 8 /\ is_live (steps w (New two_methods 8 :: l)) o = true /\
  call (steps w (New two_methods 8 :: l)) o "run"%string = Some (Program k1 (Python 0 2)) /\ call (steps w (New two_methods 8 :: l)) o CALL = Some (Program k1 (Python 1 2)) /\
  call (steps w (New two_methods 8 :: l)) 3 "run"%string = Some (Python 0 3) /\ annotation_of (steps w (New two_methods 8 :: l)) 0 "q" = Some Compiletime.
Proof. vm_compute. repeat split. Qed.
