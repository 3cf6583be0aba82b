(** C113: what a translate test passes to the code under test and takes from it.

    English: At every call, the code under test is given exactly the declared variables: each parameter as it was serialized at this call, and each data variable as the
    array serialized under its serial name at this call, its vertical axis moved to the third place, indices counted from zero, placed at the declared start (a number, or the
    value that the named input has at this call; else where the shape says).  Each declared output comes back under its serial name, cut out at the declared window
    of this call, indices counted from one. *)
From Verif Require Import Base Dict StenProps InfoModel InfoProofs.

Section Props.
Context {A : Type} (as_int : A -> option Z) (move : Z -> A -> A) (add_to : Z -> A -> A) (starts : A -> Z * Z) (place : string -> A -> Z * Z * Z -> option A).
Context (defaults : dict (attr A)) (cut : A -> dict (attr A) -> option A) (move_back : Z -> A -> A).

(** specification *)
(** the number that the description gives for [key]: itself, or that of the input it names; [default] if it gives none *)
Definition number (inputs : dict (value A)) (i : info A) (key : string) (default z : Z) : Prop :=
  match get i key with
  | None => z = default
  | Some (Val (Num y)) => z = y
  | Some (Name s) => get inputs s = Some (Num z)
  | _ => False
  end.
(** the name in the files *)
Definition named_in_file (d : string) (i : info A) (s : string) : Prop := match get i "serialname" with Some (Name t) => s = t | _ => s = d end.
Definition vertical (mv : Z -> A -> A) (inputs : dict (value A)) (i : info A) (a b : A) : Prop :=
  match get i "kaxis" with None => b = a | Some _ => exists z, number inputs i "kaxis" 0 z /\ b = mv z a end.
(** indices are counted from another number *)
Definition shifted (n : Z) (i : info A) (a b : A) : Prop :=
  match get i "index_variable" with None => b = a | Some (Val (Num z)) => if (z =? 0)%Z then b = a else b = add_to n a | _ => False end.
(** a description as a test declares it: other names than serialname stand for numbers, the flag of an index variable is a constant *)
Definition declared (inputs : dict (value A)) (i : info A) : Prop :=
  (forall k a, In (k, a) i -> k <> "serialname"%string -> match a with Name s => forall b, get inputs s <> Some (Array b) | Val (Array _) => False | _ => True end)
  /\ (forall a, get i "index_variable" = Some a -> exists z, a = Val (Num z)) /\ NoDup (keys i).
(** a data variable as the code under test is given it *)
Definition given (inputs : dict (value A)) (d : string) (i : info A) (r : A) : Prop :=
  exists s a b c x y z, named_in_file d i s /\ get inputs s = Some (Array a) /\ vertical move inputs i a b /\ shifted (-1) i b c
    /\ number inputs i "istart" (fst (starts b)) x /\ number inputs i "jstart" (snd (starts b)) y /\ number inputs i "kstart" 0 z /\ place d c (x, y, z) = Some r.

Lemma serialname_named d (i : info A) : named_in_file d i (serialname d i).
Proof. unfold named_in_file, serialname. destruct (get i "serialname") as [[v|s|]|]; reflexivity. Qed.
Lemma declared_fine inputs i : declared inputs i -> fine (get inputs) i. Proof. intros (H & _). exact H. Qed.
Lemma index_number inputs i key default z : declared inputs i -> key <> "serialname"%string -> index as_int (resolve (get inputs) i) key default = Some z -> number inputs i key default z.
Proof.
  intros (F & _ & _) N. unfold index, number. rewrite get_resolve. destruct (get i key) as [a|] eqn:G; cbn [option_map]; [|congruence].
  specialize (F key a (get_in _ _ _ G) N). unfold resolve_attr. destruct (String.eqb_spec key "serialname"); [congruence|].
  destruct a as [[y|b]|s|]; cbn [attr_int]; try discriminate; [congruence|destruct F|]. destruct (get inputs s) as [[y|b]|]; cbn [attr_int]; try discriminate; [congruence|].
  now destruct (F b).
Qed.
Lemma flag_shifted inputs n i b : declared inputs i -> shifted n i b (if is_index (resolve (get inputs) i) then add_to n b else b).
Proof.
  intros (F & X & _). unfold shifted, is_index. rewrite get_resolve. destruct (get i "index_variable") as [a|] eqn:G; cbn [option_map]; [|reflexivity].
  destruct (X a eq_refl) as [z ->]. cbn. destruct (z =? 0)%Z; reflexivity.
Qed.
Lemma kaxis_vertical mv inputs i (a b : A) : declared inputs i ->
  match get (resolve (get inputs) i) "kaxis" with None => Some a | Some k => do z <- attr_int as_int k; Some (mv z a) end = Some b -> vertical mv inputs i a b.
Proof.
  intros D. unfold vertical. assert (X := fun z => index_number inputs i "kaxis" 0 z D ltac:(discriminate)). unfold index in X. rewrite get_resolve in *.
  destruct (get i "kaxis") as [k|]; cbn [option_map] in *; [|congruence]. destruct (attr_int as_int _) as [z|]; cbn [bind]; [|discriminate]. intros [= <-]. eauto.
Qed.

(** what the inputs hold while the variables are gone through *)
Definition still (inputs cur : dict (value A)) (done : list string) : Prop :=
  (forall x, ~ In x done -> get cur x = get inputs x) /\ (forall x, In x done -> exists a b, get inputs x = Some (Array a) /\ get cur x = Some (Array b)).
Lemma load_one inputs cur done d i i' cur' r : declared inputs i -> still inputs cur done -> ~ In (serialname d i) done ->
  load_variable as_int move add_to starts place cur d i = Some (i', cur', r) -> given inputs d i r /\ still inputs cur' (serialname d i :: done).
Proof.
  intros D [S1 S2] N. assert (F := declared_fine _ _ D).
  assert (SE : sees (get inputs) cur i).
  { intros k s I K. destruct (in_dec string_dec s done) as [J|J]; [|now apply S1]. exfalso. destruct (S2 s J) as (a & b & Ga & Gb). exact (F k (Name s) I K a Ga). }
  unfold load_variable. rewrite (update_resolve _ _ _ F SE). cbn [bind]. rewrite (S1 _ N).
  destruct (get inputs (serialname d i)) as [[z|a]|] eqn:G; cbn [bind]; try discriminate.
  destruct (match get (resolve (get inputs) i) "kaxis" with None => _ | Some _ => _ end) as [b|] eqn:K; cbn [bind]; [|discriminate]. apply (kaxis_vertical move) in K; [|exact D].
  unfold collect_starts. destruct (starts b) as [x0 y0] eqn:ST.
  destruct (index as_int (resolve (get inputs) i) "istart" x0) as [x|] eqn:X; cbn [bind]; [|discriminate].
  destruct (index as_int (resolve (get inputs) i) "jstart" y0) as [y|] eqn:Y; cbn [bind]; [|discriminate].
  destruct (index as_int (resolve (get inputs) i) "kstart" 0) as [z|] eqn:Z'; cbn [bind]; [|discriminate].
  apply index_number in X; [|exact D|discriminate]. apply index_number in Y; [|exact D|discriminate]. apply index_number in Z'; [|exact D|discriminate].
  destruct (place d _ (x, y, z)) as [q|] eqn:P; cbn [bind]; [|discriminate]. intros [= <- <- <-]. split.
  - exists (serialname d i), a, b. eexists. exists x, y, z. split; [apply serialname_named|]. split; [exact G|]. split; [exact K|]. split; [apply flag_shifted; exact D|]. rewrite ST. cbn [fst snd].
    split; [exact X|]. split; [exact Y|]. split; [exact Z'|exact P].
  - split.
    + intros t Ht. cbn [In] in Ht. rewrite get_put. destruct (String.eqb_spec t (serialname d i)) as [->|]; [tauto|]. apply S1. tauto.
    + intros t Ht. rewrite get_put. destruct (String.eqb_spec t (serialname d i)) as [->|T]; [eauto|]. destruct Ht as [Ht|Ht]; [congruence|]. now apply S2.
Qed.
Lemma load_all inputs vars : forall cur done out vars' out', Forall (fun x => declared inputs (snd x)) vars -> NoDup (keys vars) -> NoDup (serialnames vars) ->
  (forall s, In s (serialnames vars) -> ~ In s done) -> still inputs cur done ->
  load_variables as_int move add_to starts place cur vars out = Some (vars', out') ->
  (forall d i, In (d, i) vars -> exists r, given inputs d i r /\ get out' d = Some (Array r)) /\ (forall x, ~ In x (keys vars) -> get out' x = get out x).
Proof.
  induction vars as [|[d i] vars IH]; intros cur done out vars' out' D N NS DJ ST; cbn [load_variables].
  - intros [= <- <-]. split; [intros d i []|reflexivity].
  - inversion D as [|? ? D1 D2]; inversion N as [|? ? N1 N2]; inversion NS as [|? ? M1 M2]; subst. cbn [fst snd] in *.
    destruct (load_variable _ _ _ _ _ cur d i) as [[[i' cur'] r]|] eqn:E; cbn [bind]; [|discriminate].
    destruct (load_one inputs cur done d i i' cur' r D1 ST (DJ _ (or_introl eq_refl)) E) as [G ST'].
    destruct (load_variables _ _ _ _ _ cur' vars (put out d (Array r))) as [[v o]|] eqn:L; cbn [bind]; [|discriminate]. intros [= <- <-]. cbn [snd].
    destruct (IH cur' (serialname d i :: done) (put out d (Array r)) v o D2 N2 M2) as [H1 H2]; [|exact ST'|exact L|].
    { intros s Hs [<-|J]; [exact (M1 Hs)|]. exact (DJ s (or_intror Hs) J). }
    split.
    + intros d' j [[= <- <-]|I]; [|now apply H1]. exists r. split; [exact G|]. rewrite H2 by exact N1. now rewrite get_put, String.eqb_refl.
    + intros x Hx. cbn [keys map fst In] in Hx. rewrite H2 by (unfold keys; tauto). rewrite get_put. destruct (String.eqb_spec x d) as [->|]; [tauto|reflexivity].
Qed.
Lemma parameters_all (inputs : dict (value A)) params : forall out out', load_parameters inputs params out = Some out' ->
  forall x, get out' x = if in_dec string_dec x params then get inputs x else get out x.
Proof.
  induction params as [|p params IH]; intros out out'; cbn [load_parameters]; [intros [= <-] x; reflexivity|].
  destruct (get inputs p) as [v|] eqn:G; cbn [bind]; [|discriminate]. intros H x. rewrite (IH _ _ H x).
  destruct (in_dec string_dec x params) as [I|I], (in_dec string_dec x (p :: params)) as [J|J]; cbn [In] in J; try tauto; rewrite ?get_put.
  - destruct (String.eqb_spec x p) as [->|]; [now rewrite G|]. destruct J; [congruence|tauto].
  - destruct (String.eqb_spec x p) as [->|]; [tauto|reflexivity].
Qed.

(** one call with a new object.  missing: variables that share a serial name (C113_shared_refuted) *)
Theorem C113_inputs_partial params vars inputs vars' out : Forall (fun x => declared inputs (snd x)) vars -> NoDup (keys vars) -> NoDup (serialnames vars) ->
  (forall p, In p params -> ~ In p (keys vars)) -> load as_int move add_to starts place params vars inputs = Some (vars', out) ->
  (forall p, In p params -> exists v, get inputs p = Some v /\ get out p = Some v)
  /\ (forall d i, In (d, i) vars -> exists r, given inputs d i r /\ get out d = Some (Array r))
  /\ (forall x, In x (keys out) <-> In x params \/ In x (keys vars)).
Proof.
  intros D N NS DJ. unfold load. destruct (load_parameters inputs params []) as [o|] eqn:P; cbn [bind]; [|discriminate]. intros L.
  assert (PA := parameters_all _ _ _ _ P).
  destruct (load_all inputs vars inputs [] o vars' out D N NS) as [H1 H2]; [intros s _ []|split; [reflexivity|intros x []]|exact L|].
  assert (PN : forall p, In p params -> exists v, get inputs p = Some v).
  { clear - P. revert P. generalize (@nil (string * value A)). induction params as [|q params IH]; intros o0; cbn [load_parameters]; [intros _ p []|].
    destruct (get inputs q) as [v|] eqn:G; cbn [bind]; [|discriminate]. intros P p [<-|I]; [eauto|]. exact (IH _ P p I). }
  assert (PO : forall p, In p params -> exists v, get inputs p = Some v /\ get out p = Some v).
  { intros p I. destruct (PN p I) as [v G]. exists v. split; [exact G|]. rewrite H2 by (now apply DJ). rewrite PA. destruct in_dec; [exact G|tauto]. }
  split; [exact PO|]. split; [exact H1|]. intros x. rewrite <- get_some. split.
  - intros [v G]. destruct (in_dec string_dec x (keys vars)) as [I|I]; [now right|]. left. rewrite H2, PA in G by exact I. destruct in_dec; [assumption|discriminate].
  - intros [I|I]; [destruct (PO x I) as (v & _ & G); eauto|]. unfold keys in I. apply in_map_iff in I. destruct I as ([d i] & <- & I). destruct (H1 d i I) as (r & _ & G). eauto.
Qed.

(** an output as it is compared *)
Definition window_of (results : dict (value A)) (i : info A) (w : dict (attr A)) : Prop :=
  forall key, key <> "serialname"%string -> match get i key with
    | None => get w key = get defaults key
    | Some (Name s) => (forall v, get results s = Some v -> get w key = Some (Val v)) /\ (get results s = None -> get w key = Some (Name s))
    | Some a => get w key = Some a
    end.
Definition taken (results : dict (value A)) (d : string) (i : info A) (r : A) : Prop :=
  exists a b w c, get results d = Some (Array a) /\ shifted 1 i a b /\ window_of results i w /\ cut b w = Some c /\ vertical move_back results i c r.

Lemma slice_one results d i i' s r : declared results i -> slice_variable as_int add_to defaults cut move_back results d i = Some (i', s, r) -> taken results d i r /\ s = serialname d i.
Proof.
  intros D. assert (F := declared_fine _ _ D). unfold slice_variable. rewrite (update_resolve (get results) results i F) by (intros k t _ _; reflexivity). cbn [bind].
  destruct (get results d) as [[z|a]|] eqn:G; cbn [bind]; try discriminate.
  destruct (cut _ _) as [c|] eqn:C; cbn [bind]; [|discriminate].
  destruct (match get (resolve (get results) i) "kaxis" with None => _ | Some _ => _ end) as [q|] eqn:K; cbn [bind]; [|discriminate].
  intros [= <- <- <-]. split; [|apply serialname_resolve]. apply (kaxis_vertical move_back) in K; [|exact D].
  exists a. eexists. eexists. exists c. split; [exact G|]. split; [apply (flag_shifted results); exact D|]. split; [|split; [exact C|exact K]].
  intros key N. rewrite update_get by (rewrite keys_resolve; apply D). rewrite get_resolve. destruct (get i key) as [x|] eqn:X; cbn [option_map]; [|reflexivity].
  unfold resolve_attr. destruct (String.eqb_spec key "serialname"); [congruence|]. destruct x as [v|t|]; [reflexivity| |reflexivity].
  destruct (get results t); split; congruence.
Qed.
Theorem C113_outputs_partial vars results vars' out : Forall (fun x => declared results (snd x)) vars -> NoDup (keys vars) -> NoDup (serialnames vars) ->
  slice_output as_int add_to defaults cut move_back vars results = Some (vars', out) ->
  (forall d i s, In (d, i) vars -> named_in_file d i s -> exists r, taken results d i r /\ get out s = Some r)
  /\ (forall x, In x (keys out) <-> exists d i, In (d, i) vars /\ named_in_file d i x).
Proof.
  intros D N NS L. unfold slice_output in L.
  assert (NM : forall d (i : info A) s, named_in_file d i s <-> s = serialname d i).
  { intros d i s. unfold named_in_file, serialname. destruct (get i "serialname") as [[v|t|]|]; reflexivity. }
  assert (X : (forall d i, In (d, i) vars -> exists r, taken results d i r /\ get out (serialname d i) = Some r) /\ forall x, ~ In x (serialnames vars) -> get out x = get (@nil (string * A)) x).
  { revert L. generalize (@nil (string * A)). revert vars' out. induction vars as [|[d i] vars IH]; intros vars' out o; cbn [slice_variables].
    - intros [= <- <-]. split; [intros d i []|reflexivity].
    - inversion D as [|? ? D1 D2]; inversion N as [|? ? N1 N2]; inversion NS as [|? ? M1 M2]; subst. cbn [fst snd] in *.
      destruct (slice_variable _ _ _ _ _ results d i) as [[[i' s] r]|] eqn:E; cbn [bind]; [|discriminate]. destruct (slice_one _ _ _ _ _ _ D1 E) as [T ->].
      destruct (slice_variables _ _ _ _ _ results vars (put o (serialname d i) r)) as [[v q]|] eqn:L; cbn [bind]; [|discriminate]. intros [= <- <-]. cbn [snd].
      destruct (IH D2 N2 M2 v q _ L) as [H1 H2]. split.
      + intros d' j [[= <- <-]|I]; [|now apply H1]. exists r. split; [exact T|]. rewrite H2 by exact M1. now rewrite get_put, String.eqb_refl.
      + intros x Hx. cbn [serialnames map fst snd In] in Hx. rewrite H2 by (unfold serialnames; tauto). rewrite get_put. destruct (String.eqb_spec x (serialname d i)) as [->|]; [tauto|reflexivity]. }
  destruct X as [H1 H2]. split.
  - intros d i s I Hs. apply NM in Hs. subst. now apply H1.
  - intros x. rewrite <- get_some. split.
    + intros [v G]. destruct (in_dec string_dec x (serialnames vars)) as [I|I].
      * unfold serialnames in I. apply in_map_iff in I. destruct I as ([d i] & <- & I). exists d, i. split; [exact I|]. now apply NM.
      * rewrite H2 in G by exact I. discriminate.
    + intros (d & i & I & Hx). apply NM in Hx. subst. destruct (H1 d i I) as (r & _ & G). eauto.
Qed.

(** all calls with one object: as with a new object each time, provided that the named inputs have the same values at all calls.
    missing: values that differ from call to call (C113_stale_refuted, C113_stale_window_refuted) *)
Definition steady (l : list (dict (value A))) (i : info A) : Prop :=
  forall k s x y, In (k, Name s) i -> k <> "serialname"%string -> In x l -> In y l -> get x s = get y s.
Theorem C113_calls_partial params vars l outs :
  (forall x, In x l -> Forall (fun v => declared x (snd v)) vars) -> Forall (fun v => steady l (snd v)) vars ->
  calls (load as_int move add_to starts place params) vars l = Some outs ->
  forall k x, nth_error l k = Some x -> exists vars' out, load as_int move add_to starts place params vars x = Some (vars', out) /\ nth_error outs k = Some out.
Proof.
  intros D SD C k x K. destruct l as [|x0 l0] eqn:El; [destruct k; discriminate|]. rewrite <- El in *. assert (I0 : In x0 l) by (rewrite El; now left).
  assert (F : all_fine (get x0) vars). { unfold all_fine. eapply Forall_impl; [|exact (D x0 I0)]. intros v. apply declared_fine. }
  destruct (calls_again (load as_int move add_to starts place params) vars (resolve_all (get x0) vars) l) with (u := vars) (ys := outs) (k := k) (x := x) as (y & E & Y); auto.
  - intros z Iz. apply load_again; [exact F|]. unfold all_see. rewrite Forall_forall in *. intros v Iv k' s J N'. exact (SD v Iv k' s z x0 J N' Iz I0).
  - eauto.
Qed.
Theorem C113_windows_partial vars l outs :
  (forall x, In x l -> Forall (fun v => declared x (snd v)) vars) -> Forall (fun v => steady l (snd v)) vars ->
  calls (slice_output as_int add_to defaults cut move_back) vars l = Some outs ->
  forall k x, nth_error l k = Some x -> exists vars' out, slice_output as_int add_to defaults cut move_back vars x = Some (vars', out) /\ nth_error outs k = Some out.
Proof.
  intros D SD C k x K. destruct l as [|x0 l0] eqn:El; [destruct k; discriminate|]. rewrite <- El in *. assert (I0 : In x0 l) by (rewrite El; now left).
  assert (F : all_fine (get x0) vars). { unfold all_fine. eapply Forall_impl; [|exact (D x0 I0)]. intros v. apply declared_fine. }
  destruct (calls_again (slice_output as_int add_to defaults cut move_back) vars (resolve_all (get x0) vars) l) with (u := vars) (ys := outs) (k := k) (x := x) as (y & E & Y); auto.
  - intros z Iz. apply slice_variables_again; [exact F|]. unfold all_see. rewrite Forall_forall in *. intros v Iv k' s J N'. exact (SD v Iv k' s z x0 J N' Iz I0).
  - eauto.
Qed.
End Props.
Print Assumptions C113_inputs_partial.
Print Assumptions C113_outputs_partial.
Print Assumptions C113_calls_partial.
Print Assumptions C113_windows_partial.

(** findings; an array here is the list of what was done to it *)
Inductive step := Data (z : Z) | Moved (z : Z) | Added (z : Z) | Placed (d : string) (x y z : Z).
Definition arr := list step.
Local Open Scope string_scope.
Definition l_int (a : arr) : option Z := match a with [Data z] => Some z | _ => None end.
Definition l_place (d : string) (a : arr) (st : Z * Z * Z) : option arr := let '(x, y, z) := st in Some (Placed d x y z :: a)%list.
Definition l_load := load l_int (fun z a => Moved z :: a)%list (fun z a => Added z :: a)%list (fun _ => (3, 3)%Z) l_place.
Definition l_cut (a : arr) (w : dict (attr arr)) : option arr :=
  match get w "kstart", get w "kend" with Some (Val (Num x)), Some (Val (Num y)) => Some (Placed "cut" 0 x y :: a)%list | _, _ => None end.
Definition l_slice := slice_output l_int (fun z a => Added z :: a)%list [("kstart", Val (Num 0)); ("kend", Val (Num 9))]%Z l_cut (fun z a => Moved z :: a)%list.
Definition call_inputs (n : Z) : dict (value arr) := [("u", Array [Data (10 * n)]); ("ks", Num n)]%Z.

(** the start named by an input is that of the first call at every later call *)
Theorem C113_stale_refuted : exists vars o1 o2, calls (l_load ["ks"]) vars [call_inputs 1; call_inputs 2] = Some [o1; o2]
  /\ get o2 "ks" = Some (Num 2) /\ get o2 "u" = Some (Array [Placed "u" 3 3 1; Data 20])%Z
  /\ match l_load ["ks"] vars (call_inputs 2) with Some (_, o) => get o "u" = Some (Array [Placed "u" 3 3 2; Data 20])%Z | None => False end.
Proof. exists [("u", [("kstart", Name "ks")])]. do 2 eexists. split; [vm_compute; reflexivity|]. repeat split. Qed.
Print Assumptions C113_stale_refuted.
Theorem C113_stale_window_refuted : exists vars o1 o2, calls l_slice vars [call_inputs 1; call_inputs 2] = Some [o1; o2]
  /\ get o2 "u" = Some [Placed "cut" 0 1 9; Data 20]%Z
  /\ match l_slice vars (call_inputs 2) with Some (_, o) => get o "u" = Some [Placed "cut" 0 2 9; Data 20]%Z | None => False end.
Proof. exists [("u", [("kstart", Name "ks")])]. do 2 eexists. split; [vm_compute; reflexivity|]. repeat split. Qed.
Print Assumptions C113_stale_window_refuted.
(** a start named by an input that is an array (of one number) is accepted at the first call and raises at the second *)
Theorem C113_array_index_refuted : exists vars x, l_load [] vars x <> None /\ calls (l_load []) vars [x] <> None /\ calls (l_load []) vars [x; x] = None.
Proof. exists [("u", [("kstart", Name "k1")])], [("u", Array [Data 10]); ("k1", Array [Data 4])]%Z. split; [vm_compute; discriminate|]. split; [vm_compute; discriminate|reflexivity]. Qed.
Print Assumptions C113_array_index_refuted.
(** of two variables with one serial name, the second gets what was done to the first *)
Theorem C113_shared_refuted : exists vars, match l_load [] vars [("k", Array [Data 10])]%Z with
  | Some (_, o) => get o "raw" = Some (Array [Placed "raw" 3 3 0; Added (-1); Data 10])%Z | None => False end /\ get vars "raw" = Some [("serialname", Name "k")].
Proof. exists [("idx", [("serialname", Name "k"); ("index_variable", Val (Num 1))]%Z); ("raw", [("serialname", Name "k")])]. vm_compute. split; reflexivity. Qed.
Print Assumptions C113_shared_refuted.

(** a case: a vertical axis, an index variable, a named start; three calls with the same named value *)
Definition case_vars : dict (info arr) :=
  [("uc", [("serialname", Name "u"); ("kaxis", Val (Num 0)); ("istart", Name "is"); ("units", Name "m/s")]); ("lev", [("index_variable", Val (Num 1)); ("dims", Listed)])]%Z.
Definition case_inputs (n : Z) : dict (value arr) := [("is", Num 5); ("u", Array [Data n]); ("dt", Num n); ("lev", Array [Data (n + 1)])]%Z.
Example C113_case : calls (l_load ["dt"]) case_vars [case_inputs 1; case_inputs 2; case_inputs 3] = Some (map (fun n =>
  [("dt", Num n); ("uc", Array [Placed "uc" 5 3 0; Moved 0; Data n]); ("lev", Array [Placed "lev" 3 3 0; Added (-1); Data (n + 1)])]) [1; 2; 3])%Z.
Proof. vm_compute. reflexivity. Qed.
Example C113_case_meets : (forall x, In x [case_inputs 1; case_inputs 2; case_inputs 3]%Z -> Forall (fun v => declared x (snd v)) case_vars)
  /\ Forall (fun v => steady [case_inputs 1; case_inputs 2; case_inputs 3]%Z (snd v)) case_vars /\ NoDup (keys case_vars) /\ NoDup (serialnames case_vars).
Proof.
  split; [|split; [|split]].
  - intros x [<-|[<-|[<-|[]]]]; repeat constructor; cbn; try (intros k a I N; repeat (destruct I as [[= <- <-]|I]; [try congruence; cbn; try discriminate; exact Logic.I|]); destruct I);
      try (intros a E; try discriminate; injection E as <-; eauto); intuition congruence.
  - repeat constructor; intros k s x y I N X Y; cbn [snd In] in I; repeat (destruct I as [I|I]; [injection I as <- <- || discriminate; try congruence|]); try destruct I;
      cbn [In] in X, Y; repeat (destruct X as [X|X]; [subst x|]); try destruct X; repeat (destruct Y as [Y|Y]; [subst y|]); try destruct Y; reflexivity.
  - cbn. repeat constructor; cbn; intuition congruence.
  - cbn. repeat constructor; cbn; intuition congruence.
Qed.
