(** Proofs about the variables of translate tests. *)
From Verif Require Import Base Dict InfoModel.

Section P.
Context {A : Type}.
Implicit Types (cur inputs : dict (value A)) (i : info A).

Definition resolve_attr (w : string -> option (value A)) (k : string) (a : attr A) : attr A :=
  if (k =? "serialname")%string then a else match a with Name s => match w s with Some v => Val v | None => Name s end | _ => a end.
Definition resolve (w : string -> option (value A)) (i : info A) : info A := map (fun kv => (fst kv, resolve_attr w (fst kv) (snd kv))) i.
(** no array in the description, names stand for numbers *)
Definition fine (w : string -> option (value A)) (i : info A) : Prop :=
  forall k a, In (k, a) i -> k <> "serialname"%string -> match a with Name s => forall b, w s <> Some (Array b) | Val (Array _) => False | _ => True end.
Definition sees (w : string -> option (value A)) (cur : dict (value A)) (i : info A) : Prop :=
  forall k s, In (k, Name s) i -> k <> "serialname"%string -> get cur s = w s.

Lemma update_resolve w cur i : fine w i -> sees w cur i -> update_info cur i = Some (resolve w i).
Proof.
  induction i as [|[k a] i IH]; [reflexivity|]. intros F S'. cbn [update_info resolve map fst snd].
  assert (E : update_attr cur (k, a) = Some (k, resolve_attr w k a)).
  { unfold update_attr, resolve_attr. destruct (String.eqb_spec k "serialname") as [|N]; [reflexivity|].
    specialize (F k a (or_introl eq_refl) N). destruct a as [[z|b]|s|]; [reflexivity|destruct F| |reflexivity].
    rewrite (S' k s (or_introl eq_refl) N). destruct (w s); reflexivity. }
  rewrite E. cbn [bind]. rewrite IH; [reflexivity| |].
  - intros k' a' I. apply F. now right.
  - intros k' s I. apply S'. now right.
Qed.
Lemma resolve_attr_again w k a : resolve_attr w k (resolve_attr w k a) = resolve_attr w k a.
Proof. unfold resolve_attr. destruct (k =? "serialname")%string; [reflexivity|]. destruct a as [v|s|]; [reflexivity| |reflexivity]. destruct (w s) eqn:E; [reflexivity|]. now rewrite E. Qed.
Lemma resolve_again w i : resolve w (resolve w i) = resolve w i.
Proof. unfold resolve. rewrite map_map. apply map_ext. intros [k a]. cbn [fst snd]. now rewrite resolve_attr_again. Qed.
Lemma resolve_fine w i : fine w i -> fine w (resolve w i).
Proof.
  intros F k a I N. unfold resolve in I. apply in_map_iff in I. destruct I as ([k' a'] & [= <- <-] & I). cbn [fst snd] in *.
  specialize (F k' a' I N). unfold resolve_attr. destruct (String.eqb_spec k' "serialname"); [congruence|]. destruct a' as [[z|b]|s|]; auto.
  destruct (w s) as [[z|b]|] eqn:E; [exact Logic.I|now apply (F b)|]. rewrite E. discriminate.
Qed.
Lemma resolve_sees w cur i : sees w cur i -> sees w cur (resolve w i).
Proof.
  intros S' k s I N. unfold resolve in I. apply in_map_iff in I. destruct I as ([k' a'] & E & I). cbn [fst snd] in E. injection E as <- E.
  unfold resolve_attr in E. destruct (String.eqb_spec k' "serialname"); [congruence|]. destruct a' as [v|t|]; try discriminate.
  destruct (w t) eqn:W; [discriminate|]. injection E as <-. exact (S' k' t I N).
Qed.
Lemma get_resolve w i k : get (resolve w i) k = option_map (resolve_attr w k) (get i k).
Proof. induction i as [|[k' a] i IH]; [reflexivity|]. cbn. destruct (String.eqb_spec k k') as [->|]; [reflexivity|exact IH]. Qed.
Lemma serialname_resolve w d i : serialname d (resolve w i) = serialname d i.
Proof. unfold serialname. rewrite get_resolve. destruct (get i "serialname") as [a|]; reflexivity. Qed.
Lemma keys_resolve w i : keys (resolve w i) = keys i.
Proof. unfold keys, resolve. rewrite map_map. reflexivity. Qed.

Definition resolve_all (w : string -> option (value A)) (vars : dict (info A)) : dict (info A) := map (fun x => (fst x, resolve w (snd x))) vars.
Definition all_fine w (vars : dict (info A)) : Prop := Forall (fun x => fine w (snd x)) vars.
Definition all_see w cur (vars : dict (info A)) : Prop := Forall (fun x => sees w cur (snd x)) vars.

Context (as_int : A -> option Z) (move : Z -> A -> A) (add_to : Z -> A -> A) (starts : A -> Z * Z) (place : string -> A -> Z * Z * Z -> option A).
Local Notation load_variable := (load_variable as_int move add_to starts place).
Local Notation load_variables := (load_variables as_int move add_to starts place).
Local Notation load := (load as_int move add_to starts place).

Lemma sees_put w cur i s a b : fine w i -> sees w cur i -> get cur s = Some (Array a) -> sees w (put cur s (Array b)) i.
Proof.
  intros F S' E k t I N. rewrite get_put. destruct (String.eqb_spec t s) as [->|]; [|exact (S' k t I N)].
  exfalso. specialize (F k (Name s) I N). cbn in F. rewrite (S' k s I N) in E. exact (F a E).
Qed.
Lemma load_variable_again w cur d i : fine w i -> sees w cur i -> load_variable cur d (resolve w i) = load_variable cur d i.
Proof.
  intros F S'. unfold InfoModel.load_variable. rewrite serialname_resolve, (update_resolve w cur i F S').
  rewrite (update_resolve w cur _ (resolve_fine _ _ F) (resolve_sees _ _ _ S')), resolve_again. reflexivity.
Qed.
Lemma load_variable_inv w cur d i i' cur' r : fine w i -> sees w cur i -> load_variable cur d i = Some (i', cur', r) ->
  i' = resolve w i /\ exists a b, get cur (serialname d i) = Some (Array a) /\ cur' = put cur (serialname d i) (Array b).
Proof.
  intros F S'. unfold InfoModel.load_variable. rewrite (update_resolve w cur i F S'). cbn [bind].
  destruct (get cur (serialname d i)) as [[z|a]|]; cbn [bind]; try discriminate.
  destruct (match get (resolve w i) "kaxis" with None => _ | Some _ => _ end) as [a1|]; cbn [bind]; [|discriminate].
  destruct (collect_starts _ _ _ _) as [st|]; cbn [bind]; [|discriminate]. destruct (place d _ st); cbn [bind]; [|discriminate].
  intros [= <- <- <-]. eauto.
Qed.
Lemma load_variables_again w vars : all_fine w vars -> forall cur out, all_see w cur vars ->
  load_variables cur (resolve_all w vars) out = load_variables cur vars out
  /\ forall r, load_variables cur vars out = Some r -> fst r = resolve_all w vars.
Proof.
  induction 1 as [|[d i] vars F AF IH]; intros cur out S'; [split; [reflexivity|intros r [= <-]; reflexivity]|]. inversion S' as [|? ? S1 S2]; subst. cbn [snd] in *.
  cbn [resolve_all map fst snd InfoModel.load_variables]. fold (resolve_all w vars). rewrite (load_variable_again w cur d i F S1).
  destruct (load_variable cur d i) as [[[i' cur'] r]|] eqn:E; cbn [bind]; [|split; [reflexivity|discriminate]].
  destruct (load_variable_inv w cur d i i' cur' r F S1 E) as (-> & a & b & G & ->).
  assert (S3 : all_see w (put cur (serialname d i) (Array b)) vars).
  { unfold all_see in *. rewrite Forall_forall in *. intros x I. eapply sees_put; [apply AF, I|apply S2, I|exact G]. }
  destruct (IH _ (put out d (Array r)) S3) as [H1 H2]. rewrite H1. split; [reflexivity|]. intros q.
  destruct (load_variables _ vars _) as [y|]; cbn [bind]; [|discriminate]. intros [= <-]. cbn [fst]. rewrite (H2 y eq_refl). reflexivity.
Qed.
Lemma load_again w vars params inputs : all_fine w vars -> all_see w inputs vars ->
  load params (resolve_all w vars) inputs = load params vars inputs /\ forall r, load params vars inputs = Some r -> fst r = resolve_all w vars.
Proof.
  intros F S'. unfold InfoModel.load. destruct (load_parameters inputs params []) as [out|]; cbn [bind]; [|split; [reflexivity|discriminate]].
  now apply load_variables_again.
Qed.

Context (defaults : dict (attr A)) (cut : A -> dict (attr A) -> option A) (move_back : Z -> A -> A).
Local Notation slice_variable := (slice_variable as_int add_to defaults cut move_back).
Local Notation slice_variables := (slice_variables as_int add_to defaults cut move_back).
Local Notation slice_output := (slice_output as_int add_to defaults cut move_back).
Lemma slice_variable_again w cur d i : fine w i -> sees w cur i -> slice_variable cur d (resolve w i) = slice_variable cur d i
  /\ forall i' s r, slice_variable cur d i = Some (i', s, r) -> i' = resolve w i.
Proof.
  intros F S'. unfold InfoModel.slice_variable. rewrite (update_resolve w cur i F S').
  rewrite (update_resolve w cur _ (resolve_fine _ _ F) (resolve_sees _ _ _ S')), resolve_again. split; [reflexivity|]. intros i' s r. cbn [bind].
  destruct (get cur d) as [[z|a]|]; cbn [bind]; try discriminate. destruct (cut _ _); cbn [bind]; [|discriminate].
  destruct (match get (resolve w i) "kaxis" with None => _ | Some _ => _ end); cbn [bind]; [|discriminate]. now intros [= <- <- <-].
Qed.
Lemma slice_variables_again w vars cur : all_fine w vars -> all_see w cur vars -> forall out,
  slice_variables cur (resolve_all w vars) out = slice_variables cur vars out
  /\ forall r, slice_variables cur vars out = Some r -> fst r = resolve_all w vars.
Proof.
  induction 1 as [|[d i] vars F AF IH]; intros S' out; [split; [reflexivity|intros r [= <-]; reflexivity]|]. inversion S' as [|? ? S1 S2]; subst. cbn [snd] in *.
  cbn [resolve_all map fst snd InfoModel.slice_variables]. fold (resolve_all w vars). destruct (slice_variable_again w cur d i F S1) as [E1 E2]. rewrite E1.
  destruct (slice_variable cur d i) as [[[i' s] r]|] eqn:E; cbn [bind]; [|split; [reflexivity|discriminate]]. rewrite (E2 i' s r eq_refl).
  destruct (IH S2 (put out s r)) as [H1 H2]. rewrite H1. split; [reflexivity|]. intros q.
  destruct (slice_variables _ vars _) as [y|]; cbn [bind]; [|discriminate]. intros [= <-]. cbn [fst]. rewrite (H2 y eq_refl). reflexivity.
Qed.

(** calls of a function whose state settles *)
Lemma calls_again {X Y} (f : dict (info A) -> X -> option (dict (info A) * Y)) v v' l :
  (forall x, In x l -> f v' x = f v x /\ forall r, f v x = Some r -> fst r = v') ->
  forall u, u = v \/ u = v' -> forall ys, calls f u l = Some ys -> forall k x, nth_error l k = Some x -> exists y, f v x = Some (v', y) /\ nth_error ys k = Some y.
Proof.
  intros H. induction l as [|x l IH]; intros u U ys C k x' K; [destruct k; discriminate|]. cbn [calls] in C.
  destruct (H x (or_introl eq_refl)) as [E1 E2].
  assert (E : f u x = f v x) by (destruct U as [->| ->]; [reflexivity|exact E1]). rewrite E in C.
  destruct (f v x) as [[u' y]|] eqn:Fx; cbn [bind] in C; [|discriminate]. cbn [fst snd] in C. assert (u' = v') as -> by exact (E2 _ eq_refl).
  destruct (calls f v' l) as [zs|] eqn:CZ; cbn [bind] in C; [|discriminate]. injection C as <-.
  destruct k as [|k]; cbn [nth_error] in *; [injection K as <-; exists y; split; [exact Fx|reflexivity]|].
  apply (IH (fun z I => H z (or_intror I)) v' (or_intror eq_refl) zs CZ k x' K).
Qed.
Lemma calls_total {X Y} (f : dict (info A) -> X -> option (dict (info A) * Y)) v v' l :
  (forall x, In x l -> f v' x = f v x /\ forall r, f v x = Some r -> fst r = v') -> (forall x, In x l -> f v x <> None) ->
  forall u, u = v \/ u = v' -> exists ys, calls f u l = Some ys.
Proof.
  intros H. induction l as [|x l IH]; intros N u U; cbn [calls]; [eauto|]. destruct (H x (or_introl eq_refl)) as [E1 E2].
  assert (E : f u x = f v x) by (destruct U as [->| ->]; [reflexivity|exact E1]). rewrite E.
  destruct (f v x) as [[u' y]|] eqn:Fx; [|now destruct (N x (or_introl eq_refl))]. cbn [bind fst snd]. assert (u' = v') as -> by exact (E2 _ eq_refl).
  destruct (IH (fun z I => H z (or_intror I)) (fun z I => N z (or_intror I)) v' (or_intror eq_refl)) as [zs ->]. cbn [bind]. eauto.
Qed.
End P.
