(** Lemmas about the Zarr monitors of several ranks *)
From Coq Require Import ZArith List Bool String Permutation Lia.
From Verif Require Import Base Dict CaseModel CaseProofs FleetModel.
Import ListNotations.
Local Open Scope list_scope.

Lemma mem_in n l : mem n l = true <-> In n l.
Proof. unfold mem. rewrite existsb_exists. split; [intros (x & I & E); apply String.eqb_eq in E; now subst|intros I; exists n; split; [exact I|apply String.eqb_refl]]. Qed.

Section Fleet.
Context {V C : Type} (calendar : V -> C) (same_calendar : C -> C -> bool).
Local Notation append_any n := (if is_time n then append_time calendar same_calendar else append).
Local Notation append_all := (append_all calendar same_calendar).
Local Notation store := (store calendar same_calendar).
Local Notation calls := (calls calendar same_calendar).

(** sorting *)
Lemma keys_insert (x : string * V) l : map fst (FleetModel.insert x l) = CaseModel.insert (fst x) (map fst l).
Proof. induction l as [|y l IH]; [reflexivity|]. cbn. destruct (fst x <=? fst y)%string; cbn; [reflexivity|]. now rewrite IH. Qed.
Lemma keys_sorted (s : dict V) : map fst (FleetModel.sorted s) = CaseModel.sorted (map fst s).
Proof. induction s as [|x s IH]; [reflexivity|]. cbn. rewrite keys_insert. f_equal. exact IH. Qed.
Lemma insert_permutes (x : string * V) l : Permutation (FleetModel.insert x l) (x :: l).
Proof. induction l as [|y l IH]; [reflexivity|]. cbn. destruct (fst x <=? fst y)%string; [reflexivity|]. rewrite IH. constructor. Qed.
Lemma sorted_permutes (s : dict V) : Permutation (FleetModel.sorted s) s.
Proof. induction s as [|x s IH]; [reflexivity|]. cbn. rewrite insert_permutes. now constructor. Qed.

(** what is written *)
Definition written (root : bool) (i : nat) (items : dict V) : list (string * nat * V) :=
  flat_map (fun x => if is_time (fst x) && negb root then [] else [(fst x, i, snd x)]) items.
Definition writes (os : list (op V)) : list (string * nat * V) := flat_map (fun o => match o with Write n i v => [(n, i, v)] | _ => [] end) os.
Lemma writes_app a b : writes (a ++ b) = writes a ++ writes b.
Proof. apply flat_map_app. Qed.
Lemma collectives_app (a b : list (op V)) : collectives (a ++ b) = collectives a ++ collectives b.
Proof. apply flat_map_app. Qed.
(** beside rank 0's operations o0 the operations o write w, whatever comes after *)
Definition goes (o0 o : list (op V)) (w : list (string * nat * V)) : Prop :=
  forall table, exists table', forall os cs, beside table (o ++ os) (collectives o0 ++ cs) = let '(w', r) := beside table' os cs in (w ++ w', r).
Lemma goes_nil : goes [] [] [].
Proof. intros t. exists t. intros os cs. cbn. now destruct (beside t os cs). Qed.
Lemma goes_app a0 a w b0 b u : goes a0 a w -> goes b0 b u -> goes (a0 ++ b0) (a ++ b) (w ++ u).
Proof.
  intros A B t. destruct (A t) as [t1 E1]. destruct (B t1) as [t2 E2]. exists t2. intros os cs. rewrite collectives_app, <- !app_assoc. rewrite E1, E2.
  destruct (beside t2 os cs) as [w' r]. now rewrite app_assoc.
Qed.

(** one writer *)
Lemma append_step n i v0 v m0 m o0 m0' : append_any n true m0 n i v0 = (o0, Some m0') ->
  exists o m', append_any n false m n i v = (o, Some m') /\ writers m0' = writers m0 /\ writers m' = writers m /\ constants m0' = constants m0 /\ constants m' = constants m
    /\ goes o0 o (written false i [(n, v)]) /\ writes o0 = written true i [(n, v0)].
Proof.
  assert (G1 : goes [Bcast n; Bcast n; Write n i v0] [Bcast n; Bcast n; Write n i v] [(n, i, v)]).
  { intros t. eexists. intros os cs. cbn. rewrite String.eqb_refl. match goal with |- context [beside ?t os cs] => destruct (beside t os cs) eqn:E end. rewrite E. reflexivity. }
  assert (G2 : goes [Bcast n; Write n i v0] [Bcast n; Write n i v] [(n, i, v)]).
  { intros t. eexists. intros os cs. cbn. rewrite String.eqb_refl. match goal with |- context [beside ?t os cs] => destruct (beside t os cs) eqn:E end. rewrite E. reflexivity. }
  assert (G3 : goes [Bcast n; Bcast n; Write n i v0; Barrier] [Bcast n; Bcast n; Barrier] []).
  { intros t. eexists. intros os cs. cbn. match goal with |- context [beside ?t os cs] => destruct (beside t os cs) eqn:E end. rewrite E. reflexivity. }
  assert (G4 : goes [Bcast n; Write n i v0; Barrier] [Bcast n; Barrier] []).
  { intros t. eexists. intros os cs. cbn. match goal with |- context [beside ?t os cs] => destruct (beside t os cs) eqn:E end. rewrite E. reflexivity. }
  unfold written. cbn [flat_map fst snd]. destruct (is_time n) eqn:T; cbn [andb negb].
  - unfold append_time, init_zarr, write_time. destruct i as [|i].
    + destruct (mem n (group m0)); [discriminate|]. cbn [app]. destruct (encode_time _ _ _ _); [|discriminate]. intros [= <- <-]. do 2 eexists. split; [reflexivity|]. do 4 (split; [reflexivity|]). split; [exact G3|reflexivity].
    + destruct (encode_time _ _ _ _); [|discriminate]. intros [= <- <-]. do 2 eexists. split; [reflexivity|]. do 4 (split; [reflexivity|]). split; [exact G4|reflexivity].
  - unfold append, init_zarr. destruct i as [|i].
    + destruct (mem n (group m0)); [discriminate|]. cbn [app]. intros [= <- <-]. do 2 eexists. split; [reflexivity|]. do 4 (split; [reflexivity|]). split; [exact G1|reflexivity].
    + intros [= <- <-]. do 2 eexists. split; [reflexivity|]. do 4 (split; [reflexivity|]). split; [exact G2|reflexivity].
Qed.

Definition same_writers (ws0 ws : dict nat) : Prop := forall n, get ws0 n = get ws n.
Definition all_at (k : nat) (ws : dict nat) : Prop := forall n i, get ws n = Some i -> i = k.
Lemma written_app root i a b : written root i (a ++ b) = written root i a ++ written root i b.
Proof. apply flat_map_app. Qed.

Lemma append_all_goes k : forall items0 items m0 m ws0 ws o0 m0', map fst items0 = map fst items -> NoDup (map fst items) -> writers m0 = Some ws0 -> writers m = Some ws -> same_writers ws0 ws ->
  (forall n, In n (map fst items) -> forall i, get ws n = Some i -> i = k) -> append_all true m0 items0 = (o0, Some m0') ->
  exists o m' ws0' ws', append_all false m items = (o, Some m') /\ writers m0' = Some ws0' /\ writers m' = Some ws' /\ same_writers ws0' ws' /\ constants m0' = constants m0 /\ constants m' = constants m
    /\ (forall n, get ws' n = if in_dec string_dec n (map fst items) then Some (S k) else get ws n) /\ goes o0 o (written false k items) /\ writes o0 = written true k items0.
Proof.
  induction items0 as [|[n v0] items0 IH]; intros [|[n' v] items] m0 m ws0 ws o0 m0' KE ND W0 W S K; try discriminate; cbn [FleetModel.append_all].
  - intros [= <- <-]. exists [], m, ws0, ws. split; [reflexivity|]. do 2 (split; [assumption|]). split; [exact S|]. do 2 (split; [reflexivity|]). split; [intros x; now destruct (in_dec string_dec x (map fst []))|]. split; [apply goes_nil|reflexivity].
  - cbn [map fst] in KE. injection KE as <- KE. inversion ND as [|? ? NI ND']; subst. rewrite W0, W. rewrite S. destruct (get ws n) as [i|] eqn:G; [|discriminate].
    assert (i = k) as -> by (apply (K n); [now left|exact G]).
    destruct (append_any n true m0 n k v0) as [a0 [m1|]] eqn:A; [|discriminate]. destruct (append_step n k v0 v m0 m a0 m1 A) as (a & m1' & A' & Wa & Wb & Ca & Cb & Ga & Ra). rewrite A'.
    destruct (append_all true _ items0) as [b0 r] eqn:B. intros [= <- ->].
    destruct (IH items (with_writers m1 (put ws0 n (Datatypes.S k))) (with_writers m1' (put ws n (Datatypes.S k))) (put ws0 n (Datatypes.S k)) (put ws n (Datatypes.S k)) b0 m0' KE ND' eq_refl eq_refl) as (b & m' & ws0' & ws' & B' & X1 & X2 & X3 & X4 & X5 & X6 & X7 & X8); try exact B.
    + intros x. rewrite !get_put. destruct (x =? n)%string; [reflexivity|]. apply S.
    + intros x I j. rewrite get_put. destruct (x =? n)%string eqn:E; [apply String.eqb_eq in E; subst; contradiction|]. intros H. apply (K x); [now right|exact H].
    + rewrite B'. exists (a ++ b), m', ws0', ws'. split; [reflexivity|]. do 2 (split; [assumption|]). split; [exact X3|]. split; [rewrite X4; exact Ca|]. split; [rewrite X5; exact Cb|]. split; [|split].
      * intros x. rewrite X6, get_put. cbn [map fst]. destruct (in_dec string_dec x (map fst items)) as [I|I]; destruct (in_dec string_dec x (n :: map fst items)) as [J|J]; try reflexivity; try (exfalso; apply J; now right).
        -- destruct J as [J|J]; [|contradiction]. subst. now rewrite String.eqb_refl.
        -- destruct (x =? n)%string eqn:E; [|reflexivity]. apply String.eqb_eq in E. subst. exfalso. apply J. now left.
      * change ((n, v) :: items) with ([(n, v)] ++ items). rewrite written_app. now apply goes_app.
      * change ((n, v0) :: items0) with ([(n, v0)] ++ items0). rewrite written_app, writes_app. now rewrite Ra, X8.
Qed.

Lemma get_init (s : dict V) n : get (init_writers s) n = if in_dec string_dec n (keys s) then Some O else if is_time n then Some O else None.
Proof.
  unfold init_writers. assert (A : forall l, get (map (fun n : string => (n, O)) (filter (fun n => negb (is_time n)) l) ++ [("time"%string, O)]) n = if in_dec string_dec n l then Some O else if is_time n then Some O else None).
  { induction l as [|x l IH]; cbn [filter map app get].
    - unfold is_time. destruct (n =? "time")%string; now destruct (in_dec string_dec n []).
    - destruct (is_time x) eqn:T; cbn [negb map app get].
      + rewrite IH. destruct (in_dec string_dec n l), (in_dec string_dec n (x :: l)) as [J|J]; try reflexivity; [exfalso; apply J; now right|]. destruct J as [<-|J]; [now rewrite T|contradiction].
      + destruct (n =? x)%string eqn:E.
        * apply String.eqb_eq in E. subst. destruct (in_dec string_dec x (x :: l)) as [J|J]; [reflexivity|]. exfalso. apply J. now left.
        * rewrite IH. destruct (in_dec string_dec n l), (in_dec string_dec n (x :: l)) as [J|J]; try reflexivity; [exfalso; apply J; now right|]. destruct J as [J|J]; [|contradiction]. subst. now rewrite String.eqb_refl in E. }
  apply A.
Qed.
Lemma check_iff ws (s : dict V) : check_writers ws s = true <-> forall n, In n (keys s) <-> exists i, get ws n = Some i.
Proof.
  unfold check_writers. rewrite andb_true_iff, !forallb_forall. split.
  - intros [A B] n. rewrite get_some. split; intros I; apply mem_in; auto.
  - intros H. split; intros n I; apply mem_in.
    + apply get_some. now apply H.
    + apply H. now apply get_some.
Qed.

(** the monitors of rank 0 and of another rank after k stores *)
Definition alike (k : nat) (m0 m : monitor C) : Prop :=
  constants m0 = constants m /\ match writers m0, writers m with None, None => k = O | Some a, Some b => same_writers a b /\ all_at k b | _, _ => False end.

Lemma store_goes k s0 s m0 m o0 m0' : alike k m0 m -> NoDup (keys s0) -> NoDup (keys s) -> Permutation (keys s0) (keys s) -> In "time"%string (keys s) -> store true m0 s0 = (o0, Some m0') ->
  exists o m', store false m s = (o, Some m') /\ alike (S k) m0' m' /\ goes o0 o (written false k (FleetModel.sorted s)) /\ writes o0 = written true k (FleetModel.sorted s0).
Proof.
  intros [Cs W] N0 N P T. unfold FleetModel.store.
  assert (KE : map fst (FleetModel.sorted s0) = map fst (FleetModel.sorted s)) by (rewrite !keys_sorted; now apply sorted_same).
  assert (KP : Permutation (map fst (FleetModel.sorted s)) (keys s)) by (unfold keys; now rewrite sorted_permutes).
  assert (ND : NoDup (map fst (FleetModel.sorted s))) by now apply (Permutation_NoDup (Permutation_sym KP)).
  assert (Conclude : forall m0 m ws0 ws, writers m0 = Some ws0 -> writers m = Some ws -> constants m0 = constants m -> same_writers ws0 ws -> (forall n i, get ws n = Some i -> i = k /\ In n (keys s)) ->
    append_all true m0 (FleetModel.sorted s0) = (o0, Some m0') ->
    exists o m', append_all false m (FleetModel.sorted s) = (o, Some m') /\ alike (S k) m0' m' /\ goes o0 o (written false k (FleetModel.sorted s)) /\ writes o0 = written true k (FleetModel.sorted s0)).
  { clear m0 m Cs W. intros m0 m ws0 ws W0 W Cs S K A.
    destruct (append_all_goes k _ _ m0 m ws0 ws o0 m0' KE ND W0 W S (fun n _ i G => proj1 (K n i G)) A) as (o & m' & ws0' & ws' & A' & X1 & X2 & X3 & X4 & X5 & X6 & X7 & X8).
    exists o, m'. split; [exact A'|]. split; [|split; assumption]. split; [now rewrite X4, X5|]. rewrite X1, X2. split; [exact X3|]. intros n i. rewrite X6. destruct (in_dec string_dec n _) as [I|I]; [congruence|].
    intros G. exfalso. apply I. apply (Permutation_in _ (Permutation_sym KP)). now destruct (K n i G). }
  destruct (writers m0) as [ws0|] eqn:W0, (writers m) as [ws|] eqn:W1; try contradiction.
  - destruct W as [S K]. destruct (check_writers ws0 s0) eqn:H; [|discriminate]. rewrite check_iff in H.
    assert (H' : check_writers ws s = true). { apply check_iff. intros n. rewrite <- (S n), <- H. split; apply Permutation_in; [now apply Permutation_sym|exact P]. }
    rewrite H'. apply (Conclude m0 m ws0 ws W0 W1 Cs S). intros n i G. split; [now apply (K n)|]. rewrite check_iff in H'. apply H'. eauto.
  - subst k. apply (Conclude _ _ (init_writers s0) (init_writers s)); try reflexivity; [exact Cs| |].
    + intros n. rewrite !get_init. destruct (in_dec string_dec n (keys s0)) as [I|I], (in_dec string_dec n (keys s)) as [J|J]; try reflexivity; exfalso.
      * apply J. now apply (Permutation_in _ P). * apply I. now apply (Permutation_in _ (Permutation_sym P)).
    + intros n i. rewrite get_init. destruct (in_dec string_dec n (keys s)) as [I|I]; [intros [= <-]; now split|]. destruct (is_time n) eqn:E; [|discriminate]. apply String.eqb_eq in E. subst. contradiction.
Qed.

Definition constant_writes (s : dict V) : list (string * nat * V) := map (fun x => (fst x, O, snd x)) s.
Lemma append_constant n v0 v (m0 m : monitor C) o0 m0' : append true m0 n O v0 = (o0, Some m0') ->
  exists o m', append false m n O v = (o, Some m') /\ writers m0' = writers m0 /\ writers m' = writers m /\ constants m0' = constants m0 /\ constants m' = constants m /\ goes o0 o [(n, O, v)] /\ writes o0 = [(n, O, v0)].
Proof.
  unfold append, init_zarr. destruct (mem n (group m0)); [discriminate|]. intros [= <- <-]. do 2 eexists. split; [reflexivity|]. do 4 (split; [reflexivity|]). split; [|reflexivity].
  intros t. eexists. intros os cs. cbn. rewrite String.eqb_refl. match goal with |- context [beside ?t os cs] => destruct (beside t os cs) eqn:E end. rewrite E. reflexivity.
Qed.
Lemma constant_goes k : forall s0 s (m0 m : monitor C) o0 m0', alike k m0 m -> map fst s0 = map fst s -> store_constant true m0 s0 = (o0, Some m0') ->
  exists o m', store_constant false m s = (o, Some m') /\ alike k m0' m' /\ goes o0 o (constant_writes s) /\ writes o0 = constant_writes s0.
Proof.
  induction s0 as [|[n v0] s0 IH]; intros [|[n' v] s] m0 m o0 m0' A KE; try discriminate; cbn [store_constant].
  - intros [= <- <-]. exists [], m. split; [reflexivity|]. split; [exact A|]. split; [apply goes_nil|reflexivity].
  - cbn [map fst] in KE. injection KE as <- KE. destruct A as [Cs W]. rewrite <- Cs. destruct (mem n (constants m0)); [discriminate|]. destruct (append true m0 n 0 v0) as [a0 [m1|]] eqn:E; [|discriminate].
    destruct (append_constant n v0 v m0 m a0 m1 E) as (a & m1' & -> & Wa & Wb & Ca & Cb & Ga & Ra). destruct (store_constant true _ s0) as [b0 r] eqn:B. intros [= <- ->].
    destruct (IH s (with_constant m1 n) (with_constant m1' n) b0 m0') as (b & m' & -> & X1 & X2 & X3); [|exact KE|exact B|].
    + split; [cbn; congruence|]. cbn [writers with_constant]. now rewrite Wa, Wb.
    + exists (a ++ b), m'. split; [reflexivity|]. split; [exact X1|]. split; [change (constant_writes ((n, v) :: s)) with ([(n, O, v)] ++ constant_writes s); now apply goes_app|].
      rewrite writes_app, Ra, X3. reflexivity.
Qed.
End Fleet.
