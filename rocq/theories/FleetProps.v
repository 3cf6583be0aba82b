(** C125: the ranks of a Zarr monitor *)
From Coq Require Import ZArith List Bool String Permutation Lia.
From Verif Require Import Base Dict FleetModel FleetProofs.
Import ListNotations.
Local Open Scope list_scope.

Section Props.
Context {V C : Type} (calendar : V -> C) (same_calendar : C -> C -> bool).
(** ** specification *)
(** the ranks make the same calls: states with the same names in any order, each with a time; constants with the same names in the same order *)
Definition same_call (c0 c : call V) : Prop :=
  match c0, c with
  | Store s0, Store s => NoDup (map fst s0) /\ NoDup (map fst s) /\ Permutation (map fst s0) (map fst s) /\ In "time"%string (map fst s)
  | StoreConstant s0, StoreConstant s => map fst s0 = map fst s
  | _, _ => False
  end.
(** number of states stored *)
Fixpoint states (cs : list (call V)) : nat := match cs with [] => O | Store _ :: cs => S (states cs) | StoreConstant _ :: cs => states cs end.
(** the value v of n was stored by the rank as that of time index i (constants: index 0); the time is stored by rank 0 alone *)
Definition stored (root : bool) (cs : list (call V)) (n : string) (i : nat) (v : V) : Prop :=
  exists before after s, (cs = before ++ Store s :: after /\ In (n, v) s /\ i = states before /\ (n = "time"%string -> root = true))
                         \/ (cs = before ++ StoreConstant s :: after /\ In (n, v) s /\ i = O).

(** ** proofs *)
Definition written_by (root : bool) : nat -> list (call V) -> list (string * nat * V) :=
  fix go k cs := match cs with [] => [] | Store s :: cs => written root k (FleetModel.sorted s) ++ go (S k) cs | StoreConstant s :: cs => constant_writes s ++ go k cs end.
Lemma in_written root i (s : dict V) n j v : In (n, j, v) (written root i s) <-> j = i /\ In (n, v) s /\ (n = "time"%string -> root = true).
Proof.
  unfold written. rewrite in_flat_map. split.
  - intros ([n' v'] & I & H). cbn [fst snd] in H. destruct (is_time n' && negb root) eqn:E; [destruct H|]. destruct H as [[= <- <- <-]|[]]. split; [reflexivity|]. split; [exact I|]. intros ->. destruct root; [reflexivity|discriminate E].
  - intros (-> & I & T). exists (n, v). split; [exact I|]. cbn [fst snd]. destruct (is_time n) eqn:E; cbn [andb]; [|now left]. apply String.eqb_eq in E. rewrite (T E). now left.
Qed.
Lemma in_written_by root : forall cs k n i v, In (n, i, v) (written_by root k cs) <->
  exists before after s, (cs = before ++ Store s :: after /\ In (n, v) s /\ i = (k + states before)%nat /\ (n = "time"%string -> root = true)) \/ (cs = before ++ StoreConstant s :: after /\ In (n, v) s /\ i = O).
Proof.
  induction cs as [|c cs IH]; intros k n i v.
  - split; [intros []|]. intros ([|? ?] & after & s & [(E & _)|(E & _)]); discriminate E.
  - split.
    + destruct c as [s|s]; cbn [written_by]; intros H; apply in_app_iff in H; destruct H as [H|H].
      * apply in_written in H. destruct H as (-> & I & T). exists [], cs, s. left. split; [reflexivity|]. split; [|split; [cbn; lia|exact T]]. now apply (Permutation_in _ (sorted_permutes s)).
      * apply IH in H. destruct H as (b & a & s' & [(-> & I & -> & T)|(-> & I & ->)]); exists (Store s :: b), a, s'; [left|right]; (split; [reflexivity|]; split; [exact I|]); [split; [cbn; lia|exact T]|reflexivity].
      * unfold constant_writes in H. apply in_map_iff in H. destruct H as ([n' v'] & [= <- <- <-] & I). exists [], cs, s. right. now split.
      * apply IH in H. destruct H as (b & a & s' & [(-> & I & -> & T)|(-> & I & ->)]); exists (StoreConstant s :: b), a, s'; [left|right]; (split; [reflexivity|]; split; [exact I|]); [split; [reflexivity|exact T]|reflexivity].
    + intros (b & a & s' & H). destruct b as [|c' b].
      * destruct H as [(E & I & -> & T)|(E & I & ->)]; injection E as -> ->; cbn [written_by]; apply in_app_iff; left.
        -- apply in_written. split; [cbn; lia|]. split; [|exact T]. now apply (Permutation_in _ (Permutation_sym (sorted_permutes s'))).
        -- unfold constant_writes. apply in_map_iff. now exists (n, v).
      * assert (E : c = c' /\ exists k', written_by root k (c :: cs) = (match c with Store s => written root k (FleetModel.sorted s) | StoreConstant s => constant_writes s end) ++ written_by root k' cs /\ (k' + states b = k + states (c' :: b))%nat).
        { assert (c = c') as -> by (destruct H as [(E & _)|(E & _)]; now injection E). split; [reflexivity|]. destruct c' as [s|s]; [exists (S k)|exists k]; split; cbn; try reflexivity; lia. }
        destruct E as (-> & k' & -> & K). apply in_app_iff. right. apply IH. exists b, a, s'. rewrite K. destruct H as [(E & H)|(E & H)]; injection E as ->; [left|right]; now split.
Qed.

Lemma calls_go : forall cs0 cs k m0 m o0 m0', alike k m0 m -> Forall2 same_call cs0 cs -> calls calendar same_calendar true m0 cs0 = (o0, Some m0') ->
  exists o m', calls calendar same_calendar false m cs = (o, Some m') /\ goes o0 o (written_by false k cs) /\ writes o0 = written_by true k cs0.
Proof.
  induction cs0 as [|c0 cs0 IH]; intros cs k m0 m o0 m0' A F; inversion F as [|? c ? cs' Sc F']; subst; cbn [calls].
  - intros [= <- <-]. exists [], m. split; [reflexivity|]. split; [apply goes_nil|reflexivity].
  - destruct (one calendar same_calendar true m0 c0) as [a0 [m1|]] eqn:E; [|discriminate]. destruct (calls _ _ true m1 cs0) as [b0 r] eqn:B. intros [= <- ->].
    destruct c0 as [s0|s0], c as [s|s]; try contradiction; cbn [one same_call] in *.
    + destruct Sc as (N0 & N & P & T). destruct (store_goes calendar same_calendar k s0 s m0 m a0 m1 A N0 N P T E) as (a & m' & -> & A' & G & W).
      destruct (IH cs' (S k) m1 m' b0 m0' A' F' B) as (b & m'' & -> & G' & W'). exists (a ++ b), m''. split; [reflexivity|]. split; [cbn [written_by]; now apply goes_app|]. cbn [written_by]. now rewrite writes_app, W, W'.
    + destruct (constant_goes k s0 s m0 m a0 m1 A Sc E) as (a & m' & -> & A' & G & W).
      destruct (IH cs' k m1 m' b0 m0' A' F' B) as (b & m'' & -> & G' & W'). exists (a ++ b), m''. split; [reflexivity|]. split; [cbn [written_by]; now apply goes_app|]. cbn [written_by]. now rewrite writes_app, W, W'.
Qed.
(** if rank 0 gets through, so does every other rank, no collective call is left over, and each rank has written its values, at their time index, in the array of their name, and nothing else.
    missing: constants in different orders (C125_constants_refuted), and what happens if rank 0 raises (C125_calendar_refuted, C125_exists_refuted) *)
Theorem C125_series_partial st cs0 cs w0 : Forall2 same_call cs0 cs -> root_run calendar same_calendar st cs0 = (w0, true) ->
  (forall n i v, In (n, i, v) w0 <-> stored true cs0 n i v)
  /\ exists w, other_run calendar same_calendar st cs0 cs = (w, Done [], true) /\ forall n i v, In (n, i, v) w <-> stored false cs n i v.
Proof.
  intros F. unfold root_run, other_run. destruct (calls _ _ true _ cs0) as [o0 [m0'|]] eqn:E; [|discriminate]. intros [= <-].
  destruct (calls_go cs0 cs O (new_monitor st) (new_monitor []) o0 m0' (conj eq_refl eq_refl) F E) as (o & m' & -> & G & W). split.
  - intros n i v. change (In (n, i, v) (writes o0) <-> stored true cs0 n i v). rewrite W. apply in_written_by.
  - exists (written_by false O cs). split; [|intros n i v; apply in_written_by]. destruct (G (fun x => x)) as [t' H]. specialize (H [] []). rewrite !app_nil_r in H. rewrite H. cbn [beside]. now rewrite app_nil_r.
Qed.

(** rank 0 gets through if the states have the same names, no array is made twice, and the times are of one calendar *)
Definition acceptable (st names : list string) (cs : list (call V)) : Prop :=
  NoDup names /\ In "time"%string names /\ (forall s, In (Store s) cs -> NoDup (map fst s) /\ forall n, In n (map fst s) <-> In n names)
  /\ NoDup (st ++ names ++ flat_map (fun c => match c with StoreConstant s => map fst s | _ => [] end) cs)
  /\ forall s s' v v', In (Store s) cs -> In (Store s') cs -> In ("time"%string, v) s -> In ("time"%string, v') s' -> same_calendar (calendar v) (calendar v') = true.

Lemma append_all_through k : forall items (m : monitor C) ws, writers m = Some ws -> NoDup (map fst items) -> (forall n, In n (map fst items) -> get ws n = Some k /\ (k = O -> ~ In n (group m))) ->
  (forall v, In ("time"%string, v) items -> same_calendar (calendar v) match k, encoding m with S _, Some c => c | _, _ => calendar v end = true /\ (k <> O -> encoding m <> None)) ->
  exists o m' ws', append_all calendar same_calendar true m items = (o, Some m') /\ writers m' = Some ws' /\ (forall n, get ws' n = if in_dec string_dec n (map fst items) then Some (S k) else get ws n)
    /\ (forall n, In n (group m') -> In n (group m) \/ In n (map fst items)) /\ constants m' = constants m
    /\ encoding m' = match k with O => match get items "time" with Some v => Some (calendar v) | None => encoding m end | S _ => encoding m end.
Proof.
  induction items as [|[n v] items IH]; intros m ws W ND H T; cbn [append_all].
  - exists [], m, ws. split; [reflexivity|]. split; [exact W|]. split; [intros n; now destruct (in_dec string_dec n (map fst []))|]. split; [now left|]. split; [reflexivity|]. destruct k; reflexivity.
  - rewrite W. cbn [map fst] in *. destruct (H n (or_introl eq_refl)) as [-> F]. inversion ND as [|? ? NI ND']; subst.
    assert (A : exists o m1, (if is_time n then append_time calendar same_calendar else append) true m n k v = (o, Some m1) /\ writers m1 = writers m /\ (forall x, In x (group m1) -> In x (group m) \/ x = n) /\ constants m1 = constants m
      /\ encoding m1 = match k with O => if is_time n then Some (calendar v) else encoding m | S _ => encoding m end).
    { destruct (is_time n) eqn:E.
      - apply String.eqb_eq in E. subst n. destruct (T v (or_introl eq_refl)) as [T1 T2]. unfold append_time, init_zarr, write_time, encode_time. destruct k as [|k].
        + destruct (mem "time" (group m)) eqn:M; [apply mem_in in M; now destruct (F eq_refl)|]. cbn [encoding with_encoding]. rewrite T1. do 2 eexists. split; [reflexivity|]. cbn. split; [reflexivity|]. split; [|split; reflexivity]. intros x [<-|I]; auto.
        + destruct (encoding m) as [c|] eqn:Ec; [|exfalso; now apply T2]. rewrite T1. do 2 eexists. split; [reflexivity|]. cbn. split; [reflexivity|]. split; [|split; [reflexivity|exact Ec]]. intros x I; auto.
      - unfold append, init_zarr. destruct k as [|k].
        + destruct (mem n (group m)) eqn:M; [apply mem_in in M; now destruct (F eq_refl)|]. do 2 eexists. split; [reflexivity|]. cbn. split; [reflexivity|]. split; [|split; reflexivity]. intros x [<-|I]; auto.
        + do 2 eexists. split; [reflexivity|]. split; [reflexivity|]. split; [auto|split; reflexivity]. }
    destruct A as (o & m1 & -> & W1 & G1 & C1 & E1).
    destruct (IH (with_writers m1 (put ws n (S k))) (put ws n (S k)) eq_refl ND') as (o' & m' & ws' & -> & W' & G' & Gr & C' & E').
    + intros x I. rewrite get_put. destruct (x =? n)%string eqn:E; [apply String.eqb_eq in E; subst; contradiction|]. destruct (H x (or_intror I)) as [Gx Fx]. split; [exact Gx|]. intros K J. cbn in J. apply G1 in J. destruct J as [J| ->]; [now apply Fx|contradiction].
    + intros u I. cbn [encoding with_writers]. destruct (T u (or_intror I)) as [T1 T2]. rewrite E1. destruct k as [|k]; [split; [exact T1|congruence]|]. now split.
    + exists (o ++ o'), m', ws'. split; [reflexivity|]. split; [exact W'|]. split; [|split; [|split]].
      * intros x. rewrite G', get_put. destruct (in_dec string_dec x (map fst items)) as [I|I], (in_dec string_dec x (n :: map fst items)) as [J|J]; try reflexivity; try (exfalso; apply J; now right).
        -- destruct J as [J|J]; [|contradiction]. subst. now rewrite String.eqb_refl.
        -- destruct (x =? n)%string eqn:E; [|reflexivity]. apply String.eqb_eq in E. subst. exfalso. apply J. now left.
      * intros x I. apply Gr in I. destruct I as [I|I]; [|right; now right]. cbn in I. apply G1 in I. destruct I as [I|<-]; [now left|right; now left].
      * rewrite C'. exact C1.
      * rewrite E'. cbn [encoding with_writers get]. rewrite E1. destruct k as [|k]; [|reflexivity]. unfold is_time. rewrite (String.eqb_sym "time" n). destruct (n =? "time")%string eqn:E; [|reflexivity].
        apply String.eqb_eq in E. subst n. destruct (get items "time") as [u|] eqn:Gt; [|reflexivity]. exfalso. apply NI. apply get_some. eauto.
Qed.
Lemma constant_through : forall (s : dict V) (m : monitor C), NoDup (map fst s) -> (forall n, In n (map fst s) -> ~ In n (constants m) /\ ~ In n (group m)) ->
  exists o m', store_constant true m s = (o, Some m') /\ writers m' = writers m /\ encoding m' = encoding m /\ (forall n, In n (group m') -> In n (group m) \/ In n (map fst s)) /\ (forall n, In n (constants m') -> In n (constants m) \/ In n (map fst s)).
Proof.
  induction s as [|[n v] s IH]; intros m ND H; cbn [store_constant].
  - exists [], m. auto 6.
  - cbn [map fst] in *. inversion ND as [|? ? NI ND']; subst. destruct (H n (or_introl eq_refl)) as [H1 H2]. destruct (mem n (constants m)) eqn:M; [apply mem_in in M; contradiction|].
    unfold append, init_zarr. destruct (mem n (group m)) eqn:M'; [apply mem_in in M'; contradiction|].
    destruct (IH (with_constant (with_group m n) n) ND') as (o & m' & -> & W & E & G & Cc).
    + intros x I. destruct (H x (or_intror I)) as [X1 X2]. cbn. split; intros [<-|J]; auto.
    + do 2 eexists. split; [reflexivity|]. split; [exact W|]. split; [exact E|]. split; intros x I; [apply G in I|apply Cc in I]; cbn in I; destruct I as [[<-|I]|I]; auto; right; try (now left); now right.
Qed.

Definition through (st names : list string) (k : nat) (times : list V) (done : list string) (m : monitor C) : Prop :=
  (forall n, In n (constants m) -> In n done) /\ (forall n, In n (group m) -> In n st \/ In n done \/ k <> O /\ In n names)
  /\ match k with O => writers m = None | S _ => (exists ws, writers m = Some ws /\ forall n, get ws n = if in_dec string_dec n names then Some k else None) /\ exists v, In v times /\ encoding m = Some (calendar v) end.
Definition constant_names (cs : list (call V)) : list string := flat_map (fun c => match c with StoreConstant s => map fst s | _ => [] end) cs.
Lemma calls_through st names times : NoDup names -> In "time"%string names -> (forall u v, In u times -> In v times -> same_calendar (calendar u) (calendar v) = true) ->
  forall cs k done m, through st names k times done m -> (forall s, In (Store s) cs -> NoDup (map fst s) /\ (forall n, In n (map fst s) <-> In n names) /\ forall v, In ("time"%string, v) s -> In v times) ->
  NoDup (constant_names cs) -> (forall n, In n (constant_names cs) -> ~ In n st /\ ~ In n names /\ ~ In n done) -> (forall n, In n names -> ~ In n st /\ ~ In n done) ->
  exists o m', calls calendar same_calendar true m cs = (o, Some m').
Proof.
  intros N T Cal. induction cs as [|c cs IH]; intros k done m (I1 & I2 & I3) Ss ND Cn Nn; cbn [calls]; [eauto|].
  assert (Ss' : forall s, In (Store s) cs -> NoDup (map fst s) /\ (forall n, In n (map fst s) <-> In n names) /\ forall v, In ("time"%string, v) s -> In v times) by (intros s I; apply Ss; now right).
  destruct c as [s|s]; cbn [one].
  - change (constant_names (Store s :: cs)) with (constant_names cs) in *. destruct (Ss s (or_introl eq_refl)) as (Ns & Ks & Ts).
    assert (KP : Permutation (map fst (FleetModel.sorted s)) (map fst s)) by now rewrite sorted_permutes.
    assert (NP : NoDup (map fst (FleetModel.sorted s))) by now apply (Permutation_NoDup (Permutation_sym KP)).
    assert (KI : forall n, In n (map fst (FleetModel.sorted s)) <-> In n names) by (intros n; rewrite <- Ks; split; apply Permutation_in; [exact KP|now apply Permutation_sym]).
    assert (TI : forall v, In ("time"%string, v) (FleetModel.sorted s) -> In v times) by (intros v I; apply Ts; revert I; apply Permutation_in, sorted_permutes).
    assert (Sto : exists o m' , store calendar same_calendar true m s = (o, Some m') /\ through st names (S k) times done m').
    { unfold store. destruct k as [|k].
      - rewrite I3. destruct (append_all_through O (FleetModel.sorted s) (with_writers m (init_writers s)) (init_writers s) eq_refl NP) as (o & m' & ws' & -> & W' & G' & Gr & C' & E').
        + intros n I. rewrite get_init. assert (J : In n (keys s)) by now apply (Permutation_in _ KP). destruct (in_dec string_dec n (keys s)); [|contradiction]. split; [reflexivity|]. intros _ X. cbn in X. apply I2 in X. apply KI in I. destruct (Nn n I). tauto.
        + intros v I. split; [|congruence]. apply Cal; now apply TI.
        + exists o, m'. split; [reflexivity|]. split; [intros n; rewrite C'; apply I1|]. split; [|split].
          * intros n I. apply Gr in I. cbn in I. destruct I as [I|I]; [apply I2 in I; intuition|]. right. right. split; [discriminate|]. now apply KI.
          * exists ws'. split; [exact W'|]. intros n. rewrite G', get_init. destruct (in_dec string_dec n (map fst (FleetModel.sorted s))) as [I|I], (in_dec string_dec n names) as [J|J]; try reflexivity; try (exfalso; apply J; now apply KI); try (exfalso; apply I; now apply KI).
            destruct (in_dec string_dec n (keys s)) as [K|K]; [exfalso; apply J; now apply Ks|]. destruct (is_time n) eqn:Et; [|reflexivity]. apply String.eqb_eq in Et. subst. contradiction.
          * rewrite E'. destruct (get (FleetModel.sorted s) "time") as [v|] eqn:Gt; [exists v; split; [apply TI; now apply get_in|reflexivity]|]. exfalso. apply get_none in Gt. apply Gt. unfold keys. now apply KI.
      - destruct I3 as ((ws & W & G) & v0 & V0 & Ec). rewrite W.
        assert (Ck : check_writers ws s = true). { apply check_iff. intros n. unfold keys. rewrite Ks, G. destruct (in_dec string_dec n names); split; eauto; try contradiction. now intros [i [=]]. } rewrite Ck.
        destruct (append_all_through (S k) (FleetModel.sorted s) m ws W NP) as (o & m' & ws' & -> & W' & G' & Gr & C' & E').
        + intros n I. split; [|discriminate]. rewrite G. apply KI in I. now destruct (in_dec string_dec n names).
        + intros v I. rewrite Ec. split; [|discriminate]. apply Cal; [now apply TI|exact V0].
        + exists o, m'. split; [reflexivity|]. split; [intros n; rewrite C'; apply I1|]. split; [|split].
          * intros n I. apply Gr in I. destruct I as [I|I]; [apply I2 in I; intuition|]. right. right. split; [discriminate|]. now apply KI.
          * exists ws'. split; [exact W'|]. intros n. rewrite G', G. destruct (in_dec string_dec n (map fst (FleetModel.sorted s))) as [I|I], (in_dec string_dec n names) as [J|J]; try reflexivity; [exfalso; apply J; now apply KI|exfalso; apply I; now apply KI].
          * exists v0. split; [exact V0|]. now rewrite E'. }
    destruct Sto as (o & m' & -> & Th). destruct (IH (S k) done m' Th Ss' ND Cn Nn) as (o' & m'' & ->). eauto.
  - change (constant_names (StoreConstant s :: cs)) with (map fst s ++ constant_names cs) in *.
    destruct (constant_through s m) as (o & m' & -> & W & E & G & Cc).
    + clear - ND. induction (map fst s) as [|x l IH]; [constructor|]. inversion ND; subst. constructor; [|now apply IH]. intros I. apply H1. apply in_app_iff. now left.
    + intros n I. destruct (Cn n) as (A1 & A2 & A3); [apply in_app_iff; now left|]. split; intros J; [now apply I1 in J|]. apply I2 in J. tauto.
    + assert (Th : through st names k times (map fst s ++ done) m').
      { split; [intros n I; apply Cc in I; apply in_app_iff; destruct I as [I|I]; auto|]. split; [intros n I; apply G in I; rewrite in_app_iff; destruct I as [I|I]; [apply I2 in I; tauto|tauto]|]. now rewrite W, E. }
      assert (Dis : forall n, In n (map fst s) -> ~ In n (constant_names cs)).
      { clear - ND. induction (map fst s) as [|x l IH]; [intros n []|]. inversion ND; subst. intros n [<-|I]; [|now apply IH]. intros J. apply H1. apply in_app_iff. now right. }
      destruct (IH k (map fst s ++ done) m' Th Ss') as (o' & m'' & ->); [| | |eauto].
      * clear - ND. induction (map fst s) as [|x l IH]; [exact ND|]. inversion ND; subst. now apply IH.
      * intros n I. destruct (Cn n) as (A1 & A2 & A3); [apply in_app_iff; now right|]. split; [exact A1|]. split; [exact A2|]. rewrite in_app_iff. intros [J|J]; [now apply (Dis n)|contradiction].
      * intros n I. destruct (Nn n I) as [A1 A2]. split; [exact A1|]. rewrite in_app_iff. intros [J|J]; [|contradiction]. destruct (Cn n) as (_ & A & _); [apply in_app_iff; now left|contradiction].
Qed.
Theorem C125_accepted st names cs : acceptable st names cs -> exists w, root_run calendar same_calendar st cs = (w, true).
Proof.
  intros (N & T & Ss & ND & Cal). unfold root_run.
  assert (Dis : forall a b : list string, NoDup (a ++ b) -> NoDup b /\ forall n, In n a -> ~ In n b).
  { induction a as [|x a IH]; intros b H; [split; [exact H|intros n []]|]. inversion H; subst. destruct (IH b H3) as [B D]. split; [exact B|]. intros n [<-|I]; [|now apply D]. intros J. apply H2. apply in_app_iff. now right. }
  destruct (Dis _ _ ND) as [ND1 D1]. destruct (Dis _ _ ND1) as [ND2 D2].
  destruct (calls_through st names (flat_map (fun c => match c with Store s => map snd (filter (fun x => String.eqb (fst x) "time") s) | _ => [] end) cs) N T) with (cs := cs) (k := O) (done := @nil string) (m := new_monitor (C := C) st) as (o & m' & ->); [| | | | | |eauto].
  - assert (X : forall u, In u (flat_map (fun c => match c with Store s => map snd (filter (fun x => String.eqb (fst x) "time") s) | _ => [] end) cs) -> exists s, In (Store s) cs /\ In ("time"%string, u) s).
    { intros u I. apply in_flat_map in I. destruct I as ([s|s] & I & J); [|destruct J]. apply in_map_iff in J. destruct J as ([n u'] & <- & J). apply filter_In in J. destruct J as [J E]. apply String.eqb_eq in E. cbn in *. subst. eauto. }
    intros u v Iu Iv. destruct (X u Iu) as (s & A & B). destruct (X v Iv) as (s' & A' & B'). now apply (Cal s s').
  - split; [intros n []|]. split; [intros n I; now left|reflexivity].
  - intros s I. destruct (Ss s I) as [A B]. split; [exact A|]. split; [exact B|]. intros v J. apply in_flat_map. exists (Store s). split; [exact I|]. apply in_map_iff. exists ("time"%string, v). split; [reflexivity|]. apply filter_In. split; [exact J|apply String.eqb_refl].
  - exact ND2.
  - intros n I. split; [intros J; apply (D1 n J); apply in_app_iff; now right|]. split; [intros J; now apply (D2 n J)|intros []].
  - intros n I. split; [intros J; apply (D1 n J); apply in_app_iff; now left|intros []].
Qed.
End Props.
Print Assumptions C125_series_partial.
Print Assumptions C125_accepted.

(** constants whose names come in another order on another rank are written in each other's arrays, without an error *)
Theorem C125_constants_refuted : exists (s0 s : dict nat) w, NoDup (map fst s) /\ Permutation (map fst s0) (map fst s)
  /\ other_run (fun _ => tt) (fun _ _ => true) [] [StoreConstant s0] [StoreConstant s] = (w, Done [], true) /\ get s "lat" = Some 1%nat /\ In ("lon"%string, O, 1%nat) w.
Proof.
  exists [("lon"%string, 7%nat); ("lat"%string, 8%nat)], [("lat"%string, 1%nat); ("lon"%string, 2%nat)]. eexists. split; [repeat constructor; cbn; intuition discriminate|]. split; [apply perm_swap|]. split; [reflexivity|]. split; [reflexivity|now left].
Qed.
Print Assumptions C125_constants_refuted.
(** a time of another calendar raises on rank 0 alone; the other ranks wait for ever *)
Theorem C125_calendar_refuted : exists (cs : list (call nat)) w w', root_run (fun v => Nat.leb 5 v) Bool.eqb [] cs = (w, false) /\ other_run (fun v => Nat.leb 5 v) Bool.eqb [] cs cs = (w', Stuck, true).
Proof. exists [Store [("time"%string, 1%nat)]; Store [("time"%string, 7%nat)]]. do 2 eexists. split; reflexivity. Qed.
Print Assumptions C125_calendar_refuted.
(** so does a state with the name of a constant written before, or of an array that was in the store *)
Theorem C125_exists_refuted : exists (cs : list (call nat)) w w', root_run (fun _ => tt) (fun _ _ => true) [] cs = (w, false) /\ other_run (fun _ => tt) (fun _ _ => true) [] cs cs = (w', Stuck, true).
Proof. exists [StoreConstant [("u"%string, 1%nat)]; Store [("time"%string, 2%nat); ("u"%string, 3%nat)]]. do 2 eexists. split; reflexivity. Qed.
Print Assumptions C125_exists_refuted.

(** a case: two states in different orders and a constant between them *)
Definition case_root : list (call nat) := [Store [("u"%string, 1); ("time"%string, 2); ("a"%string, 3)]; StoreConstant [("z"%string, 9)]; Store [("a"%string, 5); ("u"%string, 4); ("time"%string, 6)]]%nat.
Definition case_other : list (call nat) := [Store [("time"%string, 2); ("a"%string, 13); ("u"%string, 11)]; StoreConstant [("z"%string, 19)]; Store [("u"%string, 14); ("a"%string, 15); ("time"%string, 6)]]%nat.
Example C125_case : Forall2 same_call case_root case_other /\ acceptable (fun _ => tt) (fun _ _ => true) [] ["a"; "u"; "time"]%string case_root
  /\ other_run (fun _ => tt) (fun _ _ => true) [] case_root case_other = ([("a", 0, 13); ("u", 0, 11); ("z", 0, 19); ("a", 1, 15); ("u", 1, 14)], Done [], true)%string%nat.
Proof.
  split; [|split; [|reflexivity]].
  - assert (ND : forall a b c : string, a <> b -> a <> c -> b <> c -> NoDup [a; b; c]) by (intros; repeat constructor; cbn; intuition congruence).
    constructor; [|constructor; [reflexivity|constructor; [|constructor]]]; (split; [apply ND; discriminate|]; split; [apply ND; discriminate|]; split; [|cbn; tauto]); cbn [map fst].
    + apply Permutation_trans with ["time"; "u"; "a"]%string; [apply perm_swap|]. constructor. apply perm_swap.
    + apply perm_swap.
  - split; [repeat constructor; cbn; intuition discriminate|]. split; [cbn; tauto|]. split; [|split].
    + intros s [[= <-]|[[=]|[[= <-]|[]]]]; (split; [repeat constructor; cbn; intuition discriminate|]); cbn; intros n; intuition congruence.
    + cbn. repeat constructor; cbn; intuition discriminate.
    + reflexivity.
Qed.
