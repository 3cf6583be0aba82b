(** C135: constants stored by a NetCDFMonitor. *)
From Coq Require Import Ascii.
From Verif Require Import Base Dict ConstModel SaveProps.
Local Open Scope string_scope.

Lemma path_inj root a b : constant_path root a = constant_path root b -> a = b.
Proof. unfold constant_path. intros H. do 4 apply append_inj_l in H. now apply append_inj_r in H. Qed.
Lemma parent_slashless t : slashless t -> parent t = None.
Proof.
  induction t as [|c t IH]; [reflexivity|]. cbn. intros [N S]. rewrite (IH S). destruct (Ascii.eqb_spec c "/"); [contradiction|reflexivity].
Qed.
Lemma parent_app s t : slashless t -> parent (s ++ "/" ++ t) = Some s.
Proof.
  intros S. induction s as [|c s IH].
  - change (parent (String "/" t) = Some ""). cbn [parent]. rewrite (parent_slashless t S). reflexivity.
  - change (parent (String c (s ++ "/" ++ t)) = Some (String c s)). cbn [parent]. now rewrite IH.
Qed.
Lemma slashless_app s t : slashless s -> slashless t -> slashless (s ++ t).
Proof. induction s as [|c s IH]; [auto|]. cbn. intros [N S] T. auto. Qed.
Lemma parent_path root n : slashless n -> parent (constant_path root n) = Some root.
Proof.
  intros S. apply parent_app. cbn. repeat (split; [discriminate|]). apply slashless_app; [exact S|]. cbn. repeat (split; [discriminate|]). exact Logic.I.
Qed.

Section C135.
  Context {A : Type}.
  Variables (root : string) (writes : string -> dataset A -> bool).
  Notation path := (constant_path root).
  Notation one := (store_one root writes).
  Notation all := (store_all root writes).
  Notation constant := (store_constant root writes).
  Notation runs := (calls root writes).

  Lemma file_set (d : disk A) p c q : file (set_file d p c) q = if q =? p then c else file d q.
  Proof. reflexivity. Qed.
  Lemma fits_agree (a b : array A) : fits a b = true <-> agree a b.
  Proof.
    unfold fits, agree. rewrite forallb_forall. split.
    - intros H n i j X Y. apply H in X. rewrite forallb_forall in X. apply X in Y. cbn in Y. rewrite String.eqb_refl in Y. cbn in Y. now apply Z.eqb_eq.
    - intros H [n i] X. rewrite forallb_forall. intros [m j] Y. cbn. destruct (String.eqb_spec n m) as [->|]; [|reflexivity]. cbn. apply Z.eqb_eq. eauto.
  Qed.

  (** one entry: what changes *)
  Lemma one_dir d n e : is_dir (fst (one d n e)) = is_dir d.
  Proof.
    unfold store_one. destruct e as [a|]; [|reflexivity]. destruct (match file d (path n) with Some ds => assign ds n a | None => Some [(n, a)] end); [|reflexivity].
    destruct (file d (path n)); destruct (match parent (path n) with Some _ => _ | None => _ end && _)%bool; reflexivity.
  Qed.
  Lemma one_other d n e p : p <> path n -> file (fst (one d n e)) p = file d p.
  Proof.
    intros N. apply String.eqb_neq in N. unfold store_one. destruct e as [a|]; [|reflexivity].
    destruct (match file d (path n) with Some ds => assign ds n a | None => Some [(n, a)] end); [|reflexivity].
    destruct (file d (path n)); destruct (match parent (path n) with Some _ => _ | None => _ end && _)%bool; cbn; rewrite ?N; reflexivity.
  Qed.
  Lemma one_same d n e : snd (one d n e) = true -> file (fst (one d n e)) (path n) = file d (path n) \/ file (fst (one d n e)) (path n) = None.
  Proof.
    unfold store_one. destruct e as [a|]; [|auto].
    destruct (match file d (path n) with Some ds => assign ds n a | None => Some [(n, a)] end); [|auto].
    destruct (file d (path n)) eqn:F; destruct (match parent (path n) with Some _ => _ | None => _ end && _)%bool; cbn; rewrite ?String.eqb_refl; try discriminate; auto.
  Qed.
  Lemma one_done d n e : snd (one d n e) = false -> exists a ds, e = Field a /\ file (fst (one d n e)) (path n) = Some ds /\
    forall v, get ds v = if v =? n then Some a else match file d (path n) with Some ds0 => get ds0 v | None => None end.
  Proof.
    unfold store_one. destruct e as [a|]; [|discriminate].
    destruct (match file d (path n) with Some ds => assign ds n a | None => Some [(n, a)] end) as [ds|] eqn:D; [|discriminate].
    intros H. exists a, ds. split; [reflexivity|].
    split.
    - destruct (file d (path n)); destruct (match parent (path n) with Some _ => _ | None => _ end && _)%bool; cbn in *; try discriminate; now rewrite String.eqb_refl.
    - intros v. destruct (file d (path n)) as [ds0|].
      + unfold assign in D. destruct (forallb _ _); [|discriminate]. injection D as <-. apply get_put.
      + injection D as <-. cbn. rewrite (String.eqb_sym v n). destruct (n =? v); reflexivity.
  Qed.

  Lemma all_dir s : forall d, is_dir (fst (all d s)) = is_dir d.
  Proof.
    induction s as [|[n e] s IH]; intros d; [reflexivity|]. cbn [store_all]. pose proof (one_dir d n e) as H. destruct (one d n e) as [d1 r]. cbn in H.
    destruct r; [exact H|]. rewrite IH. exact H.
  Qed.
  Lemma all_other s : forall d p, (forall n, List.In n (keys s) -> p <> path n) -> file (fst (all d s)) p = file d p.
  Proof.
    induction s as [|[n e] s IH]; intros d p N; [reflexivity|]. cbn [store_all]. pose proof (one_other d n e p (N n (or_introl eq_refl))) as H.
    destruct (one d n e) as [d1 r]. cbn in H. destruct r; [exact H|]. rewrite IH; [exact H|]. intros m I. apply N. now right.
  Qed.

  Lemma variable_path (d : disk A) n v : variable root d n v = match file d (path n) with Some ds => get ds v | None => None end.
  Proof. reflexivity. Qed.

  (** relation between the disks before and after entries (latest first) were stored *)
  Definition holds (d d' : disk A) (l : list (string * entry A)) : Prop := forall name,
    match latest name l with
    | Some e => exists a, e = Field a /\ variable root d' name name = Some a /\ forall v, v <> name -> variable root d' name v = variable root d name v
    | None => file d' (path name) = file d (path name)
    end.
  Lemma latest_app n (l m : list (string * entry A)) : latest n (l ++ m)%list = match latest n l with Some e => Some e | None => latest n m end.
  Proof. unfold latest. induction l as [|x l IH]; [reflexivity|]. cbn. destruct (fst x =? n); [reflexivity|exact IH]. Qed.
  Lemma holds_trans d d1 d2 l m : holds d d1 m -> holds d1 d2 l -> holds d d2 (l ++ m)%list.
  Proof.
    intros H1 H2 n. rewrite latest_app. specialize (H1 n). specialize (H2 n). destruct (latest n l) as [e|].
    - destruct H2 as (a & -> & V & O). exists a. split; [reflexivity|]. split; [exact V|]. intros v N. rewrite (O v N). destruct (latest n m) as [e|].
      + destruct H1 as (b & -> & _ & O1). auto.
      + rewrite !variable_path, H1. reflexivity.
    - destruct (latest n m) as [e|].
      + destruct H1 as (b & -> & V & O). exists b. split; [reflexivity|]. rewrite !variable_path in *. rewrite H2. split; [exact V|]. intros v N. rewrite <- (O v N), !variable_path, H2. reflexivity.
      + congruence.
  Qed.
  Lemma one_holds d n e : snd (one d n e) = false -> holds d (fst (one d n e)) [(n, e)].
  Proof.
    intros H m. unfold latest. cbn. destruct (String.eqb_spec n m) as [<-|N]; cbn.
    - destruct (one_done d n e H) as (a & ds & -> & F & G). exists a. split; [reflexivity|]. rewrite !variable_path, F. split.
      + rewrite G, String.eqb_refl. reflexivity.
      + intros v N. rewrite !variable_path, F, G. apply String.eqb_neq in N. now rewrite N.
    - apply one_other. intros E. apply path_inj in E. congruence.
  Qed.
  Lemma all_holds s : forall d d', all d s = (d', false) -> holds d d' (rev s).
  Proof.
    induction s as [|[n e] s IH]; intros d d'; cbn [store_all].
    - intros [= <-] m. reflexivity.
    - destruct (one d n e) as [d1 r] eqn:O. destruct r; [discriminate|]. intros E. cbn [rev]. eapply holds_trans; [|apply IH, E].
      pose proof (one_holds d n e) as H. rewrite O in H. now apply H.
  Qed.

  (** *** when the calls return, the file of a name has the value stored last under that variable, and its other variables are as before; the
      files of names never stored are as before *)
  Theorem C135_last_partial : forall d ss d', runs d ss = (d', false) -> forall name,
    match latest name (given ss) with
    | Some e => exists a, e = Field a /\ variable root d' name name = Some a /\ forall v, v <> name -> variable root d' name v = variable root d name v
    | None => file d' (root ++ "/constants_" ++ name ++ ".nc") = file d (root ++ "/constants_" ++ name ++ ".nc")
    end.
  Proof.
    intros d ss d'. revert d. change (forall d, runs d ss = (d', false) -> holds d d' (given ss)).
    induction ss as [|s ss IH]; intros d; cbn [calls].
    - intros [= <-] m. reflexivity.
    - destruct s as [s|]; cbn [store_constant given].
      + destruct (all d s) as [d1 r] eqn:E. destruct r; [discriminate|]. intros H. eapply holds_trans; [apply all_holds, E|apply IH, H].
      + apply IH.
  Qed.

  (** *** no other file is written or removed and no directory made, whether the calls return or not; in particular no file of a chunk of [store] *)
  Theorem C135_untouched : forall d ss,
    is_dir (fst (runs d ss)) = is_dir d /\
    (forall p, (forall name, List.In name (map fst (given ss)) -> p <> root ++ "/constants_" ++ name ++ ".nc") -> file (fst (runs d ss)) p = file d p) /\
    forall chunk_tile, file (fst (runs d ss)) (root ++ "/" ++ "state_" ++ chunk_tile) = file d (root ++ "/" ++ "state_" ++ chunk_tile).
  Proof.
    intros d ss.
    assert (D : is_dir (fst (runs d ss)) = is_dir d).
    { revert d. induction ss as [|s ss IH]; intros d; [reflexivity|]. cbn [calls]. destruct s as [s|]; cbn [store_constant]; [|apply IH].
      pose proof (all_dir s d) as H. destruct (all d s) as [d1 r]. cbn in H. destruct r; [exact H|]. rewrite IH. exact H. }
    assert (F : forall p, (forall name, List.In name (map fst (given ss)) -> p <> path name) -> file (fst (runs d ss)) p = file d p).
    { clear D. revert d. induction ss as [|s ss IH]; intros d p N; [reflexivity|]. cbn [calls]. destruct s as [s|]; cbn [store_constant]; cbn [given] in N; [|now apply IH].
      assert (M : forall n, List.In n (keys s) -> p <> path n).
      { intros n I. apply N. rewrite map_app, in_app_iff. right. rewrite map_rev. apply -> in_rev. exact I. }
      pose proof (all_other s d p M) as H. destruct (all d s) as [d1 r]. cbn in H. destruct r; [exact H|]. rewrite IH; [exact H|].
      intros n I. apply N. rewrite map_app, in_app_iff. now left. }
    split; [exact D|]. split; [exact F|]. intros t. apply F. intros n _ E. do 2 apply append_inj_l in E. discriminate E.
  Qed.

  (** *** a call that raises has stored the entries before the one it raised for, and left the files of those after it as they were *)
  Theorem C135_interrupted : forall d s d', NoDup (keys s) -> constant d (Some s) = (d', true) ->
    exists before n e after, s = (before ++ (n, e) :: after)%list /\
      (forall m f, List.In (m, f) before -> exists a, f = Field a /\ variable root d' m m = Some a) /\
      (forall m, List.In m (keys after) -> file d' (root ++ "/constants_" ++ m ++ ".nc") = file d (root ++ "/constants_" ++ m ++ ".nc")) /\
      (file d' (root ++ "/constants_" ++ n ++ ".nc") = file d (root ++ "/constants_" ++ n ++ ".nc") \/ file d' (root ++ "/constants_" ++ n ++ ".nc") = None).
  Proof.
    intros d s d' ND. cbn [store_constant]. revert d ND. induction s as [|[n e] s IH]; intros d ND; cbn [store_all]; [discriminate|].
    apply NoDup_cons_iff in ND. destruct ND as [NI ND].
    assert (NP : forall m, List.In m (keys s) -> path m <> path n). { intros m I E. apply path_inj in E. subst. contradiction. }
    pose proof (one_other d n e) as OO. pose proof (one_same d n e) as OS. pose proof (one_done d n e) as OD. destruct (one d n e) as [d1 r]. cbn [fst snd] in *. destruct r.
    - intros [= <-]. exists [], n, e, s. split; [reflexivity|]. split; [intros ? ? []|]. split; [|apply OS; reflexivity]. intros m I. apply OO, NP, I.
    - intros H. destruct (IH d1 ND H) as (before & m & f & after & -> & B & C & S). exists ((n, e) :: before), m, f, after. split; [reflexivity|].
      assert (KN : forall k, List.In k (map fst before) \/ k = m \/ List.In k (keys after) -> List.In k (keys (before ++ (m, f) :: after)%list)).
      { intros k I. unfold keys. rewrite map_app, in_app_iff. cbn. intuition. }
      split; [|split].
      + intros k g [[= <- <-]|I]; [|exact (B k g I)]. destruct (OD eq_refl) as (a & ds & -> & F & G). exists a. split; [reflexivity|]. rewrite variable_path.
        assert (X : file d' (path n) = file d1 (path n)).
        { pose proof (all_other (before ++ (m, f) :: after)%list d1 (path n)) as X. rewrite H in X. apply X. intros k I E. symmetry in E. exact (NP k I E). }
        rewrite X, F, G, String.eqb_refl. reflexivity.
      + intros k I. rewrite (C k I). apply OO, NP, KN. auto.
      + assert (X : file d1 (path m) = file d (path m)) by (apply OO, NP, KN; auto).
        change (file d' (path m) = file d (path m) \/ file d' (path m) = None). change (file d' (path m) = file d1 (path m) \/ file d' (path m) = None) in S. now rewrite X in S.
  Qed.

  (** *** accepted: the directory is there, the file can be written, every entry is a field, and other variables of a file that is there agree on the sizes *)
  Theorem C135_accepts_partial : forall d s, NoDup (keys s) -> is_dir d root = true -> (forall p ds, writes p ds = true) ->
    (forall n e, List.In (n, e) s -> slashless n /\ exists a, e = Field a /\
       forall ds v b, file d (root ++ "/constants_" ++ n ++ ".nc") = Some ds -> List.In (v, b) ds -> v <> n -> agree a b) ->
    snd (constant d (Some s)) = false.
  Proof.
    intros d s ND R W. cbn [store_constant]. revert d ND R. induction s as [|[n e] s IH]; intros d ND R H; cbn [store_all]; [reflexivity|].
    apply NoDup_cons_iff in ND. destruct ND as [NI ND]. destruct (H n e (or_introl eq_refl)) as (SL & a & -> & G).
    assert (S : snd (one d n (Field a)) = false).
    { unfold store_one. rewrite (parent_path root n SL).
      destruct (match file d (path n) with Some ds => assign ds n a | None => Some [(n, a)] end) as [ds|] eqn:D.
      - rewrite W. destruct (file d (path n)); cbn [is_dir set_file]; rewrite R; reflexivity.
      - exfalso. destruct (file d (path n)) as [ds|] eqn:F; [|discriminate]. unfold assign in D. destruct (forallb _ _) eqn:B; [discriminate|].
        enough (forallb (fun v => (fst v =? n) || fits a (snd v))%bool ds = true) by congruence. apply forallb_forall. intros [v b] I. cbn.
        destruct (String.eqb_spec v n); [reflexivity|]. cbn. apply fits_agree. eapply G; eauto. }
    pose proof (one_dir d n (Field a)) as OD. pose proof (one_other d n (Field a)) as OO. destruct (one d n (Field a)) as [d1 r]. cbn [fst snd] in *. subst r.
    apply IH; [exact ND|now rewrite OD|]. intros m f I. destruct (H m f (or_intror I)) as (SM & b & E & K). split; [exact SM|]. exists b. split; [exact E|].
    intros ds v c F. apply K. rewrite <- F. symmetry. apply OO. intros E2. apply path_inj in E2. subst. apply NI. apply in_map_iff. eexists. split; [|exact I]. reflexivity.
  Qed.

  (** *** without the directory of the monitor every call on the root rank with a constant raises and leaves nothing *)
  Theorem C135_directory : forall d s, sane d -> is_dir d root = false -> s <> [] -> (forall n, List.In n (keys s) -> slashless n) ->
    constant d (Some s) = (d, true).
  Proof.
    intros d s SA R NE SL. destruct s as [|[n e] s]; [contradiction|]. cbn [store_constant store_all].
    assert (P : parent (path n) = Some root) by (apply parent_path, SL; now left).
    assert (F : file d (path n) = None). { destruct (file d (path n)) eqn:F; [|reflexivity]. specialize (SA (path n)). rewrite F, P, R in SA. assert (X : false = true) by (apply SA; discriminate). discriminate X. }
    unfold store_one. destruct e as [a|]; [|reflexivity]. rewrite F, P, R. reflexivity.
  Qed.
End C135.
Print Assumptions C135_last_partial.
Print Assumptions C135_untouched.
Print Assumptions C135_interrupted.
Print Assumptions C135_accepts_partial.
Print Assumptions C135_directory.

(** *** cases *)
Local Definition area (i v : Z) : entry Z := Field (mkArray [("tile", 6%Z); ("y", i); ("x", i)] v).
Local Definition empty_dir : disk Z := mkDisk (fun p => p =? "out") (fun _ => None).
Local Definition no_dir : disk Z := mkDisk (fun _ => false) (fun _ => None).
Local Definition always : string -> dataset Z -> bool := fun _ _ => true.
(** an empty directory; two states, the second with another resolution *)
Example C135_case :
  let s1 := Some [("area", area 12 1); ("lat", area 12 2)] in
  let s2 := Some [("area", area 24 3)] in
  let r := calls "out" always empty_dir [s1; None; s2] in
  snd r = false /\ variable "out" (fst r) "area" "area" = Some (mkArray [("tile", 6%Z); ("y", 24%Z); ("x", 24%Z)] 3%Z) /\
  variable "out" (fst r) "lat" "lat" = Some (mkArray [("tile", 6%Z); ("y", 12%Z); ("x", 12%Z)] 2%Z) /\
  latest "area" (given [s1; None; s2]) = Some (area 24 3) /\ sane (fst r).
Proof.
  cbv zeta. do 4 (split; [vm_compute; reflexivity|]). intros p. cbn. destruct (p =? "out/constants_area.nc")%string eqn:E; [apply String.eqb_eq in E; subst; reflexivity|].
  destruct (p =? "out/constants_lat.nc")%string eqn:E2; [apply String.eqb_eq in E2; subst; reflexivity|]. intros N. destruct N. reflexivity.
Qed.

(** *** the directory is not made: the constants of a monitor that has written no chunk yet are refused *)
Theorem C135_directory_refuted : exists (s : dict (entry Z)), NoDup (keys s) /\ sane no_dir /\ (forall n e, List.In (n, e) s -> slashless n /\ exists a, e = Field a) /\
  store_constant "out" always no_dir (Some s) = (no_dir, true).
Proof.
  exists [("area", area 12 1)]. split; [repeat constructor; intros []|]. split; [intros p H; now destruct H|]. split; [|reflexivity].
  intros n e [[= <- <-]|[]]. cbn. repeat (split; [repeat split; discriminate|]). unfold area. eauto.
Qed.
Print Assumptions C135_directory_refuted.
(** *** a state with its time, as [store] takes it, is refused, after other constants were written *)
Theorem C135_time_refuted : exists (s : dict (entry Z)), NoDup (keys s) /\ is_dir empty_dir "out" = true /\ (forall n, List.In n (keys s) -> slashless n) /\
  (forall n e, List.In (n, e) s -> n <> "time" -> exists a, e = Field a) /\
  let r := store_constant "out" always empty_dir (Some s) in
  snd r = true /\ variable "out" (fst r) "area" "area" <> None /\ variable "out" (fst r) "lat" "lat" = None /\ List.In "lat" (keys s).
Proof.
  exists [("area", area 12 1); ("time", Moment); ("lat", area 12 2)]. split; [repeat constructor; cbn; intuition discriminate|]. split; [reflexivity|]. split.
  { intros n. cbn. intros [<-|[<-|[<-|[]]]]; cbn; repeat (split; [discriminate|]); exact Logic.I. }
  split. { intros n e [[= <- <-]|[[= <- <-]|[[= <- <-]|[]]]] N; [unfold area; eauto|contradiction|unfold area; eauto]. }
  cbv zeta. split; [reflexivity|]. split; [discriminate|]. split; [reflexivity|cbn; auto].
Qed.
Print Assumptions C135_time_refuted.
(** *** the file is removed before the new one is written: if that fails, the constant stored before is lost *)
Theorem C135_lost_refuted : exists (writes : string -> dataset Z -> bool) (d : disk Z) (e : entry Z), sane d /\ variable "out" d "area" "area" <> None /\
  snd (store_constant "out" writes d (Some [("area", e)])) = true /\ variable "out" (fst (store_constant "out" writes d (Some [("area", e)]))) "area" "area" = None.
Proof.
  exists (fun _ _ => false), (set_file empty_dir "out/constants_area.nc" (Some [("area", mkArray [("x", 12%Z)] 1%Z)])), (area 12 2).
  split.
  { intros p. cbn. destruct (p =? "out/constants_area.nc")%string eqn:E; [apply String.eqb_eq in E; subst; reflexivity|]. intros N. destruct N. reflexivity. }
  split; [discriminate|]. split; reflexivity.
Qed.
Print Assumptions C135_lost_refuted.
