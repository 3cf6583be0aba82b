(** C98: quantities and states written as xarray data and read back. *)
From Verif Require Import Base Dict PartModel DecompModel HaloModel GridModel GridProofs ViewModel AllocModel AllocProofs AllocProps.

Lemma get_app {V} (d e : list (string * V)) k : get (d ++ e) k = match get d k with Some v => Some v | None => get e k end.
Proof. induction d as [|[j v] d IH]; [reflexivity|]. cbn. now destruct (k =? j)%string. Qed.

(** no attribute given by the user is named like one of the two that a quantity adds *)
Definition free_attrs {A} (q : quantity A) : Prop := ~ In "units"%string (keys (attrs q)) /\ ~ In "backend"%string (keys (attrs q)).
Lemma all_attrs_is {A} (q : quantity A) : free_attrs q ->
  exists t, all_attrs q = Some t /\ get t "units"%string = Some (units q) /\ get t "backend"%string = Some (backend q) /\
    forall k v, get (attrs q) k = Some v -> get t k = Some v.
Proof.
  intros [U B]. apply get_none in U. apply get_none in B. unfold all_attrs. rewrite U, B. eexists. split; [reflexivity|].
  split; [rewrite get_app, U; reflexivity|]. split; [rewrite get_app, B; reflexivity|]. intros k v G. rewrite get_app, G. reflexivity.
Qed.

(** the compute domain lies in the array *)
Definition in_bounds {A} (q : quantity A) : Prop :=
  exists axs, Forall ok3 axs /\ shape (data q) = map n3 axs /\ origin q = map o3 axs /\ extent q = map e3 axs.

(** what reading gives when nothing is known about the domain *)
Lemma combine_minus_zero (axs : list axis3) (g : axis3 -> Z) :
  map (fun '(n, i) => n - i) (combine (map g axs) (map (fun _ : axis3 => 0) axs)) = map g axs.
Proof. induction axs as [|a axs IH]; [reflexivity|]. cbn. rewrite IH. f_equal. lia. Qed.
Lemma whole_extent (sh : list Z) : map (fun '(n, i) => n - i) (combine sh (map (fun _ => 0) sh)) = sh.
Proof. induction sh as [|n sh IH]; [reflexivity|]. cbn. rewrite IH. f_equal. lia. Qed.
Lemma map_const_length {X Y} (l : list X) (m : list Y) : length l = length m -> map (fun _ => 0) l = map (fun _ => 0) m.
Proof. revert m. induction l as [|x l IH]; intros [|y m] L; try discriminate; [reflexivity|]. cbn. f_equal. apply IH. cbn in L. lia. Qed.

Lemma new_default {A} Float (d : arr A) ds u b allow nh : precision_ok Float (dt d) allow -> length ds = length (shape d) ->
  new_quantity Float d ds u b None None allow nh = Some (Quantity d ds u (map (fun _ => 0) (shape d)) (shape d) nh b []).
Proof.
  intros P L. unfold new_quantity. rewrite precision_test by exact P. rewrite (map_const_length ds (shape d) L). rewrite whole_extent.
  rewrite map_length, L, Nat.eqb_refl. reflexivity.
Qed.

Section C98.
  Context {A : Type} (Float : dtype) (known : list string) (python : string).
  Notation read := (from_data_array (A := A) Float known python).

  Lemma resolve_is (q : quantity A) t (f : arr A) ds : In (backend q) known -> get t "backend"%string = Some (backend q) ->
    resolve_backend known python (DataArray f ds t) None = Some (backend q).
  Proof. intros I G. unfold resolve_backend. cbn [da_attrs]. rewrite G. destruct (in_dec _ _ _); [reflexivity|contradiction]. Qed.

  (** *** the field: written and read back, it is the field *)
  Theorem C98_field_partial : forall (q : quantity A) allow, well_made q -> in_bounds q -> free_attrs q -> In (backend q) known ->
    precision_ok Float (dt (data q)) allow ->
    exists d q' f f', field_as_xarray q = Some d /\ read d None None 0 None allow = Some q' /\
      dims q' = dims q /\ units q' = units q /\ backend q' = backend q /\ field q = Some f /\ field q' = Some f' /\ same_arr f' f.
  Proof.
    intros q allow (W1 & W2 & W3) (axs & F & S & O & E) N I P. destruct (all_attrs_is q N) as (t & T & TU & TB & _).
    destruct (field_is q axs F S O E) as (f & Ef & Fs & Fd & _). unfold field_as_xarray. rewrite Ef, T. cbn [bind].
    assert (L : length (dims q) = length (shape f)) by (rewrite W1, S, Fs, !map_length; reflexivity).
    assert (Pf : precision_ok Float (dt f) allow) by (rewrite Fd; exact P).
    set (q' := Quantity f (dims q) (units q) (map (fun _ => 0) (shape f)) (shape f) 0 (backend q) []).
    assert (F' : Forall ok3 (map (fun a => Ax 0 (e3 a) (e3 a)) axs)).
    { clear -F. induction F as [|a l (H1 & H2 & H3) F IH]; constructor; [unfold ok3; cbn; lia|exact IH]. }
    destruct (field_is q' (map (fun a => Ax 0 (e3 a) (e3 a)) axs) F') as (f' & Ef' & Fs' & Fd' & Fi').
    { cbn [data q']. rewrite Fs, map_map. reflexivity. }
    { cbn [origin q']. rewrite Fs, !map_map. reflexivity. }
    { cbn [extent q']. rewrite Fs, map_map. reflexivity. }
    exists (DataArray f (dims q) t), q', f, f'. split; [reflexivity|]. split.
    { unfold from_data_array. rewrite (resolve_is q t f (dims q) I TB). cbn [bind values da_dims da_attrs]. rewrite TU. apply new_default; assumption. }
    split; [reflexivity|]. split; [reflexivity|]. split; [reflexivity|]. split; [reflexivity|]. split; [exact Ef'|].
    cbn [data q'] in Fd', Fi'. rewrite !map_map in Fs'. cbn [e3] in Fs'. change (map (fun x => e3 x) axs) with (map e3 axs) in Fs'.
    split; [congruence|]. split; [congruence|]. intros i V. rewrite Fs' in V. rewrite map_map in Fi'. cbn [e3] in Fi'.
    rewrite (Fi' i V). f_equal. rewrite map_map. cbn [o3]. apply plus_zero. rewrite (within_length _ _ V). apply map_length.
  Qed.

  (** *** the array with halo: everything is restored if origin, extent and halo are given again *)
  Theorem C98_whole_partial : forall (q : quantity A) allow, well_made q -> free_attrs q -> In (backend q) known ->
    precision_ok Float (dt (data q)) allow ->
    exists d q', data_as_xarray q = Some d /\
      read d (Some (origin q)) (Some (extent q)) (nhalo q) None allow = Some q' /\ same_but_attrs q' q.
  Proof.
    intros q allow (W1 & W2 & W3) N I P. destruct (all_attrs_is q N) as (t & T & TU & TB & _). unfold data_as_xarray. rewrite T. cbn [bind].
    eexists. eexists. split; [reflexivity|]. split.
    - unfold from_data_array. rewrite (resolve_is q t (data q) (dims q) I TB). cbn [bind values da_dims da_attrs]. rewrite TU.
      unfold new_quantity. rewrite precision_test by exact P. rewrite W1, W2, W3, Nat.eqb_refl. reflexivity.
    - unfold same_but_attrs. auto 10.
  Qed.

  (** *** units and backend of data from elsewhere *)
  Theorem C98_defaults : forall (d : data_array) o e nh allow,
    (forall x q, read d o e nh (Some x) allow = Some q -> backend q = x) /\
    (forall q, read d o e nh None allow = Some q -> get (da_attrs d) "backend"%string = None -> backend q = python) /\
    (forall x, get (da_attrs d) "backend"%string = Some x -> ~ In x known -> read d o e nh None allow = None) /\
    (forall f q, read d o e nh f allow = Some q -> get (da_attrs d) "units"%string = None -> units q = "unknown"%string) /\
    (forall f q, read d o e nh f allow = Some q -> data q = values d /\ dims q = da_dims d /\ nhalo q = nh /\ well_made q).
  Proof.
    intros d o e nh allow.
    assert (X : forall u b q, new_quantity Float (values d) (da_dims d) u b o e allow nh = Some q ->
      backend q = b /\ units q = u /\ data q = values d /\ dims q = da_dims d /\ nhalo q = nh /\ well_made q).
    { intros u b q E. unfold new_quantity in E. destruct (_ && _ && negb _); [discriminate|].
      destruct (length (da_dims d) =? _)%nat eqn:E1; [|discriminate]. cbn [andb] in E.
      destruct (length match o with Some _ => _ | None => _ end =? _)%nat eqn:E2; [|discriminate]. cbn [andb] in E.
      destruct (length match e with Some _ => _ | None => _ end =? _)%nat eqn:E3; [|discriminate].
      apply Nat.eqb_eq in E1, E2, E3. injection E as <-. unfold well_made. cbn. auto 10. }
    unfold from_data_array. repeat split.
    - intros x q E. apply X in E. tauto.
    - intros q E G. unfold resolve_backend in E. rewrite G in E. apply X in E. tauto.
    - intros x G N. unfold resolve_backend. rewrite G. destruct (in_dec _ _ _); [contradiction|reflexivity].
    - intros f q E G. destruct (resolve_backend _ _ _ _); [|discriminate]. cbn [bind] in E. rewrite G in E. apply X in E. tauto.
    - destruct (resolve_backend _ _ _ _); [|discriminate]. apply X in H. tauto.
    - destruct (resolve_backend _ _ _ _); [|discriminate]. apply X in H. tauto.
    - destruct (resolve_backend _ _ _ _); [|discriminate]. apply X in H. tauto.
    - destruct (resolve_backend _ _ _ _); [|discriminate]. apply X in H. apply H.
    - destruct (resolve_backend _ _ _ _); [|discriminate]. apply X in H. apply H.
    - destruct (resolve_backend _ _ _ _); [|discriminate]. apply X in H. apply H.
  Qed.

  (** *** states: io.write_state and io.read_state *)
  Context {T : Type}.
  Notation state := (@state A T).
  (** the time is there, and a dimension has one size in all arrays *)
  Definition writable (st : state) : Prop :=
    time st <> None /\ Forall (fun x => free_attrs (snd x)) (vars st) /\
    forall x y k l dm n m, In x (vars st) -> In y (vars st) ->
      nth_error (dims (snd x)) k = Some dm -> nth_error (shape (data (snd x))) k = Some n ->
      nth_error (dims (snd y)) l = Some dm -> nth_error (shape (data (snd y))) l = Some m -> n = m.
  (** the quantities can be made again *)
  Definition readable (st : state) : Prop :=
    Forall (fun x => well_made (snd x) /\ In (backend (snd x)) known /\ precision_ok Float (dt (data (snd x))) false) (vars st).

  Lemma in_combine_nth {X Y} (l : list X) (m : list Y) x y : In (x, y) (combine l m) -> exists k, nth_error l k = Some x /\ nth_error m k = Some y.
  Proof.
    revert m. induction l as [|a l IH]; intros [|b m] I; cbn in I; try contradiction. destruct I as [[= <- <-]|I]; [exists O; auto|].
    destruct (IH m I) as (k & H). exists (Datatypes.S k). exact H.
  Qed.
  Lemma all_some_map {X Y} (f : X -> option Y) l : (forall x, In x l -> f x <> None) ->
    exists r, all_some (map f l) = Some r /\ Forall2 (fun x y => f x = Some y) l r.
  Proof.
    induction l as [|x l IH]; intros Hf; [exists []; auto|]. destruct IH as (r & E & Fr); [intros y I; apply Hf; now right|].
    destruct (f x) as [y|] eqn:Ef; [|destruct (Hf x (or_introl eq_refl) Ef)]. exists (y :: r). cbn. rewrite Ef. cbn. rewrite E. auto.
  Qed.

  (** a state without a time is not written *)
  Theorem C98_time_needed : forall (st : state) (f : @dataset A T), write_state st = Some f -> exists t, time st = Some t /\ ds_time f = Some t.
  Proof.
    intros st f. unfold write_state, to_xarray_dataset. destruct (time st) as [t|]; [|discriminate].
    destruct (all_some _); [|discriminate]. cbn [bind]. destruct (consistent _); [|discriminate]. intros [= <-]. eauto.
  Qed.
  Theorem C98_state_partial : forall st : state, writable st -> readable st ->
    exists f st', write_state st = Some f /\ read_state Float known python f = Some st' /\ time st' = time st /\
      Forall2 (fun x y => fst y = fst x /\ data (snd y) = data (snd x) /\ dims (snd y) = dims (snd x) /\ units (snd y) = units (snd x) /\
                 backend (snd y) = backend (snd x) /\
                 ((origin (snd x) = map (fun _ => 0) (origin (snd x)) /\ extent (snd x) = shape (data (snd x)) /\ nhalo (snd x) = 0) ->
                  same_but_attrs (snd y) (snd x))) (vars st) (vars st').
  Proof.
    intros st (W1 & W2 & W3) R. unfold write_state. destruct (time st) as [t|] eqn:Et; [|contradiction]. unfold to_xarray_dataset.
    set (f1 := fun x : string * quantity A => do d <- data_as_xarray (snd x); Some (fst x, d)).
    rewrite Forall_forall in W2.
    assert (D : forall x, In x (vars st) -> exists t, all_attrs (snd x) = Some t /\ f1 x = Some (fst x, DataArray (data (snd x)) (dims (snd x)) t) /\
                get t "units"%string = Some (units (snd x)) /\ get t "backend"%string = Some (backend (snd x))).
    { intros x I. destruct (all_attrs_is (snd x) (W2 x I)) as (t' & T1 & T2 & T3 & _). exists t'. unfold f1, data_as_xarray. rewrite T1. cbn. auto. }
    destruct (all_some_map f1 (vars st)) as (l & El & Fl).
    { intros x I. destruct (D x I) as (t' & _ & -> & _). discriminate. }
    rewrite El. cbn [bind].
    assert (C : consistent (sized l) = true).
    { assert (S : forall x, In x (sized l) -> exists v k, In v (vars st) /\ nth_error (dims (snd v)) k = Some (fst x) /\ nth_error (shape (data (snd v))) k = Some (snd x)).
      { clear El R. intros [dm n] I. unfold sized in I. apply in_flat_map in I. destruct I as (y & Iy & I).
        assert (Q : exists v, In v (vars st) /\ f1 v = Some y).
        { clear -Fl Iy. induction Fl as [|v z vs zs Hz F IH]; [destruct Iy|]. destruct Iy as [->|Iy]; [exists v; split; [now left|exact Hz]|].
          destruct (IH Iy) as (v' & I' & H'). exists v'. split; [now right|exact H']. }
        destruct Q as (v & Iv & Ev). destruct (D v Iv) as (t' & _ & E' & _). rewrite E' in Ev. injection Ev as <-. cbn [snd da_dims values] in I.
        apply in_combine_nth in I. destruct I as (k & K1 & K2). exists v, k. auto. }
      unfold consistent. apply forallb_forall. intros x Ix. apply forallb_forall. intros y Iy. destruct (sdim_dec _ _) as [e|]; [|reflexivity].
      destruct (S x Ix) as (v & k & V1 & V2 & V3). destruct (S y Iy) as (w & k' & V1' & V2' & V3'). apply Z.eqb_eq.
      rewrite <- e in V2'. exact (W3 v w k k' (fst x) (snd x) (snd y) V1 V1' V2 V3 V2' V3'). }
    rewrite C, Et. eexists. unfold read_state.
    assert (G : exists r, all_some (map (fun x => do q <- read (snd x) None None 0 None false; Some (fst x, q)) l) = Some r /\
      Forall2 (fun x y => y = (fst x, Quantity (data (snd x)) (dims (snd x)) (units (snd x)) (map (fun _ => 0) (shape (data (snd x)))) (shape (data (snd x))) 0 (backend (snd x)) [])) (vars st) r).
    { clear El C W1 W2 W3 Et. revert Fl. unfold readable in R. induction R as [|x xs (R1 & R2 & R3) R IH] in l, D |- *; intros Fl.
      - inversion Fl. exists []. auto.
      - inversion Fl as [|? y ? ys Hy Fl']; subst. destruct (IH (fun z Iz => D z (or_intror Iz)) ys Fl') as (r & Er & Fr).
        destruct (D x (or_introl eq_refl)) as (t' & _ & E' & T1 & T2). rewrite E' in Hy. injection Hy as <-.
        eexists. cbn [map all_some fst snd]. unfold from_data_array at 1. rewrite (resolve_is (snd x) t' _ _ R2 T2). cbn [bind values da_dims da_attrs].
        rewrite T1. rewrite new_default by (auto; apply R1). cbn [bind]. rewrite Er. split; [reflexivity|]. constructor; [reflexivity|exact Fr]. }
    destruct G as (r & Er & Fr). cbn [data_vars ds_time]. exists (State r (Some t)). split; [reflexivity|]. cbn [data_vars ds_time]. rewrite Er. split; [reflexivity|].
    split; [reflexivity|]. cbn [vars]. clear -Fr R. unfold readable in R. induction Fr as [|x y xs ys -> F IH]; constructor.
    - inversion R as [|? ? ((Wa & Wb & Wc) & _) ?]; subst. cbn [fst snd data dims units backend].
      do 5 (split; [reflexivity|]). intros (H1 & H2 & H3). unfold same_but_attrs. cbn [data dims units origin extent nhalo backend].
      do 3 (split; [reflexivity|]). split; [|split; [congruence|split; [congruence|reflexivity]]].
      rewrite H1. apply map_const_length. congruence.
    - apply IH. now inversion R.
  Qed.
End C98.

(** *** findings *)
Definition C98_known : list string := ["st:python:cpu:IJK"; "st:numpy:cpu:IJK"]%string.
Definition C98_q : quantity Z :=
  Quantity (Arr [5; 3] (fun p => match p with [i; k] => 10 * i + k | _ => 0 end) Float64) [H AI false; H AV false] "K" [1; 0] [3; 2] 1 "st:numpy:cpu:IJK" [].
Definition C98_p : quantity Z :=
  Quantity (Arr [3] (fun p => match p with [k] => k | _ => 0 end) (Other "int64")) [H AV false] "1" [0] [3] 0 "st:numpy:cpu:IJK" [].
Definition C98_state : @state Z Z := State [("t", C98_q); ("k", C98_p)]%string (Some 0).
Example C98_case : well_made C98_q /\ in_bounds C98_q /\ free_attrs C98_q /\ free_attrs C98_p /\ In (backend C98_q) C98_known /\
  precision_ok Float64 (dt (data C98_q)) false /\ writable C98_state /\ readable Float64 C98_known C98_state /\
  (origin C98_p = map (fun _ => 0) (origin C98_p) /\ extent C98_p = shape (data C98_p) /\ nhalo C98_p = 0).
Proof.
  split; [repeat split|]. split; [exists [Ax 1 3 5; Ax 0 2 3]; repeat split; repeat constructor; cbn; lia|].
  split; [split; cbn; tauto|]. split; [split; cbn; intuition discriminate|]. split; [right; left; reflexivity|].
  split; [right; left; reflexivity|]. split.
  - split; [discriminate|]. split; [repeat constructor; cbn; intuition discriminate|].
    intros x y k l dm n m [<-|[<-|[]]] [<-|[<-|[]]]; destruct k as [|[|[|k]]], l as [|[|[|l]]]; try discriminate;
      cbn; congruence.
  - split; [|repeat split]. apply Forall_cons; [|apply Forall_cons; [|apply Forall_nil]]; (split; [repeat split|]); (split; [cbn; tauto|]);
      right; [left; reflexivity|right; eexists; reflexivity].
Qed.
(** what a state written and read back has: the halo has become part of the domain *)
Theorem C98_halo_refuted : exists (st st' : @state Z Z) f q q' a a', write_state st = Some f /\
  read_state Float64 C98_known "st:python:cpu:IJK" f = Some st' /\
  vars st = [("t"%string, q)] /\ vars st' = [("t"%string, q')] /\
  field q = Some a /\ field q' = Some a' /\ shape a = [3; 2] /\ shape a' = [5; 3] /\
  elt a [0; 0] = 10 /\ elt a' [0; 0] = 0 /\ nhalo q = 1 /\ nhalo q' = 0.
Proof.
  exists (State [("t"%string, C98_q)] (Some 0)). do 6 eexists. split; [vm_compute; reflexivity|]. split; [vm_compute; reflexivity|].
  split; [reflexivity|]. split; [reflexivity|]. split; [vm_compute; reflexivity|]. split; [vm_compute; reflexivity|]. vm_compute. auto 10.
Qed.
(** a state with quantities of different halos cannot be written, and one with a quantity of another precision cannot be read *)
Theorem C98_write_refuted :
  (exists st : @state Z Z, time st <> None /\ Forall (fun x => well_made (snd x) /\ free_attrs (snd x)) (vars st) /\ write_state st = None) /\
  (exists (st : @state Z Z) f, write_state st = Some f /\ read_state Float64 C98_known "st:python:cpu:IJK" f = None).
Proof.
  split.
  - exists (State [("t"%string, C98_q); ("x"%string, Quantity (Arr [3] (fun _ => 0) Float64) [H AI false] "m" [0] [3] 0 "st:numpy:cpu:IJK"%string [])] (Some 0)).
    split; [discriminate|]. split; [repeat constructor; cbn; auto|]. vm_compute. reflexivity.
  - exists (State [("x"%string, Quantity (Arr [3] (fun _ => 0) Float32) [H AI false] "m" [0] [3] 0 "st:numpy:cpu:IJK"%string [])] (Some 0)).
    eexists. split; vm_compute; reflexivity.
Qed.
Print Assumptions C98_field_partial.
Print Assumptions C98_whole_partial.
Print Assumptions C98_defaults.
Print Assumptions C98_time_needed.
Print Assumptions C98_state_partial.
Print Assumptions C98_halo_refuted.
Print Assumptions C98_write_refuted.
