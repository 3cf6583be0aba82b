(** C97 and C98: making quantities from arrays and from xarray data. *)
From Verif Require Import Base Dict PartModel DecompModel HaloModel GridModel GridProofs ViewModel AllocModel AllocProofs.

Lemma precision_test Float d allow : precision_ok Float d allow ->
  negb allow && is_float d && negb (dtype_eqb d Float) = false.
Proof.
  intros [->|[->|[n ->]]]; [reflexivity| |now destruct allow].
  destruct allow, Float; cbn; auto.
Qed.
Lemma precision_fails Float d : is_float d = true -> d <> Float -> negb false && is_float d && negb (dtype_eqb d Float) = true.
Proof. intros I N. rewrite I. destruct d, Float; cbn; try discriminate; try reflexivity; congruence. Qed.

Lemma sizes_pos axs : Forall ok3 axs -> existsb (fun n => n <? 0) (map n3 axs) = false.
Proof.
  induction 1 as [|a l (H1 & H2 & H3) F IH]; [reflexivity|]. cbn. rewrite IH. destruct (Z.ltb_spec (n3 a) 0); [lia|reflexivity].
Qed.
Lemma sizes_pos' axs : Forall ok3 axs -> Forall (fun n => 0 <= n) (map n3 axs).
Proof. induction 1 as [|a l (H1 & H2 & H3) F IH]; constructor; [lia|exact IH]. Qed.

Lemma allocate_is {A} (Float : dtype) s b (fill : list Z -> A) ds u d allow ns axs :
  Forall ok3 axs -> map o3 axs = get_origin s ds -> get_extent s ds = Some (map e3 axs) -> get_shape s ds = Some (map n3 axs) ->
  map e3 axs = ns -> length ds = length axs -> precision_ok Float d allow ->
  allocate Float s b fill ds u d allow = Some (Quantity (Arr (map n3 axs) fill d) ds u (map o3 axs) (map e3 axs) (n_halo s) b []).
Proof.
  intros F O E S M L P. unfold allocate. rewrite E, S. cbn [bind]. rewrite sizes_pos by exact F. unfold new_quantity. cbn [dt].
  rewrite precision_test by exact P. rewrite <- O. cbn [shape]. rewrite !map_length, L, Nat.eqb_refl. reflexivity.
Qed.
Lemma points_length s ds ns : map (points s) ds = map Some ns -> length ds = length ns.
Proof. intros E. apply (f_equal (@length _)) in E. now rewrite !map_length in E. Qed.

Lemma whole_axes axs : Forall ok3 axs ->
  map (zrange 0) (map n3 axs) = map (fun a => zrange (o3 a) (o3 a + e3 a)) (map (fun a => Ax 0 (n3 a) (n3 a)) axs).
Proof. intros _. rewrite !map_map. apply map_ext. intros a. reflexivity. Qed.
Lemma whole_ok axs : Forall ok3 axs -> Forall ok3 (map (fun a => Ax 0 (n3 a) (n3 a)) axs).
Proof. induction 1 as [|a l (H1 & H2 & H3) F IH]; constructor; [|exact IH]. unfold ok3. cbn. lia. Qed.
Lemma plus_zero (l : list axis3) i : length i = length l -> plus (map (fun _ => 0) l) i = i.
Proof.
  revert i. induction l as [|a l IH]; intros [|x i] L; try discriminate; [reflexivity|].
  unfold plus. cbn. f_equal. apply IH. cbn in L. lia.
Qed.
Lemma within_length ns i : within ns i -> length i = length ns.
Proof. induction 1; cbn; congruence. Qed.

(** reading the compute domain *)
Lemma nth_zrange a b i : 0 <= i < b - a -> nth (Z.to_nat i) (zrange a b) 0 = a + i.
Proof.
  intros L. unfold zrange. rewrite (nth_indep _ 0 (a + Z.of_nat 0)) by (rewrite map_length, seq_length; lia).
  rewrite (map_nth (fun k => a + Z.of_nat k)). rewrite seq_nth by lia. lia.
Qed.
Lemma take_axes axs i : within (map e3 axs) i ->
  map (fun '(l, i) => nth (Z.to_nat i) l 0) (combine (map (fun a => zrange (o3 a) (o3 a + e3 a)) axs) i) = plus (map o3 axs) i.
Proof.
  revert i. induction axs as [|a axs IH]; intros i W; inversion W as [|? x ? j Hx W']; subst; [reflexivity|].
  unfold plus. cbn [map combine]. rewrite nth_zrange by lia. f_equal. apply IH. exact W'.
Qed.
Lemma field_is {A} (q : quantity A) axs : Forall ok3 axs -> shape (data q) = map n3 axs -> origin q = map o3 axs -> extent q = map e3 axs ->
  exists f, field q = Some f /\ shape f = map e3 axs /\ dt f = dt (data q) /\
    forall i, within (map e3 axs) i -> elt f i = elt (data q) (plus (map o3 axs) i).
Proof.
  intros F S O E. unfold field, compute. rewrite O, S, E. destruct axs as [|a axs].
  - cbn [map]. eexists. split; [reflexivity|]. split; [exact S|]. split; [reflexivity|]. intros i W. inversion W. reflexivity.
  - cbn [map]. change (o3 a :: map o3 axs) with (map o3 (a :: axs)). change (e3 a :: map e3 axs) with (map e3 (a :: axs)).
    change (n3 a :: map n3 axs) with (map n3 (a :: axs)). rewrite view_colon by (auto; discriminate).
    eexists. split; [reflexivity|]. unfold take. cbn [shape dt elt]. split; [apply lens_part, F|]. split; [reflexivity|].
    intros i W. now rewrite take_axes by exact W.
Qed.

Section C97.
  Context {A : Type} (zero one : A) (Float : dtype) (s : sizer) (b : string).
  Variables (ds : list sdim) (ns : list Z) (u : string) (d : dtype) (allow : bool).
  Hypothesis sizes : sizes_ok s.
  Hypothesis known : map (points s) ds = map Some ns.     (* [ns] is the shape of the compute domain *)
  Hypothesis some : ds <> [].
  Hypothesis prec : precision_ok Float d allow.
  Notation whole_shape := (map (fun '(d, n) => before s d + n + behind s d) (combine ds ns)).
  Notation start := (map (before s) ds).

  (** the dimensions, units, type, halo and backend asked for, and the compute domain where the sizer puts it *)
  Definition made (q : quantity A) : Prop :=
    dims q = ds /\ units q = u /\ nhalo q = n_halo s /\ backend q = b /\ dt (data q) = d /\
    shape (data q) = whole_shape /\ origin q = start /\ extent q = ns.

  Lemma axs_ne axs : map e3 axs = ns -> axs <> [].
  Proof. intros E ->. cbn in E. subst ns. destruct ds; [now apply some|discriminate]. Qed.

  (** *** from_compute_array: the compute domain is the array, the rest is zero *)
  Theorem C97_compute_array_partial : forall a, shape a = ns -> dt a = d ->
    exists q f, from_compute_array zero Float s b a ds u allow = Some q /\ made q /\ field q = Some f /\ same_arr f a /\
      (forall i, within ns i -> elt (data q) (plus start i) = elt a i) /\
      (forall p, (forall i, within ns i -> p <> plus start i) -> elt (data q) p = zero).
  Proof.
    intros a Sa Da. destruct (axes_of s ds ns sizes known) as (axs & F & O & E & S & M & O' & N).
    assert (L : length ds = length axs) by (rewrite (points_length _ _ _ known), <- M, map_length; reflexivity).
    unfold from_compute_array, zeros. rewrite Da. rewrite (allocate_is Float s b _ ds u d allow ns axs F O E S M L prec). cbn [bind].
    unfold compute. cbn [data shape origin extent]. rewrite view_colon by (auto using axs_ne). cbn [bind]. unfold setitem. cbn [data].
    destruct (assign_same (Arr (map n3 axs) (fun _ => zero) d) a axs F) as (r & -> & Rs & Rd & Ri & Ro); [congruence|].
    cbn [shape dt] in Rs, Rd. cbn [dims units origin extent nhalo backend attrs].
    destruct (field_is (Quantity r ds u (map o3 axs) (map e3 axs) (n_halo s) b []) axs F Rs eq_refl eq_refl) as (f & Ef & Fs & Fd & Fi).
    exists (Quantity r ds u (map o3 axs) (map e3 axs) (n_halo s) b []), f. split; [reflexivity|].
    cbn [data] in *. rewrite <- O', <- M in *. split; [|split; [exact Ef|split; [|split]]].
    - unfold made. cbn [dims units nhalo backend data origin extent]. rewrite Rs, N. rewrite Rd, O', M. repeat split.
    - split; [congruence|]. split; [congruence|]. intros i W. rewrite Fs in W. rewrite Fi by exact W. apply Ri, W.
    - exact Ri.
    - intros p H. rewrite Ro by exact H. reflexivity.
  Qed.

  (** *** from_array: the array with halo *)
  Theorem C97_array_partial : forall a, shape a = whole_shape -> dt a = d ->
    exists q, from_array zero Float s b a ds u allow = Some q /\ made q /\ same_arr (data q) a.
  Proof.
    intros a Sa Da. destruct (axes_of s ds ns sizes known) as (axs & F & O & E & S & M & O' & N).
    assert (L : length ds = length axs) by (rewrite (points_length _ _ _ known), <- M, map_length; reflexivity).
    unfold from_array, zeros. rewrite Da. rewrite (allocate_is Float s b _ ds u d allow ns axs F O E S M L prec). cbn [bind].
    unfold whole. cbn [data shape]. rewrite resolve_colon by first [apply sizes_pos', F | destruct axs; [now destruct (axs_ne [] M)|discriminate]].
    rewrite whole_axes by exact F. cbn [bind]. unfold setitem. cbn [data].
    destruct (assign_same (Arr (map n3 axs) (fun _ => zero) d) a _ (whole_ok axs F)) as (r & -> & Rs & Rd & Ri & _);
      [rewrite map_map; transitivity (map n3 axs); [congruence|reflexivity]|].
    eexists. split; [reflexivity|]. cbn [shape dt] in Rs, Rd. cbn [data]. split.
    - unfold made. cbn [dims units nhalo backend data origin extent]. rewrite Rs, N, Rd, O', M. repeat split.
    - split; [congruence|]. split; [congruence|]. intros i W. rewrite Rs in W. rewrite !map_map in Ri. cbn [e3 o3] in Ri.
      rewrite <- (Ri i W). f_equal. symmetry. apply plus_zero. rewrite (within_length _ _ W). apply map_length.
  Qed.

  (** *** full, zeros, ones, empty *)
  Theorem C97_full_partial : forall junk value,
    exists q, full Float s b junk ds u value d allow = Some q /\ made q /\ forall i, within whole_shape i -> elt (data q) i = value.
  Proof.
    intros junk value. destruct (axes_of s ds ns sizes known) as (axs & F & O & E & S & M & O' & N).
    assert (L : length ds = length axs) by (rewrite (points_length _ _ _ known), <- M, map_length; reflexivity).
    unfold full, empty. rewrite (allocate_is Float s b _ ds u d allow ns axs F O E S M L prec). cbn [bind].
    unfold whole. cbn [data shape]. rewrite resolve_colon by first [apply sizes_pos', F | destruct axs; [now destruct (axs_ne [] M)|discriminate]].
    rewrite whole_axes by exact F. cbn [bind]. unfold setitem. cbn [data].
    destruct (assign_scalar (Arr (map n3 axs) junk d) _ value d (whole_ok axs F)) as (r & -> & Rs & Rd & Ri).
    eexists. split; [reflexivity|]. cbn [shape dt] in Rs, Rd. cbn [data]. split.
    - unfold made. cbn [dims units nhalo backend data origin extent]. rewrite Rs, N, Rd, O', M. repeat split.
    - intros i W. rewrite <- N in W. rewrite !map_map in Ri. cbn [e3 o3] in Ri.
      rewrite <- (Ri i W). f_equal. symmetry. apply plus_zero. rewrite (within_length _ _ W). apply map_length.
  Qed.
  Theorem C97_zeros_ones :
    (exists q, zeros zero Float s b ds u d allow = Some q /\ made q /\ forall i, elt (data q) i = zero) /\
    (exists q, ones one Float s b ds u d allow = Some q /\ made q /\ forall i, elt (data q) i = one) /\
    (forall junk, exists q, empty Float s b junk ds u d allow = Some q /\ made q).
  Proof.
    destruct (axes_of s ds ns sizes known) as (axs & F & O & E & S & M & O' & N).
    assert (L : length ds = length axs) by (rewrite (points_length _ _ _ known), <- M, map_length; reflexivity).
    split; [|split; [|intros junk]]; unfold zeros, ones, empty; rewrite (allocate_is Float s b _ ds u d allow ns axs F O E S M L prec);
      eexists; (split; [reflexivity|]); try (split; [|reflexivity]); unfold made; cbn [dims units nhalo backend data origin extent dt shape];
      rewrite N, O', M; repeat split.
  Qed.
End C97.

(** *** what is refused *)
Theorem C97_precision_refused : forall A (zero one : A) Float s b ds u d, (forall n, d <> Other n) -> d <> Float ->
  (forall a, dt a = d -> from_compute_array zero Float s b a ds u false = None /\ from_array zero Float s b a ds u false = None) /\
  (forall (junk : list Z -> A) x, zeros zero Float s b ds u d false = None /\ ones one Float s b ds u d false = None /\
     empty Float s b junk ds u d false = None /\ full Float s b junk ds u x d false = None).
Proof.
  intros A zero one Float s b ds u d I0 N. assert (I : is_float d = true) by (destruct d; [reflexivity..|]; exfalso; eapply I0; reflexivity).
  assert (X : forall fill : list Z -> A, allocate Float s b fill ds u d false = None).
  { intros fill. unfold allocate. destruct (get_extent s ds); [|reflexivity]. destruct (get_shape s ds); [|reflexivity]. cbn [bind].
    destruct (existsb _ _); [reflexivity|]. unfold new_quantity. cbn [dt]. now rewrite precision_fails. }
  split.
  - intros a <-. unfold from_compute_array, from_array, zeros. rewrite X. auto.
  - intros junk x. unfold full, empty, zeros, ones. rewrite !X. auto.
Qed.

Lemma fits_rev_not v t k n : nth_error v k = Some n -> n <> 1 -> nth_error t k <> Some n -> fits_rev v t = false.
Proof.
  revert t k. induction v as [|m v IH]; intros t k; [destruct k; discriminate|].
  destruct k as [|k]; cbn [nth_error].
  - intros [= ->] N1 N2. destruct t as [|x t]; cbn; [now destruct (Z.eqb_spec n 1)|].
    destruct (Z.eqb_spec n 1), (Z.eqb_spec n x); cbn; congruence.
  - intros E N1 N2. destruct t as [|x t]; cbn; [|rewrite (IH t k E N1 N2); apply Bool.andb_false_r].
    rewrite (IH [] k E N1); [apply Bool.andb_false_r|]. destruct k; discriminate.
Qed.

Lemma Some_inj {X} (x y : X) : Some x = Some y -> x = y.
Proof. now intros [= ->]. Qed.

(** an axis (counted from the last) with more or fewer than one point that does not have the points of the domain *)
Definition misfit (v t : list Z) : Prop := exists k n, nth_error (rev v) k = Some n /\ n <> 1 /\ nth_error (rev t) k <> Some n.
Theorem C97_misfit_refused_partial : forall A (zero : A) Float s b ds ns u allow a, sizes_ok s -> map (points s) ds = map Some ns ->
  (misfit (shape a) ns -> from_compute_array zero Float s b a ds u allow = None) /\
  (misfit (shape a) (map (fun '(d, n) => before s d + n + behind s d) (combine ds ns)) -> from_array zero Float s b a ds u allow = None).
Proof.
  intros A zero Float s b ds ns u allow a Z K. destruct (axes_of s ds ns Z K) as (axs & F & O & E & Sh & M & O' & N).
  assert (L : length ds = length axs) by (rewrite (points_length _ _ _ K), <- M, map_length; reflexivity).
  destruct (zeros zero Float s b ds u (dt a) allow) as [q|] eqn:Q; cycle 1.
  { unfold from_compute_array, from_array. rewrite Q. auto. }
  assert (P : shape (data q) = map n3 axs /\ origin q = map o3 axs /\ extent q = map e3 axs).
  { unfold zeros, allocate in Q. rewrite E, Sh in Q. cbn [bind] in Q. rewrite sizes_pos in Q by exact F. unfold new_quantity in Q.
    destruct (_ && _ && negb _); [discriminate|]. rewrite <- O in Q. destruct (_ && _ && _); [|discriminate].
    injection Q as <-. auto. }
  destruct P as (P1 & P2 & P3). unfold from_compute_array, from_array. rewrite Q. cbn [bind]. unfold compute, whole. rewrite P1, P2, P3.
  split; intros (k & n & H1 & H2 & H3).
  - destruct (view _ _ _ _) as [sel|] eqn:V; [|reflexivity]. cbn [bind]. destruct axs as [|x axs]; [discriminate|].
    rewrite view_colon in V by (auto; discriminate). apply Some_inj in V. subst sel. unfold setitem, assign. rewrite lens_part by exact F. rewrite M.
    unfold fits. now rewrite (fits_rev_not _ _ k n H1 H2 H3).
  - destruct (resolve _ _) as [sel|] eqn:V; [|reflexivity]. cbn [bind]. destruct axs as [|x axs]; [discriminate|].
    rewrite resolve_colon in V by (discriminate || apply sizes_pos', F). apply Some_inj in V. subst sel. unfold setitem, assign.
    rewrite whole_axes by exact F. rewrite lens_part by apply whole_ok, F. rewrite map_map. cbn [e3]. unfold fits.
    change (fun x0 : axis3 => n3 x0) with n3. rewrite N. now rewrite (fits_rev_not _ _ k n H1 H2 H3).
Qed.

(** the memory specification for a halo update *)
Theorem C97_halo_spec_partial : forall A (zero : A) Float s b ds ns n d, sizes_ok s -> map (points s) ds = map Some ns ->
  precision_ok Float d false ->
  let wanted := match n with Some n => n | None => n_halo s end in
  get_quantity_halo_spec zero Float s b ds n d = if wanted <=? n_halo s then Some wanted else None.
Proof.
  intros A zero Float s b ds ns n d Z K P wanted. destruct (axes_of s ds ns Z K) as (axs & F & O & E & S & M & O' & N).
  assert (L : length ds = length axs) by (rewrite (points_length _ _ _ K), <- M, map_length; reflexivity).
  unfold get_quantity_halo_spec, zeros. rewrite (allocate_is Float s b _ ds _ d false ns axs F O E S M L P). cbn [bind nhalo].
  fold wanted. destruct (Z.ltb_spec (n_halo s) wanted), (Z.leb_spec wanted (n_halo s)); auto; lia.
Qed.

(** *** findings *)
Definition C97_sizer : sizer := mkSizer 4 3 2 2 [("tracers"%string, 5)] false.
Lemma C97_sizes : sizes_ok C97_sizer.
Proof.
  unfold sizes_ok. cbn. repeat split; try lia. intros n x. destruct (String.eqb n "tracers"); [intros [= <-]; lia|discriminate].
Qed.
Definition C97_dims : list sdim := [H AI false; H AJ true; Data "tracers"].
Example C97_case : map (points C97_sizer) C97_dims = map Some [4; 4; 5] /\ sizes_ok C97_sizer /\ C97_dims <> [] /\
  precision_ok Float32 (Other "int64") false /\ misfit [4; 3; 5] [4; 4; 5].
Proof.
  split; [reflexivity|]. split; [exact C97_sizes|]. split; [discriminate|]. split; [right; right; eexists; reflexivity|].
  exists 1%nat, 3. repeat split; [lia|]. discriminate.
Qed.
(** an array of another shape is accepted, and repeated over the domain *)
Theorem C97_shape_refuted : exists (a : arr Z) q f,
  from_compute_array 0 Float64 C97_sizer "st:numpy:cpu:IJK" a C97_dims "K" false = Some q /\
  shape a = [5] /\ field q = Some f /\ shape f = [4; 4; 5] /\ ~ same_arr f a /\ elt f [0; 0; 2] = 20 /\ elt f [3; 1; 2] = 20.
Proof.
  exists (Arr [5] (fun p => match p with [k] => 10 * k | _ => 0 end) Float64).
  eexists. eexists. split; [vm_compute; reflexivity|]. split; [reflexivity|]. split; [vm_compute; reflexivity|].
  split; [reflexivity|]. split; [|split; reflexivity]. intros (X & _). discriminate X.
Qed.
(** a quantity without dimensions can be allocated, but not made from an array *)
Theorem C97_scalar_refuted : exists (a : arr Z) q, shape a = [] /\
  zeros 0 Float64 C97_sizer "st:numpy:cpu:IJK" [] "K" Float64 false = Some q /\ shape (data q) = [] /\
  from_compute_array 0 Float64 C97_sizer "st:numpy:cpu:IJK" a [] "K" false = None /\
  from_array 0 Float64 C97_sizer "st:numpy:cpu:IJK" a [] "K" false = None.
Proof. exists (Arr [] (fun _ => 7) Float64). eexists. repeat split; vm_compute; reflexivity. Qed.
(** no halo specification for a precision other than the configured one, though such quantities can be made *)
Theorem C97_halo_spec_refuted : exists q : quantity Z,
  zeros 0 Float64 C97_sizer "st:numpy:cpu:IJK" C97_dims "K" Float32 true = Some q /\ nhalo q = 2 /\
  get_quantity_halo_spec 0 Float64 C97_sizer "st:numpy:cpu:IJK" C97_dims (Some 1) Float32 = None.
Proof. eexists. repeat split; vm_compute; reflexivity. Qed.

Print Assumptions C97_compute_array_partial.
Print Assumptions C97_array_partial.
Print Assumptions C97_full_partial.
Print Assumptions C97_zeros_ones.
Print Assumptions C97_precision_refused.
Print Assumptions C97_misfit_refused_partial.
Print Assumptions C97_halo_spec_partial.
Print Assumptions C97_shape_refuted.
Print Assumptions C97_scalar_refuted.
Print Assumptions C97_halo_spec_refuted.
