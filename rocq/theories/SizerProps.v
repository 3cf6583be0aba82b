(** C127: the sizes of a subtile made from a namelist are those of the partitioner's subtiles. *)
From Coq Require Import QArith Lia.
From Verif Require Import Base Dict PartModel DecompModel DecompSpec DecompProofs DecompProofs2 DecompProofs3 DecompProps HaloModel GridModel GridProofs SizerModel.
Open Scope Z_scope.

Lemma read_spec nml l nx ny n : read nml = Some (l, (nx, ny, n)) <-> describes nml l nx ny n.
Proof.
  unfold read, describes, pair, number. split.
  - destruct (get nml "fv_core_nml") as [[z|l'|d]|] eqn:E; try discriminate.
    + destruct (get d "layout") as [[|l1|]|] eqn:E1; try discriminate. destruct (get d "npx") as [[x| |]|] eqn:E2; try discriminate.
      destruct (get d "npy") as [[y| |]|] eqn:E3; try discriminate. destruct (get d "npz") as [[k| |]|] eqn:E4; try discriminate. cbn [bind].
      intros [= -> <- <- <-]. left. exists d. replace (x - 1 + 1) with x by lia. replace (y - 1 + 1) with y by lia. auto.
    + destruct (get nml "nx_tile") as [[x| |]|] eqn:E2; try discriminate; destruct (get nml "layout") as [[|l1|]|] eqn:E1; try discriminate.
      cbn [bind]. destruct (get nml "nz") as [[k| |]|] eqn:E4; try discriminate. cbn [bind]. intros [= -> <- <- <-]. right. auto.
  - intros [(d & -> & -> & -> & -> & ->)|(-> & -> & -> & -> & ->)]; cbn [bind]; [|reflexivity]. do 4 f_equal; lia.
Qed.

Lemma vertical_ok rnd D (i : bool) l ratio : float_like rnd -> 0 <= D <= 2 ^ 52 -> subtile_extents rnd (D + one i) AV i l ratio = Some (D, D).
Proof.
  intros F HD. unfold subtile_extents, one. cbn [by_dim is_horizontal]. rewrite andb_false_r. change (1 mod 2 =? 0) with false. cbn [andb].
  replace (if i then D + (if i then 1 else 0) - 1 else D + (if i then 1 else 0)) with D by (destruct i; lia).
  rewrite (py_int_int _ D); [reflexivity|]. apply (fdiv_int rnd F _ _ D 1 D); try lia; reflexivity.
Qed.

Lemma tile_fits rnd ratio nxt nyt n h l rank data fort s : float_like rnd -> 0 <= n <= 2 ^ 52 ->
  from_tile_params rnd ratio nxt nyt n h l rank data fort = Some s ->
  forall ds, Forall is_spatial ds ->
    exists sizes, get_extent s ds = Some sizes /\ subtile_extent rnd l ratio (map to_dim ds) (map (points nxt nyt n) ds) rank = Some sizes.
Proof.
  intros F Hn E ds. destruct (from_tile_ok _ _ _ _ _ _ _ _ _ _ _ E) as (_ & Ez & _ & _ & Hh).
  unfold subtile_extent, subtile_slice in *. unfold get_extent. induction ds as [|d ds IH]; intros HS; [exists []; split; reflexivity|].
  inversion_clear HS as [|? ? (a & i & ->) HS']. destruct (IH HS') as (sizes & E1 & E2).
  exists (cells s a + one i :: sizes). cbn [map to_dim extent1 all_some bind]. rewrite E1. split; [reflexivity|]. cbn [rank_slice].
  destruct (rank_slice rnd (map to_dim ds) _ l _ ratio true) as [sl|]; [|discriminate]. cbn [bind] in *. injection E2 as <-.
  destruct (is_horizontal a) eqn:Ha.
  - specialize (Hh a i Ha). cbn [rank_slice] in Hh.
    assert (P : points nxt nyt n (H a i) = (match a with AI => nxt | _ => nyt end) + one i) by (destruct a; try discriminate; reflexivity). rewrite P.
    destruct (subtile_extents _ _ a i l ratio) as [ie|]; [|discriminate]. cbn [bind map] in *. injection Hh as Hh. rewrite Hh. reflexivity.
  - destruct a; try discriminate. change (points nxt nyt n (H AV i)) with (n + one i). rewrite vertical_ok by assumption. cbn [bind fst snd map].
    unfold dim_slice. cbn [is_horizontal fst snd cells]. rewrite Ez. do 2 f_equal. unfold one. destruct i; lia.
Qed.

(** C127 (partial: for the rank given; see the refutation below for the default).  If a sizer is made from a namelist then, for every list of spatial dimensions, the compute domain of the
    quantities it sizes is the rank's part of the array over the whole tile that the namelist describes, as cut out by the given partitioner (or by one of the layout of the namelist),
    with the halo of three points and more cells than halo points. *)
Theorem C127_fits_partial : forall rnd, float_like rnd -> forall nml given rank fort s,
  from_namelist rnd nml given rank fort = Some s ->
  exists l nx_tile ny_tile n, describes nml l nx_tile ny_tile n /\ nz s = n /\ n_halo s = 3 /\ 3 < nx s /\ 3 < ny s /\
    (0 <= n <= 2 ^ 52 -> forall ds, Forall is_spatial ds -> exists sizes,
       get_extent s ds = Some sizes /\
       subtile_extent rnd (match given with Some p => fst p | None => l end) (match given with Some p => snd p | None => 1%Q end)
         (map to_dim ds) (map (points nx_tile ny_tile n) ds) rank = Some sizes).
Proof.
  intros rnd F nml given rank fort s. unfold from_namelist. destruct (read nml) as [[l [[x y] n]]|] eqn:R; [|discriminate]. cbn [bind].
  destruct (partitioner given l) as [l' ratio] eqn:P. intros E. exists l, x, y, n.
  destruct (from_tile_ok _ _ _ _ _ _ _ _ _ _ _ E) as (H1 & H2 & H3 & H4 & _).
  split; [now apply read_spec|]. repeat (split; [assumption|]). intros Hn ds HS.
  replace (match given with Some p => fst p | None => l end) with l' by (destruct given as [[]|]; cbn in P |- *; congruence).
  replace (match given with Some p => snd p | None => 1%Q end) with ratio by (destruct given as [[]|]; cbn in P |- *; congruence).
  eapply tile_fits; eauto.
Qed.
Print Assumptions C127_fits_partial.

(** C127.  A namelist of a tile that its layout divides into equal subtiles of more than three cells is accepted for every rank, without a partitioner, and every rank gets these subtiles. *)
Theorem C127_accepted : forall rnd, float_like rnd -> forall nml l nx_tile ny_tile n qx qy,
  describes nml l nx_tile ny_tile n -> 0 < fst l <= 2 ^ 52 /\ 0 < snd l <= 2 ^ 52 ->
  nx_tile = snd l * qx -> ny_tile = fst l * qy -> 3 < qx -> 3 < qy -> nx_tile <= 2 ^ 52 -> ny_tile <= 2 ^ 52 ->
  forall rank fort, 0 <= rank < fst l * snd l ->
  exists s, from_namelist rnd nml None rank fort = Some s /\ nx s = qx /\ ny s = qy /\ nz s = n /\ n_halo s = 3.
Proof.
  intros rnd F nml l x y n qx qy D Hl Ex Ey Qx Qy Bx By rank fort Hr. apply read_spec in D. unfold from_namelist. rewrite D. cbn [bind partitioner].
  destruct (C07_even_tiles_accepted rnd F l Hl 1%Q [Dim AJ false; Dim AI false] [y; x] [qy; qx] rank) as (sl & Hsl & Hat); try reflexivity.
  - unfold tile_ranks. nia.
  - constructor; [cbn; nia|constructor; [cbn; nia|constructor]].
  - cbn [combine]. constructor; [cbn; lia|constructor; [cbn; lia|constructor]].
  - unfold from_tile_params. rewrite Hsl. cbn [bind].
    assert (L : length sl = 2%nat).
    { clear - Hsl. unfold subtile_slice in Hsl. cbn [rank_slice] in Hsl. destruct (subtile_extents _ y _ _ _ _); [|discriminate]. destruct (subtile_extents _ x _ _ _ _); [|discriminate].
      cbn [bind] in Hsl. injection Hsl as <-. reflexivity. }
    destruct sl as [|[y0 y1] [|[x0 x1] [|]]]; try discriminate.
    specialize (Hat 0%nat AJ false qy _ eq_refl eq_refl eq_refl) as H0. specialize (Hat 1%nat AI false qx _ eq_refl eq_refl eq_refl) as H1.
    cbn zeta in H0, H1. generalize dependent (by_dim AJ (subtile_index l rank) 0). intros ky [= -> ->].
    generalize dependent (by_dim AI (subtile_index l rank) 0). intros kx [= -> ->]. clear - Qx Qy.
    replace ((kx + 1) * qx + 0 - kx * qx) with qx by ring. replace ((ky + 1) * qy + 0 - ky * qy) with qy by ring.
    destruct (Z.leb_spec qx 3); [lia|]. destruct (Z.leb_spec qy 3); [lia|]. eexists. split; [reflexivity|]. cbn [nx ny nz n_halo]. auto.
Qed.
Print Assumptions C127_accepted.

(** C127.  Namelists that do not describe a tile are refused. *)
Theorem C127_unrecognized : forall rnd nml given rank fort, (forall l nx_tile ny_tile n, ~ describes nml l nx_tile ny_tile n) -> from_namelist rnd nml given rank fort = None.
Proof.
  intros rnd nml given rank fort N. unfold from_namelist. destruct (read nml) as [[l [[x y] n]]|] eqn:R; [|reflexivity]. exfalso. eapply N, read_spec, R.
Qed.
Print Assumptions C127_unrecognized.

(** A tile of 24 x 24 cells on 4 x 4 ranks with edge/interior ratio 2: subtiles of 8, 4, 4, 8 cells. *)
Lemma eight_four rnd a : float_like rnd -> is_horizontal a = true -> subtile_extents rnd 24 a false (4, 4) 2 = Some (4, 8).
Proof.
  intros Hrnd Ha. unfold subtile_extents.
  assert (Hc : by_dim a (4, 4) 1 = 4) by (destruct a; try discriminate Ha; reflexivity). rewrite Hc.
  replace ((4 mod 2 =? 0) && negb (24 mod 2 =? 0)) with false by reflexivity.
  rewrite Ha. replace ((3 <=? 4) && true) with true by reflexivity.
  assert (Hst : start_edge rnd 24 4 2 = 8).
  { unfold start_edge. apply py_round_int. apply (fdiv_int rnd Hrnd _ _ 24 3 8); try lia; try reflexivity.
    unfold fadd. apply rnd_int; [exact Hrnd| |lia].
    rewrite (fdiv_int rnd Hrnd (inject_Z (4 - 2)) 2 2 2 1); try lia; reflexivity. }
  rewrite Hst.
  assert (Hin : interior_size rnd 24 4 8 = 4).
  { unfold interior_size. apply py_int_int. apply (fdiv_int rnd Hrnd _ _ 8 2 4); try lia; try reflexivity.
    apply (fdiv_int rnd Hrnd _ _ 8 4 2); try lia; try reflexivity.
    apply (fdiv_int rnd Hrnd _ _ 8 2 4); try lia; try reflexivity. }
  destruct (valid_sizes_head rnd 24 4 8) as [t ->].
  { rewrite edge_top_eq by (exact Hrnd || (cbn; lia)). cbn. lia. }
  cbn [find]. unfold edge_ok at 1. rewrite Hin. change (8 * 2 + (4 - 2) * 4 =? 24) with true. cbv iota. rewrite Hin. reflexivity.
Qed.

(** C127, refuted for the default rank: "If tile_partitioner is a TilePartitioner, this argument does not matter" (94-96) is false. *)
Theorem C127_rank_refuted : forall rnd, float_like rnd -> exists nml given rank s s',
  0 <= rank < 16 /\ from_namelist rnd nml (Some given) 0 false = Some s /\ from_namelist rnd nml (Some given) rank false = Some s' /\
  get_extent s [H AJ false; H AI false] = Some [8; 8] /\ get_extent s' [H AJ false; H AI false] = Some [4; 4].
Proof.
  intros rnd F. exists [("nx_tile", Int 24); ("nz", Int 79); ("layout", Pair (4, 4))]%string, ((4, 4), 2%Q), 5, (mkSizer 8 8 79 3 [] false), (mkSizer 4 4 79 3 [] false).
  split; [lia|]. unfold from_namelist. cbn [partitioner].
  match goal with |- context [read ?d] => change (read d) with (Some ((4, 4), (24, 24, 79))) end. cbn [bind].
  unfold from_tile_params, subtile_slice. cbn [rank_slice]. rewrite !eight_four by auto. repeat split; reflexivity.
Qed.
Print Assumptions C127_rank_refuted.

(** C127, refuted for the second format: the number of rows ny_tile in it is not looked at. *)
Theorem C127_rows_refuted : exists nml s, get nml "ny_tile" = Some (Int 8) /\ get nml "layout" = Some (Pair (1, 1)) /\
  from_namelist (fun q => q) nml None 0 false = Some s /\ ny s = 12.
Proof.
  exists [("nx_tile", Int 12); ("ny_tile", Int 8); ("nz", Int 79); ("layout", Pair (1, 1))]%string, (mkSizer 12 12 79 3 [] false). repeat split; vm_compute; reflexivity.
Qed.
Print Assumptions C127_rows_refuted.

(** A namelist of the model, 2 x 3 ranks *)
Example C127_case : exists s, from_namelist (fun q => q)
    [("fv_core_nml", Group [("layout", Pair (2, 3)); ("npx", Int 49); ("npy", Int 33); ("npz", Int 79)])]%string None 4 false = Some s /\
  get_extent s [H AV true; H AJ true; H AI false] = Some [80; 17; 16] /\
  subtile_extent (fun q => q) (2, 3) 1 [Dim AV true; Dim AJ true; Dim AI false] [80; 33; 48] 4 = Some [80; 17; 16].
Proof. exists (mkSizer 16 16 79 3 [] false). repeat split; vm_compute; reflexivity. Qed.
