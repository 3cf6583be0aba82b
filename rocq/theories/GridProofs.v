(** Proofs about grid sizes and indexing. *)
From Coq Require Import QArith.
From Verif Require Import Base Dict PartModel DecompModel HaloModel GridModel.
Open Scope Z_scope.

Lemma all_some_spec {T} (l : list (option T)) r : all_some l = Some r <-> map Some r = l.
Proof.
  revert r. induction l as [|x l IH]; intros r; cbn; [split; [intros [= <-]; auto|destruct r; [auto|discriminate]]|].
  destruct x as [a|]; cbn; [|split; [discriminate|destruct r; discriminate]].
  destruct (all_some l) as [r'|] eqn:E; cbn.
  - split.
    + intros [= <-]. cbn. f_equal. now apply IH.
    + destruct r as [|b r]; [discriminate|]. intros [= -> X]. apply IH in X. congruence.
  - split; [discriminate|]. destruct r as [|b r]; [discriminate|]. intros [= -> X]. apply IH in X. discriminate.
Qed.


Definition sizer_ok (s : sizer) : Prop := 0 <= nx s /\ 0 <= ny s /\ 0 <= nz s /\ 0 <= n_halo s.

Lemma dim_fits s d e sh : sizer_ok s -> extent1 s d = Some e -> shape1 s d = Some sh ->
  match d with
  | Data _ => origin1 s d = 0 /\ sh = e
  | H AV _ => origin1 s d = 0 /\ 0 <= e /\ e <= sh
  | H _ _ => origin1 s d = n_halo s /\ 0 <= e /\ origin1 s d + e + n_halo s <= sh
  end.
Proof.
  intros (X & Y & Z0 & Hh). destruct d as [[] []|n]; cbn [extent1 shape1 origin1 cells one];
    [intros E%some_inj S%some_inj; subst; destruct (fortran s); lia..|].
  intros E S. split; congruence.
Qed.

Lemma slice1_ok s d e sh b n interior : sizer_ok s -> (forall m x, d = Data m -> get (data_dims s) m = Some x -> 0 <= x) ->
  extent1 s d = Some e -> shape1 s d = Some sh -> 0 <= n <= n_halo s ->
  exists p, boundary_slice1 (to_dim d) (origin1 s d) e sh b n interior = Some p /\ 0 <= fst p /\ snd p <= sh.
Proof.
  intros (X & Y & Z & Hh) HD E S N. unfold boundary_slice1.
  destruct d as [a i|m]; cbn [to_dim extent1 shape1 origin1] in *.
  - injection E as <-.
    assert (Ha : 0 <= cells s a) by (destruct a; cbn; lia).
    assert (Hs : match a with AV => sh = nz s + (if i then 1 else if fortran s then 0 else 1)
                 | _ => sh = cells s a + (if i then 1 else if fortran s then 0 else 1) + 2 * n_halo s end).
    { destruct a, i; cbn in *; apply some_inj in S; subst; destruct (fortran s); lia. }
    destruct a, i, b, interior; unfold one; cbn [at_start cells] in *; cbv beta iota zeta;
      (destruct (fortran s); subst sh);
      match goal with |- context [if ?a <? 0 then _ else _] => destruct (Z.ltb_spec a 0); [lia|] end;
      match goal with |- context [if ?a <? ?b then _ else _] => destruct (Z.ltb_spec a b); [lia|] end;
      (eexists; split; [reflexivity|]; cbn [fst snd]; lia).
  - rewrite E in S. injection S as <-. specialize (HD m e eq_refl E). cbn [at_start].
    destruct (Z.ltb_spec 0 0); [lia|]. destruct (Z.ltb_spec e (0 + e)); [lia|]. eexists. split; [reflexivity|]. cbn. lia.
Qed.

Lemma slices_ok s ds b n interior : sizer_ok s -> (forall m x, In (Data m) ds -> get (data_dims s) m = Some x -> 0 <= x) -> 0 <= n <= n_halo s ->
  forall ext sh, get_extent s ds = Some ext -> get_shape s ds = Some sh ->
  exists sl, boundary_slice (map to_dim ds) (get_origin s ds) ext sh b n interior = Some sl /\
    length sl = length ds /\ Forall2 (fun p x => 0 <= fst p /\ snd p <= x) sl sh.
Proof.
  intros W HD N. induction ds as [|d ds IH]; intros ext sh E S.
  - cbn in E, S. injection E as <-. injection S as <-. exists []. repeat split; constructor.
  - unfold get_extent, get_shape in *. cbn [map all_some] in E, S.
    destruct (extent1 s d) as [e|] eqn:E1; [|discriminate]. destruct (shape1 s d) as [x|] eqn:S1; [|discriminate]. cbn [bind] in E, S.
    destruct (all_some (map (extent1 s) ds)) as [ext'|]; [|discriminate]. destruct (all_some (map (shape1 s) ds)) as [sh'|]; [|discriminate].
    cbn [bind] in E, S. injection E as <-. injection S as <-.
    destruct (slice1_ok s d e x b n interior W) as (p & P & P1 & P2); auto.
    { intros m y -> G. apply (HD m y); auto. left. auto. }
    destruct (IH (fun m x I => HD m x (or_intror I)) ext' sh' eq_refl eq_refl) as (sl & P3 & P4 & P5).
    exists (p :: sl). cbn [get_origin map boundary_slice]. rewrite P. cbn [bind]. unfold get_origin in P3. rewrite P3. cbn.
    repeat split; auto.
Qed.

(** the send region of a sizer made from tile parameters lies in the compute domain *)
Lemma send1_in_domain s a i b n p : n_halo s < nx s -> n_halo s < ny s -> 0 <= nz s -> 0 <= n <= n_halo s ->
  forall sh, boundary_slice1 (Dim a i) (origin1 s (H a i)) (cells s a + one i) sh b n true = Some p ->
  origin1 s (H a i) <= fst p /\ snd p <= origin1 s (H a i) + cells s a + one i.
Proof.
  intros X Y Z N sh. unfold boundary_slice1.
  destruct (at_start b (Dim a i)) as [[]|] eqn:A;
  match goal with |- context [if ?a <? 0 then _ else _] => destruct (Z.ltb_spec a 0) end; try discriminate;
  match goal with |- context [if ?a <? ?b then _ else _] => destruct (Z.ltb_spec a b) end; try discriminate;
  intros [= <-]; cbn [fst snd]; destruct a, i; cbn in *; try discriminate; try lia.
Qed.

(** ** agreement with the partitioner *)
Lemma dim_slice_iface inner edge a l sub : is_horizontal a = true ->
  dim_slice inner edge a true l sub true = (fst (dim_slice inner edge a false l sub true), snd (dim_slice inner edge a false l sub true) + 1).
Proof.
  intros Ha. unfold dim_slice. rewrite Ha. destruct (bounds_loop _ _ _ _ _ _ _) as [x y]. cbn. reflexivity.
Qed.

Lemma from_tile_ok rnd ratio nxt nyt nz n l rank data fort s : from_tile_params rnd ratio nxt nyt nz n l rank data fort = Some s ->
  n_halo s = n /\ GridModel.nz s = nz /\ n < nx s /\ n < ny s /\
  forall a i, is_horizontal a = true ->
    subtile_extent rnd l ratio [Dim a i] [(match a with AI => nxt | _ => nyt end) + one i] rank = Some [cells s a + one i].
Proof.
  unfold from_tile_params, subtile_slice. cbn [rank_slice].
  destruct (subtile_extents rnd nyt AJ false l ratio) as [[iy ey]|] eqn:Ey; [|discriminate]. cbn [bind].
  destruct (subtile_extents rnd nxt AI false l ratio) as [[ix ex]|] eqn:Ex; [|discriminate]. cbn [bind fst snd].
  destruct (dim_slice iy ey AJ false l _ true) as [y0 y1] eqn:Dy.
  destruct (dim_slice ix ex AI false l _ true) as [x0 x1] eqn:Dx.
  destruct (Z.leb_spec (x1 - x0) n); [discriminate|]. destruct (Z.leb_spec (y1 - y0) n); [discriminate|].
  intros [= <-]. cbn [n_halo GridModel.nz nx ny cells]. repeat (split; [auto; lia|]).
  intros a i Ha. unfold subtile_extent, subtile_slice. cbn [rank_slice].
  assert (T : forall D, subtile_extents rnd (D + one i) a i l ratio = subtile_extents rnd D a false l ratio).
  { intros D. unfold subtile_extents, one. destruct i; [|now rewrite Z.add_0_r]. replace (D + 1 - 1) with D by lia. reflexivity. }
  rewrite T. destruct a; try discriminate; [rewrite Ey|rewrite Ex]; cbn [bind fst snd map]; do 2 f_equal.
  - destruct i; [rewrite dim_slice_iface by auto|]; rewrite Dy; cbn; lia.
  - destruct i; [rewrite dim_slice_iface by auto|]; rewrite Dx; cbn; lia.
Qed.

(** ** GridIndexing *)
Definition grid_ok (g : grid) : Prop := 0 <= g_i g /\ 0 <= g_j g /\ 0 <= g_k g /\ 0 <= g_halo g /\ 0 <= g_kstart g.
Definition spatial (d : sdim) : Prop := match d with H _ _ => True | Data _ => False end.
(** halos of a dimension: at most n_halo horizontally, none vertically *)
Definition halo_fits (g : grid) (d : sdim) (n : Z) : Prop :=
  match d with H AV _ => n = 0 | H _ _ => 0 <= n <= g_halo g | Data _ => False end.

Lemma add_halos_nil l f : add_halos l [] f = Some l.
Proof. destruct l; auto. Qed.

Lemma origin_domain_ok g ds halos : grid_ok g -> Forall spatial ds -> (length halos <= length ds)%nat ->
  Forall2 (halo_fits g) (firstn (length halos) ds) halos ->
  exists o dom sh, get_origin_domain g ds halos = Some (o, dom) /\ grid_shape g ds halos = Some sh /\
    length o = length ds /\ length dom = length ds /\ length sh = length ds /\
    (forall m a i x y z h, nth_error ds m = Some (H a i) -> nth_error o m = Some x -> nth_error dom m = Some y -> nth_error sh m = Some z ->
       h = nth m halos 0 ->
       0 <= x /\ 0 <= y /\ x = g_origin g a - h /\ y = g_domain g a + one i + 2 * h /\
       x + y = z + (match a with AV => g_kstart g | _ => 0 end)).
Proof.
  intros W. revert halos. induction ds as [|d ds IH]; intros halos S L F.
  - destruct halos; [|cbn in L; lia]. exists [], [], []. cbn. repeat split; auto; destruct m; discriminate.
  - apply Forall_cons_iff in S. destruct S as [H2 H3]. destruct d as [a i|]; [|destruct H2]. destruct W as (W1 & W2 & W3 & W4 & W5).
    assert (Wd : 0 <= g_domain g a /\ 0 <= g_origin g a) by (destruct a; cbn; lia).
    destruct halos as [|h halos].
    + destruct (IH [] H3) as (o & dom & sh & P1 & P2 & P3 & P4 & P5 & P6); [cbn; lia|constructor|].
      unfold get_origin_domain, grid_shape in *. rewrite !add_halos_nil in *. cbn [origin_from_dims domain_from_dims bind] in *.
      injection P1 as <- <-.
      match type of P2 with (do s <- ?X; _) = _ => destruct X as [r|] eqn:EX end; [|discriminate]. cbn [bind] in P2. rewrite add_halos_nil in P2. injection P2 as ->.
      eexists _, _, ((match a with AV => g_domain g a + one i | _ => g_domain g a + one i + g_halo g end) :: sh). split; [reflexivity|]. split.
      { destruct a; (cbn [add_horizontal]; rewrite EX; cbn [bind]; rewrite add_halos_nil; reflexivity). }
      cbn [length]. repeat (split; [congruence|]).
      intros [|m] a' i' x y z h' D1 D2 D3 D4 ->; cbn [nth_error nth] in *.
      * injection D1 as <- <-. apply some_inj in D2, D3, D4. subst x y z. destruct a; cbn [g_origin g_domain] in *; unfold one; destruct i; lia.
      * apply (P6 m a' i' x y z 0); auto. destruct m; auto.
    + cbn [length firstn] in F. inversion F as [|? ? ? ? F1 F2]; clear F; subst.
      destruct (IH halos H3) as (o & dom & sh & P1 & P2 & P3 & P4 & P5 & P6); [cbn in L; lia|auto|].
      unfold get_origin_domain, grid_shape in *. cbn [origin_from_dims domain_from_dims add_halos bind] in *.
      destruct (add_halos (origin_from_dims g ds) halos (fun n => - n)) as [o'|]; [|discriminate]. cbn [bind] in *.
      destruct (add_halos (domain_from_dims g ds) halos (fun n => 2 * n)) as [d'|]; [|discriminate]. cbn [bind] in *.
      injection P1 as -> ->.
      match type of P2 with (do s <- ?X; _) = _ => destruct X as [r|] eqn:EX end; [|discriminate]. cbn [bind] in P2.
      eexists _, _, ((match a with AV => g_domain g a + one i + h | _ => g_domain g a + one i + g_halo g + h end) :: sh). split; [reflexivity|]. split.
      { destruct a; (cbn [add_horizontal]; rewrite EX; cbn [bind add_halos]; rewrite P2; cbn [bind]; reflexivity). }
      cbn [length]. repeat (split; [congruence|]).
      intros [|m] a' i' x y z h' D1 D2 D3 D4 ->; cbn [nth_error nth] in *.
      * injection D1 as <- <-. apply some_inj in D2, D3, D4. subst x y z.
        destruct a; cbn [g_origin g_domain halo_fits] in *; unfold one; destruct i; lia.
      * apply (P6 m a' i' x y z (nth m halos 0)); auto.
Qed.

(** which vertical restrictions are accepted *)
Lemma restrict_spec g k nk : 0 <= g_k g ->
  match restrict_vertical g k nk with
  | Some g' => 0 <= k /\ k <= g_k g /\ g_kstart g' = g_kstart g + k /\
               g_k g' = match nk with Some n => n | None => g_k g - k end /\ 0 <= g_k g' /\ k + g_k g' <= g_k g /\
               g_i g' = g_i g /\ g_j g' = g_j g /\ g_halo g' = g_halo g
  | None => ~ (0 <= k <= g_k g /\ match nk with Some n => 0 <= n <= g_k g - k | None => True end)
  end.
Proof.
  intros Hk. unfold restrict_vertical. destruct (Z.ltb_spec k 0); [lia|]. destruct (Z.ltb_spec (g_k g) k); [lia|].
  destruct nk as [n|]; cbn [bind].
  - destruct (Z.ltb_spec n 0); cbn; [lia|]. destruct (Z.ltb_spec (g_k g - k) n); cbn; lia.
  - cbn. lia.
Qed.

Lemma restrict_compose g k1 n1 k2 n2 g1 g2 : restrict_vertical g k1 n1 = Some g1 -> restrict_vertical g1 k2 n2 = Some g2 ->
  0 <= g_k g -> restrict_vertical g (k1 + k2) (Some (g_k g2)) = Some g2.
Proof.
  intros R1 R2 Hk. pose proof (restrict_spec g k1 n1 Hk) as S1. rewrite R1 in S1. destruct S1 as (A1 & A2 & A3 & A4 & A5 & A6 & _).
  pose proof (restrict_spec g1 k2 n2 A5) as S2. rewrite R2 in S2. destruct S2 as (B1 & B2 & B3 & B4 & B5 & B6 & _).
  unfold restrict_vertical. destruct (Z.ltb_spec (k1 + k2) 0); [lia|]. destruct (Z.ltb_spec (g_k g) (k1 + k2)); [lia|].
  destruct (Z.ltb_spec (g_k g2) 0); [lia|]. destruct (Z.ltb_spec (g_k g - (k1 + k2)) (g_k g2)); [lia|]. cbn [bind].
  unfold restrict_vertical in R1, R2.
  repeat match type of R1 with context [if ?c then _ else _] => destruct c; try discriminate end.
  repeat match type of R2 with context [if ?c then _ else _] => destruct c; try discriminate end.
  destruct (match n1 with None => _ | Some _ => _ end) as [m1|]; [|discriminate]. cbn [bind] in R1. injection R1 as <-.
  destruct (match n2 with None => _ | Some _ => _ end) as [m2|]; [|discriminate]. cbn [bind] in R2. injection R2 as <-. cbn. f_equal. f_equal. lia.
Qed.

(** ** axis offsets *)
Lemma offsets_ok g a s e origin domain p1 p2 p3 p4 : axis_offsets g a s e origin domain = (p1, p2, p3, p4) ->
  place origin domain p2 = g_origin g a /\ place origin domain p4 = g_origin g a + g_domain g a - 1 /\
  (s = true -> place origin domain p1 = g_origin g a) /\ (e = true -> place origin domain p3 = g_origin g a + g_domain g a - 1) /\
  (s = false -> place origin domain p1 = origin - 32767) /\ (e = false -> place origin domain p3 = origin + domain - 1 + 32767).
Proof.
  unfold axis_offsets, big. intros [= <- <- <- <-]. destruct s, e; cbn; repeat split; try discriminate; intros; lia.
Qed.

Lemma axis_offsets_ok g a s e origin domain p1 p2 p3 p4 : axis_offsets g a s e origin domain = (p1, p2, p3, p4) ->
  place origin domain p2 = g_origin g a /\ place origin domain p4 = g_origin g a + g_domain g a - 1 /\
  (s = true -> place origin domain p1 = g_origin g a) /\ (e = true -> place origin domain p3 = g_origin g a + g_domain g a - 1) /\
  (forall shape, 0 <= origin -> 1 <= domain -> origin + domain <= shape -> shape <= 32767 ->
     (s = false -> place origin domain p1 < 0) /\ (e = false -> shape <= place origin domain p3)).
Proof.
  intros E. apply offsets_ok in E. destruct E as (E1 & E2 & E3 & E4 & E5 & E6). repeat (split; [assumption|]).
  intros shape O D S B. split; intros X; [rewrite (E5 X)|rewrite (E6 X)]; lia.
Qed.

Lemma room_for_halo rnd ratio nx_tile ny_tile nz n l rank data fort s :
  0 <= nz -> 0 <= n -> (forall m x, get data m = Some x -> 0 <= x) ->
  from_tile_params rnd ratio nx_tile ny_tile nz n l rank data fort = Some s ->
  (forall d e x, extent1 s d = Some e -> shape1 s d = Some x ->
     0 <= origin1 s d /\ 0 <= e /\ origin1 s d + e <= x /\
     (match d with H AI _ | H AJ _ => n <= origin1 s d /\ origin1 s d + e + n <= x | _ => True end)) /\
  (forall ds ext sh b k interior, get_extent s ds = Some ext -> get_shape s ds = Some sh -> 0 <= k <= n ->
     exists sl, boundary_slice (map to_dim ds) (get_origin s ds) ext sh b k interior = Some sl /\
       length sl = length ds /\ Forall2 (fun p x => 0 <= fst p /\ snd p <= x) sl sh) /\
  (forall a i, is_horizontal a = true ->
     subtile_extent rnd l ratio [Dim a i] [(match a with AI => nx_tile | _ => ny_tile end) + one i] rank = Some [cells s a + one i]).
Proof.
  intros Hz Hn HD F. pose proof (from_tile_ok _ _ _ _ _ _ _ _ _ _ _ F) as (F1 & F2 & F3 & F4 & F5).
  assert (W : sizer_ok s) by (unfold sizer_ok; lia).
  assert (DD : data_dims s = data).
  { unfold from_tile_params in F. destruct subtile_slice as [[|[] [|[] []]]|]; try discriminate. cbn [bind] in F.
    destruct (_ <=? _); [discriminate|]. destruct (_ <=? _); [discriminate|]. injection F as <-. reflexivity. }
  split; [|split]; auto.
  - intros d e x E S. pose proof (dim_fits s d e x W E S) as P. destruct d as [[] i|m].
    + lia.
    + lia.
    + lia.
    + cbn [extent1] in E. rewrite DD in E. apply HD in E. lia.
  - intros ds ext sh b k interior E S K. apply slices_ok; auto.
    + intros m x _ G. rewrite DD in G. eauto.
    + lia.
Qed.

Lemma sent_from_domain rnd ratio nx_tile ny_tile nz n l rank data fort s :
  0 <= nz -> 0 <= n -> from_tile_params rnd ratio nx_tile ny_tile nz n l rank data fort = Some s ->
  forall a i b k sh p, 0 <= k <= n ->
  boundary_slice1 (Dim a i) (origin1 s (H a i)) (cells s a + one i) sh b k true = Some p ->
  origin1 s (H a i) <= fst p /\ snd p <= origin1 s (H a i) + cells s a + one i.
Proof.
  intros Hz Hn F. pose proof (from_tile_ok _ _ _ _ _ _ _ _ _ _ _ F) as (F1 & F2 & F3 & F4 & F5).
  intros a i b k sh p K B. eapply send1_in_domain; eauto; lia.
Qed.
