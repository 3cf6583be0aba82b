(** C103: the Cartesian grid. *)
From Coq Require Import Reals Lra QArith.
From Verif Require Import Base Dict PartModel PartProofs PartGeom DecompModel DecompSpec DecompProofs DecompProofs2 DecompProofs3 HaloModel ViewModel
  GridModel AllocModel AllocProofs CartModel.
Open Scope Z_scope.

(** ** numpy *)
Lemma put3 {A} (a v : arr A) a1 b1 a2 b2 c0 : a1 <= b1 -> a2 <= b2 ->
  (shape v = [b1 - a1; 1; 1] \/ shape v = [1; b2 - a2; 1] \/ shape v = []) ->
  exists r, assign a [zrange a1 b1; zrange a2 b2; [c0]] v = Some r /\ shape r = shape a /\
    forall i j c, elt r [i; j; c] =
      if (a1 <=? i) && (i <? b1) && ((a2 <=? j) && (j <? b2)) && (c =? c0)
      then elt v (if list_eq_dec Z.eq_dec (shape v) [] then [] else if list_eq_dec Z.eq_dec (shape v) [b1 - a1; 1; 1] then [i - a1; 0; 0] else [0; j - a2; 0])
      else elt a [i; j; c].
Proof.
  intros L1 L2 S.
  assert (E : forall sh i j, (sh = [b1 - a1; 1; 1] \/ sh = [1; b2 - a2; 1] \/ sh = []) -> a1 <= i < b1 -> a2 <= j < b2 ->
    spread sh [i - a1; j - a2; 0] = if list_eq_dec Z.eq_dec sh [] then [] else if list_eq_dec Z.eq_dec sh [b1 - a1; 1; 1] then [i - a1; 0; 0] else [0; j - a2; 0]).
  { intros sh i j [->|[->| ->]] Hi Hj; unfold spread; cbn [rev app spread_rev]; change (1 =? 1) with true; cbn iota.
    - destruct (list_eq_dec _ _ _) as [X|_]; [discriminate X|]. destruct (list_eq_dec _ _ _) as [_|X]; [|now destruct X].
      destruct (Z.eqb_spec (b1 - a1) 1); [|reflexivity]. replace (i - a1) with 0 by lia. reflexivity.
    - destruct (list_eq_dec _ _ _) as [X|_]; [discriminate X|]. destruct (list_eq_dec _ _ _) as [X|_].
      + assert (b1 - a1 = 1 /\ b2 - a2 = 1) as [X1 X2] by (split; congruence). rewrite X2. change (1 =? 1) with true. cbn iota. f_equal. lia.
      + destruct (Z.eqb_spec (b2 - a2) 1); [|reflexivity]. replace (j - a2) with 0 by lia. reflexivity.
    - reflexivity. }
  assert (F : fits (shape v) (lens [zrange a1 b1; zrange a2 b2; [c0]]) = true).
  { unfold lens. cbn [map length]. rewrite !zrange_length. change (Z.of_nat 1) with 1.
    destruct S as [->|[->| ->]]; unfold fits; cbn [rev app fits_rev]; change (1 =? 1) with true; cbn [andb orb]; try reflexivity.
    - rewrite Z2Nat.id by lia. rewrite Z.eqb_refl, orb_true_r. reflexivity.
    - rewrite Z2Nat.id by lia. rewrite Z.eqb_refl, orb_true_r. reflexivity. }
  unfold assign. rewrite F. eexists. split; [reflexivity|]. split; [reflexivity|]. cbn [elt]. intros i j c. cbn [locate]. rewrite !index_zrange.
  destruct (Z.leb_spec a1 i), (Z.ltb_spec i b1); cbn [andb bind]; auto.
  destruct (Z.leb_spec a2 j), (Z.ltb_spec j b2); cbn [andb bind]; auto.
  cbn [index_of]. destruct (Z.eqb_spec c c0); cbn [andb bind]; auto. rewrite E; auto.
Qed.
Lemma put_all {A} (a : arr A) n1 n2 n3 x d : 0 <= n1 -> 0 <= n2 -> 0 <= n3 ->
  exists r, assign a [zrange 0 n1; zrange 0 n2; zrange 0 n3] (Arr [] (fun _ => x) d) = Some r /\ shape r = shape a /\
    forall i j c, 0 <= i < n1 -> 0 <= j < n2 -> 0 <= c < n3 -> elt r [i; j; c] = x.
Proof.
  intros L1 L2 L3. unfold assign. cbn [shape]. eexists. split; [reflexivity|]. split; [reflexivity|]. cbn [elt]. intros i j c Hi Hj Hc.
  cbn [locate]. rewrite !index_zrange.
  destruct (Z.leb_spec 0 i), (Z.ltb_spec i n1), (Z.leb_spec 0 j), (Z.ltb_spec j n2), (Z.leb_spec 0 c), (Z.ltb_spec c n3); cbn [andb bind]; auto; lia.
Qed.
Lemma put_all2 {A} (a : arr A) n1 n2 x d : 0 <= n1 -> 0 <= n2 ->
  exists r, assign a [zrange 0 n1; zrange 0 n2] (Arr [] (fun _ => x) d) = Some r /\ shape r = shape a /\
    forall i j, 0 <= i < n1 -> 0 <= j < n2 -> elt r [i; j] = x.
Proof.
  intros L1 L2. unfold assign. cbn [shape]. eexists. split; [reflexivity|]. split; [reflexivity|]. cbn [elt]. intros i j Hi Hj.
  cbn [locate]. rewrite !index_zrange.
  destruct (Z.leb_spec 0 i), (Z.ltb_spec i n1), (Z.leb_spec 0 j), (Z.ltb_spec j n2); cbn [andb bind]; auto; lia.
Qed.

(** ** the slices of a rank *)
Section Slices.
  Variable rnd : Q -> Q.
  Hypothesis Hrnd : float_like rnd.
  Variable l : layout.
  Hypothesis Hl : 0 < fst l <= 2 ^ 52 /\ 0 < snd l <= 2 ^ 52.
  Variable ratio : Q.
  Hypothesis Hratio : (ratio == 1)%Q.
  Variable rank : Z.
  Hypothesis Hrank : 0 <= rank < tile_ranks l.

  Lemma cut_even n q k : 0 <= k <= n -> 0 < n -> cut n q q k = k * q.
  Proof. intros K N. unfold cut. destruct (Z.leb_spec k 0); [replace k with 0 by lia; lia|]. destruct (Z.eqb_spec k n); [|lia]. subst. destruct (Z.eqb_spec n 1); [subst; lia|lia]. Qed.

  Lemma slices_even nx ny tl : 1 <= nx -> 1 <= ny -> snd l * nx < 2 ^ 52 -> fst l * ny < 2 ^ 52 ->
    let i := snd (subtile_index l rank) in let j := fst (subtile_index l rank) in
    subtile_slice rnd l ratio rank (Dim AI true :: Dim AJ true :: tl) [snd l * nx + 1; fst l * ny + 1] false =
    Some [(i * nx, (i + 1) * nx + if i =? snd l - 1 then 1 else 0); (j * ny, (j + 1) * ny + if j =? fst l - 1 then 1 else 0)].
  Proof.
    intros X Y SX SY i j. unfold subtile_slice. pose proof (subtile_index_valid l Hl rank Hrank) as V. cbn [rank_slice].
    rewrite (extents_even rnd Hrnd l Hl ratio _ AI true nx) by (auto; cbn; lia). cbn [bind].
    rewrite (extents_even rnd Hrnd l Hl ratio _ AJ true ny) by (auto; cbn; lia). cbn [bind].
    assert (R : forall x, rank_slice rnd x [] l (subtile_index l rank) ratio false = Some []) by (intros [|[] ?]; reflexivity).
    rewrite R. cbn [bind fst snd]. rewrite !dim_slice_eq by auto. cbn [by_dim]. fold i j. destruct V as [V1 V2]. fold j in V1. fold i in V2.
    rewrite !cut_even by lia. cbn [orb andb]. reflexivity.
  Qed.
End Slices.

Section C103.
  Variable rnd : Q -> Q.
  Hypothesis Hrnd : float_like rnd.
  Variables (Float float64 : dtype) (b : string).
  Variable ratio : Q.
  Hypothesis Hratio : (ratio == 1)%Q.
  Variables (deglat dx_const dy_const : R).

  Local Notation terms l rank s := (new_terms rnd Float b l ratio rank deglat float64 s).

  (** a rank of a tile that is cut into equal parts of nx by ny cells, and a factory for these parts that has no metric terms yet *)
  Definition fresh (s : sizer) : Prop := forall n x, In (n, x) metric_dims -> get (data_dims s) n = None.
  Definition setup (l : layout) (rank : Z) (s : sizer) : Prop :=
    (0 < fst l <= 2 ^ 52 /\ 0 < snd l <= 2 ^ 52) /\ 0 <= rank < tile_ranks l /\
    1 <= nx s /\ 1 <= ny s /\ snd l * nx s < 2 ^ 52 /\ fst l * ny s < 2 ^ 52 /\ fresh s.
  (** the numbers of corners of the tile *)
  Definition npx (l : layout) (s : sizer) : Z := snd l * nx s + 1.
  Definition npy (l : layout) (s : sizer) : Z := fst l * ny s + 1.
  (** where the rank's first cell is on the tile *)
  Definition first_x (l : layout) (rank : Z) (s : sizer) : Z := snd (subtile_index l rank) * nx s.
  Definition first_y (l : layout) (rank : Z) (s : sizer) : Z := fst (subtile_index l rank) * ny s.

  Lemma new_sizer s : fresh s -> exists s', add_data_dimensions s metric_dims = Some s' /\
    nx s' = nx s /\ ny s' = ny s /\ n_halo s' = n_halo s /\ fortran s' = fortran s /\ get (data_dims s') LON_OR_LAT = Some 2.
  Proof.
    intros F. unfold add_data_dimensions, metric_dims. cbn [existsb fst snd fold_left].
    rewrite (F LON_OR_LAT 2), (F "tile"%string 6), (F "xyz_direction"%string 3) by (cbn; auto). cbn [orb].
    eexists. split; [reflexivity|]. cbn [nx ny n_halo fortran data_dims]. do 4 (split; [reflexivity|]). rewrite !get_put. reflexivity.
  Qed.

  Lemma zeros_grid s : get (data_dims s) LON_OR_LAT = Some 2 -> 1 <= nx s -> 1 <= ny s -> 0 <= n_halo s ->
    zeros64 Float b float64 s grid_dims "radians" =
    Some (Quantity (Arr [nx s + 1 + 2 * n_halo s; ny s + 1 + 2 * n_halo s; 2] (fun _ => Some 0%R) float64) grid_dims "radians"
      [n_halo s; n_halo s; 0] [nx s + 1; ny s + 1; 2] (n_halo s) b []).
  Proof.
    intros G X Y Hh. unfold zeros64, zeros, allocate, get_extent, get_shape, get_origin, grid_dims. cbn [map extent1 shape1 origin1 all_some cells one].
    rewrite G. cbn [bind existsb].
    destruct (Z.ltb_spec (nx s + 1 + 2 * n_halo s) 0), (Z.ltb_spec (ny s + 1 + 2 * n_halo s) 0); try lia. reflexivity.
  Qed.
  Lemma zeros_centres s : get (data_dims s) LON_OR_LAT = Some 2 -> 1 <= nx s -> 1 <= ny s -> 0 <= n_halo s ->
    let pad := if fortran s then 0 else 1 in
    zeros64 Float b float64 s [H AI false; H AJ false; Data LON_OR_LAT] "radians" =
    Some (Quantity (Arr [nx s + pad + 2 * n_halo s; ny s + pad + 2 * n_halo s; 2] (fun _ => Some 0%R) float64) [H AI false; H AJ false; Data LON_OR_LAT]
      "radians" [n_halo s; n_halo s; 0] [nx s + 0; ny s + 0; 2] (n_halo s) b []).
  Proof.
    intros G X Y Hh pad. unfold zeros64, zeros, allocate, get_extent, get_shape, get_origin. cbn [map extent1 shape1 origin1 all_some cells one].
    rewrite G. cbn [bind existsb]. fold pad. assert (0 <= pad) by (unfold pad; destruct (fortran s); lia).
    destruct (Z.ltb_spec (nx s + pad + 2 * n_halo s) 0), (Z.ltb_spec (ny s + pad + 2 * n_halo s) 0); try lia. reflexivity.
  Qed.

  Definition like (q r : quantity (option R)) : Prop :=
    dims r = dims q /\ shape (data r) = shape (data q) /\ origin r = origin q /\ extent r = extent q.
  Lemma like_trans q r u : like q r -> like r u -> like q u.
  Proof. unfold like. intros (A1 & A2 & A3 & A4) (B1 & B2 & B3 & B4). repeat split; congruence. Qed.
  Local Notation all := (Slice None None None).
  Lemma put_whole q n1 n2 n3 x : shape (data q) = [n1; n2; n3] -> 0 <= n1 -> 0 <= n2 -> 0 <= n3 ->
    exists r, put_at q [all; all; all] (number float64 x) = Some r /\ like q r /\
      forall i j c, 0 <= i < n1 -> 0 <= j < n2 -> 0 <= c < n3 -> elt (data r) [i; j; c] = x.
  Proof.
    intros E L1 L2 L3. unfold put_at. rewrite E. cbn [resolve map]. rewrite !resolve1_all by assumption. cbn [bind]. unfold setitem.
    destruct (put_all (data q) n1 n2 n3 x float64 L1 L2 L3) as (r & Er & Sr & Rr). unfold number. rewrite Er. cbn [bind].
    eexists. split; [reflexivity|]. split; [|exact Rr]. repeat split; assumption.
  Qed.
  Lemma put_layer q n1 n2 c0 x : shape (data q) = [n1; n2; 2] -> 0 <= n1 -> 0 <= n2 -> c0 = 0 \/ c0 = 1 ->
    exists r, put_at q [all; all; Int c0] (number float64 x) = Some r /\ like q r /\
      forall i j c, 0 <= i < n1 -> 0 <= j < n2 -> elt (data r) [i; j; c] = if c =? c0 then x else elt (data q) [i; j; c].
  Proof.
    intros E L1 L2 C. unfold put_at. rewrite E. cbn [resolve map]. rewrite !resolve1_all by assumption.
    assert (E0 : resolve1 2 (Int c0) = Some [c0]) by (destruct C as [->| ->]; reflexivity). rewrite E0. cbn [bind]. unfold setitem.
    destruct (put3 (data q) (number float64 x) 0 n1 0 n2 c0 L1 L2) as (r & Er & Sr & Rr); [right; right; reflexivity|]. rewrite Er. cbn [bind].
    eexists. split; [reflexivity|]. split; [repeat split; assumption|]. cbn [data]. intros i j c Hi Hj. rewrite Rr.
    destruct (Z.leb_spec 0 i), (Z.ltb_spec i n1), (Z.leb_spec 0 j), (Z.ltb_spec j n2); try lia. reflexivity.
  Qed.
  Lemma put_x q n1 n2 a1 b1 a2 b2 f : shape (data q) = [n1; n2; 2] -> 0 <= a1 <= b1 -> b1 <= n1 -> 0 <= a2 <= b2 -> b2 <= n2 ->
    exists r, put_at q [Slice (Some a1) (Some b1) None; Slice (Some a2) (Some b2) None; Int 0] (Arr [b1 - a1; 1; 1] f float64) = Some r /\ like q r /\
      forall i j c, elt (data r) [i; j; c] =
        if (a1 <=? i) && (i <? b1) && ((a2 <=? j) && (j <? b2)) && (c =? 0) then f [i - a1; 0; 0] else elt (data q) [i; j; c].
  Proof.
    intros E L1 L2 L3 L4. unfold put_at. rewrite E. cbn [resolve map]. rewrite !resolve1_part by lia. change (resolve1 2 (Int 0)) with (Some [0]). cbn [bind].
    unfold setitem. destruct (put3 (data q) (Arr [b1 - a1; 1; 1] f float64) a1 b1 a2 b2 0 ltac:(lia) ltac:(lia)) as (r & Er & Sr & Rr); [left; reflexivity|].
    rewrite Er. cbn [bind]. eexists. split; [reflexivity|]. split; [repeat split; assumption|]. cbn [data]. intros i j c. rewrite Rr. cbn [shape].
    destruct (list_eq_dec _ _ _) as [X|_]; [discriminate X|]. destruct (list_eq_dec _ _ _) as [_|X]; [|now destruct X]. reflexivity.
  Qed.
  Lemma put_y q n1 n2 a1 b1 a2 b2 f : shape (data q) = [n1; n2; 2] -> 0 <= a1 <= b1 -> b1 <= n1 -> 0 <= a2 <= b2 -> b2 <= n2 ->
    exists r, put_at q [Slice (Some a1) (Some b1) None; Slice (Some a2) (Some b2) None; Int 1] (Arr [1; b2 - a2; 1] (fun p => f (nth 1 p 0)) float64) = Some r /\ like q r /\
      forall i j c, elt (data r) [i; j; c] =
        if (a1 <=? i) && (i <? b1) && ((a2 <=? j) && (j <? b2)) && (c =? 1) then f (j - a2) else elt (data q) [i; j; c].
  Proof.
    intros E L1 L2 L3 L4. unfold put_at. rewrite E. cbn [resolve map]. rewrite !resolve1_part by lia. change (resolve1 2 (Int 1)) with (Some [1]). cbn [bind].
    unfold setitem.
    destruct (put3 (data q) (Arr [1; b2 - a2; 1] (fun p => f (nth 1 p 0)) float64) a1 b1 a2 b2 1 ltac:(lia) ltac:(lia)) as (r & Er & Sr & Rr); [right; left; reflexivity|].
    rewrite Er. cbn [bind]. eexists. split; [reflexivity|]. split; [repeat split; assumption|]. cbn [data]. intros i j c. rewrite Rr. cbn [shape].
    destruct (list_eq_dec _ _ _) as [X|_]; [discriminate X|]. destruct (list_eq_dec _ _ _) as [X|_]; [|reflexivity].
    destruct ((a1 <=? i) && (i <? b1) && ((a2 <=? j) && (j <? b2)) && (c =? 1)) eqn:T; [|reflexivity]. cbn [nth elt].
    cbn [shape] in X. injection X as X1 X2. apply andb_prop in T as [T _]. apply andb_prop in T as [_ T]. apply andb_prop in T as [T1 T2].
    apply Z.leb_le in T1. apply Z.ltb_lt in T2. f_equal. lia.
  Qed.

  (** everything the constructor computes, for three or more halo points in the factory *)
  Lemma terms_are l rank s : setup l rank s -> 3 <= n_halo s ->
    exists s' g a, terms l rank s = Some (s', g, a) /\ add_data_dimensions s' metric_dims = None /\
      (dims g = grid_dims /\ shape (data g) = [nx s + 1 + 2 * n_halo s; ny s + 1 + 2 * n_halo s; 2] /\
       origin g = [n_halo s; n_halo s; 0] /\ extent g = [nx s + 1; ny s + 1; 2]) /\
      (dims a = [H AI false; H AJ false; Data LON_OR_LAT] /\ origin a = [n_halo s; n_halo s; 0] /\ extent a = [nx s; ny s; 2]) /\
      (forall i j, 0 <= i < nx s + 1 + 2 * n_halo s -> 0 <= j < ny s + 1 + 2 * n_halo s ->
        let gi := first_x l rank s + i - 3 in let gj := first_y l rank s + j - 3 in
        let set := (0 <= gi < npx l s /\ i < nx s + 6) /\ (0 <= gj < npy l s /\ j < ny s + 6) in
        (set -> elt (data g) [i; j; 0] = Some (even_corner (npx l s) 0 gi) /\
                elt (data g) [i; j; 1] = Some (even_corner (npy l s) (deglat * PI / 180) gj)) /\
        (~ set -> elt (data g) [i; j; 0] = None /\ elt (data g) [i; j; 1] = None)) /\
      (forall i j, 0 <= i < nx s + 2 * n_halo s -> 0 <= j < ny s + 2 * n_halo s ->
        elt (data a) [i; j; 0] = Some 0%R /\ elt (data a) [i; j; 1] = Some (deglat * PI / 180)%R).
  Proof.
    intros (Hl & Hrank & X & Y & SX & SY & Fr) Hh. destruct (new_sizer s Fr) as (s' & Es & Nx & Ny & Nh & Fo & G). unfold new_terms. rewrite Es. cbn [bind].
    assert (Ag : add_data_dimensions s' metric_dims = None).
    { unfold add_data_dimensions, metric_dims. cbn [existsb fst]. rewrite G. reflexivity. }
    rewrite zeros_grid by (auto; lia). cbn [bind dims extent map to_dim grid_dims global_extent]. unfold global_extent1. cbn [by_dim].
    rewrite zeros_centres by (auto; lia). cbn [bind]. rewrite Nx, Ny, Nh, Fo.
    replace ((nx s + 1 + -1) * snd l - -1) with (npx l s) by (unfold npx; lia).
    replace ((ny s + 1 + -1) * fst l - -1) with (npy l s) by (unfold npy; lia).
    set (h := n_halo s) in *. set (pad := if fortran s then 0 else 1). assert (P : 0 <= pad) by (unfold pad; destruct (fortran s); lia).
    pose proof (subtile_index_valid l Hl rank Hrank) as [V1 V2].
    unfold init_cartesian. cbn [dims map to_dim grid_dims].
    match goal with |- context [put_at ?q [all; all; all] _] =>
      destruct (put_whole q _ _ _ None eq_refl ltac:(lia) ltac:(lia) ltac:(lia)) as (g1 & E1 & L1 & R1); rewrite E1 end. cbn [bind].
    replace [npx l s; npy l s] with [snd l * nx s + 1; fst l * ny s + 1] by reflexivity.
    rewrite (slices_even rnd Hrnd l Hl ratio Hratio rank Hrank (nx s) (ny s)) by auto. cbn [bind].
    fold (first_x l rank s) (first_y l rank s). unfold spans. cbn [fst snd]. unfold N_HALO_DEFAULT.
    set (ki := snd (subtile_index l rank)) in *. set (kj := fst (subtile_index l rank)) in *.
    assert (Bx : first_x l rank s = ki * nx s) by reflexivity. assert (By : first_y l rank s = kj * ny s) by reflexivity.
    set (fx := first_x l rank s) in *. set (fy := first_y l rank s) in *.
    assert (Px : 0 <= fx /\ fx + nx s <= npx l s - 1 /\ (ki <> snd l - 1 -> fx + 2 * nx s <= npx l s - 1)) by (unfold npx; nia).
    assert (Py : 0 <= fy /\ fy + ny s <= npy l s - 1 /\ (kj <> fst l - 1 -> fy + 2 * ny s <= npy l s - 1)) by (unfold npy; nia).
    assert (Qx : ki = snd l - 1 -> fx + nx s = npx l s - 1) by (intros E; unfold npx; rewrite Bx, E; ring).
    assert (Qy : kj = fst l - 1 -> fy + ny s = npy l s - 1) by (intros E; unfold npy; rewrite By, E; ring).
    assert (Tx : (ki + 1) * nx s = fx + nx s) by lia. assert (Ty : (kj + 1) * ny s = fy + ny s) by lia. rewrite Tx, Ty. clear Tx Ty.
    set (ex := if ki =? snd l - 1 then 1 else 0). set (ey := if kj =? fst l - 1 then 1 else 0).
    assert (Ux : Z.min (fx + nx s + ex + 3) (npx l s) = Z.min (fx + nx s + 3) (npx l s) /\ fx <= Z.min (fx + nx s + 3) (npx l s)).
    { unfold ex. destruct (Z.eqb_spec ki (snd l - 1)) as [E|E]; [specialize (Qx E)|]; lia. }
    assert (Uy : Z.min (fy + ny s + ey + 3) (npy l s) = Z.min (fy + ny s + 3) (npy l s) /\ fy <= Z.min (fy + ny s + 3) (npy l s)).
    { unfold ey. destruct (Z.eqb_spec kj (fst l - 1)) as [E|E]; [specialize (Qy E)|]; lia. }
    destruct Ux as [-> Ux], Uy as [-> Uy]. clear ex ey.
    set (isg := Z.max (fx - 3) 0). set (jsg := Z.max (fy - 3) 0). set (ieg := Z.min (fx + nx s + 3) (npx l s)) in *. set (jeg := Z.min (fy + ny s + 3) (npy l s)) in *.
    set (isl := isg - (fx - 3)). set (jsl := jsg - (fy - 3)).
    assert (Wx : 0 <= isl <= 3 /\ isl <= isl + ieg - isg <= nx s + 1 + 2 * h /\ isg = fx - 3 + isl) by (unfold isl, isg, ieg in *; lia).
    assert (Wy : 0 <= jsl <= 3 /\ jsl <= jsl + jeg - jsg <= ny s + 1 + 2 * h /\ jsg = fy - 3 + jsl) by (unfold jsl, jsg, jeg in *; lia).
    replace (Z.max 0 (ieg - isg)) with (isl + ieg - isg - isl) by lia. replace (Z.max 0 (jeg - jsg)) with (jsl + jeg - jsg - jsl) by lia.
    pose proof (proj1 (proj2 L1)) as S1. cbn [data shape] in S1, R1.
    match goal with |- context [put_at g1 _ (Arr _ ?f _)] =>
      destruct (put_x g1 _ _ isl (isl + ieg - isg) jsl (jsl + jeg - jsg) f S1 ltac:(lia) ltac:(lia) ltac:(lia) ltac:(lia)) as (g2 & E2 & L2 & R2) end.
    rewrite E2. cbn [bind]. pose proof (proj1 (proj2 L2)) as S2. rewrite S1 in S2.
    destruct (put_y g2 _ _ isl (isl + ieg - isg) jsl (jsl + jeg - jsg) (fun z => Some (lat_rad deglat + frac (npy l s) (jsg + z) * domain_rad)%R) S2
      ltac:(lia) ltac:(lia) ltac:(lia) ltac:(lia)) as (g3 & E3 & L3 & R3).
    cbv beta in E3. rewrite E3. cbn [bind].
    match goal with |- context [put_at ?q [all; all; Int 0] _] =>
      destruct (put_layer q _ _ 0 (Some lon_rad) eq_refl ltac:(lia) ltac:(lia) (or_introl eq_refl)) as (a1 & F1 & M1 & T1); rewrite F1 end. cbn [bind].
    pose proof (proj1 (proj2 M1)) as U1. cbn [data shape] in U1.
    destruct (put_layer a1 _ _ 1 (Some (lat_rad deglat)) U1 ltac:(lia) ltac:(lia) (or_intror eq_refl)) as (a2 & F2 & M2 & T2). rewrite F2. cbn [bind fst snd].
    exists s', g3, a2. split; [reflexivity|]. split; [exact Ag|]. split; [|split; [|split]].
    - destruct (like_trans _ _ _ (like_trans _ _ _ L1 L2) L3) as (A1 & A2 & A3 & A4). cbn in A1, A2, A3, A4. auto.
    - destruct (like_trans _ _ _ M1 M2) as (A1 & A2 & A3 & A4). cbn [dims origin extent] in A1, A3, A4. rewrite A1, A3, A4. rewrite !Z.add_0_r. auto.
    - intros i j Hi Hj. set (gi := fx + i - 3). set (gj := fy + j - 3).
      match goal with |- (?P -> _) /\ _ => set (set0 := P) end. rewrite !R3, !R2. cbn [Z.eqb andb]. rewrite !andb_false_r, !andb_true_r. rewrite !R1 by lia.
      assert (B : (isl <=? i) && (i <? isl + ieg - isg) && ((jsl <=? j) && (j <? jsl + jeg - jsg)) = true <-> set0).
      { unfold set0, gi, gj. unfold isl, isg, ieg, jsl, jsg, jeg in *.
        rewrite !andb_true_iff, !Z.leb_le, !Z.ltb_lt. lia. }
      destruct ((isl <=? i) && (i <? isl + ieg - isg) && ((jsl <=? j) && (j <? jsl + jeg - jsg))).
      + split; [|intros N; destruct N; now apply B]. intros _. cbn [nth]. unfold frac, lon_rad, lat_rad, domain_rad, even_corner.
        replace (isg + (i - isl)) with gi by (unfold gi; lia). replace (jsg + (j - jsl)) with gj by (unfold gj; lia).
        split; f_equal; field; apply not_0_IZR; lia.
      + split; [intros N; apply B in N; discriminate|]. auto.
    - intros i j Hi Hj. rewrite !T2, !T1 by lia. split; reflexivity.
  Qed.

  (** *** the corners *)
  (** The corners of a rank's compute domain are those of an evenly spaced tile: the coordinates depend on the position on the tile only.
      Missing from the full statement: factories with another number of halo points than three. *)
  Theorem C103_compute_domain_partial : forall l rank s, setup l rank s -> n_halo s = 3 ->
    exists s' g a, terms l rank s = Some (s', g, a) /\ origin g = [3; 3; 0] /\ extent g = [nx s + 1; ny s + 1; 2] /\
      forall i j, 0 <= i <= nx s -> 0 <= j <= ny s ->
        elt (data g) [3 + i; 3 + j; 0] = Some (even_corner (npx l s) 0 (first_x l rank s + i)) /\
        elt (data g) [3 + i; 3 + j; 1] = Some (even_corner (npy l s) (deglat * PI / 180) (first_y l rank s + j)).
  Proof.
    intros l rank s S E. destruct (terms_are l rank s S ltac:(lia)) as (s' & g & a & Et & _ & (_ & _ & O & X) & _ & G & _).
    exists s', g, a. split; [exact Et|]. rewrite E in *. split; [exact O|]. split; [exact X|]. intros i j Hi Hj.
    destruct S as (Hl & Hr & _). destruct (subtile_index_valid l Hl rank Hr) as [V1 V2].
    assert (0 <= first_x l rank s /\ first_x l rank s + nx s < npx l s) by (unfold first_x, npx; nia).
    assert (0 <= first_y l rank s /\ first_y l rank s + ny s < npy l s) by (unfold first_y, npy; nia).
    destruct (G (3 + i) (3 + j)) as [G1 _]; [lia|lia|]. cbv zeta in G1.
    replace (first_x l rank s + (3 + i) - 3) with (first_x l rank s + i) in G1 by lia.
    replace (first_y l rank s + (3 + j) - 3) with (first_y l rank s + j) in G1 by lia. apply G1. lia.
  Qed.

  (** The whole array with its halo: a corner of the tile has its coordinates, a point outside of the tile is NaN.
      Missing from the full statement: the last line and the last column of the array, which are NaN even where they are on the tile. *)
  Theorem C103_halo_partial : forall l rank s, setup l rank s -> n_halo s = 3 ->
    exists s' g a, terms l rank s = Some (s', g, a) /\ shape (data g) = [nx s + 7; ny s + 7; 2] /\
      forall i j, 0 <= i < nx s + 7 -> 0 <= j < ny s + 7 ->
        let gi := first_x l rank s + i - 3 in let gj := first_y l rank s + j - 3 in
        (0 <= gi < npx l s -> 0 <= gj < npy l s -> i < nx s + 6 -> j < ny s + 6 ->
           elt (data g) [i; j; 0] = Some (even_corner (npx l s) 0 gi) /\
           elt (data g) [i; j; 1] = Some (even_corner (npy l s) (deglat * PI / 180) gj)) /\
        (~ (0 <= gi < npx l s /\ 0 <= gj < npy l s) -> elt (data g) [i; j; 0] = None /\ elt (data g) [i; j; 1] = None) /\
        (i = nx s + 6 \/ j = ny s + 6 -> elt (data g) [i; j; 0] = None /\ elt (data g) [i; j; 1] = None).
  Proof.
    intros l rank s S E. destruct (terms_are l rank s S ltac:(lia)) as (s' & g & a & Et & _ & (_ & Sh & _) & _ & G & _).
    exists s', g, a. split; [exact Et|]. rewrite E in *. split; [rewrite Sh; f_equal; [lia|f_equal; lia]|]. intros i j Hi Hj gi gj.
    destruct (G i j) as [G1 G2]; [lia|lia|]. split; [|split].
    - intros A B C D. apply G1. repeat split; assumption || apply A || apply B.
    - intros N. apply G2. intros [[A _] [B _]]. apply N. split; assumption.
    - intros N. apply G2. intros [[_ A] [_ B]]. lia.
  Qed.

  (** Two ranks, of the same or of different layouts, that hold the same corner of the tile hold the same coordinates. *)
  Theorem C103_layouts_agree_partial : forall l rank s l' rank' s', setup l rank s -> setup l' rank' s' -> n_halo s = 3 -> n_halo s' = 3 ->
    npx l s = npx l' s' -> npy l s = npy l' s' ->
    exists t g a t' g' a', terms l rank s = Some (t, g, a) /\ terms l' rank' s' = Some (t', g', a') /\
      forall i j i' j', 0 <= i <= nx s -> 0 <= j <= ny s -> 0 <= i' <= nx s' -> 0 <= j' <= ny s' ->
        first_x l rank s + i = first_x l' rank' s' + i' -> first_y l rank s + j = first_y l' rank' s' + j' ->
        forall c, c = 0 \/ c = 1 -> elt (data g) [3 + i; 3 + j; c] <> None /\ elt (data g) [3 + i; 3 + j; c] = elt (data g') [3 + i'; 3 + j'; c].
  Proof.
    intros l rank s l' rank' s' S S' E E' Nx Ny.
    destruct (C103_compute_domain_partial l rank s S E) as (t & g & a & T & _ & _ & G).
    destruct (C103_compute_domain_partial l' rank' s' S' E') as (t' & g' & a' & T' & _ & _ & G').
    exists t, g, a, t', g', a'. split; [exact T|]. split; [exact T'|]. intros i j i' j' Hi Hj Hi' Hj' Ei Ej c C.
    destruct (G i j Hi Hj) as [G1 G2], (G' i' j' Hi' Hj') as [G1' G2'].
    destruct C as [->| ->]; [rewrite G1, G1', Nx, Ei|rewrite G2, G2', Ny, Ej]; split; congruence.
  Qed.

  (** *** the centres: all at one point, in the middle of the tile *)
  Theorem C103_centres_partial : forall l rank s, setup l rank s -> n_halo s = 3 ->
    exists s' g a, terms l rank s = Some (s', g, a) /\ extent a = [nx s; ny s; 2] /\ origin a = [3; 3; 0] /\
      forall i j, 0 <= i < nx s -> 0 <= j < ny s ->
        elt (data a) [3 + i; 3 + j; 0] = Some 0%R /\ elt (data a) [3 + i; 3 + j; 1] = Some (deglat * PI / 180)%R.
  Proof.
    intros l rank s S E. destruct (terms_are l rank s S ltac:(lia)) as (s' & g & a & Et & _ & _ & (_ & O & X) & _ & A).
    exists s', g, a. split; [exact Et|]. rewrite E in *. split; [exact X|]. split; [exact O|]. intros i j Hi Hj. apply A; lia.
  Qed.

  (** *** one factory serves one MetricTerms *)
  Theorem C103_factory_once : forall l rank s s' g a, terms l rank s = Some (s', g, a) ->
    forall l' rank', terms l' rank' s' = None.
  Proof.
    intros l rank s s' g a T l' rank'. unfold new_terms in T at 1.
    destruct (add_data_dimensions s metric_dims) as [s1|] eqn:E; [|discriminate T]. cbn [bind] in T.
    destruct (zeros64 Float b float64 s1 grid_dims "radians"); [|discriminate T]. cbn [bind] in T.
    destruct (global_extent _ _ _) as [|p [|p0 [|r []]]]; try discriminate T.
    destruct (zeros64 Float b float64 s1 _ "radians"); [|discriminate T]. cbn [bind] in T.
    destruct (init_cartesian _ _ _ _ _ _ _ _ _ _); [|discriminate T]. cbn [bind] in T.
    assert (s1 = s') by congruence. subst s1. clear T. unfold new_terms.
    replace (add_data_dimensions s' metric_dims) with (@None sizer); [reflexivity|]. symmetry.
    unfold add_data_dimensions in E. destruct (existsb _ metric_dims); [discriminate E|]. injection E as <-.
    unfold add_data_dimensions, metric_dims. cbn [existsb fst snd fold_left data_dims]. rewrite !get_put. reflexivity.
  Qed.

  (** *** lengths and areas *)
  Theorem C103_metric : forall s m, 0 <= nx s -> 0 <= ny s -> 0 <= n_halo s ->
    exists q, metric_term Float b dx_const dy_const float64 s m = Some q /\ dims q = halfway (joins m) /\ units q = match m with area | area_c => "m^2" | _ => "m" end%string /\
      exists n1 n2, get_shape s (halfway (joins m)) = Some [n1; n2] /\ shape (data q) = [n1; n2] /\ forall i j, 0 <= i < n1 -> 0 <= j < n2 ->
        elt (data q) [i; j] = Some (match m with
          | dx | dx_agrid | dx_center => dx_const | dy | dy_agrid | dy_center => dy_const | area | area_c => (dx_const * dy_const)%R end).
  Proof.
    intros s m X Y Hh. assert (Hw : halfway (joins m) = metric_place m) by (destruct m; reflexivity). rewrite Hw. clear Hw. unfold metric_term, zeros64, zeros, allocate, get_extent, get_shape, get_origin.
    assert (Zs : exists n1 n2, map (shape1 s) (metric_place m) = [Some n1; Some n2] /\ 0 <= n1 /\ 0 <= n2 /\
      exists e1 e2, map (extent1 s) (metric_place m) = [Some e1; Some e2] /\ length (metric_place m) = 2%nat).
    { assert (P : 0 <= (if fortran s then 0 else 1)) by (destruct (fortran s); lia).
      destruct m; cbn [metric_place map shape1 extent1 cells length]; do 2 eexists; (split; [reflexivity|]); (split; [lia|]); (split; [lia|]);
        do 2 eexists; split; reflexivity. }
    destruct Zs as (n1 & n2 & -> & N1 & N2 & e1 & e2 & -> & L). cbn [all_some bind existsb].
    destruct (Z.ltb_spec n1 0), (Z.ltb_spec n2 0); try lia. cbn [orb]. unfold new_quantity. cbn [negb andb shape length].
    rewrite map_length, L. cbn [Nat.eqb andb bind]. unfold put_at. cbn [data shape resolve map]. rewrite !resolve1_all by lia. cbn [bind].
    unfold setitem. cbn [data].
    destruct (put_all2 (Arr [n1; n2] (fun _ => Some 0%R) float64) n1 n2 (Some (metric_value dx_const dy_const m)) float64 N1 N2) as (r & E & S & R).
    unfold number. rewrite E. cbn [bind]. eexists. split; [reflexivity|]. cbn [dims data units]. split; [reflexivity|]. split; [destruct m; reflexivity|].
    exists n1, n2. split; [reflexivity|]. split; [exact S|]. intros i j Hi Hj. rewrite R by assumption. destruct m; reflexivity.
  Qed.
End C103.
Print Assumptions C103_compute_domain_partial.
Print Assumptions C103_halo_partial.
Print Assumptions C103_layouts_agree_partial.
Print Assumptions C103_centres_partial.
Print Assumptions C103_factory_once.
Print Assumptions C103_metric.

(** the specification: the corners go from pi / 32 before the middle to pi / 32 behind it, in equal steps *)
Theorem C103_even_corner : forall n m, 2 <= n ->
  even_corner n m 0 = (m - PI / 32)%R /\ even_corner n m (n - 1) = (m + PI / 32)%R /\
  forall g, (even_corner n m (g + 1) - even_corner n m g = even_corner n m 1 - even_corner n m 0)%R /\ (even_corner n m g < even_corner n m (g + 1))%R.
Proof.
  intros n m N. unfold even_corner. assert (P : (0 < IZR (n - 1))%R) by (apply IZR_lt; lia).
  assert (Q : (0 < PI / 16 / IZR (n - 1))%R) by (apply Rdiv_lt_0_compat; [pose proof PI_RGT_0; lra|exact P]).
  split; [|split].
  - rewrite Rmult_0_l. ring.
  - field. lra.
  - intros g. rewrite plus_IZR. split; [ring|lra].
Qed.
Print Assumptions C103_even_corner.

(** ** what does not hold *)
Definition id_q (q : Q) : Q := q.
Lemma id_float : float_like id_q.
Proof. intros q z E _. exact E. Qed.
Definition tile4 (h : Z) : sizer := mkSizer 4 4 1 h [] false.
Lemma tile4_setup l rank h : 0 < fst l <= 4 -> 0 < snd l <= 4 -> 0 <= rank < tile_ranks l -> setup l rank (tile4 h).
Proof. intros A B C. unfold setup, tile4, fresh. cbn [nx ny data_dims get]. repeat split; try lia; try apply C. Qed.

(** Full statement: every point of the array that is a corner of the tile has its coordinates.  Two ranks in x: the last column
    of the first rank's halo is on the tile, and it is NaN. *)
Theorem C103_halo_refuted : ~ (forall l rank s, setup l rank s -> n_halo s = 3 ->
  exists s' g a, new_terms id_q Float64 "numpy" l 1 rank 15 Float64 s = Some (s', g, a) /\
    forall i j, 0 <= i < nx s + 7 -> 0 <= j < ny s + 7 ->
      0 <= first_x l rank s + i - 3 < npx l s -> 0 <= first_y l rank s + j - 3 < npy l s ->
      elt (data g) [i; j; 0] = Some (even_corner (npx l s) 0 (first_x l rank s + i - 3))).
Proof.
  intros X. pose proof (tile4_setup (1, 2) 0 3 ltac:(cbn; lia) ltac:(cbn; lia) ltac:(cbn; lia)) as S.
  destruct (X _ _ _ S eq_refl) as (s' & g & a & E & G).
  destruct (C103_halo_partial id_q id_float Float64 Float64 "numpy" 1 (Qeq_refl 1) 15 _ _ _ S eq_refl) as (s2 & g2 & a2 & E2 & _ & G2).
  assert (g2 = g) by congruence. subst g2.
  destruct (G2 10 3) as (_ & _ & N); [cbn; lia|cbn; lia|]. destruct N as [N _]; [left; reflexivity|].
  rewrite (G 10 3) in N; [discriminate N| | | |]; cbn; lia.
Qed.
Print Assumptions C103_halo_refuted.

(** Full statement: the centre of a cell lies between its corners. *)
Theorem C103_centres_refuted : ~ (forall l rank s, setup l rank s -> n_halo s = 3 ->
  exists s' g a, new_terms id_q Float64 "numpy" l 1 rank 15 Float64 s = Some (s', g, a) /\
    forall i j, 0 <= i < nx s -> 0 <= j < ny s -> exists west centre east,
      elt (data g) [3 + i; 3 + j; 0] = Some west /\ elt (data g) [3 + (i + 1); 3 + j; 0] = Some east /\ elt (data a) [3 + i; 3 + j; 0] = Some centre /\
      (west <= centre <= east)%R).
Proof.
  intros X. pose proof (tile4_setup (1, 1) 0 3 ltac:(cbn; lia) ltac:(cbn; lia) ltac:(cbn; lia)) as S.
  destruct (X _ _ _ S eq_refl) as (s' & g & a & E & G).
  destruct (C103_compute_domain_partial id_q id_float Float64 Float64 "numpy" 1 (Qeq_refl 1) 15 _ _ _ S eq_refl) as (s2 & g2 & a2 & E2 & _ & _ & G2).
  destruct (C103_centres_partial id_q id_float Float64 Float64 "numpy" 1 (Qeq_refl 1) 15 _ _ _ S eq_refl) as (s3 & g3 & a3 & E3 & _ & _ & G3).
  assert (g2 = g) by congruence. assert (a3 = a) by congruence. subst g2 a3.
  destruct (G 0 0) as (w & c & e & W & Ee & C & L1 & L2); [cbn; lia|cbn; lia|].
  destruct (G2 (0 + 1) 0) as [A _]; [cbn; lia|cbn; lia|]. destruct (G3 0 0) as [B _]; [cbn; lia|cbn; lia|].
  rewrite A in Ee. rewrite B in C. injection Ee as <-. injection C as <-.
  change (npx (1, 1) (tile4 3)) with 5 in L2. change (first_x (1, 1) 0 (tile4 3) + (0 + 1)) with 1 in L2. unfold even_corner in L2.
  change (5 - 1) with 4 in L2. pose proof PI_RGT_0. lra.
Qed.
Print Assumptions C103_centres_refuted.

(** Full statement: dy is the distance between corners on the sphere of the model (constants.py 119, RADIUS = 6371.2 km).  With the
    default of 1000 m and 12 cells the corners are 100 km apart. *)
Theorem C103_spacing_refuted : ~ (forall l rank s, setup l rank s -> n_halo s = 3 ->
  exists s' g a q, new_terms id_q Float64 "numpy" l 1 rank 15 Float64 s = Some (s', g, a) /\
    metric_term Float64 "numpy" 1000 1000 Float64 s dy = Some q /\
    forall i j, 0 <= i <= nx s -> 0 <= j < ny s -> exists south north length,
      elt (data g) [3 + i; 3 + j; 1] = Some south /\ elt (data g) [3 + i; 3 + (j + 1); 1] = Some north /\
      elt (data q) [3 + i; 3 + j] = Some length /\ (length = 6371200 * (north - south))%R).
Proof.
  intros X. assert (S : setup (1, 1) 0 (mkSizer 12 12 1 3 [] false)).
  { unfold setup, fresh. cbn [nx ny data_dims get fst snd tile_ranks]. repeat split; try lia. }
  destruct (X _ _ _ S eq_refl) as (s' & g & a & q & E & Q & G).
  destruct (C103_compute_domain_partial id_q id_float Float64 Float64 "numpy" 1 (Qeq_refl 1) 15 _ _ _ S eq_refl) as (s2 & g2 & a2 & E2 & _ & _ & G2).
  assert (g2 = g) by congruence. subst g2. destruct (G 0 0) as (w & e & n & W & Ee & N & L); [cbn; lia|cbn; lia|].
  destruct (G2 0 (0 + 1)) as [_ A]; [cbn; lia|cbn; lia|]. destruct (G2 0 0) as [_ B]; [cbn; lia|cbn; lia|].
  destruct (C103_metric Float64 Float64 "numpy" 1000 1000 (mkSizer 12 12 1 3 [] false) dy) as (q2 & Q2 & _ & _ & n1 & n2 & Sz & _ & M); [cbn; lia|cbn; lia|cbn; lia|].
  assert (q2 = q) by congruence. subst q2. vm_compute in Sz. injection Sz as <- <-.
  rewrite (M (3 + 0) (3 + 0)) in N by lia. rewrite A in Ee. rewrite B in W. injection Ee as <-. injection W as <-. injection N as <-.
  change (npy (1, 1) (mkSizer 12 12 1 3 [] false)) with 13 in L. change (first_y (1, 1) 0 (mkSizer 12 12 1 3 [] false)) with 0 in L.
  change (0 + (0 + 1)) with 1 in L. change (0 + 0) with 0 in L. unfold even_corner in L. change (13 - 1) with 12 in L.
  pose proof PI2_3_2. lra.
Qed.
Print Assumptions C103_spacing_refuted.

(** Full statement: the corners of the compute domain are right whatever the number of halo points.  With four, each rank holds the
    coordinates of the next corner. *)
Theorem C103_halo_size_refuted : ~ (forall l rank s, setup l rank s -> 0 <= n_halo s ->
  exists s' g a, new_terms id_q Float64 "numpy" l 1 rank 15 Float64 s = Some (s', g, a) /\
    elt (data g) [n_halo s; n_halo s; 0] = Some (even_corner (npx l s) 0 (first_x l rank s))).
Proof.
  intros X. pose proof (tile4_setup (1, 1) 0 4 ltac:(cbn; lia) ltac:(cbn; lia) ltac:(cbn; lia)) as S.
  destruct (X _ _ _ S ltac:(cbn; lia)) as (s' & g & a & E & G).
  destruct (terms_are id_q id_float Float64 Float64 "numpy" 1 (Qeq_refl 1) 15 _ _ _ S ltac:(cbn; lia)) as (s2 & g2 & a2 & E2 & _ & _ & _ & G2 & _).
  assert (g2 = g) by congruence. subst g2. destruct (G2 4 4) as [A _]; [cbn; lia|cbn; lia|]. cbv zeta in A.
  change (n_halo (tile4 4)) with 4 in G. rewrite (proj1 (A ltac:(cbn; lia))) in G. injection G as G.
  change (npx (1, 1) (tile4 4)) with 5 in G. change (first_x (1, 1) 0 (tile4 4) + 4 - 3) with 1 in G. change (first_x (1, 1) 0 (tile4 4)) with 0 in G.
  unfold even_corner in G. change (5 - 1) with 4 in G. pose proof PI_RGT_0. lra.
Qed.
Print Assumptions C103_halo_size_refuted.

(** the second of two ranks in x, 4 by 4 cells each *)
Example C103_case : setup (1, 2) 1 (tile4 3) /\ npx (1, 2) (tile4 3) = 9 /\ npy (1, 2) (tile4 3) = 5 /\ first_x (1, 2) 1 (tile4 3) = 4.
Proof. split; [apply tile4_setup; cbn; lia|]. repeat split; vm_compute; reflexivity. Qed.
