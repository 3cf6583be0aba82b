(** C138: the edge regions of stencils are the edges of the tile, on every rank. *)
From Coq Require Import QArith ZifyBool.
From Verif Require Import Base PartModel PartProofs DecompModel DecompSpec DecompProofs DecompProofs2 GridModel GridProofs RimModel.
Open Scope Z_scope.

(** ** One axis *)
Section Axis.
  Variables n inner edge cells h : Z.
  Hypothesis Hn : 0 < n.
  Hypothesis Hc : covers n cells inner edge.
  Hypothesis Hh : 0 <= h.
  (** every rank along the axis has more cells than the halo has points *)
  Hypothesis Hw : forall k, 0 <= k < n -> h < cut n inner edge (k + 1) - cut n inner edge k.

  Lemma axis_rim k g a origin domain p1 p2 p3 p4 :
    0 <= k < n -> g_origin g a = h -> g_domain g a = cut n inner edge (k + 1) - cut n inner edge k ->
    axis_offsets g a (k =? 0) (k =? n - 1) origin domain = (p1, p2, p3, p4) ->
    forall shape, 0 <= origin -> 1 <= domain -> origin + domain <= shape -> shape <= 32767 ->
    g_domain g a + 2 * h <= shape ->
    selects origin domain (g_domain g a) (cut n inner edge k) h p1 0 /\
    selects origin domain (g_domain g a) (cut n inner edge k) h p3 (cells - 1).
  Proof.
    intros Hk Go Gd E shape O D S B R. apply axis_offsets_ok in E. destruct E as (_ & _ & E1 & E3 & E5).
    destruct (E5 shape O D S B) as [F1 F3]. rewrite Gd in *. rewrite Go in *.
    pose proof (cut_n n inner edge cells Hn Hc) as CN.
    split; intros c Cc; unfold tile_cell.
    - destruct (Z.eqb_spec k 0) as [->|N].
      + rewrite E1 by reflexivity. rewrite cut_0. lia.
      + specialize (F1 eq_refl). pose proof (Hw 0 ltac:(lia)) as W. rewrite cut_0 in W.
        pose proof (cut_mono n inner edge cells Hn Hc (0 + 1) k ltac:(lia) ltac:(lia) ltac:(lia)). lia.
    - destruct (Z.eqb_spec k (n - 1)) as [->|N].
      + rewrite E3 by reflexivity. replace (n - 1 + 1) with n in * by lia. rewrite CN. lia.
      + specialize (F3 eq_refl). pose proof (Hw (n - 1) ltac:(lia)) as W. replace (n - 1 + 1) with n in W by lia. rewrite CN in W.
        pose proof (cut_mono n inner edge cells Hn Hc (k + 1) (n - 1) ltac:(lia) ltac:(lia) ltac:(lia)). lia.
  Qed.
End Axis.

Lemma some_inj (x y : Z) : Some x = Some y -> x = y.
Proof. congruence. Qed.

Lemma subtile_index_mod l r q : r mod tile_ranks l = q mod tile_ranks l -> subtile_index l r = subtile_index l q.
Proof. unfold subtile_index, subtile_index_of. now intros ->. Qed.

Lemma subtile_index_any l rank : 0 < fst l <= 2 ^ 52 -> 0 < snd l <= 2 ^ 52 -> valid_sub l (subtile_index l rank).
Proof.
  intros H1 H2. assert (T : 0 < tile_ranks l) by (unfold tile_ranks; nia).
  rewrite (subtile_index_mod l rank (rank mod tile_ranks l)) by (now rewrite Z.mod_mod by lia).
  apply subtile_index_valid; [split; assumption|]. apply Z.mod_pos_bound, T.
Qed.

(** What an accepted sizer tells of the two extents. *)
Lemma sizer_cuts rnd ratio nxt nyt nz n l rank data fort s :
  0 < fst l <= 2 ^ 52 -> 0 < snd l <= 2 ^ 52 ->
  from_tile_params rnd ratio nxt nyt nz n l rank data fort = Some s ->
  exists iy ey ix ex, subtile_extents rnd nyt AJ false l ratio = Some (iy, ey) /\ subtile_extents rnd nxt AI false l ratio = Some (ix, ex) /\
    let '(kj, ki) := subtile_index l rank in
    ny s = cut (fst l) iy ey (kj + 1) - cut (fst l) iy ey kj /\ nx s = cut (snd l) ix ex (ki + 1) - cut (snd l) ix ex ki /\
    n < nx s /\ n < ny s /\ n_halo s = n /\
    subtile_slice rnd l ratio rank [Dim AJ false; Dim AI false] [nyt; nxt] true =
      Some [(cut (fst l) iy ey kj, cut (fst l) iy ey (kj + 1)); (cut (snd l) ix ex ki, cut (snd l) ix ex (ki + 1))].
Proof.
  intros H1 H2. pose proof (subtile_index_any l rank H1 H2) as V. unfold from_tile_params, subtile_slice. cbn [rank_slice].
  destruct (subtile_extents rnd nyt AJ false l ratio) as [[iy ey]|] eqn:Ey; [|discriminate]. cbn [bind].
  destruct (subtile_extents rnd nxt AI false l ratio) as [[ix ex]|] eqn:Ex; [|discriminate]. cbn [bind fst snd].
  rewrite !dim_slice_eq by auto. cbv zeta. cbn [by_dim andb]. rewrite !Z.add_0_r.
  destruct (subtile_index l rank) as [kj ki]. cbn [fst snd].
  destruct (Z.leb_spec (cut (snd l) ix ex (ki + 1) - cut (snd l) ix ex ki) n) as [L1|L1]; [discriminate|].
  destruct (Z.leb_spec (cut (fst l) iy ey (kj + 1) - cut (fst l) iy ey kj) n) as [L2|L2]; [discriminate|].
  intros [= <-]. exists iy, ey, ix, ex. cbn [nx ny n_halo]. repeat split; auto.
Qed.

(** The grid sizer of a tile has been made on all ranks of the tile, and rank [comm_rank] of the communicator has made its
    grid indexing from the sizer of its rank within the tile.  Whatever window of its storage a stencil runs on, i_start and
    j_start select exactly the tile's first column and row of cells, i_end and j_end exactly the last. *)
Theorem C138_edges : forall rnd, float_like rnd -> forall ratio nx_tile ny_tile nz n l data fort,
  0 < fst l <= 2 ^ 52 -> 0 < snd l <= 2 ^ 52 -> 0 <= nx_tile <= 2 ^ 52 -> 0 <= ny_tile <= 2 ^ 52 -> 0 <= n ->
  (forall r, 0 <= r < tile_ranks l -> from_tile_params rnd ratio nx_tile ny_tile nz n l r data fort <> None) ->
  forall tile_rank comm_rank s g y0 y1 x0 x1, comm_rank mod tile_ranks l = tile_rank ->
  from_tile_params rnd ratio nx_tile ny_tile nz n l tile_rank data fort = Some s ->
  from_sizer_and_communicator s l comm_rank = Some g ->
  subtile_slice rnd l ratio tile_rank [Dim AJ false; Dim AI false] [ny_tile; nx_tile] true = Some [(y0, y1); (x0, x1)] ->
  forall a shape origin domain start stop, is_horizontal a = true ->
  shape1 s (H a false) = Some shape ->
  0 <= origin -> 1 <= domain -> origin + domain <= shape -> shape <= 32767 ->
  edge_points g a origin domain = (start, stop) ->
  let first := match a with AI => x0 | _ => y0 end in
  let last := match a with AI => nx_tile - 1 | _ => ny_tile - 1 end in
  selects origin domain (cells s a) first n start 0 /\ selects origin domain (cells s a) first n stop last.
Proof.
  intros rnd Hr ratio nxt nyt nz n l data fort L1 L2 X Y Hn All tr cr s g y0 y1 x0 x1 Er F G Sl a shape origin domain start stop Ha Sh O D W B E.
  destruct (sizer_cuts _ _ _ _ _ _ _ _ _ _ _ L1 L2 F) as (iy & ey & ix & ex & Ey & Ex & R).
  pose proof (subtile_index_any l tr L1 L2) as V.
  assert (T : 0 < tile_ranks l) by (unfold tile_ranks; nia).
  assert (Ec : subtile_index l cr = subtile_index l tr) by (apply subtile_index_mod; rewrite <- Er; now rewrite Z.mod_mod by lia).
  destruct (subtile_index l tr) as [kj ki] eqn:Ei. destruct R as (Ny & Nx & _ & _ & Nh & Sl'). rewrite Sl in Sl'. injection Sl' as -> -> -> ->.
  destruct V as [Vj Vi]. cbn [fst snd] in Vj, Vi.
  pose proof (accepted rnd Hr l (conj L1 L2) ratio nyt AJ false iy ey Y Ey) as Cy.
  pose proof (accepted rnd Hr l (conj L1 L2) ratio nxt AI false ix ex X Ex) as Cx.
  cbn [by_dim] in Cy, Cx. rewrite Z.sub_0_r in Cy, Cx.
  assert (Q : forall j i, 0 <= j < fst l -> 0 <= i < snd l ->
    n < cut (fst l) iy ey (j + 1) - cut (fst l) iy ey j /\ n < cut (snd l) ix ex (i + 1) - cut (snd l) ix ex i).
  { intros j i Hj Hi. assert (V : valid_sub l (j, i)) by (split; assumption).
    assert (RR : 0 <= j * snd l + i < tile_ranks l) by (unfold tile_ranks; nia).
    specialize (All _ RR). destruct (from_tile_params rnd ratio nxt nyt nz n l (j * snd l + i) data fort) as [s'|] eqn:F'; [|congruence].
    destruct (sizer_cuts _ _ _ _ _ _ _ _ _ _ _ L1 L2 F') as (iy' & ey' & ix' & ex' & Ey' & Ex' & R').
    rewrite Ey in Ey'. injection Ey' as <- <-. rewrite Ex in Ex'. injection Ex' as <- <-.
    rewrite subtile_index_rank in R' by (auto; lia). destruct R' as (N1 & N2 & N3 & N4 & _). lia. }
  unfold from_sizer_and_communicator, on_tile_bottom, on_tile_top, on_tile_left, on_tile_right in G. rewrite Ec in G.
  cbn in G. injection G as <-.
  unfold edge_points in E. cbn [south north west east] in E.
  destruct a; [| |discriminate Ha]; cbv beta zeta.
  - destruct axis_offsets as [[[q1 q2] q3] q4] eqn:EO in E. injection E as -> ->.
    change (cells s AJ) with (ny s).
    pose proof (axis_rim (fst l) iy ey nyt n ltac:(lia) Cy) as P.
    specialize (P ltac:(first [exact Hn | intros m Hm; apply (Q m 0 Hm ltac:(lia))])).
    try specialize (P ltac:(intros m Hm; apply (Q m 0 Hm ltac:(lia)))).
    eapply P in EO; [|exact Vj|cbn; exact Nh|cbn; lia|exact O|exact D|exact W|exact B|].
    + cbn [g_domain g_i g_j] in EO. rewrite Z.add_0_r in EO. exact EO.
    + cbn [g_domain g_i g_j]. cbn [shape1 cells] in Sh. apply some_inj in Sh. rewrite <- Sh, Nh. destruct (fortran s); lia.
  - destruct axis_offsets as [[[q1 q2] q3] q4] eqn:EO in E. injection E as -> ->.
    change (cells s AI) with (nx s).
    pose proof (axis_rim (snd l) ix ex nxt n ltac:(lia) Cx) as P.
    specialize (P ltac:(first [exact Hn | intros m Hm; apply (Q 0 m ltac:(lia) Hm)])).
    try specialize (P ltac:(intros m Hm; apply (Q 0 m ltac:(lia) Hm))).
    eapply P in EO; [|exact Vi|cbn; exact Nh|cbn; lia|exact O|exact D|exact W|exact B|].
    + cbn [g_domain g_i g_j] in EO. rewrite Z.add_0_r in EO. exact EO.
    + cbn [g_domain g_i g_j]. cbn [shape1 cells] in Sh. apply some_inj in Sh. rewrite <- Sh, Nh. destruct (fortran s); lia.
Qed.
Print Assumptions C138_edges.

(** On a tile of 8 x 12 cells cut into 2 x 2 blocks of 4 x 6 with 3 halo points, all four sizers exist; rank 7 of the cube
    is rank 3 of its tile and has its north-east block.  A stencil on the window 1..9 of its columns finds the last column
    at storage index 8; i_start is far outside the storage. *)
Example C138_case : float_like (fun q => q) /\
  (forall r, 0 <= r < tile_ranks (2, 2) -> from_tile_params (fun q => q) 1 12 8 5 3 (2, 2) r [] false <> None) /\
  exists s g, 7 mod tile_ranks (2, 2) = 3 /\ from_tile_params (fun q => q) 1 12 8 5 3 (2, 2) 3 [] false = Some s /\
  from_sizer_and_communicator s (2, 2) 7 = Some g /\
  subtile_slice (fun q => q) (2, 2) 1 3 [Dim AJ false; Dim AI false] [8; 12] true = Some [(4, 8); (6, 12)] /\
  shape1 s (H AI false) = Some 13 /\ edge_points g AI 1 9 = (First (-32767), Last (-1)) /\ place 1 9 (Last (-1)) = 8 /\
  tile_cell 6 3 8 = 11 /\ edge_points g AJ 1 9 = (First (-32767), Last (-3)).
Proof.
  split; [intros q z E _; exact E|]. split.
  - intros r Hr. assert (r = 0 \/ r = 1 \/ r = 2 \/ r = 3) as [->|[->|[->| ->]]] by (cbv [tile_ranks fst snd] in Hr; lia); vm_compute; discriminate.
  - eexists. eexists. repeat split; vm_compute; reflexivity.
Qed.
