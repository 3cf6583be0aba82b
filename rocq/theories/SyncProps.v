(** Property theorems C17: synchronizing the shared edges of C-grid vectors.  Model: SyncModel.v; specification: the end of
    SyncModel.v (edge_axes, in_domain, pos, level) and the start of SyncCube.v (place, tangent, shared, on_last). *)
From Verif Require Import Base PartModel PartSpec PartProofs DecompModel DecompSpec HaloModel HaloNetSpec ViewModel SyncModel SyncProofs SyncCube.

(** C17.  On a cube of n x n ranks per tile, N cells per side cut symmetrically, any halo widths and origins, any number of
    vertical dimensions after the edge's: every rank's synchronization succeeds; on the north edge of x and the east edge of y
    each point gets the value that another rank held on its own south or west edge at the same place of the sphere and the
    same level, negated exactly when that rank's component points the opposite way; all other points are unchanged.
    Missing: dimension orders with a vertical dimension first (false, see C17_vertical_first_refuted), device memory. *)
Theorem C17_cube_partial : forall (A : Type) (neg : A -> A) n N cut levels (axes : comp -> Z -> list ViewModel.ax) (field : comp -> Z -> index -> A),
  0 < n -> cuts n N 0 cut -> palindromic n cut ->
  (forall c r, 0 <= r < 6 * (n * n) ->
     edge_axes (along c) (across c) (axes c r) (cells n cut c r) (lines n cut c r) levels) ->
  forall r, 0 <= r < 6 * (n * n) ->
  exists g, synchronize neg (cube_boundary (n, n)) (axes X) (axes Y) (field X) (field Y) r = Some (g X, g Y) /\
    forall c p, (on_last n cut axes c r p -> shared neg n N cut axes field c r p (g c p)) /\
                (~ on_last n cut axes c r p -> g c p = field c r p).
Proof. intros. eapply cube_synchronized; eauto. Qed.
Print Assumptions C17_cube_partial.

(** Only one rank and one point can be meant by [shared]: two south or west edge points at the same place and level are the
    same point of the same rank's component. *)
Theorem C17_source_unique : forall n N cut levels (axes : comp -> Z -> list ViewModel.ax), 0 < n -> cuts n N 1 cut ->
  (forall c r, 0 <= r < 6 * (n * n) -> edge_axes (along c) (across c) (axes c r) (cells n cut c r) (lines n cut c r) levels) ->
  forall c1 r1 p1 c2 r2 p2, 0 <= r1 < 6 * (n * n) -> 0 <= r2 < 6 * (n * n) ->
  in_domain (axes c1 r1) p1 -> in_domain (axes c2 r2) p2 ->
  pos (across c1) (axes c1 r1) p1 = 0 -> pos (across c2) (axes c2 r2) p2 = 0 ->
  place n N cut axes c1 r1 p1 = place n N cut axes c2 r2 p2 -> level (axes c1 r1) p1 = level (axes c2 r2) p2 ->
  r1 = r2 /\ c1 = c2 /\ p1 = p2.
Proof. intros. eapply first_line_unique; eauto. Qed.
Print Assumptions C17_source_unique.

Definition case_axes (c : comp) (r : Z) : list ViewModel.ax :=
  match c with
  | X => [mkAx I_DIM 3 4 11; mkAx J_INTERFACE_DIM 3 5 11; mkAx (Dim AV false) 0 2 2]
  | Y => [mkAx I_INTERFACE_DIM 3 5 11; mkAx J_DIM 3 4 11; mkAx (Dim AV false) 0 2 2]
  end.
Definition case_field (c : comp) (r : Z) (p : index) : Z :=
  1000000 * (match c with X => 1 | Y => 2 end) + 10000 * r + 1000 * nth 0 p 0 + 10 * nth 1 p 0 + nth 2 p 0.
Lemma case_holds c r : 0 <= r < 6 * (2 * 2) ->
  edge_axes (along c) (across c) (case_axes c r) (cells 2 (fun i => 4 * i) c r) (lines 2 (fun i => 4 * i) c r) [2].
Proof.
  intros H. unfold cells, lines, edge_axes. destruct c.
  - exists [mkAx I_DIM 3 4 11], [mkAx (Dim AV false) 0 2 2], (mkAx I_DIM 3 4 11), (mkAx J_INTERFACE_DIM 3 5 11), [mkAx (Dim AV false) 0 2 2].
    repeat (split; [first [reflexivity|cbn [a_extent]; lia|repeat constructor]|]). repeat (constructor; [cbv; intuition congruence|]). constructor.
  - exists [], [mkAx J_DIM 3 4 11; mkAx (Dim AV false) 0 2 2], (mkAx J_DIM 3 4 11), (mkAx I_INTERFACE_DIM 3 5 11), [mkAx (Dim AV false) 0 2 2].
    repeat (split; [first [reflexivity|cbn [a_extent]; lia|repeat constructor]|]). repeat (constructor; [cbv; intuition congruence|]). constructor.
Qed.
(** Two by two ranks per tile, 8 x 8 cells, halo 3, two levels.  Rank 2 (tile 0, upper left): its north edge is the west edge
    of tile 2, reversed: point i = 1 comes from rank 10's y component at j = 4-1-1 = 2, negated. *)
Example C17_case :
  cuts 2 8 0 (fun i => 4 * i) /\ palindromic 2 (fun i => 4 * i) /\
  (forall c r, 0 <= r < 6 * (2 * 2) -> edge_axes (along c) (across c) (case_axes c r) (cells 2 (fun i => 4 * i) c r) (lines 2 (fun i => 4 * i) c r) [2]) /\
  (do g <- synchronize Z.opp (cube_boundary (2, 2)) (case_axes X) (case_axes Y) (case_field X) (case_field Y) 2; Some (fst g [4; 7; 1]))
  = Some (- (case_field Y 10 [3; 5; 1])).
Proof.
  split; [repeat split; intros; lia|]. split; [intros i H; lia|]. split; [exact case_holds|]. vm_compute. reflexivity.
Qed.

(** C17 on a periodic tile: each point of the north edge of x (east edge of y) gets the value of the next rank's south (west)
    edge at the same position and level; all other points are unchanged.  Any layout of at least 3 x 3, any cuts. *)
Definition copied {A} (c : comp) (axes : comp -> Z -> list ViewModel.ax) (field : comp -> Z -> index -> A) (r r' : Z) (p : index) (v : A) : Prop :=
  exists p', in_domain (axes c r') p' /\ pos (across c) (axes c r') p' = 0 /\
    pos (along c) (axes c r') p' = pos (along c) (axes c r) p /\ level (axes c r') p' = level (axes c r) p /\ v = field c r' p'.

Theorem C17_tile : forall (A : Type) (neg : A -> A) ny nx (wx wy : Z -> Z) levels (axes : comp -> Z -> list ViewModel.ax) (field : comp -> Z -> index -> A),
  3 <= ny -> 3 <= nx -> (forall k, 0 <= wx k) -> (forall k, 0 <= wy k) ->
  (forall i j, 0 <= i < ny -> 0 <= j < nx ->
     edge_axes (Dim AI false) (Dim AJ true) (axes X (i * nx + j)) (wx j) (wy i + 1) levels /\
     edge_axes (Dim AJ false) (Dim AI true) (axes Y (i * nx + j)) (wy i) (wx j + 1) levels) ->
  forall i j, 0 <= i < ny -> 0 <= j < nx -> let r := i * nx + j in
  exists g, tile_synchronize neg (ny, nx) (axes X) (axes Y) (field X) (field Y) r = Some (g X, g Y) /\
    forall p,
      (in_domain (axes X r) p -> pos (Dim AJ true) (axes X r) p = wy i -> copied X axes field r (((i + 1) mod ny) * nx + j) p (g X p)) /\
      (~ (in_domain (axes X r) p /\ pos (Dim AJ true) (axes X r) p = wy i) -> g X p = field X r p) /\
      (in_domain (axes Y r) p -> pos (Dim AI true) (axes Y r) p = wx j -> copied Y axes field r (i * nx + (j + 1) mod nx) p (g Y p)) /\
      (~ (in_domain (axes Y r) p /\ pos (Dim AI true) (axes Y r) p = wx j) -> g Y p = field Y r p).
Proof.
  intros A neg ny nx wx wy levels axes field Hy Hx Wx Wy Hax i j Hi Hj r.
  set (bd := fun bt r => Some (Some (tile_boundary (ny, nx) bt r))).
  assert (INJ : forall i j i' j', 0 <= i < ny -> 0 <= j < nx -> 0 <= i' < ny -> 0 <= j' < nx -> i * nx + j = i' * nx + j' -> i = i' /\ j = j').
  { clear. intros. assert (i = i') by nia. subst. lia. }
  assert (B : forall bt i j, 0 <= i < ny -> 0 <= j < nx -> edge_of bd bt (i * nx + j) =
    Some (mkB bt (i * nx + j) (fst (tile_to ny nx bt i j) * nx + snd (tile_to ny nx bt i j)) 0)).
  { intros bt a b Ha Hb. unfold edge_of, bd. pose proof (tile_boundary_enc ny nx 0 a b bt Ha Hb) as E. cbn zeta in E. rewrite !Z.mul_0_l, !Z.add_0_l in E. rewrite E. reflexivity. }
  assert (S : forall a b, 0 <= a < ny -> 0 <= b < nx -> exists ms mw,
    rank_sends neg bd (axes X) (axes Y) (field X) (field Y) (a * nx + b) =
      Some [((a - 1) mod ny * nx + b, ms); (a * nx + (b - 1) mod nx, mw)] /\
    holds_edge neg I_DIM J_INTERFACE_DIM (axes X (a * nx + b)) (field X (a * nx + b)) (wx b) levels false ms /\
    holds_edge neg J_DIM I_INTERFACE_DIM (axes Y (a * nx + b)) (field Y (a * nx + b)) (wy a) levels false mw).
  { intros a b Ha Hb. destruct (Hax a b Ha Hb) as [AX AY]. unfold rank_sends. rewrite (B SOUTH a b Ha Hb), (B WEST a b Ha Hb). cbn [bind tile_to fst snd].
    pose proof (Wx b). pose proof (Wy a).
    apply (sends_eq neg (mkB SOUTH (a * nx + b) ((a - 1) mod ny * nx + b) 0) (mkB WEST (a * nx + b) (a * nx + (b - 1) mod nx) 0)
       _ _ (field X (a * nx + b)) (field Y (a * nx + b)) _ _ _ _ _ AX AY); [lia|lia|left; reflexivity|left; reflexivity]. }
  assert (Mi : 0 <= (i + 1) mod ny < ny) by (apply Z.mod_pos_bound; lia).
  assert (Mj : 0 <= (j + 1) mod nx < nx) by (apply Z.mod_pos_bound; lia).
  assert (Wrap : forall m k, 3 <= m -> 0 <= k < m -> ((k + 1) mod m - 1) mod m = k /\ (k - 1) mod m <> k /\ (k + 1) mod m <> k).
  { clear. intros m k Hm Hk. rewrite Zminus_mod_idemp_l. replace (k + 1 - 1) with k by lia. rewrite Z.mod_small by lia. split; [reflexivity|].
    split; intros E.
    - assert ((k - 1 - k) mod m = 0) as E' by (rewrite Zminus_mod, E, Zminus_mod_idemp_r, Z.sub_diag; apply Z.mod_0_l; lia).
      replace (k - 1 - k) with (-1) in E' by lia. apply Z.mod_divide in E'; [|lia]. apply Z.divide_opp_r in E'. apply Z.divide_1_r_nonneg in E'; lia.
    - assert ((k + 1 - k) mod m = 0) as E' by (rewrite Zminus_mod, E, Zminus_mod_idemp_r, Z.sub_diag; apply Z.mod_0_l; lia).
      replace (k + 1 - k) with 1 in E' by lia. rewrite Z.mod_1_l in E' by lia. lia. }
  destruct (Wrap ny i Hy Hi) as (Wi & Wi1 & Wi2). destruct (Wrap nx j Hx Hj) as (Wj & Wj1 & Wj2).
  destruct (Hax i j Hi Hj) as [AX AY]. fold r in AX, AY. pose proof (Wx j) as Pwx. pose proof (Wy i) as Pwy.
  assert (BN : edge_of bd NORTH r = Some (mkB NORTH r ((i + 1) mod ny * nx + j) 0)) by (apply (B NORTH i j Hi Hj)).
  assert (BE : edge_of bd EAST r = Some (mkB EAST r (i * nx + (j + 1) mod nx) 0)) by (apply (B EAST i j Hi Hj)).
  destruct (S i j Hi Hj) as (m1 & m2 & S0 & _). fold r in S0.
  destruct (synchronize_eq neg bd (axes X) (axes Y) (field X) (field Y) r _ _ (wx j) (wy i) (wy i + 1) (wx j + 1) levels false false true false
    (ex_intro _ _ S0) BN BE) as (gx & gy & E & NX & OX & NY & OY); cbn [b_to]; auto; try lia.
  - intros X0. apply INJ in X0; lia.
  - destruct (S ((i + 1) mod ny) j Mi Hj) as (ms & mw & S1 & V1 & V2). unfold delivers. eexists. exists ms. split; [exact S1|]. split; [|exact V1].
    unfold inbox. rewrite Wi. cbn [filter fst]. fold r. rewrite Z.eqb_refl. destruct (Z.eqb_spec ((i + 1) mod ny * nx + (j - 1) mod nx) r) as [X0|]; [|reflexivity].
    exfalso. apply INJ in X0; try lia. apply Z.mod_pos_bound; lia.
  - destruct (S i ((j + 1) mod nx) Hi Mj) as (ms & mw & S1 & V1 & V2). unfold delivers. eexists. exists mw. split; [exact S1|]. split; [|exact V2].
    unfold inbox. rewrite Wj. cbn [filter fst]. fold r. rewrite Z.eqb_refl. destruct (Z.eqb_spec ((i - 1) mod ny * nx + (j + 1) mod nx) r) as [X0|]; [|reflexivity].
    exfalso. apply INJ in X0; try lia. apply Z.mod_pos_bound; lia.
  - exists (fun c => match c with X => gx | Y => gy end). cbn [b_to] in *. split.
    { unfold tile_synchronize. cbn [fst snd]. destruct (Z.ltb_spec ny 3); [lia|]. destruct (Z.ltb_spec nx 3); [lia|]. exact E. }
    intros p. replace (wy i + 1 - 1) with (wy i) in * by lia. replace (wx j + 1 - 1) with (wx j) in * by lia.
    repeat split; auto.
    + intros D P. destruct (NX p D P) as (p' & P1 & P2 & P3 & P4 & P5). exists p'. repeat split; auto.
    + intros D P. destruct (NY p D P) as (p' & P1 & P2 & P3 & P4 & P5). exists p'. repeat split; auto.
Qed.
Print Assumptions C17_tile.
(** smaller periodic tiles, where both neighbours of a rank in a row or column are one rank, are refused *)
Theorem C17_small_tile_refused : forall (A : Type) (neg : A -> A) ny nx x y fx fy r, ny < 3 \/ nx < 3 ->
  tile_synchronize neg (ny, nx) x y fx fy r = None.
Proof.
  intros A neg ny nx x y fx fy r [H|H]; unfold tile_synchronize; cbn [fst snd]; apply Z.ltb_lt in H; rewrite H; [reflexivity|]. now rewrite orb_true_r.
Qed.
Print Assumptions C17_small_tile_refused.

Definition tile_axes (c : comp) (r : Z) : list ViewModel.ax :=
  match c with
  | X => [mkAx J_INTERFACE_DIM 1 3 6; mkAx I_DIM 2 2 5]
  | Y => [mkAx J_DIM 1 2 6; mkAx I_INTERFACE_DIM 2 3 5]
  end.
Example C17_tile_case :
  (forall i j, 0 <= i < 3 -> 0 <= j < 4 ->
     edge_axes I_DIM J_INTERFACE_DIM (tile_axes X (i * 4 + j)) 2 (2 + 1) [] /\ edge_axes J_DIM I_INTERFACE_DIM (tile_axes Y (i * 4 + j)) 2 (2 + 1) []) /\
  (do g <- tile_synchronize Z.opp (3, 4) (tile_axes X) (tile_axes Y) (case_field X) (case_field Y) 11; Some (fst g [3; 3], snd g [2; 4], snd g [2; 3]))
  = Some (case_field X 3 [1; 3], case_field Y 8 [2; 2], case_field Y 11 [2; 3]).
Proof.
  split; [|vm_compute; reflexivity]. intros i j _ _. split.
  - exists [], [mkAx I_DIM 2 2 5], (mkAx I_DIM 2 2 5), (mkAx J_INTERFACE_DIM 1 3 6), [].
    repeat (split; [first [reflexivity|constructor]|]). repeat (constructor; [cbv; intuition congruence|]). constructor.
  - exists [mkAx J_DIM 1 2 6], [], (mkAx J_DIM 1 2 6), (mkAx I_INTERFACE_DIM 2 3 5), [].
    repeat (split; [first [reflexivity|constructor]|]). repeat (constructor; [cbv; intuition congruence|]). constructor.
Qed.

(** C17 fails when a vertical dimension comes first: the reversal is applied to it instead of the edge.  Dimensions
    (K, J_INTERFACE, I) and (K, J, I_INTERFACE), one rank per tile, 2 x 2 cells, 2 levels: the call succeeds, every value of
    every component is +-(1 + its level) beforehand, and afterwards a point of level 0 holds a value of level 1. *)
Definition k_first (c : comp) (r : Z) : list ViewModel.ax :=
  match c with
  | X => [mkAx (Dim AV false) 0 2 2; mkAx J_INTERFACE_DIM 0 3 3; mkAx I_DIM 0 2 2]
  | Y => [mkAx (Dim AV false) 0 2 2; mkAx J_DIM 0 2 2; mkAx I_INTERFACE_DIM 0 3 3]
  end.
Theorem C17_vertical_first_refuted : exists (field : comp -> Z -> index -> Z) g p,
  (forall c r q, in_domain (k_first c r) q -> level (k_first c r) q = [Z.abs (field c r q) - 1]) /\
  synchronize Z.opp (cube_boundary (1, 1)) (k_first X) (k_first Y) (field X) (field Y) 0 = Some g /\
  on_last 1 (fun i => 2 * i) k_first X 0 p /\ level (k_first X 0) p = [0] /\ Z.abs (fst g p) = 2.
Proof.
  exists (fun _ _ q => 1 + hd 0 q).
  destruct (synchronize Z.opp (cube_boundary (1, 1)) (k_first X) (k_first Y) (fun _ q => 1 + hd 0 q) (fun _ q => 1 + hd 0 q) 0) as [g|] eqn:E;
    [|vm_compute in E; discriminate].
  exists g, [0; 2; 0]. split; [|split; [exact E|]].
  - intros c r q I. destruct c; unfold in_domain in I; cbn [k_first] in *; inversion I as [|? a ? l Ha I1]; subst; inversion I1 as [|? b ? l' Hb I2]; subst;
    inversion I2 as [|? d ? l'' Hd I3]; subst; cbn -[Z.abs Z.sub Z.add] in *; f_equal; lia.
  - split; [|split].
    + split; [repeat (constructor; [cbn; lia|]); constructor|reflexivity].
    + reflexivity.
    + vm_compute in E. injection E as <-. vm_compute. reflexivity.
Qed.
Print Assumptions C17_vertical_first_refuted.
