(** Whole scalar halo updates on the periodic tile and on the cube. *)
From Verif Require Import Base PartModel PartSpec PartProofs PartGeom PartGeom2 DecompModel DecompSpec
  HaloModel HaloSpec HaloProofs HaloExchange HaloPack HaloNetSpec.
Open Scope Z_scope.

(** ** coordinates of a received value *)
Lemma combine_put {T U} dims (L : list T) (p : list U) a b x y :
  combine (put_xy dims L a b) (put_xy dims p x y) = put_xy dims (combine L p) (a, x) (b, y).
Proof.
  revert L p. induction dims as [|m dims IH]; intros [|u L] [|v p]; try reflexivity.
  cbn [put_xy combine]. rewrite IH. destruct (on_axis AI m), (on_axis AJ m); reflexivity.
Qed.

Lemma unshift_put dims L rx ry p x y :
  unshift (put_xy dims L rx ry) (put_xy dims p x y) = put_xy dims (unshift L p) (x - fst rx) (y - fst ry).
Proof. unfold unshift. rewrite combine_put, put_map. reflexivity. Qed.
Lemma shift_put dims L rx ry p x y :
  shift (put_xy dims L rx ry) (put_xy dims p x y) = put_xy dims (shift L p) (x + fst rx) (y + fst ry).
Proof. unfold shift. rewrite combine_put, put_map. reflexivity. Qed.

Lemma shift_back L L' p : map fst L = map fst L' -> length p = length L -> shift L' (unshift L p) = p.
Proof.
  unfold shift, unshift. revert L' p. induction L as [|r L IH]; intros [|r' L'] [|x p] E H; try discriminate; [reflexivity|].
  cbn in *. injection E as E E'. rewrite IH by (auto; lia). f_equal. lia.
Qed.
Lemma unshift_length L p : length p = length L -> length (unshift L p) = length p.
Proof. intros. unfold unshift. rewrite map_length, combine_length. lia. Qed.

Definition turn_back (k wx wy u v : Z) : Z * Z :=
  match k with 0 => (u, v) | 1 => (wx - 1 - v, u) | 2 => (wx - 1 - u, wy - 1 - v) | _ => (v, wy - 1 - u) end.

Definition range_x (s : spec) (b : btype) (i : bool) : Z * Z :=
  range1 (dx b) (cx (sp_dims s) (sp_origin s)) (cx (sp_dims s) (sp_extent s)) (b2z (iface_x (sp_dims s))) (sp_n s) i.
Definition range_y (s : spec) (b : btype) (i : bool) : Z * Z :=
  range1 (dy b) (cy (sp_dims s) (sp_origin s)) (cy (sp_dims s) (sp_extent s)) (b2z (iface_y (sp_dims s))) (sp_n s) i.
Definition len (r : Z * Z) : Z := snd r - fst r.

Lemma cdom_length s : wf_spec s -> length (compute_domain s) = length (sp_dims s).
Proof. intros W. destruct (wf_lengths s W) as (P & Lo & Le & Lh). unfold compute_domain. rewrite box_length; lia. Qed.

Lemma cdom_fst s : wf_spec s -> map fst (compute_domain s) = sp_origin s.
Proof.
  intros W. destruct (wf_lengths s W) as (P & Lo & Le & Lh). unfold compute_domain, box. rewrite map_map. cbn.
  assert (E : length (sp_origin s) = length (sp_extent s)) by lia. clear -E. revert E. generalize (sp_extent s).
  induction (sp_origin s) as [|x o IH]; intros [|y e] E; try discriminate; [reflexivity|]. cbn in *. f_equal. apply IH. lia.
Qed.

Lemma rotated_value {A} (b b' : boundary) (s s' : spec) (q : index -> A) p :
  wf_spec s -> wf_spec s' -> sp_dims s' = sp_dims s -> sp_origin s' = sp_origin s -> length p = length (sp_dims s) ->
  snd (rotated b' s' q) (unshift (region s (b_type b) false) p) =
  let D := sp_dims s in
  let src := turn_back ((- b_rot b') mod 4) (len (range_x s' (b_type b') true)) (len (range_y s' (b_type b') true))
               (cx D p - fst (range_x s (b_type b) false)) (cy D p - fst (range_y s (b_type b) false)) in
  q (put_xy D p (fst (range_x s' (b_type b') true) + fst src) (fst (range_y s' (b_type b') true) + snd src)).
Proof.
  intros W W' ED EO Lp. destruct (wf_lengths s W) as (P & Lo & Le & Lh), (wf_lengths s' W') as (P' & Lo' & Le' & Lh').
  cbn zeta. set (D := sp_dims s) in *. unfold rotated, view.
  assert (Lsh : length (shape_of (region s' (b_type b') true)) = length D) by (rewrite shape_of_length, region_length, ED by auto; auto).
  rewrite ED. rewrite (proj2 (rotate_coords D (shape_of (region s' (b_type b') true)) _ (- b_rot b') P Lsh))
    by (rewrite unshift_length; [exact Lp|rewrite region_length by auto; exact Lp]).
  assert (Hk : 0 <= (- b_rot b') mod 4 < 4) by (apply Z.mod_pos_bound; lia).
  unfold take_slice.
  assert (U : unshift (region s (b_type b) false) p =
     put_xy D (unshift (compute_domain s) p) (cx D p - fst (range_x s (b_type b) false)) (cy D p - fst (range_y s (b_type b) false))).
  { unfold region. fold D. rewrite <- (put_cxy D P p) at 1. rewrite unshift_put. reflexivity. }
  rewrite U. set (u := cx D p - _). set (v := cy D p - _).
  assert (Lu : length (unshift (compute_domain s) p) = length D) by (rewrite unshift_length; [exact Lp|rewrite cdom_length by auto; exact Lp]).
  assert (SX : cx D (shape_of (region s' (b_type b') true)) = len (range_x s' (b_type b') true)).
  { unfold region. rewrite ED. fold D. unfold shape_of. rewrite put_map. rewrite cx_put by (auto; rewrite map_length, cdom_length, ED; auto).
    unfold len, range_x. rewrite ED. reflexivity. }
  assert (SY : cy D (shape_of (region s' (b_type b') true)) = len (range_y s' (b_type b') true)).
  { unfold region. rewrite ED. fold D. unfold shape_of. rewrite put_map. rewrite cy_put by (auto; rewrite map_length, cdom_length, ED; auto).
    unfold len, range_y. rewrite ED. reflexivity. }
  assert (RS : rot_src D (shape_of (region s' (b_type b') true)) ((- b_rot b') mod 4) (put_xy D (unshift (compute_domain s) p) u v)
     = let src := turn_back ((- b_rot b') mod 4) (len (range_x s' (b_type b') true)) (len (range_y s' (b_type b') true)) u v in
       put_xy D (unshift (compute_domain s) p) (fst src) (snd src)).
  { unfold rot_src, turn_back. rewrite !cx_put, !cy_put, SX, SY by auto.
    destruct (mod4 _ Hk) as [->|[->|[->| ->]]]; cbn [fst snd]; rewrite ?put_xy_put; reflexivity. }
  rewrite RS. cbn zeta. unfold region. rewrite ED. fold D. rewrite shift_put. rewrite shift_back.
  - f_equal. unfold range_x, range_y. rewrite ED. fold D. f_equal; lia.
  - rewrite !cdom_fst by auto. congruence.
  - rewrite cdom_length; auto.
Qed.

Lemma rotated_fits {A} (b b' : boundary) (s s' : spec) (q : index -> A) ext :
  wf_spec s -> wf_spec s' -> sp_dims s' = sp_dims s ->
  (forall x y, put_xy (sp_dims s) (sp_extent s) x y = put_xy (sp_dims s) ext x y) ->
  (forall x y, put_xy (sp_dims s) (sp_extent s') x y = put_xy (sp_dims s) ext x y) ->
  (let wx := len (range_x s' (b_type b') true) in let wy := len (range_y s' (b_type b') true) in
   len (range_x s (b_type b) false) = (if Z.even ((- b_rot b') mod 4) then wx else wy) /\
   len (range_y s (b_type b) false) = (if Z.even ((- b_rot b') mod 4) then wy else wx)) ->
  fst (rotated b' s' q) = shape_of (region s (b_type b) false).
Proof.
  intros W W' ED E1 E2 [Ex Ey]. destruct (wf_lengths s W) as (P & Lo & Le & Lh), (wf_lengths s' W') as (P' & Lo' & Le' & Lh').
  rewrite rotated_shape by auto. rewrite !region_shape by auto. unfold len, range_x, range_y in Ex, Ey. rewrite !range1_width in Ex, Ey.
  rewrite ED in *. rewrite E1, E2. unfold rot_shape.
  assert (Lx : length ext = length (sp_dims s)).
  { specialize (E1 0 0). apply (f_equal (@length Z)) in E1. rewrite !put_xy_length in E1. lia. }
  destruct (Z.even ((- b_rot b') mod 4)).
  - rewrite Ex, Ey. reflexivity.
  - rewrite cx_put, cy_put by auto. rewrite put_xy_put, Ex, Ey. reflexivity.
Qed.

(** ** arrays of a decomposed field *)
Lemma region_room s : wf_spec s ->
  let D := sp_dims s in
  sp_n s <= cx D (sp_origin s) -> sp_n s <= cy D (sp_origin s) ->
  cx D (sp_origin s) + cx D (sp_extent s) + sp_n s <= cx D (sp_shape s) ->
  cy D (sp_origin s) + cy D (sp_extent s) + sp_n s <= cy D (sp_shape s) ->
  sp_n s + b2z (iface_x D) <= cx D (sp_extent s) -> sp_n s + b2z (iface_y D) <= cy D (sp_extent s) -> room s.
Proof.
  intros W D H1 H2 H3 H4 H5 H6. destruct (wf_lengths s W) as (P & Lo & Le & Lh).
  pose proof (wf_coords s W) as Wc. cbn zeta in Wc. fold D in Wc, P, Lo, Le, Lh.
  assert (B : forall f, 0 <= b2z f <= 1) by (intros []; cbn; lia). pose proof (B (iface_x D)). pose proof (B (iface_y D)).
  assert (G : forall b i, boundary_slice D (sp_origin s) (sp_extent s) (sp_shape s) b (sp_n s) i <> None).
  { intros b i E. assert (K : boundary_slice D (sp_origin s) (sp_extent s) (sp_shape s) b (sp_n s) i = Some (region s b i)); [|congruence].
    apply slice_list; auto. unfold D. rewrite region_list by auto. split; auto.
    assert (F : forall L h x y, Forall2 (fun r z => 0 <= fst r /\ snd r <= z) L h -> length h = length D ->
       0 <= fst x -> snd x <= cx D h -> 0 <= fst y -> snd y <= cy D h ->
       Forall2 (fun r z => 0 <= fst r /\ snd r <= z) (put_xy D L x y) h).
    { clear -P. destruct P as [PJ PI]. unfold cx, cy.
      assert (G : forall D L h (x y : Z * Z), (count_axis AI D <= 1)%nat -> (count_axis AJ D <= 1)%nat ->
         Forall2 (fun r z => 0 <= fst r /\ snd r <= z) L h -> length h = length D ->
         (count_axis AI D = 1%nat -> 0 <= fst x /\ snd x <= coord AI D h 0) -> (count_axis AJ D = 1%nat -> 0 <= fst y /\ snd y <= coord AJ D h 0) ->
         Forall2 (fun r z => 0 <= fst r /\ snd r <= z) (put_xy D L x y) h).
      { clear. induction D as [|m D IH]; intros L h x y CI CJ F Lh HX HY; [exact F|]. inversion F; subst; [constructor|].
        cbn in Lh. rewrite !count_cons in *. cbn [put_xy coord] in *. constructor.
        - destruct (on_axis AI m); [apply HX; lia|]. destruct (on_axis AJ m); [apply HY; lia|auto].
        - apply IH; auto; try lia.
          + intros C. destruct (on_axis AI m); [lia|]. apply HX; lia.
          + intros C. destruct (on_axis AJ m); [lia|]. apply HY; lia. }
      intros. apply G; auto; lia. }
    unfold region. fold D. apply F; auto.
    - destruct W as (_ & _ & _ & _ & W). unfold compute_domain, box.
      revert W. generalize (sp_shape s). clear. induction (combine (sp_origin s) (sp_extent s)) as [|[o e] l IH]; intros h F; inversion F; subst; cbn; constructor.
      + cbn in *. lia.
      + apply IH; auto.
    - unfold range1. destruct (dx b =? 0), (dx b =? -1), i; cbn; lia.
    - unfold range1. destruct (dx b =? 0), (dx b =? -1), i; cbn; lia.
    - unfold range1. destruct (dy b =? 0), (dy b =? -1), i; cbn; lia.
    - unfold range1. destruct (dy b =? 0), (dy b =? -1), i; cbn; lia. }
  intros b. split; apply G.
Qed.

Lemma holds_room s dims origin ext n xlo xhi ylo yhi : holds_cells s dims origin ext n xlo xhi ylo yhi ->
  n <= xhi - xlo -> n <= yhi - ylo ->
  cx dims (sp_extent s) = xhi - xlo + b2z (iface_x dims) /\ cy dims (sp_extent s) = yhi - ylo + b2z (iface_y dims) /\ room s.
Proof.
  intros (W & ED & EO & En & Ee & H1 & H2 & H3 & H4) Hx Hy. destruct (wf_lengths s W) as (P & Lo & Le & Lh).
  assert (Lx : length ext = length dims).
  { rewrite Ee, ED in Le. rewrite put_xy_length in Le. auto. }
  rewrite ED in P.
  assert (Cx : cx dims (sp_extent s) = xhi - xlo + b2z (iface_x dims)) by (rewrite Ee; apply cx_put; auto).
  assert (Cy : cy dims (sp_extent s) = yhi - ylo + b2z (iface_y dims)) by (rewrite Ee; apply cy_put; auto).
  split; [exact Cx|]. split; [exact Cy|]. apply region_room; auto; rewrite ?ED, ?EO, ?En; lia.
Qed.

(** ** pieces of an axis *)
Lemma cuts_mono k N h cut : 0 <= h -> cuts k N h cut -> forall i j, 0 <= i <= j -> j <= k -> cut i <= cut j.
Proof.
  intros Hh (_ & _ & C) i j Hij Hj. replace j with (i + Z.of_nat (Z.to_nat (j - i))) in * by lia.
  revert Hj. generalize (Z.to_nat (j - i)). induction n as [|n IH]; intros Hj; [replace (i + Z.of_nat 0) with i by lia; lia|].
  specialize (C (i + Z.of_nat n)). replace (i + Z.of_nat (S n)) with (i + Z.of_nat n + 1) by lia. specialize (IH ltac:(lia)). lia.
Qed.

(** the piece d pieces away, w times around *)
Lemma hat k N h cut c d : 0 < k -> cuts k N h cut -> 0 <= c < k -> -1 <= d <= 1 ->
  exists w, (c + d) mod k = c + d - k * w /\ 0 <= c + d - k * w < k /\
    (c + d < 0 -> w = -1) /\ (k <= c + d -> w = 1) /\ (0 <= c + d < k -> w = 0) /\
    (d = 1 -> cut (c + d - k * w) = cut (c + 1) - N * w) /\
    (d = -1 -> cut (c + d - k * w + 1) = cut c - N * w) /\ (d = 0 -> w = 0).
Proof.
  intros Hk (C0 & Ck & C) Hc Hd.
  assert (M : forall w, 0 <= c + d - k * w < k -> (c + d) mod k = c + d - k * w).
  { intros w Hw. symmetry. apply (Z.mod_unique (c + d) k w); lia. }
  destruct (Z_lt_ge_dec (c + d) 0); [exists (-1)|destruct (Z_lt_ge_dec (c + d) k); [exists 0|exists 1]];
  (split; [apply M; lia|]); repeat split; try lia; intros.
  - replace (c + d - k * -1 + 1) with k by lia. replace c with 0 by lia. lia.
  - subst d. replace (c + 1 - k * 0) with (c + 1) by lia. lia.
  - subst d. replace (c + -1 - k * 0 + 1) with c by lia. lia.
  - subst d. replace (c + 1 - k * 1) with 0 by lia. replace (c + 1) with k by lia. lia.
Qed.

(** ** points of the neighbours' compute domains *)
Lemma box_ext dims o e a b x y : plane dims -> length o = length dims ->
  put_xy dims (box o (put_xy dims e a b)) x y = put_xy dims (box o e) x y.
Proof.
  intros P Lo. unfold box. rewrite <- (put_cxy dims P o) at 1. rewrite combine_put, put_map, put_xy_put. reflexivity.
Qed.

Definition wide (r : Z * Z) (lo hi f : Z) : Prop := fst r = lo /\ snd r = lo + (hi - lo) + f.

Section Fields.
  Variables (s s' : spec) (D : list dim) (origin ext : list Z) (n xlo xhi ylo yhi xlo' xhi' ylo' yhi' : Z).
  Hypothesis H : holds_cells s D origin ext n xlo xhi ylo yhi.
  Hypothesis H' : holds_cells s' D origin ext n xlo' xhi' ylo' yhi'.
  Hypothesis Wx : n <= xhi - xlo.
  Hypothesis Wy : n <= yhi - ylo.
  Hypothesis Wx' : n <= xhi' - xlo'.
  Hypothesis Wy' : n <= yhi' - ylo'.

  Lemma h_plane : plane D /\ length origin = length D /\ length ext = length D /\ 0 <= n.
  Proof.
    destruct H as (W & ED & EO & En & Ee & _). destruct (wf_lengths s W) as (P & Lo & Le & Lh).
    rewrite ED, EO in *. rewrite Ee, put_xy_length in Le. repeat split; auto; try apply P. destruct W as (_ & X & _). lia.
  Qed.

  Lemma near_ranges p : near s p -> ~ inside (compute_domain s) p ->
    exists b, inside (region s b false) p.
  Proof.
    intros Nr Ni. destruct (holds_room _ _ _ _ _ _ _ _ _ H Wx Wy) as (_ & _ & Rm). destruct H as (W & _).
    destruct (recv_tiles_halo s p W) as [K _]; [intros b; apply Rm|]. destruct K as (b & sl & E & I); [split; auto|].
    exists b. destruct (recv_region _ _ _ W E) as [<- _]. exact I.
  Qed.

  Lemma range_near b p : inside (region s b false) p -> near s p /\ ~ inside (compute_domain s) p.
  Proof.
    intros I. destruct (holds_room _ _ _ _ _ _ _ _ _ H Wx Wy) as (_ & _ & Rm). destruct H as (W & _).
    apply (recv_tiles_halo s p W); [intros b'; apply Rm|]. destruct (Rm b) as [_ X].
    destruct (recv_slice b s) as [sl|] eqn:E; [|congruence]. exists b, sl. split; auto. destruct (recv_region _ _ _ W E) as [-> _]. exact I.
  Qed.

  (** the point p of rank s, moved to (x, y), is in the compute domain of s' *)
  Lemma moved_inside b p x y : inside (region s b false) p ->
    cx D origin <= x < cx D origin + (xhi' - xlo') + b2z (iface_x D) ->
    cy D origin <= y < cy D origin + (yhi' - ylo') + b2z (iface_y D) ->
    inside (compute_domain s') (put_xy D p x y).
  Proof.
    intros I Hx Hy. destruct h_plane as (P & Lo & Lx & _).
    destruct (holds_room _ _ _ _ _ _ _ _ _ H' Wx' Wy') as (Ex & Ey & _).
    destruct H as (W & ED & EO & En & Ee & _), H' as (W' & ED' & EO' & En' & Ee' & _).
    apply inside_region in I; auto. apply inside_compute; auto. cbn zeta in *. rewrite ED, EO, En in I. rewrite ED', EO', Ex, Ey.
    destruct I as (Lp & _ & _ & I). rewrite put_xy_length, put_xy_put, cx_put, cy_put by auto. split; auto. split; [lia|]. split; [lia|].
    unfold compute_domain in *. rewrite EO, Ee, box_ext in I by auto. rewrite EO', Ee', box_ext by auto. exact I.
  Qed.

  Lemma region_point b p : inside (region s b false) p -> length p = length D /\
    fst (range_x s b false) <= cx D p < snd (range_x s b false) /\ fst (range_y s b false) <= cy D p < snd (range_y s b false).
  Proof.
    intros I. destruct H as (W & ED & EO & En & Ee & _). apply inside_region in I; auto. cbn zeta in I. unfold range_x, range_y. rewrite <- ED.
    tauto.
  Qed.

  Lemma range_x_eq b i : range_x s b i = range1 (dx b) (cx D origin) (xhi - xlo + b2z (iface_x D)) (b2z (iface_x D)) n i.
  Proof.
    destruct (holds_room _ _ _ _ _ _ _ _ _ H Wx Wy) as (Ex & Ey & _). destruct H as (W & ED & EO & En & Ee & _).
    unfold range_x. rewrite ED, EO, En, Ex. reflexivity.
  Qed.
  Lemma range_y_eq b i : range_y s b i = range1 (dy b) (cy D origin) (yhi - ylo + b2z (iface_y D)) (b2z (iface_y D)) n i.
  Proof.
    destruct (holds_room _ _ _ _ _ _ _ _ _ H Wx Wy) as (Ex & Ey & _). destruct H as (W & ED & EO & En & Ee & _).
    unfold range_y. rewrite ED, EO, En, Ey. reflexivity.
  Qed.
  Lemma ext_off x y : put_xy D (sp_extent s) x y = put_xy D ext x y.
  Proof. destruct H as (W & ED & EO & En & Ee & _). rewrite Ee. apply put_xy_put. Qed.
End Fields.

Lemma btype_eq_dec (a b : btype) : {a = b} + {a <> b}.
Proof. decide equality. Qed.

(** ** the periodic tile *)
Section Torus.
  Context {A : Type}.
  Variables (ny nx Nx Ny : Z) (cutx cuty : Z -> Z) (nf : nat).
  Variables (D : nat -> list dim) (origin ext : nat -> list Z) (h : nat -> Z).
  Variables (sp : Z -> nat -> spec) (q : Z -> nat -> index -> A) (G : nat -> index -> A).
  Hypothesis Hny : 3 <= ny.
  Hypothesis Hnx : 3 <= nx.
  Hypothesis Hnf : (0 < nf)%nat.
  Hypothesis Hcut : forall j, (j < nf)%nat -> cuts nx Nx (h j) cutx /\ cuts ny Ny (h j) cuty.
  Hypothesis Hsp : forall r j, 0 <= r < ny * nx -> (j < nf)%nat ->
    holds_cells (sp r j) (D j) (origin j) (ext j) (h j) (cutx (r mod nx)) (cutx (r mod nx + 1)) (cuty (r / nx)) (cuty (r / nx + 1)).
  Hypothesis Hq : forall r j p, 0 <= r < ny * nx -> (j < nf)%nat -> inside (compute_domain (sp r j)) p ->
    q r j p = on_torus (G j) Nx Ny (sp r j) (cutx (r mod nx)) (cuty (r / nx)) p.

  Let R := ny * nx.
  Let bnds := tile_boundaries (ny, nx).

  Lemma tile_bnds r b : 0 <= r < R -> In b (bnds r) <-> b = tile_boundary (ny, nx) (b_type b) r.
  Proof.
    intros Hr. unfold bnds, tile_boundaries. rewrite in_map_iff. split.
    - intros (bt & <- & _). f_equal. destruct bt; reflexivity.
    - intros E. exists (b_type b). split; [auto|]. destruct (b_type b); cbn; tauto.
  Qed.

  Lemma tile_type r bt : b_type (tile_boundary (ny, nx) bt r) = bt.
  Proof. destruct bt; reflexivity. Qed.

  Lemma tile_mate r b b' : 0 <= r < R -> In b (bnds r) -> mates bnds r b b' -> b' = tile_boundary (ny, nx) (opposite (b_type b)) (b_to b).
  Proof.
    intros Hr Hb [M1 M2]. apply tile_bnds in Hb; auto.
    destruct (tile_neighbours ny nx (b_type b) r ltac:(lia) ltac:(lia) Hr) as (T1 & T2 & T3 & T4 & T5 & T6). rewrite <- Hb in *.
    apply tile_bnds in M1; auto. rewrite M1. f_equal.
    destruct (btype_eq_dec (b_type b') (opposite (b_type b))) as [E|E]; [exact E|]. exfalso.
    destruct (tile_distinct ny nx (b_to b) (b_type b') (opposite (b_type b)) Hny Hnx T3) as [_ X]. apply (X E). rewrite <- M1. congruence.
  Qed.

  Lemma width_ok r j : 0 <= r < R -> (j < nf)%nat ->
    h j <= cutx (r mod nx + 1) - cutx (r mod nx) /\ h j <= cuty (r / nx + 1) - cuty (r / nx).
  Proof.
    intros Hr Hj. destruct (Hcut j Hj) as [(_ & _ & C1) (_ & _ & C2)]. destruct (tile_decompose ny nx r ltac:(lia) ltac:(lia) Hr) as (H1 & H2 & H3).
    split; [apply C1|apply C2]; lia.
  Qed.

  Lemma torus_fit r b j : 0 <= r < R -> In b (bnds r) -> (j < nf)%nat ->
    let s := b_to b in let b' := tile_boundary (ny, nx) (opposite (b_type b)) s in
    fst (rotated b' (sp s j) (q s j)) = shape_of (region (sp r j) (b_type b) false).
  Proof.
    intros Hr Hb Hj. apply tile_bnds in Hb; auto. cbn zeta.
    destruct (tile_neighbours ny nx (b_type b) r ltac:(lia) ltac:(lia) Hr) as (T1 & T2 & T3 & T4 & T5 & T6). rewrite <- Hb in *.
    destruct (tile_neighbours ny nx (opposite (b_type b)) (b_to b) ltac:(lia) ltac:(lia) T3) as (_ & T2' & _).
    pose proof (Hsp r j Hr Hj) as S1. pose proof (Hsp (b_to b) j T3 Hj) as S2.
    destruct (width_ok r j Hr Hj) as [W1 W2], (width_ok (b_to b) j T3 Hj) as [W3 W4].
    pose proof S1 as (Wf1 & D1 & _). pose proof S2 as (Wf2 & D2 & _).
    apply (rotated_fits b _ _ _ _ (ext j)); auto; [congruence|rewrite D1; apply (ext_off _ _ _ _ _ _ _ _ _ S1)|rewrite D1; apply (ext_off _ _ _ _ _ _ _ _ _ S2)|].
    rewrite T2', tile_type. cbn -[range_x range_y len].
    rewrite (range_x_eq _ _ _ _ _ _ _ _ _ S1 W1 W2), (range_y_eq _ _ _ _ _ _ _ _ _ S1 W1 W2),
      (range_x_eq _ _ _ _ _ _ _ _ _ S2 W3 W4), (range_y_eq _ _ _ _ _ _ _ _ _ S2 W3 W4).
    unfold len. rewrite !range1_width. unfold width1. rewrite opp_dx, opp_dy.
    destruct (tile_decompose ny nx r ltac:(lia) ltac:(lia) Hr) as (X1 & X2 & X3).
    rewrite T4, T5. split.
    - destruct (Z.eqb_spec (dx (b_type b)) 0) as [E|E], (Z.eqb_spec (- dx (b_type b)) 0); try lia.
      rewrite E, Z.add_0_r, Z.mod_mod by lia. reflexivity.
    - destruct (Z.eqb_spec (dy (b_type b)) 0) as [E|E], (Z.eqb_spec (- dy (b_type b)) 0); try lia.
      rewrite E, Z.add_0_r, (Z.mod_small (r / nx)) by lia. reflexivity.
  Qed.

  Lemma torus_net : net_ok R bnds nf sp q.
  Proof.
    constructor.
    - intros r Hr. unfold bnds, tile_boundaries. rewrite map_map. cbn [boundary_types map].
      assert (X : forall b1 b2, b1 <> b2 -> b_to (tile_boundary (ny, nx) b1 r) <> b_to (tile_boundary (ny, nx) b2 r)).
      { intros b1 b2. apply (tile_distinct ny nx r b1 b2 Hny Hnx Hr). }
      repeat constructor; cbn [In]; intros K; repeat destruct K as [K|K]; try exact K; revert K; apply X; discriminate.
    - intros r b b' Hr Hb Hb' E. apply tile_bnds in Hb, Hb'; auto. congruence.
    - intros r b Hr Hb. apply tile_bnds in Hb; auto.
      destruct (tile_neighbours ny nx (b_type b) r ltac:(lia) ltac:(lia) Hr) as (T1 & T2 & T3 & T4 & T5 & T6). rewrite <- Hb in *.
      split; [exact T3|]. exists (tile_boundary (ny, nx) (opposite (b_type b)) (b_to b)). split; [|exact T6].
      apply tile_bnds; [exact T3|]. now rewrite tile_type.
    - intros r j Hr Hj. destruct (width_ok r j Hr Hj) as [W1 W2]. pose proof (Hsp r j Hr Hj) as S1.
      destruct (holds_room _ _ _ _ _ _ _ _ _ S1 W1 W2) as (_ & _ & Rm). destruct S1 as (W & _). auto.
    - intros r b b' j Hr Hb M Hj. rewrite (tile_mate r b b') by auto. apply torus_fit; auto.
  Qed.

  Lemma torus_values r j p : 0 <= r < R -> (j < nf)%nat ->
    (near (sp r j) p -> final bnds sp q r j p = on_torus (G j) Nx Ny (sp r j) (cutx (r mod nx)) (cuty (r / nx)) p) /\
    (~ near (sp r j) p -> final bnds sp q r j p = q r j p).
  Proof.
    intros Hr Hj. pose proof (Hsp r j Hr Hj) as S1. destruct (width_ok r j Hr Hj) as [W1 W2].
    assert (Dec : inside (compute_domain (sp r j)) p \/ ~ inside (compute_domain (sp r j)) p).
    { rewrite <- in_slices_inside. destruct (in_slices _ p); auto. }
    split.
    - intros Nr. destruct Dec as [I|I].
      + rewrite (final_out R) by (auto; intros b Hb K; apply (range_near _ _ _ _ _ _ _ _ _ S1 W1 W2) in K; tauto). apply Hq; auto.
      + destruct (near_ranges _ _ _ _ _ _ _ _ _ S1 W1 W2 p Nr I) as (bt & K).
        set (b := tile_boundary (ny, nx) bt r). assert (Eb : b_type b = bt) by apply tile_type.
        assert (Hb : In b (bnds r)) by (apply tile_bnds; auto; now rewrite Eb).
        destruct (n_mate _ _ _ _ _ torus_net r b Hr Hb) as [Ht (b' & M)].
        rewrite (final_in R bnds nf sp q torus_net Hnf r j b b') by (auto; rewrite Eb; auto).
        pose proof (tile_mate r b b' Hr Hb M) as Eb'. rewrite Eb in Eb'.
        destruct (tile_neighbours ny nx bt r ltac:(lia) ltac:(lia) Hr) as (T1 & T2 & T3 & T4 & T5 & T6). fold b in T1, T2, T3, T4, T5, T6.
        destruct (tile_neighbours ny nx (opposite bt) (b_to b) ltac:(lia) ltac:(lia) Ht) as (_ & T2' & _). rewrite <- Eb' in T2'.
        assert (Et' : b_type b' = opposite bt) by (rewrite Eb'; apply tile_type).
        pose proof (Hsp (b_to b) j Ht Hj) as S2. destruct (width_ok (b_to b) j Ht Hj) as [W3 W4].
        destruct (region_point _ _ _ _ _ _ _ _ _ S1 bt p K) as (Lp & Px & Py).
        pose proof S1 as (Wf1 & D1 & O1 & N1 & _). pose proof S2 as (Wf2 & D2 & O2 & N2 & _).
        rewrite rotated_value by (auto; congruence). cbn zeta. rewrite T2', Et', Eb. cbn [Z.opp Z.modulo Z.div_eucl snd turn_back fst].
        rewrite D1. revert Px Py.
        rewrite !(range_x_eq _ _ _ _ _ _ _ _ _ S1 W1 W2), !(range_y_eq _ _ _ _ _ _ _ _ _ S1 W1 W2),
          (range_x_eq _ _ _ _ _ _ _ _ _ S2 W3 W4), (range_y_eq _ _ _ _ _ _ _ _ _ S2 W3 W4).
        rewrite opp_dx, opp_dy. intros Px Py.
        destruct (tile_decompose ny nx r ltac:(lia) ltac:(lia) Hr) as (X1 & X2 & X3).
        destruct (Hcut j Hj) as [Cx Cy].
        destruct (hat nx Nx (h j) cutx (r mod nx) (dx bt) ltac:(lia) Cx X2 (dx_bound bt)) as (wx & A1 & A2 & _ & _ & _ & A3 & A4 & A5).
        destruct (hat ny Ny (h j) cuty (r / nx) (dy bt) ltac:(lia) Cy X1 (dy_bound bt)) as (wy & B1 & B2 & _ & _ & _ & B3 & B4 & B5).
        rewrite A1 in T5. rewrite B1 in T4.
        assert (F : forall f, 0 <= b2z f <= 1) by (intros []; cbn; lia). pose proof (F (iface_x (D j))). pose proof (F (iface_y (D j))).
        pose proof (h_plane _ _ _ _ _ _ _ _ _ S1) as (_ & _ & _ & Hh).
        rewrite T5 in W3. rewrite T4 in W4.
        rewrite Hq; auto.
        * unfold on_torus, gx, gy. rewrite D1, D2, O1, O2, T4, T5, put_xy_put.
          pose proof (h_plane _ _ _ _ _ _ _ _ _ S1) as (P & _). rewrite cx_put, cy_put by auto. f_equal.
          pose proof (dx_bound bt). pose proof (dy_bound bt).
          f_equal.
          -- match goal with |- ?a mod _ = ?b mod _ => replace b with (a + wx * Nx); [symmetry; apply Z_mod_plus_full|] end.
             clear B3 B4 B5. assert (C3 : dx bt = -1 \/ dx bt = 0 \/ dx bt = 1) by lia. destruct C3 as [E|[E|E]]; rewrite E in *; cbn [range1 Z.eqb fst snd Z.opp] in *.
             ++ unfold range1 in *. cbn in *. specialize (A4 eq_refl). lia.
             ++ specialize (A5 eq_refl). subst wx. unfold range1 in *; cbn in *. replace (r mod nx + 0 - nx * 0) with (r mod nx) by lia. lia.
             ++ unfold range1 in *. cbn in *. specialize (A3 eq_refl). lia.
          -- match goal with |- ?a mod _ = ?b mod _ => replace b with (a + wy * Ny); [symmetry; apply Z_mod_plus_full|] end.
             clear A3 A4 A5. assert (C3 : dy bt = -1 \/ dy bt = 0 \/ dy bt = 1) by lia. destruct C3 as [E|[E|E]]; rewrite E in *; unfold range1 in *; cbn in *.
             ++ specialize (B4 eq_refl). lia.
             ++ specialize (B5 eq_refl). subst wy. replace (r / nx + 0 - ny * 0) with (r / nx) by lia. lia.
             ++ specialize (B3 eq_refl). lia.
        * rewrite T4, T5 in S2. rewrite ?T4, ?T5. apply (moved_inside (sp r j) (sp (b_to b) j) _ _ _ _ _ _ _ _ _ _ _ _ S1 S2 W3 W4 bt); auto.
          -- pose proof (dx_bound bt). assert (C3 : dx bt = -1 \/ dx bt = 0 \/ dx bt = 1) by lia. destruct C3 as [E|[E|E]]; rewrite E in *; unfold range1 in *; cbn in *.
             ++ lia.
             ++ specialize (A5 eq_refl). subst wx. replace (r mod nx + 0 - nx * 0) with (r mod nx) by lia. lia.
             ++ lia.
          -- pose proof (dy_bound bt). assert (C3 : dy bt = -1 \/ dy bt = 0 \/ dy bt = 1) by lia. destruct C3 as [E|[E|E]]; rewrite E in *; unfold range1 in *; cbn in *.
             ++ lia.
             ++ specialize (B5 eq_refl). subst wy. replace (r / nx + 0 - ny * 0) with (r / nx) by lia. lia.
             ++ lia.
    - intros Nn. apply (final_out R); auto. intros b Hb K. apply (range_near _ _ _ _ _ _ _ _ _ S1 W1 W2) in K. tauto.
  Qed.
End Torus.
