(** End-to-end statements about whole scalar halo updates, assembled from HaloNet (torus) and HaloCube. *)
From Verif Require Import Base PartModel PartSpec DecompModel DecompSpec HaloModel HaloSpec HaloProofs HaloExchange HaloPack HaloNetSpec HaloNet HaloCube.
Open Scope Z_scope.

Lemma rotated_fst {A B} b s (q : index -> A) (q' : index -> B) : fst (rotated b s q) = fst (rotated b s q').
Proof.
  unfold rotated, view, rotate_scalar, rot90, flip.
  repeat match goal with |- context [if ?c then _ else _] => destruct c end; try reflexivity;
  destruct (x_dim (sp_dims s)), (y_dim (sp_dims s)); try reflexivity;
  repeat match goal with |- context [if ?c then _ else _] => destruct c end; reflexivity.
Qed.

Lemma net_data {A B} R bnds nf sp (q : Z -> nat -> index -> A) (q' : Z -> nat -> index -> B) :
  net_ok R bnds nf sp q -> net_ok R bnds nf sp q'.
Proof.
  intros N. constructor; try (apply N).
  intros r b b' j Hr Hb M Hj. rewrite (rotated_fst _ _ _ (q (b_to b) j)). apply (n_fit _ _ _ _ _ N r b b' j); auto.
Qed.

Lemma net_sizes {A} R bnds nf sp (q : Z -> nat -> index -> A) : net_ok R bnds nf sp q -> (0 < nf)%nat ->
  exists T, (forall r, 0 <= r < R -> scalar_transformers (bnds r) (map (sp r) (seq 0 nf)) [] = Some (T r)) /\
    sizes_match R T (fun r => map (q r) (seq 0 nf)).
Proof.
  intros N Hnf. exists (trans bnds nf sp). split; [intros r Hr; apply (trans_built R bnds nf sp q); auto|].
  intros r s e Hr I. destruct (net_consistent R bnds nf sp q N Hnf) as (C1 & C2 & C3 & C4 & C5).
  destruct (C2 r s Hr) as [Hs J]. { apply in_map_iff. exists (s, e). auto. }
  split; auto. apply in_map_iff in J. destruct J as ([r' e'] & E & J). cbn in E. subst r'.
  exists e'. eexists. split; [exact J|]. split; [apply (C3 s r e'); auto|]. apply (C4 r s e); auto.
Qed.

Section TorusEnd.
  Context {A : Type}.
  Variables (ny nx Nx Ny : Z) (cutx cuty : Z -> Z) (nf : nat).
  Variables (D : nat -> list dim) (origin ext : nat -> list Z) (h : nat -> Z) (sp : Z -> nat -> spec).
  Hypothesis Hny : 3 <= ny.
  Hypothesis Hnx : 3 <= nx.
  Hypothesis Hnf : (0 < nf)%nat.
  Hypothesis Hcut : forall j, (j < nf)%nat -> cuts nx Nx (h j) cutx /\ cuts ny Ny (h j) cuty.
  Hypothesis Hsp : forall r j, 0 <= r < ny * nx -> (j < nf)%nat ->
    holds_cells (sp r j) (D j) (origin j) (ext j) (h j) (cutx (r mod nx)) (cutx (r mod nx + 1)) (cuty (r / nx)) (cuty (r / nx + 1)).

  Lemma torus_sizes (q : Z -> nat -> index -> A) :
    exists T, (forall r, 0 <= r < ny * nx -> scalar_transformers (tile_boundaries (ny, nx) r) (map (sp r) (seq 0 nf)) [] = Some (T r)) /\
      sizes_match (ny * nx) T (fun r => map (q r) (seq 0 nf)).
  Proof.
    apply net_sizes; auto. apply (net_data _ _ _ _ (fun _ _ _ => tt)).
    eapply torus_net; eauto.
  Qed.

  Lemma torus_update (q : Z -> nat -> index -> A) (G : nat -> index -> A) :
    (forall r j p, 0 <= r < ny * nx -> (j < nf)%nat -> inside (compute_domain (sp r j)) p ->
       q r j p = on_torus (G j) Nx Ny (sp r j) (cutx (r mod nx)) (cuty (r / nx)) p) ->
    exists T, (forall r, 0 <= r < ny * nx -> scalar_transformers (tile_boundaries (ny, nx) r) (map (sp r) (seq 0 nf)) [] = Some (T r)) /\
    forall evs st, valid_events (ny * nx) evs ->
      run pack_scalar unpack_scalar scalar_bufsize T evs (initial (fun r => map (q r) (seq 0 nf))) = Some st ->
      ((exists r, 0 <= r < ny * nx /\ sy_ph st r <> Finished) ->
        exists ev st', valid_events (ny * nx) [ev] /\ step pack_scalar unpack_scalar scalar_bufsize T ev st = Some st') /\
      (forall r, 0 <= r < ny * nx -> sy_ph st r = Finished ->
         exists f, sy_q st r = map f (seq 0 nf) /\ forall j p, (j < nf)%nat ->
           (near (sp r j) p -> f j p = on_torus (G j) Nx Ny (sp r j) (cutx (r mod nx)) (cuty (r / nx)) p) /\
           (~ near (sp r j) p -> f j p = q r j p)).
  Proof.
    intros Hq.
    assert (N : net_ok (ny * nx) (tile_boundaries (ny, nx)) nf sp q) by (eapply torus_net; eauto).
    destruct (net_exchange _ _ _ _ _ N Hnf) as (T & ET & H). exists T. split; auto.
    intros evs st V Rn. destruct (H evs st V Rn) as [H1 H2]. split; auto.
    intros r Hr Ph. eexists. split; [apply H2; auto|]. intros j p Hj. eapply torus_values; eauto.
  Qed.
End TorusEnd.

Section CubeEnd.
  Context {A : Type}.
  Variables (n N : Z) (cut : Z -> Z) (nf : nat).
  Variables (D : nat -> list dim) (origin ext : nat -> list Z) (h : nat -> Z) (sp : Z -> nat -> spec).
  Hypothesis Hn : 0 < n.
  Hypothesis Hnf : (0 < nf)%nat.
  Hypothesis Hpal : palindromic n cut.
  Hypothesis Hcut : forall j, (j < nf)%nat -> cuts n N (h j) cut.
  Hypothesis Hst : forall j, (j < nf)%nat -> iface_x (D j) = iface_y (D j).
  Hypothesis Hsp : forall r j, 0 <= r < 6 * (n * n) -> (j < nf)%nat ->
    holds_cells (sp r j) (D j) (origin j) (ext j) (h j) (cut (col_of n r)) (cut (col_of n r + 1)) (cut (row_of n r)) (cut (row_of n r + 1)).

  Lemma cube_built T : (forall r, 0 <= r < 6 * (n * n) -> scalar_transformers (cbnds n r) (map (sp r) (seq 0 nf)) [] = Some (T r)) ->
    forall r, 0 <= r < 6 * (n * n) -> (do bs <- cube_boundaries (n, n) r; scalar_transformers bs (map (sp r) (seq 0 nf)) []) = Some (T r).
  Proof.
    intros H r Hr. specialize (H r Hr). unfold cbnds in H. destruct (cube_bnds n r Hn Hr) as (bs & E & _). rewrite E in *. exact H.
  Qed.

  Lemma cube_update (q : Z -> nat -> index -> A) (G : nat -> vec -> index -> A) :
    (forall r j p, 0 <= r < 6 * (n * n) -> (j < nf)%nat -> inside (compute_domain (sp r j)) p ->
       q r j p = G j (surface N (tile_of n r) (face_x N (sp r j) (cut (col_of n r)) p) (face_y N (sp r j) (cut (row_of n r)) p)) (put_xy (D j) p 0 0)) ->
    exists T, (forall r, 0 <= r < 6 * (n * n) -> (do bs <- cube_boundaries (n, n) r; scalar_transformers bs (map (sp r) (seq 0 nf)) []) = Some (T r)) /\
    forall evs st, valid_events (6 * (n * n)) evs ->
      run pack_scalar unpack_scalar scalar_bufsize T evs (initial (fun r => map (q r) (seq 0 nf))) = Some st ->
      ((exists r, 0 <= r < 6 * (n * n) /\ sy_ph st r <> Finished) ->
        exists ev st', valid_events (6 * (n * n)) [ev] /\ step pack_scalar unpack_scalar scalar_bufsize T ev st = Some st') /\
      (forall r, 0 <= r < 6 * (n * n) -> sy_ph st r = Finished ->
         exists f, sy_q st r = map f (seq 0 nf) /\ forall j p, (j < nf)%nat ->
           (near (sp r j) p ->
              match fold N (tile_of n r) (face_x N (sp r j) (cut (col_of n r)) p) (face_y N (sp r j) (cut (row_of n r)) p) with
              | Some v => f j p = G j v (put_xy (D j) p 0 0)
              | None => f j p = q r j p
              end) /\
           (~ near (sp r j) p -> f j p = q r j p)).
  Proof.
    intros Hq. assert (Hst' : forall j, (j < nf)%nat -> iface_x (D j) = iface_x (D j) /\ iface_y (D j) = iface_x (D j)) by (intros j Hj; split; auto; symmetry; auto).
    assert (Nt : net_ok (6 * (n * n)) (cbnds n) nf sp q) by (eapply cube_net with (st := fun j => iface_x (D j)); eauto).
    destruct (net_exchange _ _ _ _ _ Nt Hnf) as (T & ET & H). exists T. split; [apply cube_built; auto|].
    intros evs st V Rn. destruct (H evs st V Rn) as [H1 H2]. split; auto.
    intros r Hr Ph. eexists. split; [apply H2; auto|]. intros j p Hj. eapply cube_values with (st := fun j => iface_x (D j)); eauto.
  Qed.

  Lemma cube_sizes (q : Z -> nat -> index -> A) :
    exists T, (forall r, 0 <= r < 6 * (n * n) -> (do bs <- cube_boundaries (n, n) r; scalar_transformers bs (map (sp r) (seq 0 nf)) []) = Some (T r)) /\
      sizes_match (6 * (n * n)) T (fun r => map (q r) (seq 0 nf)).
  Proof.
    assert (Hst' : forall j, (j < nf)%nat -> iface_x (D j) = iface_x (D j) /\ iface_y (D j) = iface_x (D j)) by (intros j Hj; split; auto; symmetry; auto).
    destruct (net_sizes (6 * (n * n)) (cbnds n) nf sp q) as (T & ET & H); auto.
    - apply (net_data _ _ _ _ (fun _ _ _ => tt)). eapply cube_net with (st := fun j => iface_x (D j)) (G := fun _ _ _ => tt); eauto.
    - exists T. split; [apply cube_built; auto|auto].
  Qed.
End CubeEnd.
