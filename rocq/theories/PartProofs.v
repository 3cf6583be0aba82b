(** Lemmas about the rank topology model. *)
From Verif Require Import Base PartModel PartSpec.
From Coq Require Import ZifyBool.

Lemma mod_add_mul t m w : 0 <= w < m -> (t * m + w) mod m = w.
Proof. intros H. rewrite Z.add_comm, Z_mod_plus_full. apply Z.mod_small; lia. Qed.
Lemma div_add_mul t m w : 0 <= w < m -> (t * m + w) / m = t.
Proof. intros H. rewrite Z.div_add_l by lia. rewrite Z.div_small by lia. lia. Qed.
Lemma within_lt r c ny nx : 0 <= r < ny -> 0 <= c < nx -> 0 <= r * nx + c < ny * nx.
Proof. intros; nia. Qed.

Lemma find_unique {A} (f : A -> bool) l p :
  In p l -> f p = true -> (forall q, In q l -> f q = true -> q = p) -> find f l = Some p.
Proof.
  induction l as [|a l IH]; cbn; intros Hin Hp Hu; [easy|].
  destruct (f a) eqn:E.
  - f_equal. apply Hu; auto.
  - destruct Hin as [->|Hin]; [congruence|]. apply IH; auto.
Qed.

Lemma in_positions n0 n1 i j : In (i, j) (positions n0 n1) <-> 0 <= i < n0 /\ 0 <= j < n1.
Proof.
  unfold positions. rewrite in_flat_map. split.
  - intros (a & Ha & Hm). apply in_map_iff in Hm as (b & Hb & Hin). inversion Hb; subst.
    apply in_zrange in Ha, Hin. lia.
  - intros [Hi Hj]. exists i. split; [apply in_zrange; lia|]. apply in_map_iff. exists j.
    split; [reflexivity|]. apply in_zrange; lia.
Qed.

(** ** Single tile *)
Lemma subtile_index_enc ny nx t r c :
  0 <= r < ny -> 0 <= c < nx ->
  subtile_index (ny, nx) (t * (ny * nx) + (r * nx + c)) = (r, c).
Proof.
  intros Hr Hc. unfold subtile_index, subtile_index_of, tile_ranks. cbn [fst snd].
  rewrite mod_add_mul by (apply within_lt; lia).
  rewrite div_add_mul by lia. rewrite mod_add_mul by lia. reflexivity.
Qed.

Lemma rank_array_inj ny nx i j i' j' :
  0 <= j < nx -> 0 <= j' < nx -> rank_array (ny, nx) i j = rank_array (ny, nx) i' j' -> i = i' /\ j = j'.
Proof.
  unfold rank_array; cbn [snd]. intros Hj Hj' E.
  assert (i = i') by (destruct (Z.lt_trichotomy i i') as [H|[H|H]]; [nia | exact H | nia]).
  subst; lia.
Qed.

(** Positions of ranks on the periodic layout grid, with wrap-around. *)
Definition tile_to (ny nx : Z) (bt : btype) (r c : Z) : Z * Z :=
  match bt with
  | WEST => (r, (c - 1) mod nx) | EAST => (r, (c + 1) mod nx)
  | NORTH => ((r + 1) mod ny, c) | SOUTH => ((r - 1) mod ny, c)
  | NORTHWEST => ((r + 1) mod ny, (c - 1) mod nx) | NORTHEAST => ((r + 1) mod ny, (c + 1) mod nx)
  | SOUTHWEST => ((r - 1) mod ny, (c - 1) mod nx) | SOUTHEAST => ((r - 1) mod ny, (c + 1) mod nx)
  end.

Lemma mod_dec n c : 0 < n -> 0 <= c < n -> (c - 1) mod n = if c =? 0 then n - 1 else c - 1.
Proof.
  intros Hn Hc. destruct (Z.eqb_spec c 0) as [->|H0].
  - replace (0 - 1) with ((-1) * n + (n - 1)) by lia. apply mod_add_mul; lia.
  - apply Z.mod_small; lia.
Qed.
Lemma mod_inc n c : 0 < n -> 0 <= c < n -> (c + 1) mod n = if c =? n - 1 then 0 else c + 1.
Proof.
  intros Hn Hc. destruct (Z.eqb_spec c (n - 1)) as [->|H0].
  - replace (n - 1 + 1) with (1 * n + 0) by lia. apply mod_add_mul; lia.
  - apply Z.mod_small; lia.
Qed.

Section TileEdges.
  Variables ny nx t r c : Z.
  Hypothesis Hr : 0 <= r < ny.
  Hypothesis Hc : 0 <= c < nx.
  Let base := t * (ny * nx).
  Let rank := base + (r * nx + c).

  Lemma left_enc : on_tile_left (ny, nx) rank = (c =? 0).
  Proof. unfold on_tile_left, rank, base. rewrite subtile_index_enc by lia. reflexivity. Qed.
  Lemma right_enc : on_tile_right (ny, nx) rank = (c =? nx - 1).
  Proof. unfold on_tile_right, rank, base. rewrite subtile_index_enc by lia. reflexivity. Qed.
  Lemma top_enc : on_tile_top (ny, nx) rank = (r =? ny - 1).
  Proof. unfold on_tile_top, rank, base. rewrite subtile_index_enc by lia. reflexivity. Qed.
  Lemma bottom_enc : on_tile_bottom (ny, nx) rank = (r =? 0).
  Proof. unfold on_tile_bottom, rank, base. rewrite subtile_index_enc by lia. reflexivity. Qed.

  Lemma tile_left_enc :
    tile_left_edge (ny, nx) rank = mkB WEST rank (base + (r * nx + (c - 1) mod nx)) 0.
  Proof.
    unfold tile_left_edge. rewrite left_enc, mod_dec by lia. cbn [snd].
    destruct (c =? 0) eqn:E; f_equal; unfold rank; lia.
  Qed.
  Lemma tile_right_enc :
    tile_right_edge (ny, nx) rank = mkB EAST rank (base + (r * nx + (c + 1) mod nx)) 0.
  Proof.
    unfold tile_right_edge. rewrite right_enc, mod_inc by lia. cbn [snd].
    destruct (c =? nx - 1) eqn:E; f_equal; unfold rank; lia.
  Qed.
  Lemma tile_top_enc :
    tile_top_edge (ny, nx) rank = mkB NORTH rank (base + (((r + 1) mod ny) * nx + c)) 0.
  Proof.
    unfold tile_top_edge. rewrite top_enc, mod_inc by lia. cbn [fst snd].
    destruct (r =? ny - 1) eqn:E; f_equal; unfold rank; nia.
  Qed.
  Lemma tile_bottom_enc :
    tile_bottom_edge (ny, nx) rank = mkB SOUTH rank (base + (((r - 1) mod ny) * nx + c)) 0.
  Proof.
    unfold tile_bottom_edge. rewrite bottom_enc, mod_dec by lia. cbn [fst snd].
    destruct (r =? 0) eqn:E; f_equal; unfold rank; nia.
  Qed.
End TileEdges.

Lemma tile_boundary_enc ny nx t r c bt :
  0 <= r < ny -> 0 <= c < nx ->
  let base := t * (ny * nx) in
  tile_boundary (ny, nx) bt (base + (r * nx + c))
  = mkB bt (base + (r * nx + c))
      (base + (fst (tile_to ny nx bt r c) * nx + snd (tile_to ny nx bt r c))) 0.
Proof.
  intros Hr Hc base.
  assert (Hm1 : 0 <= (c - 1) mod nx < nx) by (apply Z.mod_pos_bound; lia).
  assert (Hm2 : 0 <= (c + 1) mod nx < nx) by (apply Z.mod_pos_bound; lia).
  unfold base. destruct bt; cbn [tile_boundary tile_to fst snd]; unfold get_corner;
    rewrite ?tile_left_enc, ?tile_right_enc, ?tile_top_enc, ?tile_bottom_enc by lia; cbn [b_to b_rot];
    rewrite ?tile_left_enc, ?tile_right_enc, ?tile_top_enc, ?tile_bottom_enc by lia; reflexivity.
Qed.

(** ** Rank transforms on a square tile *)
Lemma rotate_rank_enc n r c :
  0 <= r < n -> 0 <= c < n ->
  rotate_subtile_rank (n, n) (r * n + c) 1 = Some ((n - 1 - c) * n + r).
Proof.
  intros Hr Hc. unfold rotate_subtile_rank. cbn [Z.eqb fst snd].
  unfold where_lookup. cbn [fst snd].
  rewrite (find_unique _ _ (n - 1 - c, r)).
  - replace (n - 1 - c <? n) with true by lia. replace (r <? n) with true by lia. reflexivity.
  - apply in_positions; lia.
  - cbn [fst snd]. unfold rank_array; cbn [snd]. lia.
  - intros [i j] Hin Hq. apply in_positions in Hin. cbn [fst snd] in Hq. apply Z.eqb_eq in Hq.
    change (r * n + c) with (rank_array (n, n) r c) in Hq.
    apply rank_array_inj in Hq; [f_equal; lia | lia | lia].
Qed.

Lemma fliplr_rank_enc n r c :
  0 <= r < n -> 0 <= c < n ->
  fliplr_subtile_rank (n, n) (r * n + c) = Some (r * n + (n - 1 - c)).
Proof.
  intros Hr Hc. unfold fliplr_subtile_rank, where_lookup. cbn [fst snd].
  rewrite (find_unique _ _ (r, n - 1 - c)).
  - replace (n - 1 - c <? n) with true by lia. replace (r <? n) with true by lia. reflexivity.
  - apply in_positions; lia.
  - cbn [fst snd]. unfold rank_array; cbn [snd]. lia.
  - intros [i j] Hin Hq. apply in_positions in Hin. cbn [fst snd] in Hq. apply Z.eqb_eq in Hq.
    change (r * n + c) with (rank_array (n, n) r c) in Hq.
    apply rank_array_inj in Hq; [f_equal; lia | lia | lia].
Qed.

Lemma flip_rotate_enc n r c :
  0 <= r < n -> 0 <= c < n ->
  flip_rotate (n, n) (r * n + c) = Some ((n - 1 - c) * n + (n - 1 - r)).
Proof.
  intros Hr Hc. unfold flip_rotate. rewrite rotate_rank_enc by lia. cbn [bind].
  apply fliplr_rank_enc; lia.
Qed.

(** ** Cube edges in (tile, row, col) form; the tile index is any integer *)
Definition enc (n t r c : Z) : Z := t * (n * n) + (r * n + c).

Definition left_to (n t r c : Z) : Z * Z * Z * Z :=
  if c =? 0 then if is_even t then (t - 2, n - 1, n - 1 - r, 1) else (t - 1, r, n - 1, 0)
  else (t, r, c - 1, 0).
Definition right_to (n t r c : Z) : Z * Z * Z * Z :=
  if c =? n - 1 then if is_even t then (t + 1, r, 0, 0) else (t + 2, 0, n - 1 - r, 1)
  else (t, r, c + 1, 0).
Definition top_to (n t r c : Z) : Z * Z * Z * Z :=
  if r =? n - 1 then if is_even t then (t + 2, n - 1 - c, 0, 3) else (t + 1, 0, c, 0)
  else (t, r + 1, c, 0).
Definition bottom_to (n t r c : Z) : Z * Z * Z * Z :=
  if r =? 0 then if is_even t then (t - 1, n - 1, c, 0) else (t - 2, n - 1 - c, n - 1, 3)
  else (t, r - 1, c, 0).

Definition as_b (bt : btype) (n rank : Z) (x : Z * Z * Z * Z) : boundary :=
  match x with (t, r, c, k) => mkB bt rank (enc n t r c) k end.

Section CubeEdges.
  Variables n t r c : Z.
  Hypothesis Hr : 0 <= r < n.
  Hypothesis Hc : 0 <= c < n.

  Lemma tile_index_enc : tile_index (n, n) (enc n t r c) = t.
  Proof.
    unfold tile_index, cube_ranks, tile_ranks, enc. cbn [fst snd].
    rewrite (Z.mul_comm 6), Z.div_mul by lia. apply div_add_mul. apply within_lt; lia.
  Qed.
  Lemma enc_mod_T : enc n t r c mod (n * n) = r * n + c.
  Proof. apply mod_add_mul, within_lt; lia. Qed.
  Lemma root_enc k : tile_root_rank (n, n) (enc n t r c + k * (n * n)) = (t + k) * (n * n).
  Proof.
    unfold tile_root_rank, tile_ranks, enc. cbn [fst snd].
    replace (t * (n * n) + (r * n + c) + k * (n * n)) with ((t + k) * (n * n) + (r * n + c)) by ring.
    rewrite div_add_mul by (apply within_lt; lia). ring.
  Qed.

  Lemma cube_left_enc : cube_left_edge (n, n) (enc n t r c) = Some (as_b WEST n (enc n t r c) (left_to n t r c)).
  Proof.
    unfold cube_left_edge, square_layout. cbn [fst snd]. rewrite Z.eqb_refl. cbn [negb].
    rewrite tile_index_enc. unfold tile_ranks; cbn [fst snd].
    rewrite enc_mod_T. rewrite flip_rotate_enc by lia. cbn [bind].
    unfold enc at 1. rewrite left_enc by lia. unfold left_to.
    destruct (c =? 0) eqn:E; [destruct (is_even t)|].
    - unfold as_b. replace (enc n t r c - 2 * (n * n)) with (enc n t r c + (-2) * (n * n)) by ring.
      rewrite root_enc. unfold enc. f_equal. f_equal.
      replace c with 0 by lia. ring.
    - unfold enc. rewrite tile_left_enc by lia. unfold with_to, as_b; cbn [b_type b_from b_to b_rot].
      rewrite mod_dec, E by lia. unfold enc. f_equal. f_equal. ring.
    - unfold enc. rewrite tile_left_enc by lia. unfold as_b. rewrite mod_dec, E by lia. reflexivity.
  Qed.

  Lemma cube_right_enc : cube_right_edge (n, n) (enc n t r c) = Some (as_b EAST n (enc n t r c) (right_to n t r c)).
  Proof.
    unfold cube_right_edge, square_layout. cbn [fst snd]. rewrite Z.eqb_refl. cbn [negb].
    rewrite tile_index_enc. unfold tile_ranks; cbn [fst snd].
    rewrite enc_mod_T. rewrite flip_rotate_enc by lia. cbn [bind].
    unfold enc at 1. rewrite right_enc by lia. unfold right_to.
    destruct (c =? n - 1) eqn:E; [destruct (is_even t) eqn:Ev; cbn [negb]|].
    - unfold enc. rewrite tile_right_enc by lia. unfold with_to, as_b; cbn [b_type b_from b_to b_rot].
      rewrite mod_inc, E by lia. unfold enc. f_equal. f_equal. ring.
    - unfold as_b. rewrite root_enc. unfold enc. f_equal. f_equal.
      replace c with (n - 1) by lia. ring.
    - unfold enc. rewrite tile_right_enc by lia. unfold as_b. rewrite mod_inc, E by lia. reflexivity.
  Qed.

  Lemma cube_top_enc : cube_top_edge (n, n) (enc n t r c) = Some (as_b NORTH n (enc n t r c) (top_to n t r c)).
  Proof.
    unfold cube_top_edge, square_layout. cbn [fst snd]. rewrite Z.eqb_refl. cbn [negb].
    rewrite tile_index_enc. unfold tile_ranks; cbn [fst snd].
    rewrite enc_mod_T. rewrite flip_rotate_enc by lia. cbn [bind].
    unfold enc at 1. rewrite top_enc by lia. unfold top_to.
    destruct (r =? n - 1) eqn:E; [destruct (is_even t) eqn:Ev|].
    - unfold as_b. unfold enc. f_equal. f_equal. replace r with (n - 1) by lia. ring.
    - unfold enc. rewrite tile_top_enc by lia. unfold with_to, as_b; cbn [b_type b_from b_to b_rot].
      rewrite mod_inc, E by lia. unfold enc. f_equal. f_equal. ring.
    - unfold enc. rewrite tile_top_enc by lia. unfold as_b. rewrite mod_inc, E by lia. reflexivity.
  Qed.

  Lemma cube_bottom_enc : cube_bottom_edge (n, n) (enc n t r c) = Some (as_b SOUTH n (enc n t r c) (bottom_to n t r c)).
  Proof.
    unfold cube_bottom_edge, square_layout. cbn [fst snd]. rewrite Z.eqb_refl. cbn [negb].
    rewrite tile_index_enc. unfold tile_ranks; cbn [fst snd].
    rewrite enc_mod_T. rewrite flip_rotate_enc by lia. cbn [bind].
    unfold enc at 1 3. rewrite bottom_enc by lia. unfold bottom_to.
    destruct (r =? 0) eqn:E; [destruct (is_even t) eqn:Ev; cbn [negb andb]|cbn [andb]].
    - unfold enc. rewrite tile_bottom_enc by lia. unfold with_to, as_b; cbn [b_type b_from b_to b_rot].
      rewrite mod_dec, E by lia. unfold enc. f_equal. f_equal. ring.
    - unfold as_b. unfold enc. f_equal. f_equal. replace r with 0 by lia. ring.
    - unfold enc. rewrite tile_bottom_enc by lia. unfold as_b. rewrite mod_dec, E by lia. reflexivity.
  Qed.
End CubeEdges.
