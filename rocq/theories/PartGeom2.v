(** Consequences for ranks (not only closed forms): mutuality, walks, distinctness. *)
From Verif Require Import Base PartModel PartSpec PartProofs PartGeom.
From Coq Require Import ZifyBool.

Lemma corner_to_walk n t r c bt bt1 bt2 :
  0 <= t < 6 -> 0 <= r < n -> 0 <= c < n ->
  is_edge bt1 = true -> is_edge bt2 = true -> dx bt1 + dx bt2 = dx bt -> dy bt1 + dy bt2 = dy bt ->
  is_edge bt = false ->
  match corner_to n t r c bt, corner_to n t r c bt1 with
  | Some (t', r', c', k), Some (t1, r1, c1, k1) =>
      let '(a, b) := seen_from k1 (dx bt2) (dy bt2) in
      match corner_to n (t1 mod 6) r1 c1 (bt_of a b) with
      | None => False
      | Some (t2, r2, c2, k2) =>
          t2 mod 6 = t' mod 6 /\ r2 = r' /\ c2 = c' /\ (k1 + k2) mod 4 = k
      end
  | Some _, None => False
  | None, _ => True
  end.
Proof.
  intros Ht Hr Hc E1 E2 Ex Ey E.
  destruct bt; try discriminate E; destruct bt1; try discriminate E1; destruct bt2; try discriminate E2;
    try discriminate Ex; try discriminate Ey; clear E E1 E2 Ex Ey; tiles t Ht.
  all: unfold corner_to at 1, then_to, left_to, right_to, top_to, bottom_to.
  all: ifs; try exact I.
  all: unfold corner_to at 1, then_to, left_to, right_to, top_to, bottom_to.
  all: ifs; try exact I.
  all: match goal with
       | |- context [seen_from ?k ?a ?b] =>
           let v := eval vm_compute in (seen_from k a b) in change (seen_from k a b) with v end.
  all: cbv iota beta.
  all: match goal with
       | |- context [bt_of ?a ?b] => let v := eval vm_compute in (bt_of a b) in change (bt_of a b) with v end.
  all: match goal with
       | |- context [corner_to _ (?a mod 6)] => let v := eval vm_compute in (a mod 6) in change (a mod 6) with v
       | _ => idtac end.
  all: unfold corner_to, then_to, left_to, right_to, top_to, bottom_to.
  all: ifs.
  all: repeat match goal with |- _ /\ _ => split end; try reflexivity; try lia.
Qed.

(** The tile torus. *)
Lemma tile_decompose ny nx rank :
  0 < ny -> 0 < nx -> 0 <= rank < ny * nx ->
  0 <= rank / nx < ny /\ 0 <= rank mod nx < nx /\ rank = rank / nx * nx + rank mod nx.
Proof.
  intros Hy Hx Hr. pose proof (Z.mod_pos_bound rank nx Hx). pose proof (Z.div_mod rank nx ltac:(lia)).
  assert (0 <= rank / nx) by (apply Z.div_pos; lia).
  assert (rank / nx < ny) by (apply Z.div_lt_upper_bound; lia). lia.
Qed.

Lemma tile_to_mod ny nx r c bt :
  0 <= r < ny -> 0 <= c < nx ->
  tile_to ny nx bt r c = ((r + dy bt) mod ny, (c + dx bt) mod nx).
Proof.
  intros Hr Hc. destruct bt; cbn [tile_to dx dy]; rewrite ?Z.add_0_r;
    rewrite ?(Z.mod_small r ny), ?(Z.mod_small c nx) by lia; reflexivity.
Qed.

Lemma tile_boundary_mod ny nx r c bt :
  0 <= r < ny -> 0 <= c < nx ->
  tile_boundary (ny, nx) bt (r * nx + c)
  = mkB bt (r * nx + c) ((r + dy bt) mod ny * nx + (c + dx bt) mod nx) 0.
Proof.
  intros Hr Hc. pose proof (tile_boundary_enc ny nx 0 r c bt Hr Hc) as H. cbn zeta in H.
  rewrite !Z.mul_0_l, !Z.add_0_l in H. rewrite H, tile_to_mod by lia. reflexivity.
Qed.

Lemma opp_dx bt : dx (opposite bt) = - dx bt. Proof. destruct bt; reflexivity. Qed.
Lemma opp_dy bt : dy (opposite bt) = - dy bt. Proof. destruct bt; reflexivity. Qed.

Lemma mod_back a d n : 0 <= a < n -> ((a + d) mod n + - d) mod n = a.
Proof.
  intros H. rewrite Zplus_mod_idemp_l. replace (a + d + - d) with a by lia. apply Z.mod_small; lia.
Qed.

Lemma rc_div nx r c : 0 <= c < nx -> (r * nx + c) / nx = r.
Proof. intros. symmetry. apply (Z.div_unique_pos _ _ _ c); lia. Qed.
Lemma rc_mod nx r c : 0 <= c < nx -> (r * nx + c) mod nx = c.
Proof. intros. symmetry. apply (Z.mod_unique_pos _ _ r); lia. Qed.

Lemma tile_neighbours ny nx bt rank :
  0 < ny -> 0 < nx -> 0 <= rank < ny * nx ->
  let b := tile_boundary (ny, nx) bt rank in
  b_from b = rank /\ b_rot b = 0 /\ 0 <= b_to b < ny * nx /\
  b_to b / nx = (rank / nx + dy bt) mod ny /\ b_to b mod nx = (rank mod nx + dx bt) mod nx /\
  b_to (tile_boundary (ny, nx) (opposite bt) (b_to b)) = rank.
Proof.
  intros Hy Hx Hr. destruct (tile_decompose ny nx rank Hy Hx Hr) as (H1 & H2 & H3).
  set (r := rank / nx) in *. set (c := rank mod nx) in *. rewrite H3. clearbody r c.
  rewrite tile_boundary_mod by lia. cbn zeta. cbn [b_from b_rot b_to].
  pose proof (Z.mod_pos_bound (r + dy bt) ny Hy) as M1. pose proof (Z.mod_pos_bound (c + dx bt) nx Hx) as M2.
  rewrite tile_boundary_mod by lia. cbn [b_to].
  rewrite opp_dx, opp_dy, !mod_back by lia. rewrite rc_div, rc_mod by lia.
  repeat split; try lia; nia.
Qed.

Lemma dxdy_inj bt1 bt2 : dx bt1 = dx bt2 -> dy bt1 = dy bt2 -> bt1 = bt2.
Proof. destruct bt1, bt2; cbn; intros; try lia; reflexivity. Qed.
Lemma dx_bound bt : -1 <= dx bt <= 1. Proof. destruct bt; cbn; lia. Qed.
Lemma dy_bound bt : -1 <= dy bt <= 1. Proof. destruct bt; cbn; lia. Qed.
Lemma dxdy_nz bt : dx bt = 0 -> dy bt = 0 -> False. Proof. destruct bt; cbn; lia. Qed.

Lemma mod_small_diff n a b d e :
  3 <= n -> -1 <= d <= 1 -> -1 <= e <= 1 -> (a + d) mod n = (b + e) mod n -> a = b -> d = e.
Proof.
  intros Hn Hd He E <-.
  assert (Hm : (d - e) mod n = 0).
  { replace (d - e) with (a + d - (a + e)) by lia. rewrite Zminus_mod, E, Z.sub_diag. apply Z.mod_0_l. lia. }
  apply Z.mod_divide in Hm; [|lia]. destruct Hm as [q Hq].
  assert (q = 0) by nia. lia.
Qed.

Lemma tile_distinct ny nx rank bt1 bt2 :
  3 <= ny -> 3 <= nx -> 0 <= rank < ny * nx ->
  b_to (tile_boundary (ny, nx) bt1 rank) <> rank /\
  (bt1 <> bt2 -> b_to (tile_boundary (ny, nx) bt1 rank) <> b_to (tile_boundary (ny, nx) bt2 rank)).
Proof.
  intros Hy Hx Hr. destruct (tile_decompose ny nx rank ltac:(lia) ltac:(lia) Hr) as (H1 & H2 & H3).
  set (r := rank / nx) in *. set (c := rank mod nx) in *. rewrite H3. clearbody r c.
  rewrite !tile_boundary_mod by lia. cbn [b_to].
  pose proof (Z.mod_pos_bound (c + dx bt1) nx ltac:(lia)) as M1.
  pose proof (Z.mod_pos_bound (c + dx bt2) nx ltac:(lia)) as M2.
  pose proof (dx_bound bt1). pose proof (dy_bound bt1). pose proof (dx_bound bt2). pose proof (dy_bound bt2).
  split.
  - intros E.
    assert (E1 := f_equal (fun z => z / nx) E). assert (E2 := f_equal (fun z => z mod nx) E). cbn beta in E1, E2.
    rewrite !rc_div in E1 by lia. rewrite !rc_mod in E2 by lia.
    apply (dxdy_nz bt1).
    + apply (mod_small_diff nx c c); try lia. rewrite Z.add_0_r, (Z.mod_small c) by lia. exact E2.
    + apply (mod_small_diff ny r r); try lia. rewrite Z.add_0_r, (Z.mod_small r) by lia. exact E1.
  - intros Hne E. apply Hne.
    assert (E1 := f_equal (fun z => z / nx) E). assert (E2 := f_equal (fun z => z mod nx) E). cbn beta in E1, E2.
    rewrite !rc_div in E1 by lia. rewrite !rc_mod in E2 by lia.
    apply dxdy_inj; [apply (mod_small_diff nx c c)|apply (mod_small_diff ny r r)]; lia || assumption || reflexivity.
Qed.

Lemma tile_not_distinct ny nx :
  0 < ny -> 0 < nx -> ~ (3 <= ny /\ 3 <= nx) ->
  forall rank, 0 <= rank < ny * nx ->
  exists bt1 bt2, bt1 <> bt2 /\ b_to (tile_boundary (ny, nx) bt1 rank) = b_to (tile_boundary (ny, nx) bt2 rank).
Proof.
  intros Hy Hx Hn rank Hr. destruct (tile_decompose ny nx rank ltac:(lia) ltac:(lia) Hr) as (H1 & H2 & H3).
  set (r := rank / nx) in *. set (c := rank mod nx) in *. rewrite H3. clearbody r c.
  assert (Hc : nx = 1 \/ nx = 2 \/ ny = 1 \/ ny = 2) by lia.
  destruct Hc as [-> | [-> | [-> | ->]]].
  - exists WEST, EAST. split; [discriminate|]. rewrite !tile_boundary_mod by lia. cbn [b_to dx dy].
    rewrite !Z.mod_1_r. reflexivity.
  - exists WEST, EAST. split; [discriminate|]. rewrite !tile_boundary_mod by lia. cbn [b_to dx dy].
    replace (c + 1) with (c + -1 + 1 * 2) by lia. rewrite Z_mod_plus_full. reflexivity.
  - exists NORTH, SOUTH. split; [discriminate|]. rewrite !tile_boundary_mod by lia. cbn [b_to dx dy].
    rewrite !Z.mod_1_r. reflexivity.
  - exists NORTH, SOUTH. split; [discriminate|]. rewrite !tile_boundary_mod by lia. cbn [b_to dx dy].
    replace (r + 1) with (r + -1 + 1 * 2) by lia. rewrite Z_mod_plus_full. reflexivity.
Qed.

(** ** The cube *)
Lemma cube_geometry n bt t r c :
  0 <= t < 6 -> 0 <= r < n -> 0 <= c < n ->
  let x := centre n c + 2 * dx bt in
  let y := centre n r + 2 * dy bt in
  match cube_boundary (n, n) bt (t * (n * n) + (r * n + c)) with
  | None => False
  | Some None => fold n t x y = None
  | Some (Some b) =>
      b_type b = bt /\ b_from b = t * (n * n) + (r * n + c) /\
      exists t' r' c', b_to b = t' * (n * n) + (r' * n + c') /\ is_neighbour n t x y t' r' c' (b_rot b)
  end.
Proof.
  intros Ht Hr Hc x y. change (t * (n * n) + (r * n + c)) with (enc n t r c).
  rewrite cube_boundary_enc by lia.
  pose proof (corner_to_geometry n t r c bt Ht Hr Hc) as G. cbn zeta in G. fold x y in G.
  destruct (corner_to n t r c bt) as [[[[t' r'] c'] k]|]; [|exact G].
  cbn [b_type b_from b_to b_rot]. repeat split. exists (t' mod 6), r', c'. split; [reflexivity|exact G].
Qed.

Lemma corner_to_none n t r c bt :
  corner_to n t r c bt = None ->
  is_edge bt = false /\ (r = if dy bt =? 1 then n - 1 else 0) /\ (c = if dx bt =? 1 then n - 1 else 0).
Proof.
  destruct bt; cbn [corner_to is_edge dx dy Z.eqb Pos.eqb]; try discriminate;
    match goal with |- context [if ?b then None else _] => destruct b eqn:E; try discriminate end;
    intros _; lia.
Qed.
Lemma corner_to_none_iff n t r c bt :
  is_edge bt = false -> (r = if dy bt =? 1 then n - 1 else 0) -> (c = if dx bt =? 1 then n - 1 else 0) ->
  corner_to n t r c bt = None.
Proof.
  intros He Hr Hc.
  destruct bt; try discriminate He; cbn [dx dy Z.eqb Pos.eqb] in Hr, Hc; subst; cbn [corner_to];
    rewrite !Z.eqb_refl; reflexivity.
Qed.

Lemma corner_iff n bt t r c :
  0 <= t < 6 -> 0 <= r < n -> 0 <= c < n -> is_edge bt = false ->
  (cube_boundary (n, n) bt (t * (n * n) + (r * n + c)) = Some None
   <-> (r = if dy bt =? 1 then n - 1 else 0) /\ (c = if dx bt =? 1 then n - 1 else 0)).
Proof.
  intros Ht Hr Hc He. change (t * (n * n) + (r * n + c)) with (enc n t r c).
  rewrite cube_boundary_enc by lia. split.
  - destruct (corner_to n t r c bt) as [[[[t' r'] c'] k]|] eqn:E; [discriminate|]. intros _.
    apply corner_to_none in E. tauto.
  - intros [H1 H2]. rewrite corner_to_none_iff by assumption. reflexivity.
Qed.

Lemma cube_total n bt rank :
  0 < n -> 0 <= rank < 6 * (n * n) -> exists o, cube_boundary (n, n) bt rank = Some o.
Proof.
  intros Hn Hr. destruct (rank_decompose n rank Hn Hr) as (t & r & c & Ht & Hrr & Hc & ->).
  rewrite cube_boundary_enc by lia. eexists; reflexivity.
Qed.

Lemma cube_edge_some n bt rank :
  0 < n -> 0 <= rank < 6 * (n * n) -> is_edge bt = true -> exists b, cube_boundary (n, n) bt rank = Some (Some b).
Proof.
  intros Hn Hr He. destruct (rank_decompose n rank Hn Hr) as (t & r & c & Ht & Hrr & Hc & ->).
  rewrite cube_boundary_enc by lia.
  destruct (corner_to n t r c bt) as [[[[t' r'] c'] k]|] eqn:E; [eexists; reflexivity|].
  apply corner_to_none in E. destruct E; congruence.
Qed.

Lemma corner_good n t r c bt t' r' c' k :
  0 <= t < 6 -> 0 <= r < n -> 0 <= c < n -> corner_to n t r c bt = Some (t', r', c', k) ->
  0 <= r' < n /\ 0 <= c' < n /\ 0 <= k < 4.
Proof.
  intros Ht Hr Hc E. pose proof (corner_to_geometry n t r c bt Ht Hr Hc) as G. cbn zeta in G. rewrite E in G.
  unfold is_neighbour in G. tauto.
Qed.

Lemma cube_mutual n bt rank b :
  0 < n -> 0 <= rank < 6 * (n * n) -> cube_boundary (n, n) bt rank = Some (Some b) ->
  b_from b = rank /\ 0 <= b_to b < 6 * (n * n) /\ 0 <= b_rot b < 4 /\
  exists bt' b', cube_boundary (n, n) bt' (b_to b) = Some (Some b') /\
    b_to b' = rank /\ b_rot b' = (4 - b_rot b) mod 4 /\
    (dx bt', dy bt') = seen_from (b_rot b) (- dx bt) (- dy bt).
Proof.
  intros Hn Hr. destruct (rank_decompose n rank Hn Hr) as (t & r & c & Ht & Hrr & Hc & ->).
  rewrite cube_boundary_enc by lia.
  destruct (corner_to n t r c bt) as [[[[t' r'] c'] k]|] eqn:E; [|discriminate].
  intros [= <-]. cbn [b_from b_to b_rot].
  destruct (corner_good _ _ _ _ _ _ _ _ _ Ht Hrr Hc E) as (G1 & G2 & G3).
  pose proof (Z.mod_pos_bound t' 6 ltac:(lia)) as Gt.
  split; [reflexivity|]. split; [apply enc_range; lia|]. split; [exact G3|].
  pose proof (corner_to_back n t r c bt Ht Hrr Hc) as B. rewrite E in B.
  exists (back bt k). rewrite cube_boundary_enc by lia.
  destruct (corner_to n (t' mod 6) r' c' (back bt k)) as [[[[t'' r''] c''] k'']|] eqn:E'; [|contradiction].
  destruct (corner_good _ _ _ _ _ _ _ _ _ Gt G1 G2 E') as (K1 & K2 & K3).
  destruct B as (B1 & B2 & B3 & B4 & B5). subst r'' c''.
  eexists. split; [reflexivity|]. cbn [b_to b_rot]. rewrite B1. split; [reflexivity|]. split; [|exact B5].
  assert (Hk : k'' = (4 - k) mod 4).
  { assert (k = 0 \/ k = 1 \/ k = 2 \/ k = 3) as [-> | [-> | [-> | ->]]] by lia;
    assert (k'' = 0 \/ k'' = 1 \/ k'' = 2 \/ k'' = 3) as [-> | [-> | [-> | ->]]] by lia;
    vm_compute in B4; try discriminate B4; reflexivity. }
  exact Hk.
Qed.

Lemma seen_from_edge bt bt' k :
  (dx bt', dy bt') = seen_from k (- dx bt) (- dy bt) -> is_edge bt' = is_edge bt.
Proof.
  unfold seen_from. destruct (k mod 4) as [|[[]|[]|]|]; destruct bt, bt'; cbn; intros E; congruence.
Qed.

Lemma cube_edge_mutual n bt rank :
  0 < n -> 0 <= rank < 6 * (n * n) -> is_edge bt = true ->
  exists b bt' b', cube_boundary (n, n) bt rank = Some (Some b) /\
    0 <= b_to b < 6 * (n * n) /\
    is_edge bt' = true /\ cube_boundary (n, n) bt' (b_to b) = Some (Some b') /\
    b_to b' = rank /\ b_rot b' = (4 - b_rot b) mod 4 /\
    (dx bt', dy bt') = seen_from (b_rot b) (- dx bt) (- dy bt).
Proof.
  intros Hn Hr He. destruct (cube_edge_some n bt rank Hn Hr He) as [b Hb].
  destruct (cube_mutual n bt rank b Hn Hr Hb) as (M1 & M2 & M3 & bt' & b' & M4 & M5 & M6 & M7).
  exists b, bt', b'. repeat split; try assumption; try lia.
  rewrite (seen_from_edge bt bt' _ M7). exact He.
Qed.

Lemma cube_corner_mutual n bt rank b :
  0 < n -> 0 <= rank < 6 * (n * n) -> is_edge bt = false -> cube_boundary (n, n) bt rank = Some (Some b) ->
  0 <= b_to b < 6 * (n * n) /\
  exists bt' b', is_edge bt' = false /\ cube_boundary (n, n) bt' (b_to b) = Some (Some b') /\
    b_to b' = rank /\ b_rot b' = (4 - b_rot b) mod 4 /\
    (dx bt', dy bt') = seen_from (b_rot b) (- dx bt) (- dy bt).
Proof.
  intros Hn Hr He Hb.
  destruct (cube_mutual n bt rank b Hn Hr Hb) as (M1 & M2 & M3 & bt' & b' & M4 & M5 & M6 & M7).
  split; [lia|]. exists bt', b'. repeat split; try assumption.
  rewrite (seen_from_edge bt bt' _ M7). exact He.
Qed.

Lemma bt_of_edge bt k b1 b2 : seen_from k (dx bt) (dy bt) = (b1, b2) -> dx (bt_of b1 b2) = b1 /\ dy (bt_of b1 b2) = b2.
Proof.
  unfold seen_from. destruct (k mod 4) as [|[[]|[]|]|]; destruct bt; cbn; intros [= <- <-]; split; reflexivity.
Qed.

Lemma cube_walk n bt bt1 bt2 rank b b1 bt2' b2 :
  0 < n -> 0 <= rank < 6 * (n * n) ->
  is_edge bt = false -> is_edge bt1 = true -> is_edge bt2 = true ->
  dx bt1 + dx bt2 = dx bt -> dy bt1 + dy bt2 = dy bt ->
  cube_boundary (n, n) bt rank = Some (Some b) ->
  cube_boundary (n, n) bt1 rank = Some (Some b1) ->
  (dx bt2', dy bt2') = seen_from (b_rot b1) (dx bt2) (dy bt2) ->
  cube_boundary (n, n) bt2' (b_to b1) = Some (Some b2) ->
  b_to b2 = b_to b /\ b_rot b = (b_rot b1 + b_rot b2) mod 4.
Proof.
  intros Hn Hr He E1 E2 Ex Ey. destruct (rank_decompose n rank Hn Hr) as (t & r & c & Ht & Hrr & Hc & ->).
  rewrite !cube_boundary_enc by lia.
  pose proof (corner_to_walk n t r c bt bt1 bt2 Ht Hrr Hc E1 E2 Ex Ey He) as W.
  destruct (corner_to n t r c bt) as [[[[t' r'] c'] k]|] eqn:E; [|discriminate].
  intros [= <-].
  destruct (corner_to n t r c bt1) as [[[[t1 r1] c1] k1]|] eqn:E'; [|discriminate].
  intros [= <-]. cbn [b_to b_rot].
  destruct (corner_good _ _ _ _ _ _ _ _ _ Ht Hrr Hc E') as (G1 & G2 & G3).
  pose proof (Z.mod_pos_bound t1 6 ltac:(lia)) as Gt.
  intros S. destruct (seen_from k1 (dx bt2) (dy bt2)) as [a1 a2] eqn:ES.
  injection S as S1 S2. destruct (bt_of_edge _ _ _ _ ES) as [D1 D2].
  assert (bt2' = bt_of a1 a2) as -> by (apply dxdy_inj; congruence).
  rewrite cube_boundary_enc by lia.
  destruct (corner_to n (t1 mod 6) r1 c1 (bt_of a1 a2)) as [[[[t2 r2] c2] k2]|]; [|contradiction].
  intros [= <-]. cbn [b_to b_rot]. destruct W as (W1 & W2 & W3 & W4). subst. rewrite W1. split; reflexivity.
Qed.

Lemma cube_distinct n rank bt1 bt2 b1 :
  0 < n -> 0 <= rank < 6 * (n * n) -> cube_boundary (n, n) bt1 rank = Some (Some b1) ->
  b_to b1 <> rank /\
  (bt1 <> bt2 -> forall b2, cube_boundary (n, n) bt2 rank = Some (Some b2) -> b_to b1 <> b_to b2).
Proof.
  intros Hn Hr. destruct (rank_decompose n rank Hn Hr) as (t & r & c & Ht & Hrr & Hc & ->).
  rewrite !cube_boundary_enc by lia.
  pose proof (corner_to_geometry n t r c bt1 Ht Hrr Hc) as G1.
  pose proof (corner_to_geometry n t r c bt2 Ht Hrr Hc) as G2. cbn zeta in G1, G2.
  destruct (corner_to n t r c bt1) as [[[[t1 r1] c1] k1]|]; [|discriminate].
  intros [= <-]. cbn [b_to].
  unfold is_neighbour, centre in *. destruct G1 as (A1 & A2 & A3 & A4 & A5 & _).
  pose proof (dx_bound bt1). pose proof (dy_bound bt1). pose proof (dx_bound bt2). pose proof (dy_bound bt2).
  split.
  - intros E. apply enc_inj in E; try lia. destruct E as (E1 & E2 & E3). rewrite E1, E2, E3 in A5.
    assert (F : fold n t (2 * c + 1 - n) (2 * r + 1 - n) = Some (surface n t (2 * c + 1 - n) (2 * r + 1 - n))).
    { unfold fold. ifs. reflexivity. }
    pose proof (fun a b c d e f g h => fold_inj n t _ _ _ _ _ Ht Hn a b c d e f g h A5 F) as K. destruct K as [X Y]; try lia.
    apply (dxdy_nz bt1); lia.
  - intros Hne b2 Hb2.
    destruct (corner_to n t r c bt2) as [[[[t2 r2] c2] k2]|]; [|discriminate].
    injection Hb2 as <-. cbn [b_to]. destruct G2 as (B1 & B2 & B3 & B4 & B5 & _).
    intros E. apply enc_inj in E; try lia. destruct E as (E1 & E2 & E3). rewrite E1, E2, E3 in A5.
    pose proof (fun a b c d e f g h => fold_inj n t _ _ _ _ _ Ht Hn a b c d e f g h A5 B5) as K. destruct K as [X Y]; try lia.
    apply Hne, dxdy_inj; lia.
Qed.

(** The spec determines the answer: at most one subtile and rotation is a neighbour at a given place. *)
Lemma is_neighbour_unique n t x y t1 r1 c1 k1 t2 r2 c2 k2 :
  is_neighbour n t x y t1 r1 c1 k1 -> is_neighbour n t x y t2 r2 c2 k2 ->
  t1 = t2 /\ r1 = r2 /\ c1 = c2 /\ k1 = k2.
Proof.
  unfold is_neighbour. intros (A1 & A2 & A3 & A4 & A5 & A6 & A7) (B1 & B2 & B3 & B4 & B5 & B6 & B7).
  rewrite A5 in B5. injection B5 as B5. unfold centre in *.
  apply surface_inj in B5; try lia. destruct B5 as (-> & E1 & E2).
  repeat split; try lia. rewrite <- B6 in A6. clear - A4 B4 A6 B1.
  assert (k1 = 0 \/ k1 = 1 \/ k1 = 2 \/ k1 = 3) as [-> | [-> | [-> | ->]]] by lia;
  assert (k2 = 0 \/ k2 = 1 \/ k2 = 2 \/ k2 = 3) as [-> | [-> | [-> | ->]]] by lia; try reflexivity;
  exfalso; tiles t2 B1; discriminate A6.
Qed.
