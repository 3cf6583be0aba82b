(** C69: the Grid of the translate tests agrees with the partitioner. *)
From Verif Require Import Base PartModel TgridModel.
From Coq Require Import Lia.

Lemma index_range l rank : 1 <= fst l -> 1 <= snd l -> 0 <= fst (subtile_index l rank) < fst l /\ 0 <= snd (subtile_index l rank) < snd l.
Proof.
  intros H1 H2. unfold subtile_index, subtile_index_of, tile_ranks. cbn [fst snd].
  assert (T : 0 < fst l * snd l) by nia. pose proof (Z.mod_pos_bound rank (fst l * snd l) T) as B.
  split; [|apply Z.mod_pos_bound; lia]. split; [apply Z.div_pos; lia|]. apply Z.div_lt_upper_bound; [lia|]. nia.
Qed.

(** Local indices, global indices and back; grids made from local and from global indices are the same. *)
Theorem C69_indices npx npy l rank x : set_indices npx npy l rank false (globals npx npy l rank x) = set_indices npx npy l rank true x.
Proof. unfold set_indices, globals, to_local_x, to_local_y, to_global_x, to_global_y. destruct x as [a b c d e f g h]. cbn. f_equal; lia. Qed.
Print Assumptions C69_indices.

(** On square layouts that divide the tile, the edges are those of the partitioner and every cell of the tile belongs to
    exactly one rank, the one the partitioner says.  Missing for C69: other layouts (refuted below). *)
Theorem C69_edges_partial npx npy n rank : 1 <= n -> 1 < npx -> 1 < npy -> (npx - 1) mod n = 0 -> (npy - 1) mod n = 0 ->
  let l := (n, n) in let x := make_indices npx npy l in
  west_edge npx npy l rank x = on_tile_left l rank /\ east_edge npx npy l rank x = on_tile_right l rank
  /\ south_edge npx npy l rank x = on_tile_bottom l rank /\ north_edge npx npy l rank x = on_tile_top l rank
  /\ forall i j, 0 <= i < npx - 1 -> 0 <= j < npy - 1 ->
       (owns npx npy l rank i j <-> subtile_index l rank = (j / ((npy - 1) / n), i / ((npx - 1) / n))).
Proof.
  intros Hn Hx Hy Mx My l x. destruct (index_range l rank ltac:(cbn; lia) ltac:(cbn; lia)) as [[A1 A2] [B1 B2]]. cbn [fst snd l] in A2, B2.
  pose proof (Z.div_mod (npx - 1) n ltac:(lia)) as Dx. pose proof (Z.div_mod (npy - 1) n ltac:(lia)) as Dy. rewrite Mx in Dx. rewrite My in Dy.
  unfold west_edge, east_edge, south_edge, north_edge, on_tile_left, on_tile_right, on_tile_top, on_tile_bottom, owns.
  unfold x, globals, make_indices, to_global_x, to_global_y, width_x, width_y, halo. cbn [is_ ie js je fst snd l].
  set (wx := (npx - 1) / n) in *. set (wy := (npy - 1) / n) in *. fold l.
  destruct (subtile_index l rank) as [yi xi]. cbn [fst snd] in *.
  assert (Wx : 0 < wx) by nia. assert (Wy : 0 < wy) by nia. clearbody wx wy. clear Mx My.
  assert (eqb_iff : forall a b c d, (a = b <-> c = d) -> (a =? b) = (c =? d)).
  { intros a b c d H. destruct (Z.eqb_spec a b), (Z.eqb_spec c d); intuition congruence. }
  repeat split.
  - apply eqb_iff. nia.
  - apply eqb_iff. nia.
  - apply eqb_iff. nia.
  - apply eqb_iff. nia.
  - intros [H1 H2]. f_equal.
    + apply (Z.div_unique j wy yi (j - wy * yi)); lia.
    + apply (Z.div_unique i wx xi (i - wx * xi)); lia.
  - injection H1 as -> ->. pose proof (Z.div_mod i wx ltac:(lia)). pose proof (Z.mod_pos_bound i wx Wx). nia.
  - injection H1 as -> ->. pose proof (Z.div_mod i wx ltac:(lia)). pose proof (Z.mod_pos_bound i wx Wx). nia.
  - injection H1 as -> ->. pose proof (Z.div_mod j wy ltac:(lia)). pose proof (Z.mod_pos_bound j wy Wy). nia.
  - injection H1 as -> ->. pose proof (Z.div_mod j wy ltac:(lia)). pose proof (Z.mod_pos_bound j wy Wy). nia.
Qed.
Print Assumptions C69_edges_partial.
(** a tile of 12 x 12 cells on 2 x 2 ranks: rank 6 is the upper left one of tile 1 *)
Example C69_case : let x := make_indices 13 13 (2, 2) in x = mkIdx 3 8 3 8 0 11 0 11
  /\ map (fun r => (west_edge 13 13 (2, 2) r x, east_edge 13 13 (2, 2) r x, south_edge 13 13 (2, 2) r x, north_edge 13 13 (2, 2) r x)) [0; 6]
     = [(true, false, true, false); (true, false, false, true)]
  /\ owns 13 13 (2, 2) 6 2 7.
Proof. split; [reflexivity|]. split; [reflexivity|]. vm_compute. intuition discriminate. Qed.

(** The layout is (y, x) for the partitioner and (x, y) for the widths: on two ranks side by side both think they own the whole
    width, the left one sits on the east edge and the right one does not. *)
Theorem C69_rectangular_refuted : exists npx npy l, l = (1, 2) /\ (npx - 1) mod 2 = 0 /\
  let x := make_indices npx npy l in
  map (fun r => (east_edge npx npy l r x, on_tile_right l r)) [0; 1] = [(true, false); (false, true)]
  /\ map (fun r => (north_edge npx npy l r x, on_tile_top l r)) [0; 1] = [(false, true); (false, true)]
  /\ is_ (globals npx npy l 1 x) - halo >= npx - 1.
Proof. exists 13, 13, (1, 2). repeat split; cbn; try reflexivity. discriminate. Qed.
Print Assumptions C69_rectangular_refuted.
(** Two ranks one above the other: the upper one starts beyond the tile. *)
Theorem C69_tall_refuted : exists npx npy l, l = (2, 1) /\ (npy - 1) mod 2 = 0 /\
  let x := make_indices npx npy l in
  js (globals npx npy l 1 x) - halo >= npy - 1 /\ map (fun r => (north_edge npx npy l r x, on_tile_top l r)) [0; 1] = [(true, false); (false, true)].
Proof. exists 13, 13, (2, 1). repeat split; cbn; try reflexivity. discriminate. Qed.
Print Assumptions C69_tall_refuted.
(** On a layout that does not divide the tile no rank is on the east edge and the last cell belongs to nobody. *)
Theorem C69_uneven_refuted : exists npx n, 1 <= n /\ 1 < npx /\ let l := (n, n) in let x := make_indices npx npx l in
  (forall rank, east_edge npx npx l rank x = false) /\ (forall rank j, ~ owns npx npx l rank (npx - 2) j).
Proof.
  exists 12, 2. split; [lia|]. split; [lia|]. cbn [make_indices]. split.
  - intros rank. unfold east_edge, globals, make_indices, to_global_x, width_x, halo. cbn [ie fst snd].
    destruct (index_range (2, 2) rank ltac:(cbn; lia) ltac:(cbn; lia)) as [_ B]. change ((12 - 1) / 2) with 5. apply Z.eqb_neq. cbn [snd] in B. lia.
  - intros rank j. unfold owns, globals, make_indices, to_global_x, width_x, halo. cbn [is_ ie js je fst snd].
    destruct (index_range (2, 2) rank ltac:(cbn; lia) ltac:(cbn; lia)) as [_ B]. change ((12 - 1) / 2) with 5. cbn [snd] in B. lia.
Qed.
Print Assumptions C69_uneven_refuted.
