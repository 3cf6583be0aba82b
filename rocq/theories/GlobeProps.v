(** C134: scatter and gather of all six tiles. *)
From Coq Require Import QArith.
From Verif Require Import Base PartModel DecompModel DecompSpec DecompProofs DecompProofs3 DecompProps GlobeModel.
Open Scope Z_scope.

Section Tiles.
Context {A : Type} (rnd : Q -> Q) (l : layout) (ratio : Q) (stored : Z).
Hypothesis Hl : 0 < fst l /\ 0 < snd l.
Let T := tile_ranks l.
Lemma T_pos : 0 < T.
Proof. unfold T, tile_ranks. nia. Qed.
Lemma tile_of t r : 0 <= r < T -> tile_index l (t * T + r) = t.
Proof.
  intros Hr. pose proof T_pos as P. unfold tile_index, cube_ranks. fold T. rewrite (Z.mul_comm 6), Z.div_mul by lia. rewrite Z.div_add_l by lia. rewrite Z.div_small by lia. lia.
Qed.
Lemma slice_of t r dims extent o : 0 <= r < T -> subtile_slice rnd l ratio (t * T + r) dims extent o = subtile_slice rnd l ratio r dims extent o.
Proof.
  intros Hr. pose proof T_pos as P. unfold subtile_slice, subtile_index, subtile_index_of. fold T. f_equal. rewrite Z.add_comm, Z_mod_plus_full. reflexivity.
Qed.
Lemma cube_slice_of t r dims n extent o : 0 <= r < T ->
  cube_subtile_slice rnd l ratio (t * T + r) (TILE :: dims) (n :: extent) o = do sl <- subtile_slice rnd l ratio r dims extent o; Some (t, sl).
Proof. intros Hr. cbn [cube_subtile_slice]. rewrite slice_of, tile_of by exact Hr. reflexivity. Qed.
Lemma extent_of dims n extent : subtile_extent rnd l ratio (TILE :: dims) (n :: extent) 0 = subtile_extent rnd l ratio dims extent 0.
Proof. reflexivity. Qed.

(** one rank of the cube is one rank of its tile *)
Lemma block_is dims n extent shape (g : index -> A) t r : 0 <= r < T -> t < stored -> subtile_extent rnd l ratio dims extent 0 = Some shape ->
  block rnd l ratio stored (TILE :: dims) (n :: extent) shape g (t * T + r) = scatter rnd l ratio dims extent (fun p => g (t :: p)) r.
Proof.
  intros Hr Ht E. unfold block, scatter. rewrite E, cube_slice_of by exact Hr. cbn [bind hd]. destruct (subtile_slice rnd l ratio r dims extent true) as [sl|]; [|reflexivity]. cbn [bind].
  destruct (Z.ltb_spec t stored); [|lia]. reflexivity.
Qed.
Lemma scatter_is dims n extent (g : index -> A) loc : 6 <= stored -> cube_scatter rnd l ratio stored (TILE :: dims) (n :: extent) g = Some loc ->
  forall t r, 0 <= t < 6 -> 0 <= r < T -> scatter rnd l ratio dims extent (fun p => g (t :: p)) r = Some (loc (t * T + r)).
Proof.
  intros Hn H t r Ht Hr. unfold cube_scatter in H. rewrite extent_of in H. destruct (subtile_extent rnd l ratio dims extent 0) as [shape|] eqn:E; [|discriminate]. cbn [bind] in H.
  destruct (forallb _ _) eqn:F; [|discriminate]. injection H as <-. rewrite forallb_forall in F. specialize (F (t * T + r)). cbn beta. assert (Hn' : t < stored) by lia. rewrite (block_is _ _ _ _ _ _ _ Hr Hn' E) in F |- *.
  destruct (scatter _ _ _ _ _ _ _); [reflexivity|]. discriminate F. apply in_zrange. unfold cube_ranks. change (tile_ranks l) with T. clear - Ht Hr. nia.
Qed.
Lemma scatter_back dims n extent (g : index -> A) : 6 <= stored -> (forall t r, 0 <= t < 6 -> 0 <= r < T -> scatter rnd l ratio dims extent (fun p => g (t :: p)) r <> None) ->
  exists loc, cube_scatter rnd l ratio stored (TILE :: dims) (n :: extent) g = Some loc.
Proof.
  intros Hn H. pose proof T_pos as P. unfold cube_scatter. rewrite extent_of. destruct (subtile_extent rnd l ratio dims extent 0) as [shape|] eqn:E.
  2: { exfalso. apply (H 0 0); [lia|lia|]. unfold scatter. rewrite E. reflexivity. }
  cbn [bind]. match goal with |- exists loc, (if ?b then _ else _) = _ => assert (F : b = true) end; [|rewrite F; eexists; reflexivity].
  apply forallb_forall. intros k I. apply in_zrange in I. unfold cube_ranks in I. fold T in I. assert (R : 0 <= k mod T < T) by (apply Z.mod_pos_bound; lia).
  assert (Q : 0 <= k / T < 6) by (split; [apply Z.div_pos; lia|apply Z.div_lt_upper_bound; lia]). specialize (H (k / T) (k mod T) Q R).
  assert (K : k = k / T * T + k mod T) by (rewrite (Z.mul_comm (k / T)); apply Z.div_mod; lia). assert (Hn' : k / T < stored) by lia. rewrite K. rewrite (block_is _ _ _ _ _ _ _ R Hn' E). destruct (scatter _ _ _ _ _ _ _); [reflexivity|congruence].
Qed.

(** gathering one tile *)
Lemma loop_app r1 r2 dims extent shape (buf : Z -> index -> A) : forall g,
  cube_gather_loop rnd l ratio stored (r1 ++ r2) dims extent shape buf g = do h <- cube_gather_loop rnd l ratio stored r1 dims extent shape buf g; cube_gather_loop rnd l ratio stored r2 dims extent shape buf h.
Proof.
  induction r1 as [|r r1 IH]; intros g; [reflexivity|]. cbn [app cube_gather_loop]. destruct (cube_subtile_slice _ _ _ _ _ _ _) as [[t sl]|]; [|reflexivity]. cbn [bind]. destruct (_ && _); [|reflexivity]. apply IH.
Qed.
Lemma tile_loop dims n extent shape (buf : Z -> index -> A) t : t < stored -> forall rs g h, (forall r, In r rs -> 0 <= r < T) -> (forall p, g (t :: p) = h p) ->
  match gather_loop rnd rs l ratio dims extent shape (fun r => buf (t * T + r)) h with
  | None => cube_gather_loop rnd l ratio stored (map (Z.add (t * T)) rs) (TILE :: dims) (n :: extent) shape buf g = None
  | Some h' => exists g', cube_gather_loop rnd l ratio stored (map (Z.add (t * T)) rs) (TILE :: dims) (n :: extent) shape buf g = Some g' /\
                 (forall p, g' (t :: p) = h' p) /\ g' [] = g [] /\ forall t' p, t' <> t -> g' (t' :: p) = g (t' :: p)
  end.
Proof.
  intros Ht. induction rs as [|r rs IH]; intros g h Hr E; [exists g; auto|]. cbn [map gather_loop cube_gather_loop]. rewrite cube_slice_of by (apply Hr; now left).
  destruct (subtile_slice rnd l ratio r dims extent true) as [sl|]; [|reflexivity]. cbn [bind hd]. destruct (Z.ltb_spec t stored); [|lia]. cbn [andb]. destruct (list_eqb _ _); [|reflexivity].
  set (g1 := put_tile g t sl (buf (t * T + r))). specialize (IH g1 (put_slice h sl (buf (t * T + r))) (fun r' H => Hr r' (or_intror H))).
  assert (E1 : forall p, g1 (t :: p) = put_slice h sl (buf (t * T + r)) p) by (intros p; unfold g1, put_tile, put_slice; rewrite Z.eqb_refl; cbn [andb]; destruct (in_slices sl p); [reflexivity|apply E]).
  specialize (IH E1). destruct (gather_loop _ _ _ _ _ _ _ _ _) as [h'|]; [|exact IH]. destruct IH as (g' & G & P1 & P0 & P2). exists g'. split; [exact G|]. split; [exact P1|]. split; [exact P0|].
  intros t' p N. rewrite P2 by exact N. unfold g1, put_tile. destruct (Z.eqb_spec t' t); [contradiction|reflexivity].
Qed.
Lemma zrange_shift a n : map (Z.add a) (zrange 0 n) = zrange a (a + n).
Proof. unfold zrange. rewrite map_map. replace (a + n - a) with (n - 0) by lia. apply map_ext. intros k. lia. Qed.
(** gathering the tiles from [t] on *)
Lemma tiles_loop dims n extent shape (buf : Z -> index -> A) k : forall t g, 0 <= t -> t + Z.of_nat k <= stored ->
  ((forall u, t <= u < t + Z.of_nat k -> gather rnd l ratio dims extent shape (fun r => buf (u * T + r)) (fun p => g (u :: p)) <> None) ->
   exists g', cube_gather_loop rnd l ratio stored (zrange (t * T) ((t + Z.of_nat k) * T)) (TILE :: dims) (n :: extent) shape buf g = Some g' /\ g' [] = g [] /\
     (forall u h, t <= u < t + Z.of_nat k -> gather rnd l ratio dims extent shape (fun r => buf (u * T + r)) (fun p => g (u :: p)) = Some h -> forall p, g' (u :: p) = h p) /\
     (forall u p, ~ t <= u < t + Z.of_nat k -> g' (u :: p) = g (u :: p))) /\
  ((exists u, t <= u < t + Z.of_nat k /\ gather rnd l ratio dims extent shape (fun r => buf (u * T + r)) (fun p => g (u :: p)) = None) ->
   cube_gather_loop rnd l ratio stored (zrange (t * T) ((t + Z.of_nat k) * T)) (TILE :: dims) (n :: extent) shape buf g = None).
Proof.
  pose proof T_pos as P. induction k as [|k IH]; intros t g Ht Hn.
  - split; [|intros (u & U & _); lia]. intros _. rewrite zrange_nil by lia. exists g. split; [reflexivity|]. split; [reflexivity|]. split; [intros; lia|auto].
  - rewrite (zrange_app (t * T) ((t + 1) * T)) by nia. rewrite loop_app. replace ((t + 1) * T) with (t * T + T) by lia. rewrite <- zrange_shift.
    pose proof (tile_loop dims n extent shape buf t ltac:(lia) (zrange 0 T) g (fun p => g (t :: p)) (fun r H => proj1 (in_zrange _ _ _) H) (fun p => eq_refl)) as L.
    change (gather_loop rnd (zrange 0 T) l ratio dims extent shape (fun r => buf (t * T + r)) (fun p => g (t :: p))) with (gather rnd l ratio dims extent shape (fun r => buf (t * T + r)) (fun p => g (t :: p))) in L.
    replace (t * T + T) with ((t + 1) * T) by lia. replace (t + Z.of_nat (S k)) with (t + 1 + Z.of_nat k) in * by lia.
    match type of L with match ?x with _ => _ end => destruct x as [h0|] eqn:E0 end.
    + destruct L as (g1 & -> & L1 & L0 & L2). cbn [bind]. specialize (IH (t + 1) g1 ltac:(lia) Hn). destruct IH as [IH1 IH2].
      assert (X : forall u, t + 1 <= u -> (forall h, (fun p => g1 (u :: p)) = h -> True) /\ forall p, g1 (u :: p) = g (u :: p)) by (intros u U; split; [auto|intros p; apply L2; lia]).
      assert (Same : forall u, t + 1 <= u -> match gather rnd l ratio dims extent shape (fun r => buf (u * T + r)) (fun p => g (u :: p)), gather rnd l ratio dims extent shape (fun r => buf (u * T + r)) (fun p => g1 (u :: p)) with
                                             | Some a, Some b => forall p, a p = b p | None, None => True | _, _ => False end).
      { intros u U. unfold gather. assert (W : forall rs a b, (forall p, a p = b p) -> match gather_loop rnd rs l ratio dims extent shape (fun r => buf (u * T + r)) a, gather_loop rnd rs l ratio dims extent shape (fun r => buf (u * T + r)) b with
                                             | Some a, Some b => forall p, a p = b p | None, None => True | _, _ => False end).
        { induction rs as [|r rs IHr]; intros a b AB; [exact AB|]. cbn [gather_loop]. destruct (subtile_slice rnd l ratio r dims extent true) as [sl|]; [|exact I]. cbn [bind]. destruct (list_eqb _ _); [|exact I]. apply IHr. intros p. unfold put_slice. destruct (in_slices sl p); [reflexivity|apply AB]. }
        apply W. intros p. symmetry. apply X, U. }
      split.
      * intros H. destruct IH1 as (g' & G & G0 & G1 & G2).
        { intros u U. specialize (H u ltac:(lia)). specialize (Same u ltac:(lia)). destruct (gather _ _ _ _ _ _ _ (fun p => g (u :: p))); [|congruence]. destruct (gather _ _ _ _ _ _ _ (fun p => g1 (u :: p))); [discriminate|contradiction]. }
        exists g'. split; [exact G|]. split; [congruence|]. split.
        -- intros u h U Eu p. destruct (Z.eq_dec u t) as [->|Nu]; [rewrite G2 by lia; rewrite L1; pose proof (eq_trans (eq_sym E0) Eu) as [= ->]; reflexivity|]. specialize (Same u ltac:(lia)). rewrite Eu in Same.
           destruct (gather _ _ _ _ _ _ _ (fun p => g1 (u :: p))) as [h1|] eqn:E1; [|contradiction]. rewrite (G1 u h1 ltac:(lia) E1). symmetry. apply Same.
        -- intros u p U. rewrite G2 by lia. apply L2. lia.
      * intros (u & U & Eu). apply IH2. exists u. assert (Nu : u <> t) by (intros ->; pose proof (eq_trans (eq_sym E0) Eu); discriminate). split; [lia|]. specialize (Same u ltac:(lia)). rewrite Eu in Same. destruct (gather _ _ _ _ _ _ _ (fun p => g1 (u :: p))); [contradiction|reflexivity].
    + split; [intros H; exfalso; apply (H t ltac:(lia)); exact E0|]. intros _. rewrite L. reflexivity.
Qed.
End Tiles.

(** Scattering the globe is scattering each of its six tiles from the first rank of the tile; it is refused if that is refused on a tile. *)
Theorem C134_scatter_tiles : forall (A : Type) rnd l ratio stored dims n extent (g : index -> A), 0 < fst l /\ 0 < snd l -> 6 <= stored ->
  (forall loc, cube_scatter rnd l ratio stored (TILE :: dims) (n :: extent) g = Some loc ->
     forall t r, 0 <= t < 6 -> 0 <= r < tile_ranks l -> scatter rnd l ratio dims extent (fun p => g (t :: p)) r = Some (loc (t * tile_ranks l + r))) /\
  ((forall t r, 0 <= t < 6 -> 0 <= r < tile_ranks l -> scatter rnd l ratio dims extent (fun p => g (t :: p)) r <> None) -> exists loc, cube_scatter rnd l ratio stored (TILE :: dims) (n :: extent) g = Some loc).
Proof. intros A rnd l ratio stored dims n extent g Hl Hn. split; [intros loc H; now apply (scatter_is rnd l ratio stored Hl dims n)|]. intros H. now apply (scatter_back rnd l ratio stored Hl). Qed.
Print Assumptions C134_scatter_tiles.

(** Gathering the globe is gathering each of its six tiles; nothing else of the receiving quantity changes. *)
Theorem C134_gather_tiles : forall (A : Type) rnd l ratio stored dims n extent shape buf (g : index -> A), 0 < fst l /\ 0 < snd l -> 6 <= stored ->
  let tile t := gather rnd l ratio dims extent shape (fun r => buf (t * tile_ranks l + r)) (fun p => g (t :: p)) in
  match cube_gather rnd l ratio stored (TILE :: dims) (n :: extent) shape buf g with
  | Some g' => (forall t, 0 <= t < 6 -> exists h, tile t = Some h /\ forall p, g' (t :: p) = h p) /\ (forall t p, ~ 0 <= t < 6 -> g' (t :: p) = g (t :: p))
  | None => exists t, 0 <= t < 6 /\ tile t = None
  end.
Proof.
  intros A rnd l ratio stored dims n extent shape buf g Hl Hn tile. destruct (tiles_loop rnd l ratio stored Hl dims n extent shape buf 6 0 g ltac:(lia) ltac:(lia)) as [H1 H2].
  change (zrange (0 * tile_ranks l) ((0 + Z.of_nat 6) * tile_ranks l)) with (zrange 0 (cube_ranks l)) in *. change (0 + Z.of_nat 6) with 6 in *. fold (cube_gather rnd l ratio stored (TILE :: dims) (n :: extent) shape buf g) in *.
  assert (D : (forall t, 0 <= t < 6 -> tile t <> None) \/ exists t, 0 <= t < 6 /\ tile t = None).
  { assert (W : forall k : nat, (forall t, 0 <= t < Z.of_nat k -> tile t <> None) \/ exists t, 0 <= t < Z.of_nat k /\ tile t = None).
    { induction k as [|k [IH|(t & Ht & E)]]; [left; intros; lia| |right; exists t; split; [lia|exact E]]. destruct (tile (Z.of_nat k)) eqn:E; [left|right; exists (Z.of_nat k); split; [lia|exact E]].
      intros t Ht. destruct (Z.eq_dec t (Z.of_nat k)) as [->|N]; [congruence|apply IH; lia]. }
    exact (W 6%nat). }
  destruct D as [D|D].
  - destruct (H1 D) as (g' & -> & _ & G1 & G2). split.
    + intros t Ht. specialize (D t Ht). destruct (tile t) as [h|] eqn:E; [|congruence]. exists h. split; [reflexivity|]. exact (G1 t h Ht E).
    + intros t p Ht. now apply G2.
  - rewrite (H2 D). exact D.
Qed.
Print Assumptions C134_gather_tiles.

(** Gathering what was scattered gives the quantity back, of the extent it had, on all six tiles. *)
Theorem C134_round_trip : forall rnd, float_like rnd -> forall l, 0 < fst l <= 2 ^ 52 /\ 0 < snd l <= 2 ^ 52 ->
  forall ratio (A : Type) stored dims extent (g g0 : index -> A) (loc : Z -> index -> A), 6 <= stored -> plane_field dims extent ->
  cube_scatter rnd l ratio stored (TILE :: dims) (6 :: extent) g = Some loc ->
  exists shape g', subtile_extent rnd l ratio dims extent 0 = Some shape /\ gathered_extent l dims shape = 6 :: extent /\
    cube_gather rnd l ratio 6 (gathered_dims dims) (gathered_extent l dims shape) shape loc g0 = Some g' /\ forall p, in_extent (6 :: extent) p -> g' p = g p.
Proof.
  intros rnd F l Hl ratio A stored dims extent g g0 loc Hs P S. assert (Hl' : 0 < fst l /\ 0 < snd l) by lia. pose proof (scatter_is rnd l ratio stored Hl' dims 6 extent g loc Hs S) as E.
  destruct (C09_gather_undoes_scatter rnd F l Hl ratio A dims extent (fun p => g (0 :: p)) (fun p => g0 (0 :: p)) (fun r => loc (0 * tile_ranks l + r)) P (fun r Hr => E 0 r ltac:(lia) Hr)) as (shape & _ & E1 & E2 & _).
  exists shape. pose proof (C134_gather_tiles A rnd l ratio 6 dims 6 extent shape loc g0 Hl' ltac:(lia)) as G. cbv zeta in G. unfold gathered_extent, gathered_dims. rewrite E2.
  assert (X : forall t, 0 <= t < 6 -> exists h, gather rnd l ratio dims extent shape (fun r => loc (t * tile_ranks l + r)) (fun p => g0 (t :: p)) = Some h /\ forall p, in_extent extent p -> h p = g (t :: p)).
  { intros t Ht. destruct (C09_gather_undoes_scatter rnd F l Hl ratio A dims extent (fun p => g (t :: p)) (fun p => g0 (t :: p)) (fun r => loc (t * tile_ranks l + r)) P (fun r Hr => E t r Ht Hr)) as (shape' & h & Q1 & Q2 & Q3 & Q4).
    assert (shape' = shape) as -> by congruence. rewrite E2 in Q3. exists h. split; assumption. }
  destruct (cube_gather rnd l ratio 6 (TILE :: dims) (6 :: extent) shape loc g0) as [g'|].
  - exists g'. split; [exact E1|]. split; [reflexivity|]. split; [reflexivity|]. intros p I. inversion I as [|e t ? p' Ht I']; subst. destruct G as [G _]. destruct (G t Ht) as (h & H1 & ->). destruct (X t Ht) as (h' & H2 & H3). replace h with h' by congruence. now apply H3.
  - destruct G as (t & Ht & N). destruct (X t Ht) as (h & H & _). congruence.
Qed.
Print Assumptions C134_round_trip.

(** Each rank has the region of its own tile; on evenly divided tiles the scatter succeeds. *)
Theorem C134_region : forall rnd l ratio (A : Type) stored dims n extent (g : index -> A) loc t r sl p, 6 <= stored -> 0 < fst l /\ 0 < snd l -> cube_scatter rnd l ratio stored (TILE :: dims) (n :: extent) g = Some loc ->
  0 <= t < 6 -> 0 <= r < tile_ranks l -> subtile_slice rnd l ratio r dims extent true = Some sl -> inside sl p -> loc (t * tile_ranks l + r) (unshift sl p) = g (t :: p).
Proof.
  intros rnd l ratio A stored dims n extent g loc t r sl p Hs Hl S Ht Hr E I. pose proof (scatter_is rnd l ratio stored Hl dims n extent g loc Hs S t r Ht Hr) as H.
  exact (C09_each_rank_gets_its_region rnd l ratio A dims extent (fun p => g (t :: p)) r _ sl p H E I).
Qed.
Print Assumptions C134_region.
Theorem C134_accepts : forall rnd, float_like rnd -> forall l, 0 < fst l <= 2 ^ 52 /\ 0 < snd l <= 2 ^ 52 -> forall ratio (A : Type) stored dims n extent qs (g : index -> A), 6 <= stored -> (ratio == 1)%Q ->
  Forall2 size_ok dims extent -> Forall2 (fun de q => even_dim l (fst de) (snd de) q) (combine dims extent) qs -> exists loc, cube_scatter rnd l ratio stored (TILE :: dims) (n :: extent) g = Some loc.
Proof.
  intros rnd F l Hl ratio A stored dims n extent qs g Hs R S E. apply C134_scatter_tiles; [lia|lia|]. intros t r Ht Hr. destruct (C09_scatter_accepts_even_tiles rnd F l Hl ratio A dims extent qs r (fun p => g (t :: p)) R Hr S E) as [loc ->]. discriminate.
Qed.
Print Assumptions C134_accepts.

(** The tile must be the first dimension, and there must be six of them in the storage. *)
Theorem C134_refused : forall (A : Type) rnd l ratio stored dims extent (g : index -> A), 0 < fst l /\ 0 < snd l -> hd_error dims <> Some TILE \/ stored < 6 -> cube_scatter rnd l ratio stored dims extent g = None.
Proof.
  intros A rnd l ratio stored dims extent g Hl H. pose proof (T_pos l Hl) as P. unfold cube_scatter. destruct (subtile_extent rnd l ratio dims extent 0) as [shape|]; [|reflexivity]. cbn [bind].
  destruct (forallb _ _) eqn:F; [|reflexivity]. exfalso. rewrite forallb_forall in F. specialize (F (5 * tile_ranks l + 0) ltac:(apply in_zrange; unfold cube_ranks; lia)). unfold block in F.
  destruct dims as [|[|a i] dims]; [discriminate| |discriminate]. destruct extent as [|n extent]; [discriminate|]. destruct H as [H|H]; [now apply H|]. 
  rewrite cube_slice_of in F by (try exact Hl; lia). destruct (subtile_slice rnd l ratio 0 dims extent true); [|discriminate]. cbn [bind hd] in F. destruct (Z.ltb_spec 5 stored); [lia|discriminate].
Qed.
Print Assumptions C134_refused.

(** The extent along the tiles is not looked at: tiles outside the compute domain are sent. *)
Theorem C134_extent_refuted : exists extent (g : index -> Z) loc, hd 0 extent = 1 /\ cube_scatter (fun q => q) (1, 1) 1 6 [TILE; Dim AJ false; Dim AI false] extent g = Some loc /\ loc 5 [1; 1] = g [5; 1; 1] /\ g [5; 1; 1] <> g [0; 1; 1].
Proof.
  exists [1; 2; 2], (fun p => hd 0 p). unfold cube_scatter. replace (subtile_extent (fun q => q) (1, 1) 1 [TILE; Dim AJ false; Dim AI false] [1; 2; 2] 0) with (Some [2; 2]) by reflexivity. cbn [bind].
  match goal with |- exists loc, _ /\ (if ?b then Some ?f else None) = _ /\ _ => exists f; replace b with true by reflexivity end. repeat split. discriminate.
Qed.
Print Assumptions C134_extent_refuted.

Definition case_field : index -> Z := fun p => match p with [t; y; x] => 100 * t + 10 * y + x | _ => -1 end.
Example C134_case : plane_field [Dim AJ false; Dim AI true] [4; 5] /\
  match cube_scatter (fun q => q) (2, 2) 1 6 [TILE; Dim AJ false; Dim AI true] [6; 4; 5] case_field with
  | Some loc => map (loc 23) [[0; 0]; [1; 2]] = [522; 534] /\
      match cube_gather (fun q => q) (2, 2) 1 6 (gathered_dims [Dim AJ false; Dim AI true]) (gathered_extent (2, 2) [Dim AJ false; Dim AI true] [2; 3]) [2; 3] loc (fun _ => 0) with
      | Some g => map g [[0; 0; 0]; [3; 1; 2]; [5; 3; 4]] = [0; 312; 534] | None => False end
  | None => False
  end.
Proof. split; [|vm_compute; auto]. repeat split; try (cbn; lia). - intros [H|[H|[]]]; discriminate. - repeat constructor; cbn; lia. Qed.
