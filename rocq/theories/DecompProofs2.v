(** Proofs about the decomposition: slices, partition, overlap. *)
From Verif Require Import Base PartModel PartProofs DecompModel DecompSpec DecompProofs.
From Coq Require Import QArith ZifyBool.
Open Scope Z_scope.

(** ** Cut points of one axis *)
Definition cut (n inner edge k : Z) : Z :=
  if k <=? 0 then 0 else if k =? n then (if n =? 1 then edge else 2 * edge + (n - 2) * inner) else edge + (k - 1) * inner.

Lemma bounds_loop_cut n inner edge todo : forall i,
  0 <= i -> i + Z.of_nat todo <= n -> 0 < n ->
  bounds_loop todo i n inner edge (cut n inner edge (i - 1)) (cut n inner edge i)
  = (cut n inner edge (i + Z.of_nat todo - 1), cut n inner edge (i + Z.of_nat todo)).
Proof.
  induction todo as [|todo IH]; intros i Hi Hn Hp.
  { cbn [bounds_loop]. rewrite Z.add_0_r. reflexivity. }
  cbn [bounds_loop].
  assert (E : i + Z.of_nat (S todo) = (i + 1) + Z.of_nat todo) by lia. rewrite E.
  assert (Hstep : cut n inner edge (i + 1) = cut n inner edge i + (if i =? 0 then edge else if i =? n - 1 then edge else inner)).
  { unfold cut. destruct (i =? 0) eqn:E0; [|destruct (i =? n - 1) eqn:E1].
    - replace i with 0 by lia. replace (0 + 1 <=? 0) with false by lia. replace (0 <=? 0) with true by lia.
      destruct (0 + 1 =? n) eqn:E2; [|lia]. replace (n =? 1) with true by lia. lia.
    - replace (i + 1 <=? 0) with false by lia. replace (i + 1 =? n) with true by lia.
      replace (i <=? 0) with false by lia. replace (i =? n) with false by lia. replace (n =? 1) with false by lia.
      replace i with (n - 1) by lia. lia.
    - replace (i + 1 <=? 0) with false by lia. replace (i + 1 =? n) with false by lia.
      replace (i <=? 0) with false by lia. replace (i =? n) with false by lia. lia. }
  destruct (i =? 0) eqn:E0; [|destruct (i =? n - 1) eqn:E1]; rewrite <- Hstep.
  - assert (Ec : cut n inner edge (i - 1) = cut n inner edge (i + 1 - 1)).
    { replace i with 0 by lia. unfold cut. cbn. reflexivity. }
    rewrite Ec. apply IH; lia.
  - replace (cut n inner edge i) with (cut n inner edge (i + 1 - 1)) by (f_equal; lia). apply IH; lia.
  - replace (cut n inner edge i) with (cut n inner edge (i + 1 - 1)) by (f_equal; lia). apply IH; lia.
Qed.

Lemma bounds_cut n inner edge k :
  0 <= k < n -> bounds_loop (Z.to_nat (k + 1)) 0 n inner edge 0 0 = (cut n inner edge k, cut n inner edge (k + 1)).
Proof.
  intros H. pose proof (bounds_loop_cut n inner edge (Z.to_nat (k + 1)) 0 ltac:(lia) ltac:(lia) ltac:(lia)) as E.
  replace (0 + Z.of_nat (Z.to_nat (k + 1)) - 1) with k in E by lia.
  replace (0 + Z.of_nat (Z.to_nat (k + 1))) with (k + 1) in E by lia.
  rewrite <- E. reflexivity.
Qed.

Section Cuts.
  Variables n inner edge cells : Z.
  Hypothesis Hn : 0 < n.
  Hypothesis Hc : covers n cells inner edge.

  Lemma cut_0 : cut n inner edge 0 = 0. Proof. reflexivity. Qed.
  Lemma cut_n : cut n inner edge n = cells.
  Proof.
    unfold cut. replace (n <=? 0) with false by lia. rewrite Z.eqb_refl.
    destruct Hc as (_ & _ & _ & ->). reflexivity.
  Qed.
  Lemma cut_step k : 0 <= k < n ->
    cut n inner edge (k + 1) = cut n inner edge k + (if (k =? 0) || (k =? n - 1) then edge else inner).
  Proof.
    intros Hk. unfold cut. destruct (k =? 0) eqn:E0; [|destruct (k =? n - 1) eqn:E1]; cbn [orb].
    - replace k with 0 by lia. replace (0 + 1 <=? 0) with false by lia. replace (0 <=? 0) with true by lia.
      destruct (0 + 1 =? n) eqn:E2; [|lia]. replace (n =? 1) with true by lia. lia.
    - replace (k + 1 <=? 0) with false by lia. replace (k + 1 =? n) with true by lia.
      replace (k <=? 0) with false by lia. replace (k =? n) with false by lia. replace (n =? 1) with false by lia.
      replace k with (n - 1) by lia. lia.
    - replace (k + 1 <=? 0) with false by lia. replace (k + 1 =? n) with false by lia.
      replace (k <=? 0) with false by lia. replace (k =? n) with false by lia. lia.
  Qed.
  Lemma cut_le k : 0 <= k < n -> cut n inner edge k <= cut n inner edge (k + 1).
  Proof. intros Hk. rewrite cut_step by lia. destruct Hc as (H1 & H2 & _). destruct (_ || _); lia. Qed.
  Lemma cut_mono j k : 0 <= j -> j <= k -> k <= n -> cut n inner edge j <= cut n inner edge k.
  Proof.
    intros Hj Hjk. revert k Hjk. apply (Z.le_ind (fun k => k <= n -> cut n inner edge j <= cut n inner edge k)).
    - intros x y ->. reflexivity.
    - intros _. lia.
    - intros m Hm IH Hs. unfold Z.succ in *. pose proof (cut_le m ltac:(lia)). specialize (IH ltac:(lia)). lia.
  Qed.

  Lemma cut_exists x : 0 <= x < cells -> exists k, 0 <= k < n /\ cut n inner edge k <= x < cut n inner edge (k + 1).
  Proof.
    intros Hx.
    assert (G : forall m : nat, Z.of_nat m <= n -> x < cut n inner edge (Z.of_nat m) ->
             exists k, 0 <= k < Z.of_nat m /\ cut n inner edge k <= x < cut n inner edge (k + 1)).
    { induction m as [|m IH]; intros Hm Hlt.
      - change (Z.of_nat 0) with 0 in Hlt. rewrite cut_0 in Hlt. lia.
      - destruct (Z_lt_ge_dec x (cut n inner edge (Z.of_nat m))) as [L|G].
        + destruct IH as (k & Hk & Hb); [lia|exact L|]. exists k. split; [lia|exact Hb].
        + exists (Z.of_nat m). split; [lia|]. replace (Z.of_nat m + 1) with (Z.of_nat (S m)) by lia. lia. }
    destruct (G (Z.to_nat n)) as (k & Hk & Hb).
    - lia.
    - rewrite Z2Nat.id by lia. rewrite cut_n. lia.
    - exists k. split; [lia|exact Hb].
  Qed.

  Lemma cut_unique x j k : 0 <= j < n -> 0 <= k < n ->
    cut n inner edge j <= x < cut n inner edge (j + 1) -> cut n inner edge k <= x < cut n inner edge (k + 1) -> j = k.
  Proof.
    intros Hj Hk Bj Bk. destruct (Z.lt_trichotomy j k) as [L|[E|G]]; [|exact E|].
    - pose proof (cut_mono (j + 1) k ltac:(lia) ltac:(lia) ltac:(lia)). lia.
    - pose proof (cut_mono (k + 1) j ltac:(lia) ltac:(lia) ltac:(lia)). lia.
  Qed.
End Cuts.

(** ** Slices of one dimension *)
Definition valid_sub (l : layout) (sub : Z * Z) : Prop := 0 <= fst sub < fst l /\ 0 <= snd sub < snd l.

Lemma dim_slice_eq inner edge a iface l sub overlap :
  valid_sub l sub -> is_horizontal a = true ->
  let k := by_dim a sub 0 in let n := by_dim a l 1 in
  dim_slice inner edge a iface l sub overlap
  = (cut n inner edge k,
     cut n inner edge (k + 1) + if iface && (overlap || (k =? n - 1)) then 1 else 0).
Proof.
  intros [V1 V2] Ha k n. unfold dim_slice. rewrite Ha. fold k n.
  assert (Hk : 0 <= k < n) by (unfold k, n; destruct a; cbn [by_dim]; try lia; discriminate).
  rewrite bounds_cut by exact Hk.
  destruct (iface && _); f_equal; lia.
Qed.

Section Slices.
  Variable rnd : Q -> Q.
  Hypothesis Hrnd : float_like rnd.
  Variable l : layout.
  Hypothesis Hl : 0 < fst l <= 2 ^ 52 /\ 0 < snd l <= 2 ^ 52.
  Variable ratio : Q.

  (** Facts about an accepted dimension. *)
  Lemma accepted D a iface inner edge :
    size_ok (Dim a iface) D -> subtile_extents rnd D a iface l ratio = Some (inner, edge) ->
    covers (by_dim a l 1) (D - if iface then 1 else 0) inner edge.
  Proof. intros. eapply subtile_extents_covers; eauto; tauto. Qed.

  Lemma n_pos a : 0 < by_dim a l 1.
  Proof. destruct a; cbn [by_dim]; lia. Qed.

  Lemma rank_slice_some dims extent sub overlap sub' overlap' sl :
    rank_slice rnd dims extent l sub ratio overlap = Some sl ->
    exists sl', rank_slice rnd dims extent l sub' ratio overlap' = Some sl'.
  Proof.
    revert extent sl. induction dims as [|d dims IH]; intros extent sl H.
    { exists []. destruct extent; reflexivity. }
    destruct extent as [|D extent]; [exists []; destruct d; reflexivity|].
    cbn [rank_slice] in *. destruct d as [|a iface].
    - eapply IH; eassumption.
    - destruct (subtile_extents rnd D a iface l ratio) as [[inner edge]|]; [|discriminate H]. cbn [bind] in *.
      destruct (rank_slice rnd dims extent l sub ratio overlap) as [rest|] eqn:E; [|discriminate H].
      destruct (IH extent rest E) as [sl' E']. rewrite E'. cbn [bind]. eexists; reflexivity.
  Qed.

  Lemma rank_slice_nth dims extent sub overlap sl m a iface D s :
    no_tile dims ->
    rank_slice rnd dims extent l sub ratio overlap = Some sl ->
    nth_error dims m = Some (Dim a iface) -> nth_error extent m = Some D -> nth_error sl m = Some s ->
    exists inner edge, subtile_extents rnd D a iface l ratio = Some (inner, edge) /\
      s = dim_slice inner edge a iface l sub overlap.
  Proof.
    revert extent sl m. induction dims as [|d dims IH]; intros extent sl m NT H Hd HD Hs.
    { destruct m; discriminate Hd. }
    destruct extent as [|D' extent]; [destruct m; discriminate HD|].
    destruct d as [|a' iface']; [exfalso; apply NT; left; reflexivity|].
    cbn [rank_slice] in H.
    destruct (subtile_extents rnd D' a' iface' l ratio) as [[inner edge]|] eqn:E; [|discriminate H]. cbn [bind] in H.
    destruct (rank_slice rnd dims extent l sub ratio overlap) as [rest|] eqn:ER; [|discriminate H].
    cbn [bind] in H. injection H as <-.
    destruct m as [|m]; cbn [nth_error] in *.
    - injection Hd as -> ->. injection HD as ->. injection Hs as <-. exists inner, edge. split; [exact E|reflexivity].
    - apply (IH extent rest m); auto. intros HIn. apply NT. right; exact HIn.
  Qed.

  (** Length of a slice list. *)
  Lemma rank_slice_length dims extent sub overlap sl :
    no_tile dims -> length dims = length extent ->
    rank_slice rnd dims extent l sub ratio overlap = Some sl -> length sl = length dims.
  Proof.
    revert extent sl. induction dims as [|d dims IH]; intros extent sl NT HL H.
    { destruct extent; injection H as <-; reflexivity. }
    destruct extent as [|D' extent]; [discriminate HL|].
    destruct d as [|a' iface']; [exfalso; apply NT; left; reflexivity|].
    cbn [rank_slice] in H.
    destruct (subtile_extents rnd D' a' iface' l ratio) as [[inner edge]|]; [|discriminate H]. cbn [bind] in H.
    destruct (rank_slice rnd dims extent l sub ratio overlap) as [rest|] eqn:ER; [|discriminate H].
    cbn [bind] in H. injection H as <-. cbn [length]. f_equal. apply (IH extent); auto.
    intros HIn. apply NT. right; exact HIn.
  Qed.

  (** ** Partition (no overlap) *)
  (** Membership splits into a condition on the row and a condition on the column. *)
  Lemma partition_split dims extent sl0 p :
    no_tile dims -> Forall2 size_ok dims extent -> in_extent extent p ->
    rank_slice rnd dims extent l (0, 0) ratio false = Some sl0 ->
    exists PJ PI : Z -> Prop,
      (forall j i, valid_sub l (j, i) ->
        ((exists sl, rank_slice rnd dims extent l (j, i) ratio false = Some sl /\ inside sl p) <-> PJ j /\ PI i)) /\
      (count_axis AJ dims = 0%nat -> forall j, PJ j) /\
      (count_axis AI dims = 0%nat -> forall i, PI i) /\
      (count_axis AJ dims = 1%nat -> exists j0, 0 <= j0 < fst l /\ forall j, 0 <= j < fst l -> (PJ j <-> j = j0)) /\
      (count_axis AI dims = 1%nat -> exists i0, 0 <= i0 < snd l /\ forall i, 0 <= i < snd l -> (PI i <-> i = i0)).
  Proof.
    revert extent sl0 p. induction dims as [|d dims IH]; intros extent sl0 p NT HS HP H0.
    - inversion HS; subst. inversion HP; subst. exists (fun _ => True), (fun _ => True). cbn.
      repeat split; try discriminate; try tauto. intros _. exists []. split; [reflexivity|constructor].
    - inversion HS as [|? D ? extent' Hd HS']; subst. inversion HP as [|? x ? p' Hx HP']; subst.
      destruct d as [|a iface]; [exfalso; apply NT; left; reflexivity|].
      assert (NT' : no_tile dims) by (intros HIn; apply NT; right; exact HIn).
      cbn [rank_slice] in H0. cbn [rank_slice].
      destruct (subtile_extents rnd D a iface l ratio) as [[inner edge]|] eqn:E; [|discriminate H0]. cbn [bind] in H0.
      destruct (rank_slice rnd dims extent' l (0, 0) ratio false) as [rest0|] eqn:E0; [|discriminate H0].
      specialize (IH extent' rest0 p' NT' HS' HP' E0). destruct IH as (PJ & PI & IHm & IJ0 & II0 & IJ1 & II1).
      pose proof (accepted D a iface inner edge Hd E) as Hcov.
      set (mem := fun j i : Z => fst (dim_slice inner edge a iface l (j, i) false) <= x
                                 < snd (dim_slice inner edge a iface l (j, i) false)).
      assert (Hmem : forall j i, valid_sub l (j, i) ->
         ((exists sl, (do ie <- Some (inner, edge); do rest <- rank_slice rnd dims extent' l (j, i) ratio false;
                       Some (dim_slice (fst ie) (snd ie) a iface l (j, i) false :: rest)) = Some sl /\ inside sl (x :: p'))
          <-> mem j i /\ (PJ j /\ PI i))).
      { intros j i V. rewrite <- (IHm j i V). split.
        - intros (sl & Hsl & Hin). cbn [bind fst snd] in Hsl.
          destruct (rank_slice rnd dims extent' l (j, i) ratio false) as [rest|]; [|discriminate Hsl].
          cbn [bind] in Hsl. injection Hsl as <-. inversion Hin as [|? ? ? ? Hh Ht]; subst.
          split; [exact Hh|]. exists rest. split; [reflexivity|exact Ht].
        - intros (Hh & rest & Hr & Ht). rewrite Hr. cbn [bind fst snd]. eexists. split; [reflexivity|].
          constructor; [exact Hh|exact Ht]. }
      set (n := by_dim a l 1) in *. pose proof (n_pos a) as Hn. fold n in Hn.
      set (cells := D - if iface then 1 else 0) in *.
      (* the unique index along this axis *)
      assert (Huniq : is_horizontal a = true ->
        exists k0, 0 <= k0 < n /\ forall k, 0 <= k < n ->
          (cut n inner edge k <= x < cut n inner edge (k + 1) + (if iface && (false || (k =? n - 1)) then 1 else 0)
           <-> k = k0)).
      { intros _. cbn [orb].
        destruct (Z_lt_ge_dec x cells) as [Lx|Gx].
        - destruct (cut_exists n inner edge cells Hn Hcov x ltac:(lia)) as (k0 & Hk0 & Hb).
          exists k0. split; [exact Hk0|]. intros k Hk. split.
          + intros Hb'. apply (cut_unique n inner edge cells Hn Hcov x); try assumption.
            destruct (iface && (k =? n - 1)) eqn:Ei; [|lia].
            assert (Ek : k = n - 1) by lia. rewrite Ek in *. replace (n - 1 + 1) with n in * by lia.
            rewrite (cut_n n inner edge cells Hn Hcov). lia.
          + intros ->. destruct (iface && _); lia.
        - (* the last interface point *)
          assert (Hi : iface = true /\ x = cells) by (unfold cells in *; destruct iface; split; lia).
          destruct Hi as [-> ->]. exists (n - 1). split; [lia|]. intros k Hk. cbn [andb].
          pose proof (cut_n n inner edge cells Hn Hcov) as Hcn.
          split.
          + intros Hb. destruct (k =? n - 1) eqn:Ek; [lia|].
            pose proof (cut_mono n inner edge cells Hn Hcov (k + 1) n ltac:(lia) ltac:(lia) ltac:(lia)). lia.
          + intros ->. rewrite Z.eqb_refl. replace (n - 1 + 1) with n by lia. rewrite Hcn.
            pose proof (cut_le n inner edge cells Hn Hcov (n - 1) ltac:(lia)) as Hle.
            replace (n - 1 + 1) with n in Hle by lia. lia. }
      destruct a.
      + (* AJ *)
        destruct (Huniq eq_refl) as (k0 & Hk0 & Hk).
        assert (Hm : forall j i, valid_sub l (j, i) -> (mem j i <-> j = k0)).
        { intros j i V. unfold mem. rewrite dim_slice_eq by (auto; reflexivity). cbn [by_dim fst snd].
          apply Hk. destruct V; cbn in *; assumption. }
        exists (fun j => j = k0 /\ PJ j), PI.
        split; [|split; [|split; [|split]]].
        * intros j i V. rewrite Hmem by exact V. rewrite Hm by exact V. tauto.
        * cbn [count_axis filter on_axis length]. unfold count_axis. cbn. discriminate.
        * exact II0.
        * unfold count_axis in *. cbn [filter on_axis length]. intros [= E1].
          exists k0. split; [exact Hk0|]. intros j Hj. split; [tauto|]. intros ->. split; [reflexivity|]. apply IJ0. exact E1.
        * exact II1.
      + (* AI *)
        destruct (Huniq eq_refl) as (k0 & Hk0 & Hk).
        assert (Hm : forall j i, valid_sub l (j, i) -> (mem j i <-> i = k0)).
        { intros j i V. unfold mem. rewrite dim_slice_eq by (auto; reflexivity). cbn [by_dim fst snd].
          apply Hk. destruct V; cbn in *; assumption. }
        exists PJ, (fun i => i = k0 /\ PI i).
        split; [|split; [|split; [|split]]].
        * intros j i V. rewrite Hmem by exact V. rewrite Hm by exact V. tauto.
        * exact IJ0.
        * unfold count_axis. cbn. discriminate.
        * exact IJ1.
        * unfold count_axis in *. cbn [filter on_axis length]. intros [= E1].
          exists k0. split; [exact Hk0|]. intros i Hi. split; [tauto|]. intros ->. split; [reflexivity|]. apply II0. exact E1.
      + (* AV *)
        assert (Hm : forall j i, valid_sub l (j, i) -> mem j i).
        { intros j i V. unfold mem, dim_slice. cbn [is_horizontal fst snd].
          destruct Hcov as (_ & _ & _ & Hcov). unfold n in Hcov. cbn [by_dim Z.eqb Pos.eqb] in Hcov.
          assert (inner = edge).
          { unfold subtile_extents in E. cbn [by_dim is_horizontal] in E. rewrite andb_false_r in E.
            destruct ((1 mod 2 =? 0) && _); [discriminate E|]. injection E as <- <-. reflexivity. }
          unfold cells in *. destruct iface; lia. }
        exists PJ, PI. split; [|split; [|split; [|split]]]; auto.
        intros j i V. rewrite Hmem by exact V. specialize (Hm j i V). tauto.
  Qed.

  Lemma subtile_index_valid rank : 0 <= rank < tile_ranks l -> valid_sub l (subtile_index l rank).
  Proof.
    intros Hr. unfold subtile_index, subtile_index_of, valid_sub, tile_ranks in *. cbn [fst snd].
    rewrite (Z.mod_small rank) by lia.
    pose proof (Z.mod_pos_bound rank (snd l) ltac:(lia)). split; [|lia].
    split; [apply Z.div_pos; lia|apply Z.div_lt_upper_bound; lia].
  Qed.
  Lemma subtile_index_rank j i : valid_sub l (j, i) -> subtile_index l (j * snd l + i) = (j, i).
  Proof.
    intros [V1 V2]. cbn in V1, V2. destruct l as [ny nx]. cbn [fst snd] in *.
    pose proof (subtile_index_enc ny nx 0 j i ltac:(lia) ltac:(lia)) as H. cbn zeta in H.
    rewrite Z.mul_0_l, Z.add_0_l in H. exact H.
  Qed.
  Lemma rank_of_index rank j i : 0 <= rank < tile_ranks l -> subtile_index l rank = (j, i) -> rank = j * snd l + i.
  Proof.
    intros Hr. unfold subtile_index, subtile_index_of, tile_ranks in *. rewrite (Z.mod_small rank) by lia.
    intros [= <- <-]. rewrite (Z.div_mod rank (snd l)) at 1 by lia. ring.
  Qed.
  Lemma rank_range j i : valid_sub l (j, i) -> 0 <= j * snd l + i < tile_ranks l.
  Proof. intros [V1 V2]. cbn in V1, V2. unfold tile_ranks. nia. Qed.

  Lemma partition dims extent sl0 p :
    plane_field dims extent -> in_extent extent p ->
    subtile_slice rnd l ratio 0 dims extent false = Some sl0 ->
    exists! rank, 0 <= rank < tile_ranks l /\
      exists sl, subtile_slice rnd l ratio rank dims extent false = Some sl /\ inside sl p.
  Proof.
    intros (NT & CJ & CI & HS) HP H0.
    assert (V0 : valid_sub l (0, 0)) by (split; cbn; lia).
    destruct (rank_slice_some _ _ _ _ (0, 0) false _ H0) as [sl1 H1].
    destruct (partition_split dims extent sl1 p NT HS HP H1) as (PJ & PI & Hm & _ & _ & HJ & HI).
    destruct (HJ CJ) as (j0 & Hj0 & HJ0). destruct (HI CI) as (i0 & Hi0 & HI0).
    exists (j0 * snd l + i0). split.
    - split; [apply rank_range; split; cbn; lia|].
      unfold subtile_slice. rewrite subtile_index_rank by (split; cbn; lia).
      apply Hm; [split; cbn; lia|]. split; [apply HJ0; lia|apply HI0; lia].
    - intros rank [Hr Hsl]. pose proof (subtile_index_valid rank Hr) as V.
      destruct (subtile_index l rank) as [j i] eqn:E. unfold subtile_slice in Hsl. rewrite E in Hsl.
      apply Hm in Hsl; [|exact V]. destruct V as [V1 V2]; cbn in V1, V2.
      destruct Hsl as [A B]. apply HJ0 in A; [|lia]. apply HI0 in B; [|lia]. subst.
      symmetry. apply rank_of_index; assumption.
  Qed.
End Slices.
