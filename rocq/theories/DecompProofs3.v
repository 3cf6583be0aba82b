(** Proofs about the decomposition: overlap, acceptance, metadata, scatter/gather. *)
From Verif Require Import Base PartModel PartProofs PartGeom DecompModel DecompSpec DecompProofs DecompProofs2.
From Coq Require Import QArith ZifyBool.
Open Scope Z_scope.

Section Overlap.
  Variable rnd : Q -> Q.
  Hypothesis Hrnd : float_like rnd.
  Variable l : layout.
  Hypothesis Hl : 0 < fst l <= 2 ^ 52 /\ 0 < snd l <= 2 ^ 52.
  Variable ratio : Q.

  Lemma Forall2_nth {A B} (R : A -> B -> Prop) xs ys m x :
    Forall2 R xs ys -> nth_error xs m = Some x -> exists y, nth_error ys m = Some y /\ R x y.
  Proof.
    intros H. revert m. induction H as [|a b xs ys Hab H IH]; intros m E; [destruct m; discriminate E|].
    destruct m as [|m]; cbn in *; [injection E as ->; exists b; auto|apply IH; exact E].
  Qed.

  Lemma k_range a rank : 0 <= rank < tile_ranks l -> is_horizontal a = true ->
    0 <= by_dim a (subtile_index l rank) 0 < by_dim a l 1.
  Proof.
    intros Hr Ha. pose proof (subtile_index_valid l Hl rank Hr) as [V1 V2].
    destruct a; cbn [by_dim]; [assumption|assumption|discriminate Ha].
  Qed.

  (** The m-th slice of a rank in closed form. *)
  Lemma nth_slice dims extent rank overlap sl m a iface s :
    no_tile dims -> Forall2 size_ok dims extent -> 0 <= rank < tile_ranks l ->
    subtile_slice rnd l ratio rank dims extent overlap = Some sl ->
    nth_error dims m = Some (Dim a iface) -> nth_error sl m = Some s ->
    exists D inner edge, nth_error extent m = Some D /\
      subtile_extents rnd D a iface l ratio = Some (inner, edge) /\
      covers (by_dim a l 1) (D - if iface then 1 else 0) inner edge /\
      s = if is_horizontal a then
            let k := by_dim a (subtile_index l rank) 0 in let n := by_dim a l 1 in
            (cut n inner edge k, cut n inner edge (k + 1) + if iface && (overlap || (k =? n - 1)) then 1 else 0)
          else (0, D).
  Proof.
    intros NT HS Hr H Hd Hs. destruct (Forall2_nth _ _ _ _ _ HS Hd) as (D & HD & Hsz).
    destruct (rank_slice_nth rnd l ratio _ _ _ _ _ _ _ _ _ _ NT H Hd HD Hs) as (inner & edge & E & ->).
    exists D, inner, edge. split; [exact HD|]. split; [exact E|].
    pose proof (accepted rnd Hrnd l Hl ratio D a iface inner edge Hsz E) as Hcov. split; [exact Hcov|].
    destruct (is_horizontal a) eqn:Ha.
    - apply dim_slice_eq; [apply (subtile_index_valid l Hl); exact Hr|exact Ha].
    - destruct a; try discriminate Ha. unfold dim_slice. cbn [is_horizontal].
      destruct Hcov as (_ & _ & _ & Hc). cbn [by_dim Z.eqb Pos.eqb] in Hc.
      assert (inner = edge).
      { unfold subtile_extents in E. cbn [by_dim is_horizontal] in E. rewrite andb_false_r in E.
        destruct ((1 mod 2 =? 0) && _); [discriminate E|]. injection E as <- <-. reflexivity. }
      f_equal. destruct iface; lia.
  Qed.

  Lemma overlap_slices dims extent r1 r2 sl1 sl2 m a iface D s1 s2 :
    no_tile dims -> Forall2 size_ok dims extent ->
    0 <= r1 < tile_ranks l -> 0 <= r2 < tile_ranks l ->
    subtile_slice rnd l ratio r1 dims extent true = Some sl1 ->
    subtile_slice rnd l ratio r2 dims extent true = Some sl2 ->
    nth_error dims m = Some (Dim a iface) -> nth_error extent m = Some D ->
    nth_error sl1 m = Some s1 -> nth_error sl2 m = Some s2 ->
    if is_horizontal a then
      let k1 := by_dim a (subtile_index l r1) 0 in
      let k2 := by_dim a (subtile_index l r2) 0 in
      fst s1 <= snd s1 /\
      (k1 = 0 -> fst s1 = 0) /\ (k1 = by_dim a l 1 - 1 -> snd s1 = D) /\
      (k1 = k2 -> s1 = s2) /\
      (k2 = k1 + 1 -> snd s1 = fst s2 + (if iface then 1 else 0)) /\
      (k1 + 1 < k2 -> snd s1 <= fst s2)
    else s1 = (0, D) /\ s2 = (0, D).
  Proof.
    intros NT HS H1 H2 E1 E2 Hd HD Hs1 Hs2.
    destruct (nth_slice _ _ _ _ _ _ _ _ _ NT HS H1 E1 Hd Hs1) as (D1 & inner & edge & HD1 & X1 & Hc & ->).
    destruct (nth_slice _ _ _ _ _ _ _ _ _ NT HS H2 E2 Hd Hs2) as (D2 & inner' & edge' & HD2 & X2 & _ & ->).
    assert (D1 = D) by congruence. assert (D2 = D) by congruence. subst D1 D2.
    assert (inner' = inner /\ edge' = edge) as [-> ->] by (split; congruence).
    destruct (is_horizontal a) eqn:Ha; [|split; reflexivity].
    pose proof (k_range a r1 H1 Ha) as K1. pose proof (k_range a r2 H2 Ha) as K2.
    set (k1 := by_dim a (subtile_index l r1) 0) in *. set (k2 := by_dim a (subtile_index l r2) 0) in *.
    set (n := by_dim a l 1) in *. cbn zeta. cbn [fst snd]. rewrite !orb_true_l, !andb_true_r.
    assert (Hn : 0 < n) by lia.
    pose proof (cut_n n inner edge _ Hn Hc) as Cn.
    repeat split.
    - pose proof (cut_le n inner edge _ Hn Hc k1 ltac:(lia)). destruct iface; lia.
    - intros ->. reflexivity.
    - intros Ek. replace (k1 + 1) with n by lia. rewrite Cn. destruct iface; lia.
    - intros ->. reflexivity.
    - intros ->. reflexivity.
    - intros Hlt.
      pose proof (cut_mono n inner edge _ Hn Hc (k1 + 1 + 1) k2 ltac:(lia) ltac:(lia) ltac:(lia)) as M.
      rewrite (cut_step n inner edge Hn (k1 + 1)) in M by lia.
      destruct Hc as (P1 & P2 & P3 & _). specialize (P3 ltac:(lia)).
      destruct iface; destruct ((k1 + 1 =? 0) || (k1 + 1 =? n - 1)); lia.
  Qed.

  (** Slice sizes: the same for both edges, the same for all interior positions. *)
  Lemma slice_sizes dims extent r1 r2 sl1 sl2 m a iface s1 s2 :
    no_tile dims -> Forall2 size_ok dims extent ->
    0 <= r1 < tile_ranks l -> 0 <= r2 < tile_ranks l ->
    subtile_slice rnd l ratio r1 dims extent true = Some sl1 ->
    subtile_slice rnd l ratio r2 dims extent true = Some sl2 ->
    nth_error dims m = Some (Dim a iface) ->
    nth_error sl1 m = Some s1 -> nth_error sl2 m = Some s2 ->
    let at_edge r := let k := by_dim a (subtile_index l r) 0 in k = 0 \/ k = by_dim a l 1 - 1 in
    (is_horizontal a = true -> (at_edge r1 <-> at_edge r2)) -> snd s1 - fst s1 = snd s2 - fst s2.
  Proof.
    intros NT HS H1 H2 E1 E2 Hd Hs1 Hs2 at_edge Hedge.
    destruct (nth_slice _ _ _ _ _ _ _ _ _ NT HS H1 E1 Hd Hs1) as (D1 & inner & edge & HD1 & X1 & Hc & ->).
    destruct (nth_slice _ _ _ _ _ _ _ _ _ NT HS H2 E2 Hd Hs2) as (D2 & inner' & edge' & HD2 & X2 & _ & ->).
    assert (D2 = D1) by congruence. subst D2.
    assert (inner' = inner /\ edge' = edge) as [-> ->] by (split; congruence).
    destruct (is_horizontal a) eqn:Ha; [|reflexivity]. specialize (Hedge eq_refl).
    pose proof (k_range a r1 H1 Ha) as K1. pose proof (k_range a r2 H2 Ha) as K2. unfold at_edge in Hedge.
    set (k1 := by_dim a (subtile_index l r1) 0) in *. set (k2 := by_dim a (subtile_index l r2) 0) in *.
    set (n := by_dim a l 1) in *. cbn zeta in *. cbn [fst snd]. rewrite !orb_true_l, !andb_true_r.
    rewrite !cut_step by lia.
    assert ((k1 =? 0) || (k1 =? n - 1) = ((k2 =? 0) || (k2 =? n - 1))) as -> by lia.
    lia.
  Qed.

  (** Every point belongs to some rank's overlapping slice. *)
  Lemma nonoverlap_in_overlap dims extent sub sl1 sl2 p :
    valid_sub l sub ->
    rank_slice rnd dims extent l sub ratio false = Some sl1 -> rank_slice rnd dims extent l sub ratio true = Some sl2 ->
    inside sl1 p -> inside sl2 p.
  Proof.
    intros V. revert extent sl1 sl2 p. induction dims as [|d dims IH]; intros extent sl1 sl2 p E1 E2 Hin.
    { destruct extent; cbn in *; congruence. }
    destruct extent as [|D extent]; [destruct d; cbn in *; congruence|].
    cbn [rank_slice] in *. destruct d as [|a iface]; [eapply IH; eassumption|].
    destruct (subtile_extents rnd D a iface l ratio) as [[inner edge]|]; [|discriminate E1]. cbn [bind fst snd] in *.
    destruct (rank_slice rnd dims extent l sub ratio false) as [r1|] eqn:R1; [|discriminate E1].
    destruct (rank_slice rnd dims extent l sub ratio true) as [r2|] eqn:R2; [|discriminate E2].
    cbn [bind] in *. injection E1 as <-. injection E2 as <-.
    inversion Hin as [|? x ? p' Hh Ht]; subst. constructor; [|eapply IH; eassumption].
    destruct (is_horizontal a) eqn:Ha.
    - rewrite dim_slice_eq in * by assumption. cbn zeta in *. cbn [fst snd] in *.
      destruct iface; cbn [andb orb] in *; [|exact Hh]. destruct (by_dim a sub 0 =? _) in Hh; lia.
    - unfold dim_slice in *. rewrite Ha in *. exact Hh.
  Qed.

  Lemma coverage dims extent sl0 p :
    plane_field dims extent -> in_extent extent p ->
    subtile_slice rnd l ratio 0 dims extent true = Some sl0 ->
    exists rank sl, 0 <= rank < tile_ranks l /\
      subtile_slice rnd l ratio rank dims extent true = Some sl /\ inside sl p.
  Proof.
    intros HF HP H0.
    destruct (rank_slice_some rnd l ratio _ _ _ _ (subtile_index l 0) false _ H0) as [sl1 H1].
    destruct (partition rnd Hrnd l Hl ratio dims extent sl1 p HF HP H1) as (rank & (Hr & sl & Hsl & Hin) & _).
    destruct (rank_slice_some rnd l ratio _ _ _ _ (subtile_index l rank) true _ Hsl) as [sl2 H2].
    exists rank, sl2. split; [exact Hr|]. split; [exact H2|].
    eapply nonoverlap_in_overlap; [|exact Hsl|exact H2|exact Hin]. apply (subtile_index_valid l Hl); exact Hr.
  Qed.

  (** ** The cube *)
  Lemma cube_partition dims extent e0 sl0 t p :
    plane_field dims extent -> 0 <= t < 6 -> in_extent extent p ->
    cube_subtile_slice rnd l ratio 0 (TILE :: dims) (e0 :: extent) false = Some sl0 ->
    exists! rank, 0 <= rank < cube_ranks l /\
      exists sl, cube_subtile_slice rnd l ratio rank (TILE :: dims) (e0 :: extent) false = Some (t, sl) /\ inside sl p.
  Proof.
    intros HF Ht HP H0. cbn [cube_subtile_slice] in *.
    destruct (subtile_slice rnd l ratio 0 dims extent false) as [s0|] eqn:E0; [|discriminate H0].
    destruct (partition rnd Hrnd l Hl ratio dims extent s0 p HF HP E0) as (r & (Hr & sl & Hsl & Hin) & Hu).
    set (T := tile_ranks l) in *. assert (HT : 0 < T) by (unfold T, tile_ranks; nia).
    assert (Hcr : cube_ranks l = 6 * T) by reflexivity.
    assert (Hti : forall x, tile_index l x = x / T).
    { intros x. unfold tile_index. rewrite Hcr, (Z.mul_comm 6), Z.div_mul by lia. reflexivity. }
    assert (Hsub : forall x, subtile_slice rnd l ratio x dims extent false
                             = subtile_slice rnd l ratio (x mod T) dims extent false).
    { intros x. unfold subtile_slice, subtile_index, subtile_index_of. fold T. rewrite Z.mod_mod by lia. reflexivity. }
    exists (t * T + r). split.
    - split; [nia|]. rewrite Hsub.
      replace ((t * T + r) mod T) with r by (symmetry; rewrite Z.add_comm, Z_mod_plus_full; apply Z.mod_small; lia).
      rewrite Hsl. cbn [bind]. rewrite Hti. exists sl. split; [|exact Hin]. f_equal. f_equal.
      rewrite Z.div_add_l by lia. rewrite Z.div_small by lia. lia.
    - intros rank (Hrk & sl' & Hsl' & Hin'). rewrite Hsub in Hsl'.
      destruct (subtile_slice rnd l ratio (rank mod T) dims extent false) as [sr|] eqn:Er; [|discriminate Hsl'].
      cbn [bind] in Hsl'. injection Hsl' as Et <-. rewrite Hti in Et.
      assert (r = rank mod T).
      { apply Hu. split; [apply Z.mod_pos_bound; lia|]. exists sr. split; [exact Er|exact Hin']. }
      rewrite (Z.div_mod rank T) by lia. lia.
  Qed.

  (** ** Even decompositions are accepted *)
  Lemma extents_even D a iface q :
    (ratio == 1)%Q -> size_ok (Dim a iface) D -> even_dim l (Dim a iface) D q ->
    subtile_extents rnd D a iface l ratio = Some (q, q).
  Proof.
    intros Hratio Hs [Hq E]. cbn [size_ok] in Hs. unfold subtile_extents.
    set (c := by_dim a l 1) in *. assert (Hc : 0 < c <= 2 ^ 52) by (unfold c; destruct a; cbn [by_dim]; lia).
    assert (ED : (if iface then D - 1 else D) = c * q) by (destruct iface; lia). rewrite ED.
    assert (Hcq : c * q <= 2 ^ 52) by (destruct iface; lia).
    assert (Hq2 : Z.abs q <= 2 ^ 52) by nia.
    assert (Hodd : (c mod 2 =? 0) && negb ((c * q) mod 2 =? 0) = false).
    { destruct (c mod 2 =? 0) eqn:E2; [|reflexivity]. apply Z.eqb_eq in E2.
      rewrite Z.mul_mod, E2 by lia. reflexivity. }
    rewrite Hodd.
    destruct ((3 <=? c) && is_horizontal a) eqn:Eh.
    - assert (Hst : start_edge rnd (c * q) c ratio = q).
      { unfold start_edge. apply py_round_int. apply (fdiv_int rnd Hrnd _ _ (c * q) c q); try lia; try reflexivity.
        unfold fadd. apply rnd_int; [exact Hrnd| |lia].
        rewrite (fdiv_int rnd Hrnd (inject_Z (c - 2)) ratio (c - 2) 1 (c - 2)); try lia; try reflexivity.
        - change 2%Q with (inject_Z 2). rewrite <- inject_Z_plus. apply inject_Z_injective. lia.
        - exact Hratio. }
      rewrite Hst.
      assert (Hin : interior_size rnd (c * q) c q = q).
      { unfold interior_size. apply py_int_int. apply (fdiv_int rnd Hrnd _ _ q 1 q); try lia; try reflexivity.
        apply (fdiv_int rnd Hrnd _ _ q q 1); try lia; try reflexivity.
        apply (fdiv_int rnd Hrnd _ _ ((c - 2) * q) (c - 2) q); try lia; try reflexivity.
        apply inject_Z_injective. lia. }
      assert (Htop : 1 <= q < edge_top rnd (c * q) c).
      { rewrite edge_top_eq; [|exact Hrnd|change (2 ^ 53) with (2 * 2 ^ 52); nia].
        split; [lia|]. assert (q <= Z.quot (c * q - c + 2) 2); [|lia].
        apply Z.quot_le_lower_bound; [lia|]. nia. }
      destruct (valid_sizes_head rnd (c * q) c q Htop) as [t ->]. cbn [find].
      unfold edge_ok. rewrite Hin. replace (q * 2 + (c - 2) * q =? c * q) with true by lia. rewrite Hin. reflexivity.
    - rewrite (py_int_int (fdiv rnd (inject_Z (c * q)) (inject_Z c)) q); [reflexivity|].
      apply exact_quot; try lia. exact Hrnd.
  Qed.

  Lemma even_accepted dims extent qs rank :
    (ratio == 1)%Q -> 0 <= rank < tile_ranks l ->
    Forall2 size_ok dims extent -> Forall2 (fun de q => even_dim l (fst de) (snd de) q) (combine dims extent) qs ->
    exists sl, subtile_slice rnd l ratio rank dims extent true = Some sl /\
      forall m a iface q s, nth_error dims m = Some (Dim a iface) -> nth_error qs m = Some q -> nth_error sl m = Some s ->
        let k := by_dim a (subtile_index l rank) 0 in
        s = (k * q, (k + 1) * q + if iface then 1 else 0).
  Proof.
    intros Hratio Hr HS. unfold subtile_slice.
    pose proof (subtile_index_valid l Hl rank Hr) as V. set (sub := subtile_index l rank) in *. clearbody sub.
    revert qs. induction HS as [|d D dims extent Hd HS IH]; intros qs HE; cbn [combine] in HE.
    - exists []. split; [reflexivity|]. intros m a iface q s Hm. destruct m; discriminate Hm.
    - inversion HE as [|? q ? qs' Hq HE']; subst. cbn [fst snd] in Hq.
      destruct d as [|a iface]; [destruct Hq|].
      destruct (IH qs' HE') as (sl & Hsl & Hn). cbn [rank_slice].
      rewrite (extents_even D a iface q Hratio Hd Hq). cbn [bind fst snd]. rewrite Hsl. cbn [bind].
      eexists. split; [reflexivity|].
      intros m a' iface' q' s Hm Hq' Hs'. destruct m as [|m]; cbn [nth_error] in *; [|eapply Hn; eassumption].
      injection Hm as <- <-. injection Hq' as <-. injection Hs' as <-.
      destruct (is_horizontal a) eqn:Ha.
      + rewrite dim_slice_eq by assumption. cbn zeta. rewrite orb_true_l, andb_true_r.
        set (k := by_dim a sub 0). set (n := by_dim a l 1).
        assert (Hk : 0 <= k < n) by (unfold k, n; destruct V, a; cbn [by_dim]; try discriminate Ha; assumption).
        assert (Hcut : forall x, 0 <= x <= n -> cut n q q x = x * q).
        { intros x Hx. unfold cut. destruct (x <=? 0) eqn:X0; [assert (x = 0) as -> by lia; reflexivity|].
          destruct (x =? n) eqn:Xn; [|ring]. assert (x = n) as -> by lia.
          destruct (n =? 1) eqn:N1; [assert (n = 1) as -> by lia|]; ring. }
        rewrite !Hcut by lia. f_equal.
      + unfold dim_slice. rewrite Ha. destruct a; try discriminate Ha. cbn [by_dim]. destruct iface; f_equal; lia.
  Qed.

  Lemma odd_rejected dims extent rank overlap m a iface D :
    no_tile dims -> length dims = length extent ->
    nth_error dims m = Some (Dim a iface) -> nth_error extent m = Some D ->
    by_dim a l 1 mod 2 = 0 -> (D - if iface then 1 else 0) mod 2 <> 0 ->
    subtile_slice rnd l ratio rank dims extent overlap = None.
  Proof.
    intros NT HL Hd HD Hc Ho. unfold subtile_slice. revert extent m HL Hd HD. revert NT.
    induction dims as [|d dims IH]; intros NT extent m HL Hd HD; [destruct m; discriminate Hd|].
    destruct extent as [|D' extent]; [discriminate HL|]. cbn [length] in HL. injection HL as HL.
    destruct d as [|a' iface']; [exfalso; apply NT; left; reflexivity|]. cbn [rank_slice].
    destruct m as [|m]; cbn [nth_error] in *.
    - injection Hd as -> ->. injection HD as ->. unfold subtile_extents. rewrite Hc. cbn [Z.eqb andb].
      replace (if iface then D - 1 else D) with (D - if iface then 1 else 0) by (destruct iface; lia).
      apply Z.eqb_neq in Ho. rewrite Ho. reflexivity.
    - destruct (subtile_extents rnd D' a' iface' l ratio) as [[inner edge]|]; [|reflexivity]. cbn [bind].
      rewrite (IH (fun H => NT (or_intror H)) extent m HL Hd HD). reflexivity.
  Qed.

  (** ** Global extent from rank extent *)
  Lemma even_global_extent dims extent qs rank ext :
    (ratio == 1)%Q -> 0 <= rank < tile_ranks l ->
    Forall2 size_ok dims extent -> Forall2 (fun de q => even_dim l (fst de) (snd de) q) (combine dims extent) qs ->
    subtile_extent rnd l ratio dims extent rank = Some ext -> global_extent l dims ext = extent.
  Proof.
    intros Hratio Hr HS. unfold subtile_extent, subtile_slice.
    pose proof (subtile_index_valid l Hl rank Hr) as V. set (sub := subtile_index l rank) in *. clearbody sub.
    revert qs ext. induction HS as [|d D dims extent Hd HS IH]; intros qs ext HE H; cbn [combine] in HE.
    - cbn in H. injection H as <-. reflexivity.
    - inversion HE as [|? q ? qs' Hq HE']; subst. cbn [fst snd] in Hq.
      destruct d as [|a iface]; [destruct Hq|]. cbn [rank_slice] in H.
      rewrite (extents_even D a iface q Hratio Hd Hq) in H. cbn [bind fst snd] in H.
      destruct (rank_slice rnd dims extent l sub ratio true) as [sl|] eqn:E; [|discriminate H].
      cbn [bind map] in H. injection H as <-. cbn [global_extent]. f_equal.
      + destruct Hq as [Hq1 ->]. unfold global_extent1.
        destruct (is_horizontal a) eqn:Ha.
        * rewrite dim_slice_eq by assumption. cbn zeta. cbn [fst snd]. rewrite orb_true_l, andb_true_r.
          assert (Hkk : 0 <= by_dim a sub 0 < by_dim a l 1) by (destruct V, a; cbn [by_dim]; try discriminate Ha; assumption).
          rewrite cut_step by lia.
          set (n := by_dim a l 1). destruct (_ || _); destruct iface; lia.
        * unfold dim_slice. rewrite Ha. destruct a; try discriminate Ha. cbn [by_dim fst snd]. destruct iface; lia.
      + apply (IH qs'); [exact HE'|]. reflexivity.
  Qed.

  Lemma uniform_global_extent dims extent slA slJ slI :
    Forall2 size_ok dims extent -> no_tile dims ->
    rank_slice rnd dims extent l (0, 0) ratio true = Some slA ->
    (3 <= fst l -> rank_slice rnd dims extent l (1, 0) ratio true = Some slJ /\ shape_of slJ = shape_of slA) ->
    (3 <= snd l -> rank_slice rnd dims extent l (0, 1) ratio true = Some slI /\ shape_of slI = shape_of slA) ->
    global_extent l dims (shape_of slA) = extent.
  Proof.
    intros HS. revert slA slJ slI.
    induction HS as [|d D dims extent Hd HS IH]; intros slA slJ slI NT HA HJ HI; [reflexivity|].
    destruct d as [|a iface]; [exfalso; apply NT; left; reflexivity|]. cbn [rank_slice] in *.
    destruct (subtile_extents rnd D a iface l ratio) as [[inner edge]|] eqn:E; [|discriminate HA]. cbn [bind fst snd] in *.
    destruct (rank_slice rnd dims extent l (0, 0) ratio true) as [rA|] eqn:EA; [|discriminate HA]. cbn [bind] in HA.
    injection HA as <-.
    assert (V00 : valid_sub l (0, 0)) by (split; cbn; lia).
    pose proof (accepted rnd Hrnd l Hl ratio D a iface inner edge Hd E) as Hcov.
    unfold shape_of. cbn [map global_extent]. fold (shape_of rA). f_equal.
    - unfold global_extent1. set (n := by_dim a l 1) in *.
      destruct (is_horizontal a) eqn:Ha.
      + assert (Hun : 3 <= n -> inner = edge).
        { intros Hn3. destruct a; try discriminate Ha; unfold n in Hn3; cbn [by_dim] in Hn3.
          - destruct (HJ Hn3) as [Hj Hs].
            destruct (rank_slice rnd dims extent l (1, 0) ratio true) as [rJ|]; [|discriminate Hj].
            cbn [bind] in Hj. injection Hj as <-. unfold shape_of in Hs. cbn [map] in Hs. injection Hs as Hs _.
            rewrite !dim_slice_eq in Hs by (try (split; cbn; lia); reflexivity). cbn [by_dim fst snd] in Hs.
            rewrite !orb_true_l, !andb_true_r in Hs.
            pose proof (cut_step (fst l) inner edge ltac:(lia) 1 ltac:(lia)) as S1.
            pose proof (cut_step (fst l) inner edge ltac:(lia) 0 ltac:(lia)) as S0.
            change (0 + 1) with 1 in *. change (1 + 1) with 2 in *.
            replace ((1 =? 0) || (1 =? fst l - 1)) with false in S1 by lia. cbn [Z.eqb orb] in S0. destruct iface; lia.
          - destruct (HI Hn3) as [Hj Hs].
            destruct (rank_slice rnd dims extent l (0, 1) ratio true) as [rJ|]; [|discriminate Hj].
            cbn [bind] in Hj. injection Hj as <-. unfold shape_of in Hs. cbn [map] in Hs. injection Hs as Hs _.
            rewrite !dim_slice_eq in Hs by (try (split; cbn; lia); reflexivity). cbn [by_dim fst snd] in Hs.
            rewrite !orb_true_l, !andb_true_r in Hs.
            pose proof (cut_step (snd l) inner edge ltac:(lia) 1 ltac:(lia)) as S1.
            pose proof (cut_step (snd l) inner edge ltac:(lia) 0 ltac:(lia)) as S0.
            change (0 + 1) with 1 in *. change (1 + 1) with 2 in *.
            replace ((1 =? 0) || (1 =? snd l - 1)) with false in S1 by lia. cbn [Z.eqb orb] in S0. destruct iface; lia. }
        assert (Hn : 0 < n) by (apply n_pos; exact Hl).
        rewrite dim_slice_eq by assumption. fold n. cbn zeta. cbn [fst snd]. rewrite orb_true_l, andb_true_r.
        assert (Hk0 : by_dim a (0, 0) 0 = 0) by (destruct a; reflexivity). rewrite Hk0.
        rewrite cut_step by lia. cbn [Z.eqb orb]. replace (cut n inner edge 0) with 0 by reflexivity.
        destruct Hcov as (_ & _ & _ & Hcov).
        destruct (Z_le_gt_dec 3 n) as [H3|H3].
        * rewrite (Hun H3) in Hcov. replace (n =? 1) with false in Hcov by lia. destruct iface; lia.
        * assert (n = 1 \/ n = 2) as [En|En] by lia; rewrite En in Hcov |- *; cbn [Z.eqb Pos.eqb] in Hcov; destruct iface; lia.
      + destruct a; try discriminate Ha. unfold dim_slice. cbn [is_horizontal fst snd].
        destruct Hcov as (_ & _ & _ & Hc). unfold n in *. cbn [by_dim Z.eqb Pos.eqb] in *.
        assert (inner = edge).
        { unfold subtile_extents in E. cbn [by_dim is_horizontal] in E. rewrite andb_false_r in E.
          destruct ((1 mod 2 =? 0) && _); [discriminate E|]. injection E as <- <-. reflexivity. }
        destruct iface; lia.
    - apply (IH rA (tl slJ) (tl slI)).
      + intros H. apply NT. right; exact H.
      + reflexivity.
      + intros H3. destruct (HJ H3) as [Hj Hs].
        destruct (rank_slice rnd dims extent l (1, 0) ratio true) as [rJ|]; [|discriminate Hj].
        cbn [bind] in Hj. injection Hj as <-. cbn [tl]. split; [reflexivity|].
        unfold shape_of in *. cbn [map] in Hs. injection Hs as _ Hs. exact Hs.
      + intros H3. destruct (HI H3) as [Hj Hs].
        destruct (rank_slice rnd dims extent l (0, 1) ratio true) as [rJ|]; [|discriminate Hj].
        cbn [bind] in Hj. injection Hj as <-. cbn [tl]. split; [reflexivity|].
        unfold shape_of in *. cbn [map] in Hs. injection Hs as _ Hs. exact Hs.
  Qed.

  (** ** scatter, gather *)
  Lemma in_slices_iff sl p : in_slices sl p = true <-> inside sl p.
  Proof.
    unfold in_slices, inside. rewrite andb_true_iff. split.
    - intros [HL HF]. apply Nat.eqb_eq in HL. revert p HL HF.
      induction sl as [|s sl IH]; intros [|x p] HL HF; try discriminate HL; [constructor|].
      cbn [combine forallb] in HF. apply andb_true_iff in HF. destruct HF as [H1 H2].
      constructor; [cbn in H1; lia|]. apply IH; [injection HL as HL; exact HL|exact H2].
    - intros H. induction H as [|s x sl p Hs H [IH1 IH2]]; [split; reflexivity|]. split; [exact IH1|].
      cbn [combine forallb]. rewrite IH2. cbn. lia.
  Qed.

  Lemma shift_unshift sl p : inside sl p -> shift sl (unshift sl p) = p.
  Proof.
    intros H. induction H as [|s x sl p Hs H IH]; [reflexivity|].
    unfold shift, unshift in *. cbn [combine map fst snd]. f_equal; [lia|exact IH].
  Qed.

  Lemma list_eqb_eq a b : list_eqb a b = true <-> a = b.
  Proof. unfold list_eqb. destruct (list_eq_dec Z.eq_dec a b); split; congruence. Qed.

  Section Gather.
    Context {A : Type}.
    Variables (dims : list dim) (extent shape : list Z) (g : index -> A) (loc : Z -> index -> A).
    Hypothesis Hloc : forall rank, 0 <= rank < tile_ranks l ->
      exists sl, subtile_slice rnd l ratio rank dims extent true = Some sl /\ shape_of sl = shape /\ loc rank = take_slice g sl.

    Lemma gather_loop_ok ranks g0 :
      (forall r, In r ranks -> 0 <= r < tile_ranks l) ->
      exists g', gather_loop rnd ranks l ratio dims extent shape loc g0 = Some g' /\
        forall p, (g' p = g p) \/
          (g' p = g0 p /\ forall r sl, In r ranks -> subtile_slice rnd l ratio r dims extent true = Some sl -> ~ inside sl p).
    Proof.
      revert g0. induction ranks as [|r ranks IH]; intros g0 Hin.
      - exists g0. split; [reflexivity|]. intros p. right. split; [reflexivity|]. intros r sl [].
      - destruct (Hloc r (Hin r (or_introl eq_refl))) as (sl & Hsl & Hsh & Hl0).
        cbn [gather_loop]. rewrite Hsl. cbn [bind]. apply list_eqb_eq in Hsh. rewrite Hsh.
        destruct (IH (put_slice g0 sl (loc r)) (fun r' H => Hin r' (or_intror H))) as (g' & Hg' & Hp).
        exists g'. split; [exact Hg'|]. intros p. destruct (Hp p) as [E|[E Hno]]; [left; exact E|].
        destruct (in_slices sl p) eqn:Ein.
        + left. rewrite E. unfold put_slice. rewrite Ein, Hl0. unfold take_slice.
          rewrite shift_unshift by (apply in_slices_iff; exact Ein). reflexivity.
        + right. split.
          * rewrite E. unfold put_slice. rewrite Ein. reflexivity.
          * intros r' sl' [<-|Hr'] Hs'; [|eapply Hno; eassumption].
            assert (sl' = sl) as -> by congruence. rewrite <- in_slices_iff, Ein. discriminate.
    Qed.
  End Gather.

  Lemma scatter_gather {A} dims extent (g g0 : index -> A) (loc : Z -> index -> A) :
    plane_field dims extent ->
    (forall rank, 0 <= rank < tile_ranks l -> scatter rnd l ratio dims extent g rank = Some (loc rank)) ->
    exists shape g',
      subtile_extent rnd l ratio dims extent 0 = Some shape /\
      global_extent l dims shape = extent /\
      gather rnd l ratio dims (global_extent l dims shape) shape loc g0 = Some g' /\
      forall p, in_extent extent p -> g' p = g p.
  Proof.
    intros HF Hs. pose proof HF as (NT & CJ & CI & HS).
    assert (HT : 0 < tile_ranks l) by (unfold tile_ranks; nia).
    destruct (subtile_extent rnd l ratio dims extent 0) as [shape|] eqn:E0.
    2: { specialize (Hs 0 ltac:(lia)). unfold scatter in Hs. rewrite E0 in Hs. discriminate Hs. }
    assert (Hloc : forall rank, 0 <= rank < tile_ranks l ->
      exists sl, subtile_slice rnd l ratio rank dims extent true = Some sl /\ shape_of sl = shape /\ loc rank = take_slice g sl).
    { intros rank Hr. specialize (Hs rank Hr). unfold scatter in Hs. rewrite E0 in Hs. cbn [bind] in Hs.
      destruct (subtile_slice rnd l ratio rank dims extent true) as [sl|]; [|discriminate Hs]. cbn [bind] in Hs.
      destruct (list_eqb (shape_of sl) shape) eqn:El; [|discriminate Hs]. injection Hs as Hs.
      exists sl. split; [reflexivity|]. split; [apply list_eqb_eq; exact El|symmetry; exact Hs]. }
    exists shape.
    assert (HG : global_extent l dims shape = extent).
    { assert (Hat : forall j i, valid_sub l (j, i) ->
        exists sl, rank_slice rnd dims extent l (j, i) ratio true = Some sl /\ shape_of sl = shape).
      { intros j i V. destruct (Hloc (j * snd l + i) (rank_range l Hl j i V)) as (sl & Hsl & Hsh & _).
        unfold subtile_slice in Hsl. rewrite (subtile_index_rank l Hl j i V) in Hsl. exists sl. split; assumption. }
      destruct (Hat 0 0) as (slA & HA & SA); [split; cbn; lia|]. rewrite <- SA.
      destruct (Z_le_gt_dec 3 (fst l)) as [Hj|Hj].
      - destruct (Hat 1 0) as (slJ & HJ & SJ); [split; cbn; lia|].
        destruct (Z_le_gt_dec 3 (snd l)) as [Hi|Hi].
        + destruct (Hat 0 1) as (slI & HI & SI); [split; cbn; lia|].
          apply (uniform_global_extent dims extent slA slJ slI); auto; intros _; split; congruence.
        + apply (uniform_global_extent dims extent slA slJ slA); auto; [intros _; split; congruence|intros; lia].
      - destruct (Z_le_gt_dec 3 (snd l)) as [Hi|Hi].
        + destruct (Hat 0 1) as (slI & HI & SI); [split; cbn; lia|].
          apply (uniform_global_extent dims extent slA slA slI); auto; [intros; lia|intros _; split; congruence].
        + apply (uniform_global_extent dims extent slA slA slA); auto; intros; lia. }
    rewrite HG.
    destruct (gather_loop_ok dims extent shape g loc Hloc (zrange 0 (tile_ranks l)) g0) as (g' & Hg' & Hp).
    { intros r Hr. apply in_zrange in Hr. exact Hr. }
    exists g'. split; [reflexivity|]. split; [reflexivity|]. split; [exact Hg'|].
    intros p HP. destruct (Hp p) as [E|[_ Hno]]; [exact E|]. exfalso.
    destruct (Hloc 0 ltac:(lia)) as (sl0 & Hsl0 & _).
    destruct (coverage dims extent sl0 p HF HP Hsl0) as (rank & sl & Hr & Hsl & Hin).
    apply (Hno rank sl); [apply in_zrange; exact Hr|exact Hsl|exact Hin].
  Qed.

  (** Each rank receives exactly its region. *)
  Lemma scatter_region {A} dims extent (g : index -> A) rank loc sl p :
    scatter rnd l ratio dims extent g rank = Some loc ->
    subtile_slice rnd l ratio rank dims extent true = Some sl -> inside sl p -> loc (unshift sl p) = g p.
  Proof.
    intros Hs Hsl Hin. unfold scatter in Hs.
    destruct (subtile_extent rnd l ratio dims extent 0) as [shape|]; [|discriminate Hs]. cbn [bind] in Hs.
    rewrite Hsl in Hs. cbn [bind] in Hs. destruct (list_eqb _ _); [|discriminate Hs]. injection Hs as <-.
    unfold take_slice. rewrite shift_unshift by exact Hin. reflexivity.
  Qed.

  Lemma even_scatter {A} dims extent qs rank (g : index -> A) :
    (ratio == 1)%Q -> 0 <= rank < tile_ranks l ->
    Forall2 size_ok dims extent -> Forall2 (fun de q => even_dim l (fst de) (snd de) q) (combine dims extent) qs ->
    exists loc, scatter rnd l ratio dims extent g rank = Some loc.
  Proof.
    intros Hratio Hr HS HE. assert (HT : 0 < tile_ranks l) by (unfold tile_ranks; nia).
    assert (Hsh : forall r, 0 <= r < tile_ranks l -> exists sl, subtile_slice rnd l ratio r dims extent true = Some sl /\
       shape_of sl = map (fun dq => snd dq + match fst dq with Dim _ true => 1 | _ => 0 end) (combine dims qs)).
    { intros r Hrr. unfold subtile_slice. pose proof (subtile_index_valid l Hl r Hrr) as V.
      set (sub := subtile_index l r) in *. clearbody sub. clear r Hrr Hr. revert qs HE.
      induction HS as [|d D dims extent Hd HS IH]; intros qs HE; cbn [combine] in HE.
      - exists []. split; reflexivity.
      - inversion HE as [|? q ? qs' Hq HE']; subst. cbn [fst snd] in Hq.
        destruct d as [|a iface]; [destruct Hq|].
        destruct (IH qs' HE') as (sl & Hsl & Hn). cbn [rank_slice].
        rewrite (extents_even D a iface q Hratio Hd Hq). cbn [bind fst snd]. rewrite Hsl. cbn [bind].
        eexists. split; [reflexivity|]. unfold shape_of in *. cbn [map combine fst snd]. rewrite Hn. f_equal.
        destruct (is_horizontal a) eqn:Ha.
        + rewrite dim_slice_eq by assumption. cbn zeta. cbn [fst snd]. rewrite orb_true_l, andb_true_r.
          assert (Hkk : 0 <= by_dim a sub 0 < by_dim a l 1) by (destruct V, a; cbn [by_dim]; try discriminate Ha; assumption).
          rewrite cut_step by lia.
          destruct (_ || _); destruct iface; lia.
        + unfold dim_slice. rewrite Ha. cbn [fst snd]. destruct iface; lia. }
    destruct (Hsh rank Hr) as (sl & Hsl & S1). destruct (Hsh 0 ltac:(lia)) as (sl0 & Hsl0 & S0).
    unfold scatter, subtile_extent. rewrite Hsl0. cbn [bind]. rewrite Hsl. cbn [bind].
    fold (shape_of sl0). rewrite S1, S0. unfold list_eqb. destruct (list_eq_dec _ _ _); [|congruence].
    eexists. reflexivity.
  Qed.
End Overlap.

(** A field of 12 x 12 cells on 4 x 4 ranks with edge/interior ratio 2: subtiles of 4, 2, 2, 4 cells. *)
Lemma uneven_extents rnd a (iface : bool) : float_like rnd -> is_horizontal a = true ->
  subtile_extents rnd (12 + if iface then 1 else 0) a iface (4, 4) 2 = Some (2, 4).
Proof.
  intros Hrnd Ha. unfold subtile_extents.
  replace (if iface then 12 + (if iface then 1 else 0) - 1 else 12 + (if iface then 1 else 0)) with 12 by (destruct iface; lia).
  assert (Hc : by_dim a (4, 4) 1 = 4) by (destruct a; try discriminate Ha; reflexivity). rewrite Hc.
  replace ((4 mod 2 =? 0) && negb (12 mod 2 =? 0)) with false by reflexivity.
  rewrite Ha. replace ((3 <=? 4) && true) with true by reflexivity.
  assert (Hst : start_edge rnd 12 4 2 = 4).
  { unfold start_edge. apply py_round_int. apply (fdiv_int rnd Hrnd _ _ 12 3 4); try lia; try reflexivity.
    unfold fadd. apply rnd_int; [exact Hrnd| |lia].
    rewrite (fdiv_int rnd Hrnd (inject_Z (4 - 2)) 2 2 2 1); try lia; reflexivity. }
  rewrite Hst.
  assert (Hin : interior_size rnd 12 4 4 = 2).
  { unfold interior_size. apply py_int_int. apply (fdiv_int rnd Hrnd _ _ 4 2 2); try lia; try reflexivity.
    apply (fdiv_int rnd Hrnd _ _ 4 2 2); try lia; try reflexivity.
    apply (fdiv_int rnd Hrnd _ _ 4 2 2); try lia; try reflexivity. }
  destruct (valid_sizes_head rnd 12 4 4) as [t ->].
  { rewrite edge_top_eq by (exact Hrnd || (cbn; lia)). cbn. lia. }
  cbn [find]. unfold edge_ok at 1. rewrite Hin. change (4 * 2 + (4 - 2) * 2 =? 12) with true. cbv iota. rewrite Hin. reflexivity.
Qed.

Lemma uneven_refutes rnd : float_like rnd ->
  exists l ratio dims extent ext,
    plane_field dims extent /\ subtile_extent rnd l ratio dims extent 0 = Some ext /\ global_extent l dims ext <> extent.
Proof.
  intros Hrnd. exists (4, 4), 2%Q, [Dim AJ false; Dim AI false], [12; 12], [4; 4]. split; [|split].
  - repeat split; try reflexivity.
    + intros [H|[H|[]]]; discriminate H.
    + repeat constructor; cbn; lia.
  - unfold subtile_extent, subtile_slice. cbn [rank_slice].
    pose proof (uneven_extents rnd AJ false Hrnd eq_refl) as H1.
    pose proof (uneven_extents rnd AI false Hrnd eq_refl) as H2. cbn [Z.add Pos.add] in H1, H2.
    change (12 + 0) with 12 in *. rewrite H1, H2. cbn [bind fst snd]. reflexivity.
  - cbn. discriminate.
Qed.
