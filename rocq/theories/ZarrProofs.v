(** Proofs for ZarrModel.v. *)
From Verif Require Import Base Dict PartModel DecompModel DecompSpec DecompProofs2 DecompProofs3 NetcdfModel NetcdfProofs ZarrModel.
From Coq Require Import QArith.
Open Scope Z_scope.

(** the slice of a rank at position [sub] along a dimension with [q] cells per rank *)
Definition even_slice (l : layout) (sub : Z * Z) (overlap : bool) (d : dim) (q : Z) : Z * Z :=
  match d with
  | TILE => (0, 0)
  | Dim a iface => let k := by_dim a sub 0 in (k * q, (k + 1) * q + if iface && (overlap || (k =? by_dim a l 1 - 1)) then 1 else 0)
  end.
Fixpoint even_slices (l : layout) (sub : Z * Z) (overlap : bool) (dims : list dim) (qs : list Z) : list (Z * Z) :=
  match dims, qs with d :: dims', q :: qs' => even_slice l sub overlap d q :: even_slices l sub overlap dims' qs' | _, _ => [] end.

Section Zarr.
  Variable rnd : Q -> Q.
  Hypothesis Hrnd : float_like rnd.
  Variable l : layout.
  Hypothesis Hl : 0 < fst l <= 2 ^ 52 /\ 0 < snd l <= 2 ^ 52.
  Variables (dims : list dim) (extent qs : list Z).
  Hypothesis Hplane : plane_field dims extent.
  Hypothesis Heven : Forall2 (fun de q => even_dim l (fst de) (snd de) q) (combine dims extent) qs.

  Lemma sub_valid rank : valid_sub l (subtile_index l rank).
  Proof.
    assert (HT : 0 < tile_ranks l) by (unfold tile_ranks; nia).
    replace (subtile_index l rank) with (subtile_index l (rank mod tile_ranks l)).
    - apply subtile_index_valid; [tauto|]. apply Z.mod_pos_bound. lia.
    - unfold subtile_index, subtile_index_of. rewrite Z.mod_mod by lia. reflexivity.
  Qed.

  Lemma slices_eq rank overlap : subtile_slice rnd l 1 rank dims extent overlap = Some (even_slices l (subtile_index l rank) overlap dims qs).
  Proof.
    unfold subtile_slice. pose proof (sub_valid rank) as V. set (sub := subtile_index l rank) in *. clearbody sub.
    destruct Hplane as (_ & _ & _ & HS). clear Hplane. revert qs Heven.
    induction HS as [|d D ds es Hd HS IH]; intros qs' HE; cbn [combine] in HE.
    - inversion HE. reflexivity.
    - inversion HE as [|? q ? qs'' Hq HE']; subst. cbn [fst snd] in Hq. destruct d as [|a iface]; [destruct Hq|].
      cbn [rank_slice]. rewrite (extents_even rnd Hrnd l Hl 1 D a iface q ltac:(reflexivity) Hd Hq). cbn [bind fst snd].
      rewrite (IH qs'' HE'). cbn [bind even_slices]. f_equal. f_equal. unfold even_slice. destruct (is_horizontal a) eqn:Ha.
      + rewrite dim_slice_eq by assumption. cbn zeta. set (k := by_dim a sub 0). set (n := by_dim a l 1).
        assert (Hk : 0 <= k < n) by (unfold k, n; destruct V, a; cbn [by_dim]; try discriminate Ha; assumption).
        assert (Hcut : forall x, 0 <= x <= n -> cut n q q x = x * q).
        { intros x Hx. unfold cut. destruct (x <=? 0) eqn:X0; [assert (x = 0) as -> by lia; reflexivity|].
          destruct (x =? n) eqn:Xn; [|ring]. assert (x = n) as -> by lia.
          destruct (n =? 1) eqn:N1; [assert (n = 1) as -> by lia|]; ring. }
        rewrite !Hcut by lia. reflexivity.
      + unfold dim_slice. rewrite Ha. destruct a; try discriminate Ha. cbn [by_dim]. cbn zeta. change (0 =? 1 - 1) with true.
        rewrite orb_true_r, andb_true_r. destruct iface; f_equal; lia.
  Qed.

  Lemma unshift_same rank p : unshift (even_slices l (subtile_index l rank) false dims qs) p = unshift (even_slices l (subtile_index l rank) true dims qs) p.
  Proof.
    set (sub := subtile_index l rank). clearbody sub. clear. revert qs p. induction dims as [|d ds IH]; intros [|q qs'] [|x p]; cbn; auto.
    f_equal; [destruct d; reflexivity|]. apply IH.
  Qed.
  Lemma inside_same rank p : inside (even_slices l (subtile_index l rank) false dims qs) p -> inside (even_slices l (subtile_index l rank) true dims qs) p.
  Proof.
    eapply nonoverlap_in_overlap with (l := l) (rnd := rnd) (ratio := 1%Q) (extent := extent) (dims := dims); eauto using sub_valid;
      [apply (slices_eq rank false)|apply (slices_eq rank true)].
  Qed.

  (** the assignment's shapes agree when every rank's view has its subtile's extent *)
  Lemma shapes_agree rank ext : subtile_extent rnd l 1 dims extent rank = Some ext ->
    clipped (even_slices l (subtile_index l rank) false dims qs) ext = shape_of (even_slices l (subtile_index l rank) false dims qs).
  Proof.
    unfold subtile_extent. rewrite slices_eq. cbn [bind]. intros E. apply some_inj in E. subst ext.
    pose proof (sub_valid rank) as V. set (sub := subtile_index l rank) in *. clearbody sub.
    unfold clipped, shape_of. destruct Hplane as (_ & _ & _ & HS). clear Hplane. revert qs Heven.
    induction HS as [|d D ds es Hd HS IH]; intros qs' HE; cbn [combine] in HE.
    - inversion HE. reflexivity.
    - inversion HE as [|? q ? qs'' Hq HE']; subst. cbn [fst snd] in Hq. destruct d as [|a iface]; [destruct Hq|]. destruct Hq as [Hq _].
      cbn [even_slices map combine]. f_equal; [|apply IH; exact HE'].
      unfold even_slice. cbn zeta. cbn [fst snd]. set (k := by_dim a sub 0).
      destruct iface; cbn [andb orb]; [destruct (k =? _)|]; lia.
  Qed.

  Section Data.
    Context {A : Type}.
    Variables (view_shape : Z -> list Z) (view : nat -> Z -> index -> A).
    Hypothesis Hshape : forall rank, 0 <= rank < cube_ranks l -> subtile_extent rnd l 1 dims extent (rank mod tile_ranks l) = Some (view_shape rank).

    Lemma sub_mod rank : subtile_index l (rank mod tile_ranks l) = subtile_index l rank.
    Proof.
      assert (HT : 0 < tile_ranks l) by (unfold tile_ranks; nia).
      unfold subtile_index, subtile_index_of. rewrite Z.mod_mod by lia. reflexivity.
    Qed.
    Lemma write_eq ar t rank : 0 <= rank < cube_ranks l ->
      write rnd l dims extent view_shape view ar (t, rank) =
        Some (fun t' tile p => if Nat.eqb t' t && (tile =? tile_index l rank) && in_slices (even_slices l (subtile_index l rank) false dims qs) p
                               then Some (view t rank (unshift (even_slices l (subtile_index l rank) false dims qs) p)) else ar t' tile p).
    Proof.
      intros Hr. unfold write. rewrite slices_eq. cbn [bind]. pose proof (shapes_agree _ _ (Hshape rank Hr)) as S. rewrite sub_mod in S.
      rewrite S. assert (X : forall a, list_eqb a a = true) by (intros a; apply list_eqb_eq; reflexivity). rewrite X. reflexivity.
    Qed.

    Definition touches (e : nat * Z) (t : nat) (tile : Z) (p : index) : Prop :=
      fst e = t /\ tile_index l (snd e) = tile /\ inside (even_slices l (subtile_index l (snd e)) false dims qs) p.

    Lemma write_all_ok es : forall ar, (forall e, In e es -> 0 <= snd e < cube_ranks l) ->
      exists ar', write_all rnd l dims extent view_shape view es ar = Some ar' /\
        forall t tile p,
          ((forall e, In e es -> ~ touches e t tile p) -> ar' t tile p = ar t tile p) /\
          (forall r, In (t, r) es -> touches (t, r) t tile p -> (forall e, In e es -> touches e t tile p -> e = (t, r)) ->
             ar' t tile p = Some (view t r (unshift (even_slices l (subtile_index l r) true dims qs) p))).
    Proof.
      induction es as [|[t0 r0] es IH]; intros ar Hin.
      - exists ar. split; [reflexivity|]. intros t tile p. split; [reflexivity|]. intros r [].
      - cbn [write_all]. rewrite write_eq by (apply (Hin (t0, r0)); left; reflexivity). cbn [bind].
        set (ar1 := fun t' tile p => _). destruct (IH ar1) as (ar' & E & G); [intros e H; apply Hin; right; exact H|].
        exists ar'. split; [exact E|]. intros t tile p. destruct (G t tile p) as [G1 G2].
        assert (T : forall b, b = Nat.eqb t t0 && (tile =? tile_index l r0) && in_slices (even_slices l (subtile_index l r0) false dims qs) p ->
           (b = true <-> touches (t0, r0) t tile p)).
        { intros b ->. unfold touches. cbn [fst snd]. rewrite !andb_true_iff, Nat.eqb_eq, Z.eqb_eq, in_slices_iff. intuition congruence. }
        assert (Ar1 : ar1 t tile p = if Nat.eqb t t0 && (tile =? tile_index l r0) && in_slices (even_slices l (subtile_index l r0) false dims qs) p
            then Some (view t0 r0 (unshift (even_slices l (subtile_index l r0) false dims qs) p)) else ar t tile p) by reflexivity.
        specialize (T _ eq_refl). destruct (Nat.eqb t t0 && (tile =? tile_index l r0) && in_slices (even_slices l (subtile_index l r0) false dims qs) p).
        + split.
          * intros N. exfalso. apply (N (t0, r0)); [left; reflexivity|]. apply T. reflexivity.
          * intros r I To U. assert (Er : (t0, r0) = (t, r)) by (apply U; [left; reflexivity|apply T; reflexivity]).
            injection Er as -> ->. destruct (in_dec (fun a b : nat * Z => ltac:(decide equality; [apply Z.eq_dec|apply Nat.eq_dec])) (t, r) es) as [I'|N'].
            -- apply G2; auto. intros e Ie. apply U. right. exact Ie.
            -- rewrite G1, Ar1, unshift_same; [reflexivity|]. intros e Ie Te. apply N'. rewrite <- (U e); auto. right. exact Ie.
        + split.
          * intros N. rewrite G1, Ar1; [reflexivity|]. intros e Ie. apply N. right. exact Ie.
          * intros r [Ex|I] To U; [|apply G2; auto; intros e Ie; apply U; right; exact Ie].
            injection Ex as <- <-. apply T in To. discriminate To.
    Qed.
  End Data.

  (** ** The owner of a cell *)
  Lemma owner tile p : 0 <= tile < 6 -> in_extent extent p ->
    exists r, 0 <= r < cube_ranks l /\ tile_index l r = tile /\ inside (even_slices l (subtile_index l r) false dims qs) p /\
      forall r', 0 <= r' < cube_ranks l -> tile_index l r' = tile -> inside (even_slices l (subtile_index l r') false dims qs) p -> r' = r.
  Proof.
    intros Ht Hp.
    destruct (cube_partition rnd Hrnd l Hl 1 dims extent 6 (tile_index l 0, even_slices l (subtile_index l 0) false dims qs) tile p Hplane Ht Hp) as (r & (Hr & sl & Hsl & Hin) & U).
    { cbn [cube_subtile_slice]. rewrite slices_eq. reflexivity. }
    cbn [cube_subtile_slice] in *. rewrite slices_eq in Hsl. cbn [bind] in Hsl. apply some_inj, pair_equal_spec in Hsl. destruct Hsl as [<- <-].
    exists r. split; [exact Hr|]. split; [reflexivity|]. split; [exact Hin|]. intros r' Hr' Et Hin'. symmetry. apply U. split; [exact Hr'|].
    exists (even_slices l (subtile_index l r') false dims qs). rewrite slices_eq. cbn [bind]. rewrite Et. auto.
  Qed.

  Lemma cells_ok {A} (view_shape : Z -> list Z) (view : nat -> Z -> index -> A) es ar :
    (forall rank, 0 <= rank < cube_ranks l -> subtile_extent rnd l 1 dims extent (rank mod tile_ranks l) = Some (view_shape rank)) ->
    (forall e, In e es -> 0 <= snd e < cube_ranks l) ->
    exists ar', write_all rnd l dims extent view_shape view es ar = Some ar' /\
      forall t tile p, 0 <= tile < 6 -> in_extent extent p ->
      exists r sl own, 0 <= r < cube_ranks l /\ tile_index l r = tile /\
        subtile_slice rnd l 1 r dims extent true = Some sl /\ inside sl p /\
        subtile_slice rnd l 1 r dims extent false = Some own /\ inside own p /\
        (forall r' own', 0 <= r' < cube_ranks l -> tile_index l r' = tile -> subtile_slice rnd l 1 r' dims extent false = Some own' -> inside own' p -> r' = r) /\
        (In (t, r) es -> ar' t tile p = Some (view t r (unshift sl p))) /\
        (~ In (t, r) es -> ar' t tile p = ar t tile p).
  Proof.
    intros Hs He. destruct (write_all_ok view_shape view Hs es ar He) as (ar' & E & G). exists ar'. split; [exact E|].
    intros t tile p Ht Hp. destruct (owner tile p Ht Hp) as (r & Hr & Et & Hin & U).
    exists r, (even_slices l (subtile_index l r) true dims qs), (even_slices l (subtile_index l r) false dims qs).
    split; [exact Hr|]. split; [exact Et|]. split; [apply slices_eq|]. split; [apply inside_same; exact Hin|]. split; [apply slices_eq|]. split; [exact Hin|].
    assert (X : forall e, In e es -> touches e t tile p -> e = (t, r)).
    { intros [t' r'] Ie (E1 & E2 & E3). cbn [fst snd] in *. f_equal; [exact E1|]. apply U; auto. apply (He _ Ie). }
    split; [intros r' own' Hr' Et' Hs' Hi'; rewrite slices_eq in Hs'; apply some_inj in Hs'; subst own'; apply U; auto|].
    destruct (G t tile p) as [G1 G2]. split.
    - intros I. apply G2; auto. split; [reflexivity|]. auto.
    - intros N. apply G1. intros e Ie Te. apply N. rewrite <- (X e Ie Te). exact Ie.
  Qed.

  (** ** Chunks *)
  Lemma chunk_eq : chunk_sizes l dims extent = qs.
  Proof.
    destruct Hplane as (_ & _ & _ & HS). clear Hplane. revert qs Heven. induction HS as [|d D ds es Hd HS IH]; intros qs' HE; cbn [combine] in HE.
    - inversion HE. reflexivity.
    - inversion HE as [|? q ? qs'' Hq HE']; subst. cbn [fst snd] in Hq. destruct d as [|a iface]; [destruct Hq|]. destruct Hq as [Hq ->].
      pose proof (n_pos l Hl a). cbn [chunk_sizes]. f_equal; [|apply IH; exact HE'].
      destruct iface; [replace (by_dim a l 1 * q + 1 - 1) with (by_dim a l 1 * q) by lia|rewrite Z.add_0_r]; rewrite Z.mul_comm; apply Z.div_mul; lia.
  Qed.

  (** along an axis present in the field, the position of a rank follows from the chunk of any of its cells *)
  Lemma chunk_position a rank p c : In a [AJ; AI] -> inside (even_slices l (subtile_index l rank) false dims qs) p ->
    c = map (fun xq => fst xq / snd xq) (combine p qs) ->
    exists m, forall rank' p', inside (even_slices l (subtile_index l rank') false dims qs) p' -> nth m (map (fun xq => fst xq / snd xq) (combine p' qs)) 0 = nth m c 0 ->
      by_dim a (subtile_index l rank') 0 = by_dim a (subtile_index l rank) 0.
  Proof.
    intros Ha Hin ->.
    assert (X : exists m iface, nth_error dims m = Some (Dim a iface)).
    { destruct Hplane as (_ & CJ & CI & _). assert (C : count_axis a dims = 1%nat) by (destruct Ha as [<-|[<-|[]]]; assumption).
      clear - C Ha. induction dims as [|d ds IH]; [discriminate C|]. unfold count_axis in *. cbn [filter] in C.
      destruct (on_axis a d) eqn:E.
      - exists 0%nat. destruct d as [|a' iface]; [discriminate E|]. exists iface. cbn. destruct a', a; try discriminate E; reflexivity.
      - destruct (IH C) as (m & iface & Em). exists (S m), iface. exact Em. }
    destruct X as (m & iface & Em). exists m. intros rank' p' Hin' Ec.
    pose proof (sub_valid rank) as V. pose proof (sub_valid rank') as V'.
    set (sub := subtile_index l rank) in *. set (sub' := subtile_index l rank') in *. clearbody sub sub'.
    destruct Hplane as (_ & _ & _ & HS). clear Hplane. revert qs Heven m Em p p' Hin Hin' Ec.
    induction HS as [|d D ds es Hd HS IH]; intros qs' HE m Em p p' Hin Hin' Ec; [destruct m; discriminate Em|].
    cbn [combine] in HE. inversion HE as [|? q ? qs'' Hq HE']; subst. cbn [fst snd] in Hq. cbn [even_slices] in Hin, Hin'.
    inversion Hin as [|? x ? p1 Hx Hin1]; subst. inversion Hin' as [|? x' ? p1' Hx' Hin1']; subst. cbn [combine map nth] in Ec.
    destruct m as [|m]; [|eapply IH; eauto]. cbn [nth_error] in Em. injection Em as ->. cbn [fst snd] in Ec. cbn [even_slice fst snd] in Hx, Hx'.
    destruct Hq as [Hq _]. set (n := by_dim a l 1) in *. set (k := by_dim a sub 0) in *. set (k' := by_dim a sub' 0) in *.
    assert (Hk : 0 <= k < n /\ 0 <= k' < n) by (unfold k, k', n; destruct V, V', Ha as [<-|[<-|[]]]; cbn [by_dim]; auto).
    assert (Y : forall y j, 0 <= j < n -> j * q <= y < (j + 1) * q + (if iface && (false || (j =? n - 1)) then 1 else 0) -> j = Z.min (y / q) (n - 1)).
    { intros y j Hj Hy. destruct (iface && (false || (j =? n - 1))) eqn:Ei.
      - apply andb_true_iff in Ei. destruct Ei as [_ Ei]. apply orb_true_iff in Ei. destruct Ei as [Ei|Ei]; [discriminate Ei|]. apply Z.eqb_eq in Ei.
        assert (j <= y / q) by (apply Z.div_le_lower_bound; lia). lia.
      - assert (y / q = j) by (symmetry; apply Z.div_unique with (r := y - q * j); lia). lia. }
    rewrite (Y x k), (Y x' k') by (try apply Hk; auto). rewrite Ec. reflexivity.
  Qed.

  Lemma chunks_ok r1 r2 p1 p2 sl1 sl2 :
    0 <= r1 < cube_ranks l -> 0 <= r2 < cube_ranks l -> tile_index l r1 = tile_index l r2 ->
    subtile_slice rnd l 1 r1 dims extent false = Some sl1 -> inside sl1 p1 ->
    subtile_slice rnd l 1 r2 dims extent false = Some sl2 -> inside sl2 p2 ->
    map (fun xc => fst xc / snd xc) (combine p1 (chunk_sizes l dims extent)) = map (fun xc => fst xc / snd xc) (combine p2 (chunk_sizes l dims extent)) ->
    r1 = r2.
  Proof.
    intros H1 H2 Et S1 I1 S2 I2 Ec. rewrite chunk_eq in Ec. rewrite slices_eq in S1, S2. apply some_inj in S1, S2. subst sl1 sl2.
    destruct (chunk_position AJ r1 p1 _ ltac:(cbn; auto) I1 eq_refl) as [mj Hj]. destruct (chunk_position AI r1 p1 _ ltac:(cbn; auto) I1 eq_refl) as [mi Hi].
    specialize (Hj r2 p2 I2). specialize (Hi r2 p2 I2). rewrite <- Ec in Hj, Hi. specialize (Hj eq_refl). specialize (Hi eq_refl). cbn [by_dim] in Hj, Hi.
    assert (HT : 0 < tile_ranks l) by (unfold tile_ranks; nia).
    unfold tile_index in Et. replace (cube_ranks l / 6) with (tile_ranks l) in Et by (unfold cube_ranks; rewrite Z.mul_comm, Z.div_mul; lia).
    rewrite <- (sub_mod r1) in Hj, Hi. rewrite <- (sub_mod r2) in Hj, Hi.
    pose proof (rank_of_index l Hl (r1 mod tile_ranks l) _ _ (Z.mod_pos_bound r1 _ HT) (surjective_pairing _)) as E1.
    pose proof (rank_of_index l Hl (r2 mod tile_ranks l) _ _ (Z.mod_pos_bound r2 _ HT) (surjective_pairing _)) as E2.
    rewrite Hj, Hi, <- E1 in E2. rewrite (Z.div_mod r1 (tile_ranks l)), (Z.div_mod r2 (tile_ranks l)) by lia. congruence.
  Qed.
End Zarr.

(** ** A sequence of states *)
From Coq Require Import Permutation.
Section Store.
  Context {U V : Type}.
  Variable U_eqb : U -> U -> bool.
  Hypothesis U_refl : forall u, U_eqb u u = true.
  Variable units : string -> U.
  Definition fine (s : dict (U * V)) : Prop :=
    NoDup (keys s) /\ In "time"%string (keys s) /\ forall n q, get s n = Some q -> n <> "time"%string -> fst q = units n.

  Lemma insert_perm x (s : dict (U * V)) : Permutation (insert x s) (x :: s).
  Proof.
    induction s as [|y s IH]; cbn; [reflexivity|]. destruct (String.leb _ _); [reflexivity|]. rewrite IH. apply perm_swap.
  Qed.
  Lemma sorted_perm (s : dict (U * V)) : Permutation (sorted s) s.
  Proof. induction s as [|x s IH]; cbn; [reflexivity|]. rewrite insert_perm. constructor. exact IH. Qed.
  Lemma sorted_nodup (s : dict (U * V)) : NoDup (keys s) -> NoDup (keys (sorted s)).
  Proof. intros H. eapply Permutation_NoDup; [|exact H]. symmetry. apply Permutation_map. apply sorted_perm. Qed.
  Lemma sorted_get (s : dict (U * V)) n : NoDup (keys s) -> get (sorted s) n = get s n.
  Proof.
    intros H. destruct (get s n) as [q|] eqn:E.
    - apply in_get; [apply sorted_nodup; exact H|]. apply get_in in E. eapply Permutation_in; [symmetry; apply sorted_perm|exact E].
    - apply get_none. apply get_none in E. intros I. apply E. eapply Permutation_in; [|exact I]. apply Permutation_map. apply sorted_perm.
  Qed.

  Lemma append_all_ok items : forall ws, NoDup (keys items) ->
    (forall n q, get items n = Some q -> exists w w', get ws n = Some w /\ append U_eqb n w q = Some w') ->
    exists ws', append_all U_eqb items ws = (ws', false) /\
      forall n, get ws' n = match get items n with Some q => match get ws n with Some w => append (V := V) U_eqb n w q | None => None end | None => get ws n end.
  Proof.
    induction items as [|[n q] items IH]; intros ws N H; [exists ws; auto|].
    cbn [keys map fst] in N. apply NoDup_cons_iff in N. destruct N as [Nn N]. fold (keys items) in *. cbn [append_all].
    destruct (H n q) as (w & w' & E & Ea); [cbn; now rewrite String.eqb_refl|]. rewrite E, Ea.
    destruct (IH (put ws n w') N) as (ws' & E' & G).
    { intros n' q' I. rewrite get_put. destruct (String.eqb_spec n' n) as [->|Ne].
      - exfalso. apply Nn. apply get_some. eauto.
      - apply H. cbn. destruct (String.eqb_spec n' n); [contradiction|]. exact I. }
    exists ws'. split; [exact E'|]. intros n'. rewrite G, get_put. cbn [get]. destruct (String.eqb_spec n' n) as [->|Ne]; [|reflexivity].
    apply get_none in Nn. rewrite Nn, E, Ea. reflexivity.
  Qed.

  Definition col (acc : list (dict (U * V))) (n : string) : list (option V) := map (fun s => option_map snd (get s n)) acc.
  Definition inv (m : monitor) (acc : list (dict (U * V))) : Prop :=
    match m with
    | None => acc = []
    | Some ws => exists s0 r, acc = s0 :: r /\ Forall (fun s => same_keys s0 s) acc /\ Forall fine acc /\ NoDup (keys ws) /\
        forall n, match get ws n with
                  | Some w => In n (keys s0) /\ map Some (snd w) = col acc n /\ (n <> "time"%string -> fst w = Some (units n))
                  | None => ~ In n (keys s0)
                  end
    end.

  Lemma get_const (l : list string) n : get (map (fun n => (n, (@None U, @nil V))) l) n = if in_dec string_dec n l then Some (None, []) else None.
  Proof.
    induction l as [|k l IH]; cbn [map get]; [reflexivity|]. destruct (String.eqb_spec n k) as [->|Ne].
    - destruct (in_dec string_dec k (k :: l)) as [|X]; [reflexivity|]. exfalso. apply X. left. reflexivity.
    - rewrite IH. destruct (in_dec string_dec n l) as [X|X], (in_dec string_dec n (k :: l)) as [Y|Y]; auto; exfalso.
      + apply Y. right. exact X.
      + destruct Y as [Y|Y]; [congruence|contradiction].
  Qed.
  Lemma get_app (a b : dict (@var_writer U V)) n : get (a ++ b) n = match get a n with Some v => Some v | None => get b n end.
  Proof. induction a as [|[k v] a IH]; cbn; [reflexivity|]. destruct (n =? k)%string; [reflexivity|exact IH]. Qed.
  Lemma init_get s n : fine s -> get (init_writers s) n = if in_dec string_dec n (keys s) then Some (@None U, @nil V) else None.
  Proof.
    intros (_ & T & _). unfold init_writers. rewrite get_app, get_const. cbn [get].
    destruct (in_dec string_dec n (filter _ _)) as [I|I]; rewrite filter_In in I.
    - destruct I as [I _]. destruct (in_dec string_dec n (keys s)); [reflexivity|contradiction].
    - destruct (String.eqb_spec n "time") as [->|Ne].
      + destruct (in_dec string_dec "time"%string (keys s)); [reflexivity|contradiction].
      + destruct (in_dec string_dec n (keys s)) as [J|J]; [exfalso; apply I; cbn; auto|reflexivity].
  Qed.
  Lemma init_nodup (s : dict (U * V)) : NoDup (keys s) -> NoDup (keys (@init_writers U V s)).
  Proof.
    intros N. unfold init_writers, keys. rewrite map_app, map_map. cbn [map fst]. rewrite map_id.
    eapply Permutation_NoDup; [apply Permutation_cons_append|]. constructor; [|apply NoDup_filter; exact N].
    intros I. apply filter_In in I. destruct I as [_ I]. discriminate I.
  Qed.

  Lemma append_all_keys items : forall ws ws' : dict (@var_writer U V), NoDup (keys ws) -> append_all U_eqb items ws = (ws', false) -> NoDup (keys ws').
  Proof.
    induction items as [|[n q] items IH]; intros ws ws' N E; cbn in E; [injection E as <-; exact N|].
    destruct (get ws n) as [w|]; [|discriminate E]. destruct (append U_eqb n w q) as [w'|]; [|discriminate E].
    eapply IH; [|exact E]. apply put_NoDup. exact N.
  Qed.

  Lemma step m acc s : inv m acc -> fine s ->
    let '(m', r) := store U_eqb m s in
    inv m' (if r then acc else acc ++ [s]) /\ (r = true <-> exists s0, nth_error acc 0 = Some s0 /\ ~ same_keys s0 s).
  Proof.
    intros I F. pose proof F as (N & T & Fu). unfold store. destruct m as [ws|]; cbn [inv] in I.
    - destruct I as (s0 & rs & Ea & SK & FA & NW & G).
      assert (KW : forall n, In n (keys ws) <-> In n (keys s0)).
      { intros n. specialize (G n). destruct (get ws n) eqn:E.
        - split; [tauto|]. intros _. apply get_some. eauto.
        - apply get_none in E. tauto. }
      destruct (same_set (keys s) (keys ws)) eqn:Es.
      + assert (SK' : same_keys s0 s).
        { unfold same_set in Es. rewrite andb_true_iff, !subset_spec in Es. intros n. specialize (KW n). destruct Es as [E1 E2]. specialize (E1 n). specialize (E2 n). tauto. }
        destruct (append_all_ok (sorted s) ws) as (ws' & E & G').
        { apply sorted_nodup; auto. }
        { intros n q Eq. rewrite sorted_get in Eq by auto. specialize (G n). destruct (get ws n) as [w|].
          - exists w. unfold append. destruct (String.eqb_spec n "time"); [eexists; split; reflexivity|].
            destruct G as (_ & _ & G). rewrite (G n0), (Fu n q Eq n0), U_refl. eexists. split; reflexivity.
          - exfalso. apply G, SK', get_some. eauto. }
        pose proof (append_all_keys _ _ _ NW E) as NW'. rewrite E. split.
        * cbn [inv]. exists s0, (rs ++ [s]). split; [rewrite Ea; reflexivity|]. split; [apply Forall_app; auto|]. split; [apply Forall_app; auto|].
          split; [exact NW'|]. intros n. rewrite G', sorted_get by auto. specialize (G n). destruct (get s n) as [q|] eqn:Eq.
          -- destruct (get ws n) as [w|]; [|exact G]. destruct G as (G1 & G2 & G3). unfold append.
             destruct (String.eqb_spec n "time") as [->|Ne].
             ++ cbn [fst snd]. split; [exact G1|]. split; [|congruence]. unfold col. rewrite !map_app. cbn [map]. rewrite Eq. f_equal. exact G2.
             ++ rewrite (G3 Ne), (Fu n q Eq Ne), U_refl. cbn [fst snd]. split; [exact G1|]. split; [|reflexivity].
                unfold col. rewrite !map_app. cbn [map]. rewrite Eq. f_equal. exact G2.
          -- apply get_none in Eq. destruct (get ws n) as [w|]; [|exact G]. exfalso. apply Eq, SK', G.
        * split; [discriminate|]. intros (x & Ex & Nx). rewrite Ea in Ex. cbn in Ex. injection Ex as <-. contradiction.
      + split; [exists s0, rs; auto|]. split; [|reflexivity]. intros _. exists s0. rewrite Ea. split; [reflexivity|]. intros SK'.
        assert (X : same_set (keys s) (keys ws) = true); [|congruence]. unfold same_set. rewrite andb_true_iff, !subset_spec.
        split; intros n; specialize (KW n); specialize (SK' n); tauto.
    - destruct (append_all_ok (sorted s) (init_writers s)) as (ws' & E & G').
      { apply sorted_nodup; auto. }
      { intros n q Eq. rewrite sorted_get in Eq by auto. rewrite init_get by auto.
        destruct (in_dec string_dec n (keys s)) as [J|J]; [|exfalso; apply J, get_some; eauto].
        exists (None, []). unfold append. destruct (n =? "time")%string; eexists; split; reflexivity. }
      pose proof (append_all_keys _ _ _ (init_nodup s N) E) as NW'. rewrite E. split.
      + subst acc. exists s, []. split; [reflexivity|]. split; [constructor; [intros n; reflexivity|constructor]|]. split; [constructor; [exact F|constructor]|]. split; [exact NW'|].
        intros n. rewrite G', sorted_get, init_get by auto. destruct (in_dec string_dec n (keys s)) as [J|J].
        * pose proof J as J'. apply get_some in J'. destruct J' as [q Eq]. rewrite Eq. unfold append. destruct (String.eqb_spec n "time") as [->|Ne]; cbn [fst snd].
          -- split; [exact J|]. split; [cbn; rewrite Eq; reflexivity|congruence].
          -- split; [exact J|]. split; [cbn; rewrite Eq; reflexivity|]. rewrite (Fu n q Eq Ne). reflexivity.
        * pose proof J as J'. apply get_none in J'. rewrite J'. exact J.
      + subst acc. split; [discriminate|]. intros (x & Ex & _). discriminate Ex.
  Qed.

  Lemma store_all_ok ss : forall m h, inv m (accepted h) ->
    (forall pre s r post, h = pre ++ (s, r) :: post -> (r = true <-> exists s0, nth_error (accepted post) 0 = Some s0 /\ ~ same_keys s0 s)) -> Forall fine ss ->
    let '(m', h') := store_all U_eqb ss m h in inv m' (accepted h') /\
    (forall pre s r post, h' = pre ++ (s, r) :: post -> (r = true <-> exists s0, nth_error (accepted post) 0 = Some s0 /\ ~ same_keys s0 s)).
  Proof.
    induction ss as [|s ss IH]; intros m h I R F; [split; assumption|]. apply Forall_cons_iff in F. destruct F as [F1 F2].
    cbn [store_all]. pose proof (step m (accepted h) s I F1) as S. destruct (store U_eqb m s) as [m' r]. destruct S as [I' Rr].
    apply IH; [destruct r; exact I'| |exact F2].
    - intros [|x pre] s' r' post E; cbn in E.
      + injection E as -> -> ->. exact Rr.
      + injection E as _ E. eapply R. exact E.
  Qed.
End Store.
