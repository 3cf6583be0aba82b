(** Synchronizing vector interfaces on the cubed sphere: specification and proof. *)
From Verif Require Import Base PartModel PartSpec PartProofs PartGeom DecompModel DecompSpec HaloModel HaloNetSpec HaloCube ViewModel SyncModel SyncProofs.

(** The two components of a vector on the C grid: x lies along south and north edges, y along west and east edges. *)
Inductive comp := X | Y.
Definition along (c : comp) : dim := match c with X => Dim AI false | Y => Dim AJ false end.
Definition across (c : comp) : dim := match c with X => Dim AJ true | Y => Dim AI true end.
(** direction of a component on face t *)
Definition tangent (c : comp) (t : Z) : vec := match c with X => PartSpec.ax t | Y => PartSpec.ay t end.

Section Spec.
  Context {A : Type}.
  Variable neg : A -> A.
  Variables (n N : Z) (cut : Z -> Z) (axes : comp -> Z -> list axis1) (field : comp -> Z -> index -> A).

  (** cells of a rank along a component's edge, and lines across *)
  Definition cells (c : comp) (r : Z) : Z :=
    let k := match c with X => col_of n r | Y => row_of n r end in cut (k + 1) - cut k.
  Definition lines (c : comp) (r : Z) : Z :=
    let k := match c with X => row_of n r | Y => col_of n r end in cut (k + 1) - cut k + 1.

  (** where on the cube's surface point p of a component lies: cell centres along the edge, lines across *)
  Definition place (c : comp) (r : Z) (p : index) : vec :=
    let i := pos (along c) (axes c r) p in
    let j := pos (across c) (axes c r) p in
    match c with
    | X => surface N (tile_of n r) (plane_coord N false (cut (col_of n r) + i)) (plane_coord N true (cut (row_of n r) + j))
    | Y => surface N (tile_of n r) (plane_coord N true (cut (col_of n r) + j)) (plane_coord N false (cut (row_of n r) + i))
    end.

  (** [v] is the value another rank holds, on its own south or west edge, at the same place and level, negated if that
      rank's component points the opposite way *)
  Definition shared (c : comp) (r : Z) (p : index) (v : A) : Prop :=
    exists r' c' p', 0 <= r' < 6 * (n * n) /\ r' <> r /\ in_domain (axes c' r') p' /\ pos (across c') (axes c' r') p' = 0 /\
      level (axes c' r') p' = level (axes c r) p /\ place c' r' p' = place c r p /\
      ((tangent c' (tile_of n r') = tangent c (tile_of n r) /\ v = field c' r' p') \/
       (tangent c' (tile_of n r') = vopp (tangent c (tile_of n r)) /\ v = neg (field c' r' p'))).

  (** the last line of the compute domain: north edge of x, east edge of y *)
  Definition on_last (c : comp) (r : Z) (p : index) : Prop :=
    in_domain (axes c r) p /\ pos (across c) (axes c r) p = lines c r - 1.
End Spec.

Section Cube.
  Context {A : Type}.
  Variable neg : A -> A.
  Variables (n N : Z) (cut : Z -> Z) (levels : list Z) (axes : comp -> Z -> list axis1) (field : comp -> Z -> index -> A).
  Hypothesis Hn : 0 < n.
  Hypothesis Hcut : cuts n N 0 cut.
  Hypothesis Hpal : palindromic n cut.
  Hypothesis Haxes : forall c r, 0 <= r < 6 * (n * n) -> edge_axes (along c) (across c) (axes c r) (cells n cut c r) (lines n cut c r) levels.

  Notation sends := (rank_sends neg (cube_boundary (n, n)) (axes X) (axes Y) (field X) (field Y)).

  Lemma pieces k : 0 <= k < n -> 0 <= cut (k + 1) - cut k.
  Proof. apply Hcut. Qed.
  Lemma mirror k : 0 <= k < n -> cut (n - 1 - k + 1) - cut (n - 1 - k) = cut (k + 1) - cut k.
  Proof.
    intros H. pose proof (Hpal k ltac:(lia)) as E1. pose proof (Hpal (k + 1) ltac:(lia)) as E2.
    replace (n - 1 - k + 1) with (n - k) by lia. replace (n - 1 - k) with (n - (k + 1)) by lia. lia.
  Qed.

  Definition rank4 (q : Z * Z * Z * Z) : Z := match q with (t, r, c, _) => enc n (t mod 6) r c end.
  Definition turns (q : Z * Z * Z * Z) : Z := match q with (_, _, _, k) => k end.

  Lemma boundary_of bt f t r c : 0 <= r < n -> 0 <= c < n -> corner_to n t r c bt = Some f ->
    edge_of (cube_boundary (n, n)) bt (enc n t r c) = Some (mkB bt (enc n t r c) (rank4 f) (turns f)).
  Proof.
    intros Hr Hc E. unfold edge_of. rewrite cube_boundary_enc by auto. rewrite E. destruct f as [[[t' r'] c'] k]. reflexivity.
  Qed.

  Lemma parts t r c : 0 <= t < 6 -> 0 <= r < n -> 0 <= c < n ->
    tile_of n (enc n t r c) = t /\ row_of n (enc n t r c) = r /\ col_of n (enc n t r c) = c.
  Proof. apply enc_parts; auto. Qed.

  Lemma sends_enc t r c : 0 <= t < 6 -> 0 <= r < n -> 0 <= c < n ->
    exists ms mw, sends (enc n t r c) = Some [(rank4 (bottom_to n t r c), ms); (rank4 (left_to n t r c), mw)] /\
      holds_edge neg I_DIM J_INTERFACE_DIM (axes X (enc n t r c)) (field X (enc n t r c)) (cut (c + 1) - cut c) levels (turns (bottom_to n t r c) =? 3) ms /\
      holds_edge neg J_DIM I_INTERFACE_DIM (axes Y (enc n t r c)) (field Y (enc n t r c)) (cut (r + 1) - cut r) levels (turns (left_to n t r c) =? 1) mw.
  Proof.
    intros Ht Hr Hc. unfold rank_sends.
    rewrite (boundary_of SOUTH (bottom_to n t r c)) by auto. rewrite (boundary_of WEST (left_to n t r c)) by auto. cbn [bind].
    pose proof (enc_range n t r c Ht Hr Hc) as RG. destruct (parts t r c Ht Hr Hc) as (Pt & Pr & Pc).
    pose proof (Haxes X _ RG) as AX. pose proof (Haxes Y _ RG) as AY. unfold cells, lines in AX, AY. rewrite Pr, Pc in AX, AY.
    pose proof (pieces r Hr). pose proof (pieces c Hc).
    eapply (sends_eq neg (mkB SOUTH (enc n t r c) (rank4 (bottom_to n t r c)) (turns (bottom_to n t r c)))
      (mkB WEST (enc n t r c) (rank4 (left_to n t r c)) (turns (left_to n t r c)))); [exact AX|exact AY|lia|lia|..]; cbn [b_rot].
    - unfold bottom_to. destruct (r =? 0); [destruct (is_even t)|]; cbn; auto.
    - unfold left_to. destruct (c =? 0); [destruct (is_even t)|]; cbn; auto.
  Qed.

  Lemma even_cases t : 0 <= t < 6 -> is_even t = (t =? 0) || (t =? 2) || (t =? 4).
  Proof. intros H. destruct (six t H) as [->|[->|[->|[->|[->| ->]]]]]; reflexivity. Qed.

  Definition eq4 (q q' : Z * Z * Z * Z) : Prop :=
    match q, q' with (t, r, c, _), (t', r', c', _) => t mod 6 = t' mod 6 /\ r = r' /\ c = c' end.
  Definition range4 (q : Z * Z * Z * Z) : Prop := match q with (t, r, c, _) => 0 <= r < n /\ 0 <= c < n end.
  Lemma rank4_inj q q' : range4 q -> range4 q' -> rank4 q = rank4 q' -> eq4 q q'.
  Proof.
    destruct q as [[[t r] c] k], q' as [[[t' r'] c'] k']. cbn. intros [? ?] [? ?] E. apply enc_inj in E; auto; lia.
  Qed.

  Ltac cases4 := unfold left_to, right_to, top_to, bottom_to in *;
    repeat match goal with |- context [?a =? ?b] => destruct (Z.eqb_spec a b) end.

  Lemma south_west t r c : 0 <= t < 6 -> 0 <= r < n -> 0 <= c < n -> rank4 (bottom_to n t r c) <> rank4 (left_to n t r c).
  Proof.
    intros Ht Hr Hc E. apply rank4_inj in E.
    - destruct (six t Ht) as [->|[->|[->|[->|[->| ->]]]]]; unfold bottom_to, left_to in E; revert E;
      destruct (Z.eqb_spec r 0), (Z.eqb_spec c 0); cbn; intros (? & ? & ?); try lia; congruence.
    - unfold bottom_to. destruct (Z.eqb_spec r 0); [destruct (is_even t)|]; cbn; lia.
    - unfold left_to. destruct (Z.eqb_spec c 0); [destruct (is_even t)|]; cbn; lia.
  Qed.
  Lemma north_east t r c : 0 <= t < 6 -> 0 <= r < n -> 0 <= c < n -> rank4 (right_to n t r c) <> rank4 (top_to n t r c).
  Proof.
    intros Ht Hr Hc E. apply rank4_inj in E.
    - destruct (six t Ht) as [->|[->|[->|[->|[->| ->]]]]]; unfold right_to, top_to in E; revert E;
      destruct (Z.eqb_spec r (n - 1)), (Z.eqb_spec c (n - 1)); cbn; intros (? & ? & ?); try lia; congruence.
    - unfold right_to. destruct (Z.eqb_spec c (n - 1)); [destruct (is_even t)|]; cbn; lia.
    - unfold top_to. destruct (Z.eqb_spec r (n - 1)); [destruct (is_even t)|]; cbn; lia.
  Qed.

  (** the neighbour on the other side, and which of its edges is the shared one *)
  Definition back_ok (q : Z * Z * Z * Z) (rev : bool) (t r c : Z) (edge : comp) (len : Z) : Prop :=
    match q with
    | (t', r', c', _) =>
        0 <= r' < n /\ 0 <= c' < n /\
        match edge with
        | X => rank4 (bottom_to n (t' mod 6) r' c') = enc n t r c /\ (turns (bottom_to n (t' mod 6) r' c') =? 3) = rev /\ cut (c' + 1) - cut c' = len
        | Y => rank4 (left_to n (t' mod 6) r' c') = enc n t r c /\ (turns (left_to n (t' mod 6) r' c') =? 1) = rev /\ cut (r' + 1) - cut r' = len
        end
    end.

  Definition north_edge (t r : Z) : comp := if (r =? n - 1) && is_even t then Y else X.
  Definition east_edge (t c : Z) : comp := if (c =? n - 1) && negb (is_even t) then X else Y.

  Ltac closed_mods := repeat match goal with |- context [is_even ?a] => let v := eval vm_compute in (is_even a) in change (is_even a) with v end.

  Lemma north_back t r c : 0 <= t < 6 -> 0 <= r < n -> 0 <= c < n ->
    back_ok (top_to n t r c) (turns (top_to n t r c) =? 3) t r c (north_edge t r) (cut (c + 1) - cut c).
  Proof.
    intros Ht Hr Hc. pose proof (mirror c Hc) as M. unfold top_to, north_edge.
    destruct (Z.eqb_spec r (n - 1)) as [Er|Er].
    - destruct (six t Ht) as [->|[->|[->|[->|[->| ->]]]]]; cbn -[Z.sub Z.add Z.eqb enc left_to bottom_to rank4]; (split; [lia|]); (split; [lia|]);
      unfold left_to, bottom_to; cbn -[Z.sub Z.add enc]; (split; [closed_mods; cbn -[Z.sub Z.add enc]; f_equal; first [reflexivity|lia]|split; [reflexivity|solve [auto|lia]]]).
    - cbn -[Z.sub Z.add Z.eqb enc bottom_to rank4]. split; [lia|]. split; [lia|]. rewrite Z.mod_small by lia. unfold bottom_to. destruct (Z.eqb_spec (r + 1) 0); [lia|].
      cbn -[Z.sub Z.add Z.modulo]. split; [|auto]. rewrite Z.mod_small by lia. f_equal; lia.
  Qed.
  Lemma east_back t r c : 0 <= t < 6 -> 0 <= r < n -> 0 <= c < n ->
    back_ok (right_to n t r c) (turns (right_to n t r c) =? 1) t r c (east_edge t c) (cut (r + 1) - cut r).
  Proof.
    intros Ht Hr Hc. pose proof (mirror r Hr) as M. unfold right_to, east_edge.
    destruct (Z.eqb_spec c (n - 1)) as [Er|Er].
    - destruct (six t Ht) as [->|[->|[->|[->|[->| ->]]]]]; cbn -[Z.sub Z.add Z.eqb enc left_to bottom_to rank4]; (split; [lia|]); (split; [lia|]);
      unfold left_to, bottom_to; cbn -[Z.sub Z.add enc]; (split; [closed_mods; cbn -[Z.sub Z.add enc]; f_equal; first [reflexivity|lia]|split; [reflexivity|solve [auto|lia]]]).
    - cbn -[Z.sub Z.add Z.eqb enc left_to rank4]. split; [lia|]. split; [lia|]. rewrite Z.mod_small by lia. unfold left_to. destruct (Z.eqb_spec (c + 1) 0); [lia|].
      cbn -[Z.sub Z.add Z.modulo]. split; [|auto]. rewrite Z.mod_small by lia. f_equal; lia.
  Qed.

  Definition is_y (c : comp) : bool := match c with X => false | Y => true end.

  Lemma back_delivers q rev t r c edge len : back_ok q rev t r c edge len ->
    delivers neg (cube_boundary (n, n)) (axes X) (axes Y) (field X) (field Y) (rank4 q) (enc n t r c) len levels (is_y edge) rev.
  Proof.
    destruct q as [[[t' r'] c'] k]. cbn [back_ok rank4]. intros (Hr & Hc & H).
    assert (Ht : 0 <= t' mod 6 < 6) by (apply Z.mod_pos_bound; lia).
    destruct (sends_enc _ _ _ Ht Hr Hc) as (ms & mw & S & VS & VW). pose proof (south_west _ _ _ Ht Hr Hc) as NE.
    unfold delivers. destruct edge; destruct H as (E & <- & <-); cbn [is_y].
    - exists [(rank4 (bottom_to n (t' mod 6) r' c'), ms); (rank4 (left_to n (t' mod 6) r' c'), mw)], ms.
      split; [exact S|]. split; [|exact VS]. unfold inbox. cbn [filter fst]. rewrite <- E. rewrite Z.eqb_refl.
      destruct (Z.eqb_spec (rank4 (left_to n (t' mod 6) r' c')) (rank4 (bottom_to n (t' mod 6) r' c'))); [congruence|]. reflexivity.
    - exists [(rank4 (bottom_to n (t' mod 6) r' c'), ms); (rank4 (left_to n (t' mod 6) r' c'), mw)], mw.
      split; [exact S|]. split; [|exact VW]. unfold inbox. cbn [filter fst]. rewrite <- E. rewrite Z.eqb_refl.
      destruct (Z.eqb_spec (rank4 (bottom_to n (t' mod 6) r' c')) (rank4 (left_to n (t' mod 6) r' c'))); [congruence|]. reflexivity.
  Qed.

  Lemma neighbour_differs q t r c : 0 <= t < 6 -> 0 <= r < n -> 0 <= c < n -> range4 q ->
    match q with (t', r', c', _) => t' mod 6 <> t \/ r' <> r \/ c' <> c end -> rank4 q <> enc n t r c.
  Proof.
    destruct q as [[[t' r'] c'] k]. cbn. intros Ht Hr Hc [? ?] D E. apply enc_inj in E; auto. lia.
  Qed.

  Lemma ends : cut 0 = 0 /\ cut n = N.
  Proof. destruct Hcut as (? & ? & ?). auto. Qed.

  Ltac geometry Pt Pr Pc Pt' Pr' Pc' :=
    unfold place; cbn [along across]; rewrite ?Pt, ?Pr, ?Pc, ?Pt', ?Pr', ?Pc'.

  Lemma north_shared t r c p v : 0 <= t < 6 -> 0 <= r < n -> 0 <= c < n ->
    let rk := enc n t r c in
    in_domain (axes X rk) p -> pos J_INTERFACE_DIM (axes X rk) p = cut (r + 1) - cut r ->
    from_edge neg (axes X) (axes Y) (field X) (field Y) (rank4 (top_to n t r c)) (is_y (north_edge t r)) (turns (top_to n t r c) =? 3)
      (cut (c + 1) - cut c) (pos I_DIM (axes X rk) p) (level (axes X rk) p) v ->
    shared neg n N cut axes field X rk p v.
  Proof.
    intros Ht Hr Hc rk ID PL FE. unfold from_edge, I_DIM, J_DIM, I_INTERFACE_DIM, J_INTERFACE_DIM in *.
    destruct ends as [E0 En]. pose proof (Hpal c ltac:(lia)) as Q1. pose proof (Hpal (c + 1) ltac:(lia)) as Q2.
    assert (RT : forall q, range4 q -> 0 <= rank4 q < 6 * (n * n)).
    { intros [[[t' r'] c'] k] [? ?]. apply enc_range; auto. apply Z.mod_pos_bound; lia. }
    destruct (parts t r c Ht Hr Hc) as (Pt & Pr & Pc). fold rk in Pt, Pr, Pc.
    destruct (Z.eqb_spec r (n - 1)) as [Er|Er].
    - unfold top_to, north_edge in FE. rewrite (proj2 (Z.eqb_eq _ _) Er) in FE.
      assert (Yl : cut (r + 1) = N) by (replace (r + 1) with n by lia; auto).
      destruct (is_even t) eqn:Ev; cbn [andb is_y turns Z.eqb] in FE.
      + change (3 =? 3) with true in FE. set (q := (t + 2, n - 1 - c, 0, 3)) in *.
        assert (Rq : range4 q) by (cbn; lia).
        destruct FE as (p' & I' & P1 & P2 & P3 & ->). unfold turned in P2.
        destruct (parts ((t + 2) mod 6) (n - 1 - c) 0 ltac:(apply Z.mod_pos_bound; lia) ltac:(lia) ltac:(lia)) as (Pt' & Pr' & Pc').
        change (enc n ((t + 2) mod 6) (n - 1 - c) 0) with (rank4 q) in Pt', Pr', Pc'.
        exists (rank4 q), Y, p'. split; [apply RT; auto|]. split.
        { apply neighbour_differs; auto. cbn -[Z.add]. left. destruct (six t Ht) as [->|[->|[->|[->|[->| ->]]]]]; discriminate. }
        split; [exact I'|]. split; [exact P1|]. split; [exact P3|]. split.
        * unfold place. cbn [along across]. rewrite Pt, Pr, Pc, Pt', Pr', Pc', P1, P2, PL.
          replace (n - 1 - c) with (n - (c + 1)) by lia. rewrite Q2, En, E0. unfold plane_coord.
          rewrite even_cases in Ev by auto.
          destruct (six t Ht) as [->|[->|[->|[->|[->| ->]]]]]; try discriminate Ev; unfold surface; cbn -[Z.mul Z.sub Z.add]; apply vec_eq; nia.
        * right. split; [|reflexivity]. rewrite Pt, Pt'. destruct (six t Ht) as [->|[->|[->|[->|[->| ->]]]]]; try discriminate Ev; reflexivity.
      + change (0 =? 3) with false in FE. set (q := (t + 1, 0, c, 0)) in *.
        assert (Rq : range4 q) by (cbn; lia).
        destruct FE as (p' & I' & P1 & P2 & P3 & ->). unfold turned in P2.
        destruct (parts ((t + 1) mod 6) 0 c ltac:(apply Z.mod_pos_bound; lia) ltac:(lia) ltac:(lia)) as (Pt' & Pr' & Pc').
        change (enc n ((t + 1) mod 6) 0 c) with (rank4 q) in Pt', Pr', Pc'.
        exists (rank4 q), X, p'. split; [apply RT; auto|]. split.
        { apply neighbour_differs; auto. cbn -[Z.add]. left. destruct (six t Ht) as [->|[->|[->|[->|[->| ->]]]]]; discriminate. }
        split; [exact I'|]. split; [exact P1|]. split; [exact P3|]. split.
        * unfold place. cbn [along across]. rewrite Pt, Pr, Pc, Pt', Pr', Pc', P1, P2, PL, E0. unfold plane_coord.
          destruct (six t Ht) as [->|[->|[->|[->|[->| ->]]]]]; try discriminate Ev; unfold surface; cbn -[Z.mul Z.sub Z.add]; apply vec_eq; nia.
        * left. split; [|reflexivity]. rewrite Pt, Pt'. destruct (six t Ht) as [->|[->|[->|[->|[->| ->]]]]]; try discriminate Ev; reflexivity.
    - unfold top_to, north_edge in FE. rewrite (proj2 (Z.eqb_neq _ _) Er) in FE. cbn [andb is_y turns] in FE. change (0 =? 3) with false in FE.
      set (q := (t, r + 1, c, 0)) in *. assert (Rq : range4 q) by (cbn; lia).
      destruct FE as (p' & I' & P1 & P2 & P3 & ->). unfold turned in P2.
      assert (Et : t mod 6 = t) by (apply Z.mod_small; lia).
      destruct (parts (t mod 6) (r + 1) c ltac:(lia) ltac:(lia) ltac:(lia)) as (Pt' & Pr' & Pc').
      change (enc n (t mod 6) (r + 1) c) with (rank4 q) in Pt', Pr', Pc'. rewrite Et in Pt'.
      exists (rank4 q), X, p'. split; [apply RT; auto|]. split.
      { apply neighbour_differs; auto. cbn -[Z.add Z.modulo]. lia. }
      split; [exact I'|]. split; [exact P1|]. split; [exact P3|]. split.
      + unfold place. cbn [along across]. rewrite Pt, Pr, Pc, Pt', Pr', Pc', P1, P2, PL. f_equal. unfold plane_coord. lia.
      + left. split; [|reflexivity]. rewrite Pt, Pt'. reflexivity.
  Qed.

  Lemma east_shared t r c p v : 0 <= t < 6 -> 0 <= r < n -> 0 <= c < n ->
    let rk := enc n t r c in
    in_domain (axes Y rk) p -> pos I_INTERFACE_DIM (axes Y rk) p = cut (c + 1) - cut c ->
    from_edge neg (axes X) (axes Y) (field X) (field Y) (rank4 (right_to n t r c)) (is_y (east_edge t c)) (turns (right_to n t r c) =? 1)
      (cut (r + 1) - cut r) (pos J_DIM (axes Y rk) p) (level (axes Y rk) p) v ->
    shared neg n N cut axes field Y rk p v.
  Proof.
    intros Ht Hr Hc rk ID PL FE. unfold from_edge, I_DIM, J_DIM, I_INTERFACE_DIM, J_INTERFACE_DIM in *.
    destruct ends as [E0 En]. pose proof (Hpal r ltac:(lia)) as Q1. pose proof (Hpal (r + 1) ltac:(lia)) as Q2.
    assert (RT : forall q, range4 q -> 0 <= rank4 q < 6 * (n * n)).
    { intros [[[t' r'] c'] k] [? ?]. apply enc_range; auto. apply Z.mod_pos_bound; lia. }
    destruct (parts t r c Ht Hr Hc) as (Pt & Pr & Pc). fold rk in Pt, Pr, Pc.
    destruct (Z.eqb_spec c (n - 1)) as [Er|Er].
    - unfold right_to, east_edge in FE. rewrite (proj2 (Z.eqb_eq _ _) Er) in FE.
      assert (Yl : cut (c + 1) = N) by (replace (c + 1) with n by lia; auto).
      destruct (is_even t) eqn:Ev; cbn [andb negb is_y turns Z.eqb] in FE.
      + change (0 =? 1) with false in FE. set (q := (t + 1, r, 0, 0)) in *.
        assert (Rq : range4 q) by (cbn; lia).
        destruct FE as (p' & I' & P1 & P2 & P3 & ->). unfold turned in P2.
        destruct (parts ((t + 1) mod 6) r 0 ltac:(apply Z.mod_pos_bound; lia) ltac:(lia) ltac:(lia)) as (Pt' & Pr' & Pc').
        change (enc n ((t + 1) mod 6) r 0) with (rank4 q) in Pt', Pr', Pc'.
        exists (rank4 q), Y, p'. split; [apply RT; auto|]. split.
        { apply neighbour_differs; auto. cbn -[Z.add]. left. destruct (six t Ht) as [->|[->|[->|[->|[->| ->]]]]]; discriminate. }
        split; [exact I'|]. split; [exact P1|]. split; [exact P3|]. split.
        * unfold place. cbn [along across]. rewrite Pt, Pr, Pc, Pt', Pr', Pc', P1, P2, PL, E0. unfold plane_coord.
          destruct (six t Ht) as [->|[->|[->|[->|[->| ->]]]]]; try discriminate Ev; unfold surface; cbn -[Z.mul Z.sub Z.add]; apply vec_eq; nia.
        * left. split; [|reflexivity]. rewrite Pt, Pt'. destruct (six t Ht) as [->|[->|[->|[->|[->| ->]]]]]; try discriminate Ev; reflexivity.
      + change (1 =? 1) with true in FE. set (q := (t + 2, 0, n - 1 - r, 1)) in *.
        assert (Rq : range4 q) by (cbn; lia).
        destruct FE as (p' & I' & P1 & P2 & P3 & ->). unfold turned in P2.
        destruct (parts ((t + 2) mod 6) 0 (n - 1 - r) ltac:(apply Z.mod_pos_bound; lia) ltac:(lia) ltac:(lia)) as (Pt' & Pr' & Pc').
        change (enc n ((t + 2) mod 6) 0 (n - 1 - r)) with (rank4 q) in Pt', Pr', Pc'.
        exists (rank4 q), X, p'. split; [apply RT; auto|]. split.
        { apply neighbour_differs; auto. cbn -[Z.add]. left. destruct (six t Ht) as [->|[->|[->|[->|[->| ->]]]]]; discriminate. }
        split; [exact I'|]. split; [exact P1|]. split; [exact P3|]. split.
        * unfold place. cbn [along across]. rewrite Pt, Pr, Pc, Pt', Pr', Pc', P1, P2, PL.
          replace (n - 1 - r) with (n - (r + 1)) by lia. rewrite Q2, En, E0. unfold plane_coord.
          destruct (six t Ht) as [->|[->|[->|[->|[->| ->]]]]]; try discriminate Ev; unfold surface; cbn -[Z.mul Z.sub Z.add]; apply vec_eq; nia.
        * right. split; [|reflexivity]. rewrite Pt, Pt'. destruct (six t Ht) as [->|[->|[->|[->|[->| ->]]]]]; try discriminate Ev; reflexivity.
    - unfold right_to, east_edge in FE. rewrite (proj2 (Z.eqb_neq _ _) Er) in FE. cbn [andb is_y turns] in FE. change (0 =? 1) with false in FE.
      set (q := (t, r, c + 1, 0)) in *. assert (Rq : range4 q) by (cbn; lia).
      destruct FE as (p' & I' & P1 & P2 & P3 & ->). unfold turned in P2.
      assert (Et : t mod 6 = t) by (apply Z.mod_small; lia).
      destruct (parts (t mod 6) r (c + 1) ltac:(lia) ltac:(lia) ltac:(lia)) as (Pt' & Pr' & Pc').
      change (enc n (t mod 6) r (c + 1)) with (rank4 q) in Pt', Pr', Pc'. rewrite Et in Pt'.
      exists (rank4 q), Y, p'. split; [apply RT; auto|]. split.
      { apply neighbour_differs; auto. cbn -[Z.add Z.modulo]. lia. }
      split; [exact I'|]. split; [exact P1|]. split; [exact P3|]. split.
      + unfold place. cbn [along across]. rewrite Pt, Pr, Pc, Pt', Pr', Pc', P1, P2, PL. f_equal. unfold plane_coord. lia.
      + left. split; [|reflexivity]. rewrite Pt, Pt'. reflexivity.
  Qed.

  Theorem cube_synchronized r : 0 <= r < 6 * (n * n) ->
    exists g, synchronize neg (cube_boundary (n, n)) (axes X) (axes Y) (field X) (field Y) r = Some (g X, g Y) /\
      forall c p, (on_last n cut axes c r p -> shared neg n N cut axes field c r p (g c p)) /\
                  (~ on_last n cut axes c r p -> g c p = field c r p).
  Proof.
    intros Hr. destruct (rank_decompose n r Hn Hr) as (t & i & j & Ht & Hi & Hj & ->).
    destruct (parts t i j Ht Hi Hj) as (Pt & Pr & Pc).
    pose proof (Haxes X _ Hr) as AX. pose proof (Haxes Y _ Hr) as AY. unfold cells, lines in AX, AY. rewrite Pr, Pc in AX, AY.
    pose proof (pieces i Hi) as L1. pose proof (pieces j Hj) as L2.
    destruct (sends_enc t i j Ht Hi Hj) as (ms & mw & S & _).
    assert (BN := boundary_of NORTH (top_to n t i j) t i j Hi Hj eq_refl).
    assert (BE := boundary_of EAST (right_to n t i j) t i j Hi Hj eq_refl).
    destruct (synchronize_eq neg (cube_boundary (n, n)) (axes X) (axes Y) (field X) (field Y) (enc n t i j) _ _
      (cut (j + 1) - cut j) (cut (i + 1) - cut i) (cut (i + 1) - cut i + 1) (cut (j + 1) - cut j + 1) levels
      (is_y (north_edge t i)) (turns (top_to n t i j) =? 3) (is_y (east_edge t j)) (turns (right_to n t i j) =? 1)
      (ex_intro _ _ S) BN BE) as (gx & gy & E & NX & OX & NY & OY); cbn [b_to]; auto; try lia.
    - apply north_east; auto.
    - apply back_delivers. apply north_back; auto.
    - apply back_delivers. apply east_back; auto.
    - exists (fun c => match c with X => gx | Y => gy end). split; [exact E|]. cbn [b_to] in *.
      intros c p. unfold on_last, lines. destruct c; cbn [across]; rewrite ?Pr, ?Pc.
      + split; [|exact (OX p)]. intros [D P]. apply (north_shared t i j p (gx p) Ht Hi Hj D); [unfold J_INTERFACE_DIM; lia|]. apply NX; auto.
      + split; [|exact (OY p)]. intros [D P]. apply (east_shared t i j p (gy p) Ht Hi Hj D); [unfold I_INTERFACE_DIM; lia|]. apply NY; auto.
  Qed.
End Cube.

(** ** The shared point is unique *)
Section Unique.
  Variables (n N : Z) (cut : Z -> Z) (levels : list Z) (axes : comp -> Z -> list axis1).
  Hypothesis Hn : 0 < n.
  Hypothesis Hcut : cuts n N 1 cut.
  Hypothesis Haxes : forall c r, 0 <= r < 6 * (n * n) -> edge_axes (along c) (across c) (axes c r) (cells n cut c r) (lines n cut c r) levels.

  Lemma cut_mono i j : 0 <= i <= j -> j <= n -> cut i + (j - i) <= cut j.
  Proof.
    intros H. assert (G : forall k : nat, i + Z.of_nat k <= n -> cut i + Z.of_nat k <= cut (i + Z.of_nat k)).
    { induction k as [|k IH]; intros L; [replace (i + Z.of_nat 0) with i by lia; lia|].
      destruct Hcut as (_ & _ & Hp). pose proof (Hp (i + Z.of_nat k) ltac:(lia)) as P.
      replace (i + Z.of_nat (S k)) with (i + Z.of_nat k + 1) by lia. lia. }
    intros L. specialize (G (Z.to_nat (j - i))). replace (i + Z.of_nat (Z.to_nat (j - i))) with j in G by lia. lia.
  Qed.
  Lemma piece_unique i j a b : 0 <= i < n -> 0 <= j < n -> 0 <= a < cut (i + 1) - cut i -> 0 <= b < cut (j + 1) - cut j ->
    cut i + a = cut j + b -> i = j /\ a = b.
  Proof.
    intros Hi Hj Ha Hb E. destruct (Z.lt_trichotomy i j) as [L|[->|L]]; [|lia|].
    - pose proof (cut_mono (i + 1) j ltac:(lia) ltac:(lia)). lia.
    - pose proof (cut_mono (j + 1) i ltac:(lia) ltac:(lia)). lia.
  Qed.

  Lemma rank_eq r1 r2 : 0 <= r1 < 6 * (n * n) -> 0 <= r2 < 6 * (n * n) ->
    tile_of n r1 = tile_of n r2 -> row_of n r1 = row_of n r2 -> col_of n r1 = col_of n r2 -> r1 = r2.
  Proof.
    intros H1 H2 Et Er Ec. destruct (rank_decompose n r1 Hn H1) as (t & i & j & Ht & Hi & Hj & ->).
    destruct (rank_decompose n r2 Hn H2) as (t' & i' & j' & Ht' & Hi' & Hj' & ->).
    destruct (enc_parts n t i j Hn Ht Hi Hj) as (A1 & A2 & A3). destruct (enc_parts n t' i' j' Hn Ht' Hi' Hj') as (B1 & B2 & B3).
    congruence.
  Qed.

  Lemma same_point c r p1 p2 : 0 <= r < 6 * (n * n) -> in_domain (axes c r) p1 -> in_domain (axes c r) p2 ->
    pos (along c) (axes c r) p1 = pos (along c) (axes c r) p2 -> pos (across c) (axes c r) p1 = pos (across c) (axes c r) p2 ->
    level (axes c r) p1 = level (axes c r) p2 -> p1 = p2.
  Proof.
    intros Hr I1 I2 E1 E2 E3. pose proof (Haxes c r Hr) as AX.
    assert (H : horizontal (along c) /\ horizontal (across c) /\ along c <> across c) by (destruct c; [apply hx|apply hy]).
    destruct H as (H1 & H2 & H3). destruct (component_facts _ _ _ _ _ _ H1 H2 H3 AX) as (_ & ST & OL & _).
    assert (O1 : on_line (across c) (pos (across c) (axes c r) p1) (axes c r) p1) by (apply OL; auto).
    assert (O2 : on_line (across c) (pos (across c) (axes c r) p1) (axes c r) p2) by (apply OL; auto).
    assert (S : strip (across c) (axes c r) p1 = strip (across c) (axes c r) p2).
    { rewrite !ST by (symmetry; eapply Forall2_len; eassumption). congruence. }
    apply point_strip in O1, O2. etransitivity; [symmetry; exact O1|]. etransitivity; [|exact O2]. f_equal. exact S.
  Qed.

  Theorem first_line_unique c1 r1 p1 c2 r2 p2 : 0 <= r1 < 6 * (n * n) -> 0 <= r2 < 6 * (n * n) ->
    in_domain (axes c1 r1) p1 -> in_domain (axes c2 r2) p2 ->
    pos (across c1) (axes c1 r1) p1 = 0 -> pos (across c2) (axes c2 r2) p2 = 0 ->
    place n N cut axes c1 r1 p1 = place n N cut axes c2 r2 p2 -> level (axes c1 r1) p1 = level (axes c2 r2) p2 ->
    r1 = r2 /\ c1 = c2 /\ p1 = p2.
  Proof.
    intros Hr1 Hr2 I1 I2 L1 L2 EP EL.
    assert (K : forall c r p, 0 <= r < 6 * (n * n) -> in_domain (axes c r) p -> 0 <= pos (along c) (axes c r) p < cells n cut c r).
    { intros c r p Hr I. pose proof (Haxes c r Hr) as AX.
      assert (H : horizontal (along c) /\ horizontal (across c) /\ along c <> across c) by (destruct c; [apply hx|apply hy]).
      destruct H as (H1 & H2 & H3). destruct (component_facts _ _ _ _ _ _ H1 H2 H3 AX) as (_ & _ & _ & D & _). apply D, I. }
    pose proof (K c1 r1 p1 Hr1 I1) as K1. pose proof (K c2 r2 p2 Hr2 I2) as K2. clear K.
    destruct (rank_parts n r1 Hn Hr1) as (T1 & R1 & C1 & _). destruct (rank_parts n r2 Hn Hr2) as (T2 & R2 & C2 & _).
    assert (N1 : cut 0 = 0 /\ cut n = N /\ n <= N).
    { destruct Hcut as (E0 & En & _). pose proof (cut_mono 0 n ltac:(lia) ltac:(lia)). lia. }
    destruct N1 as (E0 & En & Nn).
    assert (B : forall k, 0 <= k < n -> 0 <= cut k /\ cut k < cut (k + 1) /\ cut (k + 1) <= N).
    { intros k Hk. pose proof (cut_mono 0 k ltac:(lia) ltac:(lia)). pose proof (cut_mono k (k + 1) ltac:(lia) ltac:(lia)). pose proof (cut_mono (k + 1) n ltac:(lia) ltac:(lia)). lia. }
    pose proof (B _ R1). pose proof (B _ C1). pose proof (B _ R2). pose proof (B _ C2).
    assert (Z0 : forall i j, 0 <= i < n -> 0 <= j < n -> cut i = cut j -> i = j).
    { intros i j Hi Hj E. pose proof (B _ Hi). pose proof (B _ Hj). destruct (piece_unique i j 0 0) as [X _]; auto; lia. }
    unfold place in EP. rewrite L1, L2 in EP. unfold cells in K1, K2.
    set (i1 := pos (along c1) (axes c1 r1) p1) in *. set (i2 := pos (along c2) (axes c2 r2) p2) in *.
    assert (G : tile_of n r1 = tile_of n r2 /\ c1 = c2 /\ row_of n r1 = row_of n r2 /\ col_of n r1 = col_of n r2 /\ i1 = i2).
    { unfold plane_coord, surface in EP.
      remember (tile_of n r1) as t1 eqn:F1. remember (tile_of n r2) as t2 eqn:F2. remember (row_of n r1) as a1. remember (row_of n r2) as a2.
      remember (col_of n r1) as b1. remember (col_of n r2) as b2.
      assert (U1 := piece_unique b1 b2 i1 i2 C1 C2). assert (U2 := piece_unique a1 a2 i1 i2 R1 R2). assert (V1 := Z0 a1 a2 R1 R2). assert (V2 := Z0 b1 b2 C1 C2).
      clear - EP K1 K2 T1 T2 R1 R2 C1 C2 E0 En Nn H H0 H1 H2 U1 U2 V1 V2 Hn.
      destruct (six t1 T1) as [->|[->|[->|[->|[->| ->]]]]], (six t2 T2) as [->|[->|[->|[->|[->| ->]]]]], c1, c2;
      cbn -[Z.mul Z.sub Z.add] in EP; apply pair_equal_spec in EP; destruct EP as [EP e3]; apply pair_equal_spec in EP; destruct EP as [e1 e2];
      try (exfalso; lia); split; auto; split; auto;
      first [specialize (U1 K1 K2 ltac:(lia)); specialize (V1 ltac:(lia)) | specialize (U2 K1 K2 ltac:(lia)); specialize (V2 ltac:(lia))]; tauto. }
    destruct G as (Gt & <- & Gr & Gc & Gi). assert (r1 = r2) by (apply rank_eq; auto). subst r2. split; [auto|]. split; [auto|].
    apply (same_point c1 r1); auto. lia.
  Qed.
End Unique.
