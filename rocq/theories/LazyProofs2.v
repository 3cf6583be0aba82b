(** The value of every attribute, and that every method of LazyModel computes it. *)
From Verif Require Import LazyModel LazyProofs.

Section Values.
  Context {V Rank : Type} (net : call -> (Rank -> list V) -> Rank -> list V).
  Variable comp : Rank -> string -> nat -> list V -> V.
  Variable round : V -> V.
  Variable init : Rank -> string -> V.
  Variable cart : bool.

  Notation C r := (compn (comp r)).
  Notation A r := (at_ (comp r)).
  Notation cast := (cast round).

  Definition v_grid r := init r "_grid_64".
  Definition v_agrid r := init r "_agrid_64".
  Definition v_xyz r := comp r "lon_lat_to_xyz" 0%nat [v_grid r].
  Definition v_axyz r := comp r "lon_lat_to_xyz" 1%nat [v_agrid r].
  Definition p_dx r := if cart then C r "const" 2 [] else
    C r "fill_corners_dgrid" 2 (net Halo (fun r => C r "great_circle_distance_along_axis" 2 [v_grid r]) r).
  Definition p_dxa r := if cart then C r "const" 2 [] else
    C r "dxdy_agrid_abs" 2 (net Halo (fun r => C r "dxdy_agrid" 2 [v_grid r]) r).
  Definition p_dxc r := if cart then C r "const" 2 [] else
    C r "fill_corners_cgrid" 2 (net Halo (fun r => C r "dxdy_center" 2 [v_agrid r; v_xyz r; v_axyz r]) r).
  Definition p_area r := if cart then C r "const_area" 1 [] else net Halo (fun r => C r "get_area" 1 [v_grid r]) r.
  Definition p_areac r := if cart then C r "const_area" 1 [] else
    C r "fill_corners_2d" 1 (net Halo (fun r => C r "area_c" 1 [v_agrid r; v_xyz r; v_axyz r]) r).
  Definition p_ec r := if cart then C r "axes" 2 [] else C r "get_center_vector" 2 [v_xyz r].
  Definition p_ew r := if cart then C r "axes" 2 [] else C r "calc_unit_vector_west" 2 [v_xyz r; v_axyz r].
  Definition p_es r := if cart then C r "axes" 2 [] else C r "calc_unit_vector_south" 2 [v_xyz r; v_axyz r].
  Definition p_ee r := if cart then C r "nan" 2 [] else C r "calculate_xy_unit_vectors" 2 [v_xyz r].
  Definition p_l2c r := if cart then C r "nan" 2 [] else C r "calculate_l2c_vu" 2 [v_grid r].
  Definition p_cs r := C r "calculate_supergrid_cos_sin" 2 [v_xyz r; v_axyz r; A r (p_ec r) 0; A r (p_ec r) 1].
  Definition p_cos r := if cart then C r "zeros" 9 [] else C r "supergrid_corner_fix.cos" 9 (p_cs r).
  Definition p_sin r := if cart then C r "ones" 9 [] else C r "supergrid_corner_fix.sin" 9 (p_cs r).
  Definition p_uv r := if cart then C r "zeros_ones" 11 [] else C r "calculate_trig_uv" 11 (v_xyz r :: p_cs r).
  Definition v_cos r i := q64 [I; J] "" (A r (p_cos r) i).
  Definition v_sin r i := q64 [I; J] "" (A r (p_sin r) i).
  Definition p_divg0 r := C r "calculate_divg_del6" 4
    [round (A r (p_sin r) 0); round (A r (p_sin r) 1); round (A r (p_sin r) 2); round (A r (p_sin r) 3); round (A r (p_sin r) 4);
     A r (p_uv r) 5; A r (p_uv r) 6; A r (p_dx r) 0; A r (p_dx r) 1; A r (p_dxc r) 0; A r (p_dxc r) 1].
  Definition p_divg r := if cart then p_divg0 r else
    let v := net Halo (fun r => [A r (p_divg0 r) 1; A r (p_divg0 r) 0]) r in
    let w := net Halo (fun r => [A r (p_divg0 r) 3; A r (p_divg0 r) 2]) r in
    [comp r "abs" 0%nat [A r v 1]; comp r "abs" 0%nat [A r v 0]; comp r "abs" 0%nat [A r w 1]; comp r "abs" 0%nat [A r w 0]].
  Definition p_v r := if cart then C r "nan" 2 [] else C r "unit_vector_lonlat" 2 [v_agrid r].
  Definition p_z r := C r "calculate_grid_z" 4 [A r (p_ec r) 0; A r (p_ec r) 1; A r (p_v r) 0; A r (p_v r) 1].
  Definition p_a r := C r "calculate_grid_a" 4 [A r (p_z r) 0; A r (p_z r) 1; A r (p_z r) 2; A r (p_z r) 3; A r (p_sin r) 4].
  Definition p_edge r := C r "edge_factors" 4 [round (v_grid r); v_agrid r].
  Definition p_vect r := C r "efactor_a2c_v" 4 [round (v_grid r); v_agrid r].
  Definition v_lon r := comp r "component" 0%nat [round (v_grid r)].
  Definition p_2d r i := comp r "repeat" 0%nat [v_lon r; round (A r (p_vect r) i)].
  Definition p_da r (c : bool) (mx : bool) := net (Reduce mx) (fun r =>
    [comp r (if mx then "max" else "min") 0%nat [round (A r (if c then p_areac r else p_area r) 0)]]) r.
  Definition rec r ds u d : value V := Value ds u false (comp r "reciprocal" 0%nat [round d]).

  Definition values (r : Rank) : list (string * value V) :=
    ([("_grid_64", q64 [II; JI; LL] "radians" (v_grid r)); ("_agrid_64", q64 [I; J; LL] "radians" (v_agrid r));
     ("_ak", qF round [KI] "Pa" (init r "_ak")); ("_bk", qF round [KI] "" (init r "_bk"));
     ("_dgrid_xyz_64", q64 [] "" (v_xyz r)); ("_agrid_xyz_64", q64 [] "" (v_axyz r));
     ("_dx_64", q64 [I; JI] "m" (A r (p_dx r) 0)); ("_dy_64", q64 [II; J] "m" (A r (p_dx r) 1));
     ("_dx", cast (q64 [I; JI] "m" (A r (p_dx r) 0))); ("_dy", cast (q64 [II; J] "m" (A r (p_dx r) 1)));
     ("_dx_agrid", cast (q64 [I; J] "m" (A r (p_dxa r) 0))); ("_dy_agrid", cast (q64 [I; J] "m" (A r (p_dxa r) 1)));
     ("_dxc_64", q64 [II; J] "m" (A r (p_dxc r) 0)); ("_dyc_64", q64 [I; JI] "m" (A r (p_dxc r) 1));
     ("_dx_center", cast (q64 [II; J] "m" (A r (p_dxc r) 0))); ("_dy_center", cast (q64 [I; JI] "m" (A r (p_dxc r) 1)));
     ("_area", cast (q64 [I; J] "m^2" (A r (p_area r) 0))); ("_area64", q64 [I; J] "m^2" (A r (p_area r) 0));
     ("_area_c", cast (q64 [II; JI] "m^2" (A r (p_areac r) 0)));
     ("_ec1_64", q64 [I; J; XYZ] "" (A r (p_ec r) 0)); ("_ec2_64", q64 [I; J; XYZ] "" (A r (p_ec r) 1));
     ("_ec1", cast (q64 [I; J; XYZ] "" (A r (p_ec r) 0))); ("_ec2", cast (q64 [I; J; XYZ] "" (A r (p_ec r) 1)));
     ("_ew1", cast (q64 [II; J; XYZ] "" (A r (p_ew r) 0))); ("_ew2", cast (q64 [II; J; XYZ] "" (A r (p_ew r) 1)));
     ("_es1", cast (qF round [I; JI; XYZ] "" (A r (p_es r) 0))); ("_es2", cast (qF round [I; JI; XYZ] "" (A r (p_es r) 1)));
     ("_ee1", cast (q64 [II; JI; XYZ] "" (A r (p_ee r) 0))); ("_ee2", cast (q64 [II; JI; XYZ] "" (A r (p_ee r) 1)));
     ("_l2c_v", cast (qF round [II; J] "" (A r (p_l2c r) 0))); ("_l2c_u", cast (qF round [I; JI] "" (A r (p_l2c r) 1)));
     ("_sin_sg5_64", v_sin r 4%nat)]
    ++ map (fun i => (("_cos_sg" ++ digit (S i))%string, cast (v_cos r i))) (seq 0 9)
    ++ map (fun i => (("_sin_sg" ++ digit (S i))%string, cast (v_sin r i))) (seq 0 9)
    ++ trig_terms (comp r) round (p_uv r)
    ++ [("_del6_u", cast (q64 [I; JI] "" (A r (p_divg r) 2))); ("_del6_v", cast (q64 [II; J] "" (A r (p_divg r) 3)));
     ("_divg_u", cast (q64 [I; JI] "" (A r (p_divg r) 0))); ("_divg_v", cast (q64 [II; J] "" (A r (p_divg r) 1)));
     ("_vlon_64", q64 [I; J; XYZ] "" (A r (p_v r) 0)); ("_vlat_64", q64 [I; J; XYZ] "" (A r (p_v r) 1));
     ("_vlon", cast (q64 [I; J; XYZ] "" (A r (p_v r) 0))); ("_vlat", cast (q64 [I; J; XYZ] "" (A r (p_v r) 1)));
     ("_z11_64", q64 [I; J] "" (A r (p_z r) 0)); ("_z12_64", q64 [I; J] "" (A r (p_z r) 1));
     ("_z21_64", q64 [I; J] "" (A r (p_z r) 2)); ("_z22_64", q64 [I; J] "" (A r (p_z r) 3));
     ("_z11", cast (q64 [I; J] "" (A r (p_z r) 0))); ("_z12", cast (q64 [I; J] "" (A r (p_z r) 1)));
     ("_z21", cast (q64 [I; J] "" (A r (p_z r) 2))); ("_z22", cast (q64 [I; J] "" (A r (p_z r) 3)));
     ("_a11", cast (q64 [I; J] "" (A r (p_a r) 0))); ("_a12", cast (q64 [I; J] "" (A r (p_a r) 1)));
     ("_a21", cast (q64 [I; J] "" (A r (p_a r) 2))); ("_a22", cast (q64 [I; J] "" (A r (p_a r) 3)));
     ("_edge_w", q64 [I; JI] "" (A r (p_edge r) 0)); ("_edge_e", q64 [I; JI] "" (A r (p_edge r) 1));
     ("_edge_s", q64 [II] "" (A r (p_edge r) 2)); ("_edge_n", q64 [II] "" (A r (p_edge r) 3));
     ("_edge_vect_w", cast (q64 [J] "" (A r (p_vect r) 0))); ("_edge_vect_e", cast (q64 [J] "" (A r (p_vect r) 1)));
     ("_edge_vect_s", cast (q64 [I] "" (A r (p_vect r) 2))); ("_edge_vect_n", cast (q64 [I] "" (A r (p_vect r) 3)));
     ("_edge_vect_e_2d", cast (q64 [I; J] "" (p_2d r 1))); ("_edge_vect_w_2d", cast (q64 [I; J] "" (p_2d r 0)));
     ("_da_min", q64 [] "" (A r (p_da r false false) 0)); ("_da_max", q64 [] "" (A r (p_da r false true) 0));
     ("_da_min_c", q64 [] "" (A r (p_da r true false) 0)); ("_da_max_c", q64 [] "" (A r (p_da r true true) 0));
     ("_grid", cast (q64 [II; JI; LL] "radians" (v_grid r))); ("_agrid", cast (q64 [I; J; LL] "radians" (v_agrid r)));
     ("rarea", rec r [I; J] "m^-2" (A r (p_area r) 0)); ("rarea_c", rec r [II; JI] "m^-2" (A r (p_areac r) 0));
     ("rdx", rec r [I; JI] "m^-1" (A r (p_dx r) 0)); ("rdy", rec r [II; J] "m^-1" (A r (p_dx r) 1));
     ("rdxa", rec r [I; J] "m^-1" (A r (p_dxa r) 0)); ("rdya", rec r [I; J] "m^-1" (A r (p_dxa r) 1));
     ("rdxc", rec r [II; J] "m^-1" (A r (p_dxc r) 0)); ("rdyc", rec r [I; JI] "m^-1" (A r (p_dxc r) 1))])%list.

  Fixpoint lookup (a : string) (l : list (string * value V)) (d : value V) : value V :=
    match l with [] => d | (b, v) :: l => if String.eqb a b then v else lookup a l d end.
  Definition D (a : string) (r : Rank) : value V := lookup a (values r) (q64 [] "" (init r "")).
End Values.

Section Methods.
  Context {V Rank : Type} (net : call -> (Rank -> list V) -> Rank -> list V).
  Variable comp : Rank -> string -> nat -> list V -> V.
  Variable round : V -> V.
  Variable init : Rank -> string -> V.

  Notation DD cart := (D net comp round init cart).
  Notation sp cart := (spec net (DD cart)).

  (** binding a computation whose result is known *)
  Lemma sbv {A B} cart av pre dep gain depT gainT (m : Rank -> M V A) (f : Rank -> A -> M V B) (val : Rank -> A) post :
    sp cart [] pre dep gain m (fun r v _ => v = val r) ->
    incl dep depT -> (forall g, In g av -> ~ In g dep) ->
    sp cart av (gain ++ pre)%list depT gainT (fun r => f r (val r)) post ->
    sp cart av pre depT gainT (fun r => mbind (m r) (f r)) post.
  Proof.
    intros S1 Inc Dis S2 done s H P N.
    destruct (S1 done s H P) as (n & a & s1 & d1 & R1 & I1 & Inc1 & Dp1 & G1 & K1 & Q1); [intros g []|].
    destruct (S2 d1 s1 I1) as (n2 & b & s2 & d2 & R2 & I2 & Inc2 & Dp2 & G2 & K2 & Q2).
    { intros g Hg. apply in_app_or in Hg. destruct Hg as [Hg|Hg]; [apply G1, Hg|apply Inc1, P, Hg]. }
    { intros g Hg J. destruct (Dp1 g J) as [J'|J']; [exact (N g Hg J')|exact (Dis g Hg J')]. }
    exists (n + n2)%nat, b, s2, d2. split.
    { unfold mbind. apply (runs_bind net _ n (fun r => (val r, s1 r))); [|exact R2].
      apply (runs_out net _ _ _ _ R1). intros r. rewrite (Q1 r). reflexivity. }
    split; [exact I2|]. split; [intros g Hg; apply Inc2, Inc1, Hg|]. split.
    { intros g Hg. destruct (Dp2 g Hg) as [J|J]; [destruct (Dp1 g J) as [J'|J']; [left; exact J'|right; apply Inc, J']|right; exact J]. }
    split; [exact G2|]. split; [exact (keeps_trans _ _ _ K1 K2)|exact Q2].
  Qed.

  (** binding a computation whose result does not matter *)
  Lemma sbu {B} cart av pre dep gain depT gainT (m : Rank -> M V unit) (f : Rank -> M V B) post :
    sp cart [] pre dep gain m (fun _ _ _ => True) ->
    incl dep depT -> (forall g, In g av -> ~ In g dep) ->
    sp cart av (gain ++ pre)%list depT gainT f post ->
    sp cart av pre depT gainT (fun r => mbind (m r) (fun _ => f r)) post.
  Proof.
    intros S1 Inc Dis S2. apply (sbv cart av pre dep gain depT gainT m (fun r _ => f r) (fun _ => tt)); auto.
    intros done s H P N. destruct (S1 done s H P N) as (n & a & s1 & d1 & R & X). exists n, a, s1, d1.
    split; [exact R|]. intuition. destruct (a r). reflexivity.
  Qed.

  Lemma sret {A} cart pre (val : Rank -> A) : sp cart [] pre [] [] (fun r => mret (val r)) (fun r v _ => v = val r).
  Proof. apply spec_ret. reflexivity. Qed.

  Ltac inc := intros ?; cbn [In List.app]; intuition congruence.
  Ltac inn := cbn [In List.app]; intuition congruence.
  Lemma spec_pre {A} cart av pre pre' dep gain (m : Rank -> M V A) post : sp cart av pre dep gain m post -> incl pre pre' -> sp cart av pre' dep gain m post.
  Proof. intros S P. apply (spec_weak _ _ av pre dep gain); auto using incl_refl, incl_appl. Qed.
  Ltac weak L := eapply spec_pre; [apply L|inc].
  Ltac vret := eapply sbv; [apply sret|inc|inc|cbv beta].
  Ltac vuse := eapply sbv; [eapply spec_use; [reflexivity|inn]|inc|inc|cbv beta].
  Ltac vxch := eapply sbv; [apply spec_xch|inc|inc|cbv beta].
  Ltac vdat L := eapply sbv; [apply spec_dat; weak L|inc|inc|cbv beta].
  Ltac assoc := apply spec_assoc; cbv beta.
  (** the last step: [l] is assigned *)
  Ltac fin g l :=
    eapply spec_weak; [eapply (spec_tail net _ g _ (fun _ => tt) l []); [intros r s; reflexivity|reflexivity|intros r; repeat (apply Forall_cons; [split; reflexivity|]); apply Forall_nil|auto]|inc|inc|inc|inc].

  Lemma r_xyz cart : sp cart [] [G0] [Gxyz] [Gxyz] (fun r => lazy "_dgrid_xyz_64" (g <- use "_grid_64" ;; put "_dgrid_xyz_64" (q64 [] "" (comp r "lon_lat_to_xyz" 0%nat [g])))) (gives (DD cart) "_dgrid_xyz_64").
  Proof.
    apply (spec_lazy net _ _ Gxyz [G0] [Gxyz] [Gxyz]); [reflexivity|left; reflexivity|].
    vuse. fin Gxyz (fun r => [("_dgrid_xyz_64", DD cart "_dgrid_xyz_64" r)]).
  Qed.
  Lemma r_axyz cart : sp cart [] [G0] [Gaxyz] [Gaxyz] (fun r => lazy "_agrid_xyz_64" (g <- use "_agrid_64" ;; put "_agrid_xyz_64" (q64 [] "" (comp r "lon_lat_to_xyz" 1%nat [g])))) (gives (DD cart) "_agrid_xyz_64").
  Proof.
    apply (spec_lazy net _ _ Gaxyz [G0] [Gaxyz] [Gaxyz]); [reflexivity|left; reflexivity|].
    vuse. fin Gaxyz (fun r => [("_agrid_xyz_64", DD cart "_agrid_xyz_64" r)]).
  Qed.

  Definition all_of (cart : bool) (g : grp) (r : Rank) := map (fun a => (a, DD cart a r)) (names_in groups g).

  Lemma f_dx cart : sp cart [Gdx] [G0] [Gdx] [Gdx] (fun r => v <- compute_dxdy cart (comp r) round ;; unpack ["_dx"; "_dy"] v) (fun _ _ _ => True).
  Proof.
    unfold compute_dxdy. assoc. destruct cart.
    - vret. fin Gdx (all_of true Gdx).
    - assoc. vuse. assoc. vxch. vret. fin Gdx (all_of false Gdx).
  Qed.

  Ltac rd g pre dep := apply (spec_lazy net _ _ g pre dep [g]); [assumption|left; reflexivity|].
  Notation fills cart g dep m := (sp cart [g] [G0] dep [g] m (fun _ _ _ => True)).
  Notation reads_as cart g dep m a := (sp cart [] [G0] dep [g] m (gives (DD cart) a)).
  Ltac fi g cart := fin g (all_of cart g).

  Lemma r_dx cart a : group a = Some Gdx -> reads_as cart Gdx [Gdx] (fun r => read_dx cart (comp r) round a) a.
  Proof. intros G. rd Gdx [G0] [Gdx]. apply f_dx. Qed.

  Lemma f_dxa cart : fills cart Gdxa [Gdxa] (fun r => v <- compute_dxdy_agrid cart (comp r) round ;; unpack ["_dx_agrid"; "_dy_agrid"] v).
  Proof.
    unfold compute_dxdy_agrid. assoc. destruct cart.
    - vret. fi Gdxa true.
    - assoc. vuse. assoc. vxch. vret. fi Gdxa false.
  Qed.
  Lemma r_dxa cart a : group a = Some Gdxa -> reads_as cart Gdxa [Gdxa] (fun r => read_dxa cart (comp r) round a) a.
  Proof. intros G. rd Gdxa [G0] [Gdxa]. apply f_dxa. Qed.

  Lemma f_dxc cart : fills cart Gdxc [Gxyz; Gaxyz; Gdxc] (fun r => v <- compute_dxdy_center cart (comp r) round ;; unpack ["_dx_center"; "_dy_center"] v).
  Proof.
    unfold compute_dxdy_center. assoc. destruct cart.
    - vret. fi Gdxc true.
    - assoc. vuse. assoc. vdat (r_xyz false). assoc. vdat (r_axyz false). assoc. vxch. vret. fi Gdxc false.
  Qed.
  Lemma r_dxc cart a : group a = Some Gdxc -> reads_as cart Gdxc [Gxyz; Gaxyz; Gdxc] (fun r => read_dxc cart (comp r) round a) a.
  Proof. intros G. rd Gdxc [G0] [Gxyz; Gaxyz; Gdxc]. apply f_dxc. Qed.

  Lemma r_area cart a : group a = Some Garea -> reads_as cart Garea [Garea] (fun r => read_area cart (comp r) round a) a.
  Proof.
    intros G. rd Garea [G0] [Garea]. unfold compute_area. assoc. destruct cart.
    - vret. fi Garea true.
    - assoc. vuse. assoc. vxch. vret. fi Garea false.
  Qed.
  Lemma r_areac cart : reads_as cart Gareac [Gxyz; Gaxyz; Gareac] (fun r => read_area_c cart (comp r) round) "_area_c".
  Proof.
    apply (spec_lazy net _ _ Gareac [G0] [Gxyz; Gaxyz; Gareac] [Gareac]); [reflexivity|left; reflexivity|].
    unfold compute_area_c. assoc. destruct cart.
    - vret. fi Gareac true.
    - assoc. vuse. assoc. vdat (r_xyz false). assoc. vdat (r_axyz false). assoc. vxch. vret. fi Gareac false.
  Qed.

  Lemma f_ec cart : fills cart Gec [Gxyz; Gec] (fun r => v <- center_vectors cart (comp r) round ;; unpack ["_ec1"; "_ec2"] v).
  Proof.
    unfold center_vectors. assoc. destruct cart.
    - vret. fi Gec true.
    - assoc. vdat (r_xyz false). vret. fi Gec false.
  Qed.
  Lemma r_ec cart a : group a = Some Gec -> reads_as cart Gec [Gxyz; Gec] (fun r => read_ec cart (comp r) round a) a.
  Proof. intros G. rd Gec [G0] [Gxyz; Gec]. apply f_ec. Qed.
  Lemma e_ec cart : sp cart [] [G0] [Gxyz; Gec] [Gec] (fun r => ensure_ec cart (comp r) round) (fun _ _ _ => True).
  Proof. apply (spec_ensure net _ _ Gec [G0] _ [Gec]); [reflexivity|left; reflexivity|apply f_ec]. Qed.

  Lemma r_ew cart a : group a = Some Gew -> reads_as cart Gew [Gxyz; Gaxyz; Gew] (fun r => read_ew cart (comp r) round a) a.
  Proof.
    intros G. rd Gew [G0] [Gxyz; Gaxyz; Gew]. unfold vectors_west. assoc. destruct cart.
    - vret. fi Gew true.
    - assoc. vdat (r_xyz false). assoc. vdat (r_axyz false). vret. fi Gew false.
  Qed.
  Lemma r_es cart a : group a = Some Ges -> reads_as cart Ges [Gxyz; Gaxyz; Ges] (fun r => read_es cart (comp r) round a) a.
  Proof.
    intros G. rd Ges [G0] [Gxyz; Gaxyz; Ges]. unfold vectors_south. assoc. destruct cart.
    - vret. fi Ges true.
    - assoc. vdat (r_xyz false). assoc. vdat (r_axyz false). vret. fi Ges false.
  Qed.
  Lemma r_ee cart a : group a = Some Gee -> reads_as cart Gee [Gxyz; Gee] (fun r => read_ee cart (comp r) round a) a.
  Proof.
    intros G. rd Gee [G0] [Gxyz; Gee]. unfold xy_unit_vectors. assoc. destruct cart.
    - vret. fi Gee true.
    - assoc. vdat (r_xyz false). vret. fi Gee false.
  Qed.
  Lemma r_l2c cart a : group a = Some Gl2c -> reads_as cart Gl2c [Gl2c] (fun r => read_l2c cart (comp r) round a) a.
  Proof.
    intros G. rd Gl2c [G0] [Gl2c]. unfold latlon_momentum_correction. assoc. destruct cart.
    - vret. fi Gl2c true.
    - assoc. vuse. vret. fi Gl2c false.
  Qed.

  Lemma seq_puts (l1 l2 : list (string * value V)) a v l3 s :
    (puts l1 ;; puts l2 ;; put a v ;; puts l3) s = Ret (tt, setl (l1 ++ l2 ++ (a, v) :: l3)%list s).
  Proof.
    unfold mbind. rewrite puts_eq. cbn [pbind fst snd]. rewrite puts_eq. cbn [pbind fst snd]. rewrite !setl_app.
    change (pbind (put a v (setl l2 (setl l1 s))) (fun p => puts l3 (snd p)) = Ret (tt, setl l3 (setl [(a, v)] (setl l2 (setl l1 s))))).
    unfold put at 1. cbn [pbind fst snd]. apply puts_eq.
  Qed.
  Definition trig_list cart (r : Rank) : list (string * value V) :=
    (map (fun i => (("_cos_sg" ++ digit (S i))%string, cast round (v_cos comp init cart r i))) (seq 0 9)
     ++ map (fun i => (("_sin_sg" ++ digit (S i))%string, cast round (v_sin comp init cart r i))) (seq 0 9)
     ++ ("_sin_sg5_64", v_sin comp init cart r 4) :: trig_terms (comp r) round (p_uv comp init cart r))%list.
  Ltac trig cart :=
    eapply spec_weak; [eapply (spec_tail net _ Gtrig _ (fun _ => tt) (trig_list cart) []);
      [intros r s; apply seq_puts|reflexivity|intros r; repeat (apply Forall_cons; [split; reflexivity|]); apply Forall_nil|auto]|inc|inc|inc|inc].

  Lemma f_trig cart : fills cart Gtrig [Gxyz; Gaxyz; Gec; Gtrig] (fun r => init_cell_trigonometry cart (comp r) round).
  Proof.
    unfold init_cell_trigonometry. destruct cart.
    - vret. trig true.
    - assoc. eapply sbu; [weak (e_ec false)|inc|inc|]. assoc. vdat (r_xyz false). assoc. vdat (r_axyz false). assoc. vuse. assoc. vuse. vret.
      trig false.
  Qed.
  Lemma r_trig cart a : group a = Some Gtrig -> reads_as cart Gtrig [Gxyz; Gaxyz; Gec; Gtrig] (fun r => read_trig cart (comp r) round a) a.
  Proof. intros G. rd Gtrig [G0] [Gxyz; Gaxyz; Gec; Gtrig]. apply f_trig. Qed.
  Lemma e_trig cart a : group a = Some Gtrig ->
    sp cart [] [G0] [Gxyz; Gaxyz; Gec; Gtrig] [Gtrig] (fun r => ensure a (init_cell_trigonometry cart (comp r) round)) (fun _ _ _ => True).
  Proof. intros G. apply (spec_ensure net _ _ Gtrig [G0] _ [Gtrig]); [exact G|left; reflexivity|apply f_trig]. Qed.

  Lemma e_dx cart : sp cart [] [G0] [Gdx] [Gdx] (fun r => ensure "_dx_64" (v <- compute_dxdy cart (comp r) round ;; unpack ["_dx"; "_dy"] v)) (fun _ _ _ => True).
  Proof. apply (spec_ensure net _ _ Gdx [G0] _ [Gdx]); [reflexivity|left; reflexivity|apply f_dx]. Qed.
  Lemma e_dxc cart : sp cart [] [G0] [Gxyz; Gaxyz; Gdxc] [Gdxc]
    (fun r => ensure "_dxc_64" (v <- compute_dxdy_center cart (comp r) round ;; unpack ["_dx_center"; "_dy_center"] v)) (fun _ _ _ => True).
  Proof. apply (spec_ensure net _ _ Gdxc [G0] _ [Gdxc]); [reflexivity|left; reflexivity|apply f_dxc]. Qed.

  Definition d_divg := [Gxyz; Gaxyz; Gec; Gtrig; Gdx; Gdxc; Gdivg].
  Lemma r_divg cart a : group a = Some Gdivg -> reads_as cart Gdivg d_divg (fun r => read_divg cart (comp r) round a) a.
  Proof.
    intros G. rd Gdivg [G0] d_divg. unfold divg_del6, read_sg, d_divg.
    assoc. vdat (r_trig cart "_sin_sg1" eq_refl). assoc. vdat (r_trig cart "_sin_sg2" eq_refl).
    assoc. vdat (r_trig cart "_sin_sg3" eq_refl). assoc. vdat (r_trig cart "_sin_sg4" eq_refl).
    assoc. vdat (r_trig cart "_sin_sg5" eq_refl).
    assoc. eapply sbu; [weak (e_trig cart "_sina_u_64" eq_refl)|inc|inc|].
    assoc. eapply sbu; [weak (e_dx cart)|inc|inc|].
    assoc. eapply sbu; [weak (e_dxc cart)|inc|inc|].
    do 6 (assoc; vuse). cbv zeta. assoc. destruct cart.
    - vret. fi Gdivg true.
    - assoc. vxch. assoc. vxch. vret. fi Gdivg false.
  Qed.

  Lemma f_v cart : fills cart Gv [Gv] (fun r => v <- unit_vectors_lonlat cart (comp r) round ;; unpack ["_vlon"; "_vlat"] v).
  Proof.
    unfold unit_vectors_lonlat. assoc. destruct cart.
    - vret. fi Gv true.
    - assoc. vuse. vret. fi Gv false.
  Qed.
  Lemma r_v cart a : group a = Some Gv -> reads_as cart Gv [Gv] (fun r => read_v cart (comp r) round a) a.
  Proof. intros G. rd Gv [G0] [Gv]. apply f_v. Qed.
  Lemma e_v cart : sp cart [] [G0] [Gv] [Gv] (fun r => ensure "_vlon_64" (v <- unit_vectors_lonlat cart (comp r) round ;; unpack ["_vlon"; "_vlat"] v)) (fun _ _ _ => True).
  Proof. apply (spec_ensure net _ _ Gv [G0] _ [Gv]); [reflexivity|left; reflexivity|apply f_v]. Qed.

  Lemma f_z cart : fills cart Gz [Gxyz; Gec; Gv; Gz] (fun r => v <- grid_z cart (comp r) round ;; unpack ["_z11"; "_z12"; "_z21"; "_z22"] v).
  Proof.
    unfold grid_z. assoc. eapply sbu; [weak (e_ec cart)|inc|inc|]. assoc. eapply sbu; [weak (e_v cart)|inc|inc|].
    do 4 (assoc; vuse). fi Gz cart.
  Qed.
  Lemma r_z cart a : group a = Some Gz -> reads_as cart Gz [Gxyz; Gec; Gv; Gz] (fun r => read_z cart (comp r) round a) a.
  Proof. intros G. rd Gz [G0] [Gxyz; Gec; Gv; Gz]. apply f_z. Qed.
  Lemma e_z cart : sp cart [] [G0] [Gxyz; Gec; Gv; Gz] [Gz]
    (fun r => ensure "_z11_64" (v <- grid_z cart (comp r) round ;; unpack ["_z11"; "_z12"; "_z21"; "_z22"] v)) (fun _ _ _ => True).
  Proof. apply (spec_ensure net _ _ Gz [G0] _ [Gz]); [reflexivity|left; reflexivity|apply f_z]. Qed.

  Definition d_a := [Gxyz; Gaxyz; Gec; Gv; Gz; Gtrig; Ga].
  Lemma r_a cart a : group a = Some Ga -> reads_as cart Ga d_a (fun r => read_a cart (comp r) round a) a.
  Proof.
    intros G. rd Ga [G0] d_a. unfold grid_a, d_a. assoc. eapply sbu; [weak (e_z cart)|inc|inc|].
    assoc. eapply sbu; [weak (e_trig cart "_sin_sg5_64" eq_refl)|inc|inc|].
    do 5 (assoc; vuse). fi Ga cart.
  Qed.

  Lemma r_grid cart : reads_as cart Ggrid [Ggrid] (fun _ => read_grid round) "_grid".
  Proof.
    apply (spec_lazy net _ _ Ggrid [G0] [Ggrid] [Ggrid]); [reflexivity|left; reflexivity|]. vuse. fi Ggrid cart.
  Qed.
  Lemma r_agrid cart : reads_as cart Gagrid [Gagrid] (fun _ => read_agrid round) "_agrid".
  Proof.
    apply (spec_lazy net _ _ Gagrid [G0] [Gagrid] [Gagrid]); [reflexivity|left; reflexivity|]. vuse. fi Gagrid cart.
  Qed.
  (** a part of another quantity, wrapped anew *)
  Definition part_of cart (a : string) (i : nat) (r : Rank) : value V :=
    let v := DD cart a r in Value (firstn 2 (dims v)) (units v) (wide v) (comp r "component" i [data v]).
  Lemma r_comp cart g a i (m : Rank -> M V (option (obj V))) :
    reads_as cart g [g] m a ->
    sp cart [] [G0] [g] [g] (fun r => component (comp r) (m r) i) (fun r o _ => exists o', o = Some o' /\ what o' = part_of cart a i r).
  Proof.
    intros Sp done s H P N. destruct (Sp done s H P N) as (n & o & s' & d' & R & I' & Inc & Dp & Gn & K & Q).
    exists (n + 0)%nat, (fun r => Some (Obj (next (s' r)) (part_of cart a i r))), (fun r => St (attr (s' r)) (S (next (s' r)))), d'.
    split.
    - unfold component, mbind at 1. apply (runs_bind net _ n (fun r => (o r, s' r))); [exact R|].
      apply Done. intros r. destruct (Q r) as (o' & E & _ & W). cbn [fst snd]. rewrite E. unfold wrap, part_of. rewrite W. reflexivity.
    - repeat split; auto. intros r. eexists. split; reflexivity.
  Qed.

  Lemma r_edge cart a : group a = Some Gedge -> reads_as cart Gedge [Ggrid; Gedge] (fun r => read_edge (comp r) round a) a.
  Proof. intros G. rd Gedge [G0] [Ggrid; Gedge]. unfold edge_factors. assoc. vdat (r_grid cart). assoc. vuse. fi Gedge cart. Qed.
  Lemma r_vect cart a : group a = Some Gvect -> reads_as cart Gvect [Ggrid; Gvect] (fun r => read_vect (comp r) round a) a.
  Proof. intros G. rd Gvect [G0] [Ggrid; Gvect]. unfold edge_a2c_vect_factors. assoc. vdat (r_grid cart). assoc. vuse. fi Gvect cart. Qed.

  Lemma c_lon cart : sp cart [] [G0] [Ggrid] [Ggrid] (fun r => dat (component (comp r) (read_grid round) 0)) (fun r v _ => v = v_lon comp round init r).
  Proof.
    intros done s H P N.
    destruct (r_comp cart Ggrid "_grid" 0 (fun _ => read_grid round) (r_grid cart) done s H P N) as (n & o & s' & d' & R & I' & Inc & Dp & Gn & K & Q).
    exists (n + 0)%nat, (v_lon comp round init), s', d'. split.
    - unfold dat, mbind at 1. apply (runs_bind net _ n (fun r => (o r, s' r))); [exact R|].
      apply Done. intros r. destruct (Q r) as (o' & E & W). cbn [fst snd]. rewrite E, W. reflexivity.
    - repeat split; auto.
  Qed.
  Lemma r_2d cart a : group a = Some G2d -> reads_as cart G2d [Ggrid; Gvect; G2d] (fun r => read_2d (comp r) round a) a.
  Proof.
    intros G. rd G2d [G0] [Ggrid; Gvect; G2d]. unfold edge_2d_vect_factors. assoc.
    eapply sbv; [weak (c_lon cart)|inc|inc|cbv beta].
    assoc. vdat (r_vect cart "_edge_vect_e" eq_refl). assoc. vdat (r_vect cart "_edge_vect_w" eq_refl). fi G2d cart.
  Qed.

  Definition d_da := [Garea; Gxyz; Gaxyz; Gareac; Gda].
  Lemma f_da cart : fills cart Gda d_da (fun r => reduce_global_area_minmaxes cart (comp r) round).
  Proof.
    unfold reduce_global_area_minmaxes, d_da. vdat (r_area cart "_area" eq_refl). vdat (r_areac cart).
    intros done s H P N.
    destruct (Inv_set (DD cart) done s Gda (all_of cart Gda) H (N _ (or_introl eq_refl))) as [H' K].
    { intros r. reflexivity. }
    { intros r. repeat (apply Forall_cons; [split; reflexivity|]). apply Forall_nil. }
    exists 4%nat, (fun _ => tt), (fun r => setl (all_of cart Gda r) (s r)), (Gda :: done). split.
    - do 4 (eapply Step; [intros r; reflexivity|]). apply Done. intros r. reflexivity.
    - split; [exact H'|]. split; [inc|]. split; [inc|]. split; [inc|]. split; [exact K|auto].
  Qed.
  Lemma r_da cart a : group a = Some Gda -> reads_as cart Gda d_da (fun r => read_da cart (comp r) round a) a.
  Proof. intros G. rd Gda [G0] d_da. apply f_da. Qed.

  Lemma r_rec cart g a dep g' b u (m : Rank -> M V (option (obj V))) :
    reads_as cart g dep m a -> group b = Some g' -> names_in groups g' = [b] -> ~ In g' dep ->
    (forall r, DD cart b r = Value (dims (DD cart a r)) u (wide (DD cart a r)) (comp r "reciprocal" 0%nat [data (DD cart a r)])) ->
    reads_as cart g' (g' :: dep) (fun r => reciprocal (comp r) b u (m r)) b.
  Proof.
    intros Sp G Nm Nd E. apply (spec_lazy net _ _ g' [G0] (g' :: dep) [g']); [exact G|left; reflexivity|].
    intros done s H P N.
    destruct (Sp done s H P) as (n & o & s' & d' & R & I' & Inc & Dp & Gn & K & Q); [intros ? []|].
    assert (N' : ~ In g' d'). { intros J. destruct (Dp _ J) as [J'|J']; [exact (N g' (or_introl eq_refl) J')|contradiction]. }
    destruct (Inv_set (DD cart) d' s' g' (fun r => [(b, DD cart b r)]) I' N') as [H' K'].
    { intros r. rewrite Nm. reflexivity. }
    { intros r. constructor; [split; [exact G|reflexivity]|constructor]. }
    exists (n + 0)%nat, (fun _ => tt), (fun r => setl [(b, DD cart b r)] (s' r)), (g' :: d'). split.
    - unfold mbind at 1. apply (runs_bind net _ n (fun r => (o r, s' r))); [exact R|].
      apply Done. intros r. destruct (Q r) as (o' & Eo & _ & W). cbn [fst snd]. rewrite Eo, W, <- E. reflexivity.
    - split; [exact H'|]. split; [intros y Hy; right; apply Inc, Hy|].
      split. { intros y [<-|Hy]; [right; left; reflexivity|]. destruct (Dp y Hy); [left; assumption|right; right; assumption]. }
      split; [intros y [<-|[]]; left; reflexivity|]. split; [exact (keeps_trans _ _ _ K K')|auto].
  Qed.
End Methods.
