(** C41: the two corner-fill implementations agree. *)
From Verif Require Import Base DecompModel GridModel CornerModel CornerProofs.

Section Props.
  Context {V : Type}.
  Variable mul : coef -> V -> V.
  Hypothesis mul_one : forall v, mul C1 v = v.
  Implicit Types (g : grid) (st : @fields V).

  Definition everywhere : Z -> Z -> Prop := fun _ _ => True.
  Definition within (w : window) : Z -> Z -> Prop := fun i j => in_window w i j = true.
  (** the halo is not wider than the tile *)
  Definition wide_enough g (n : Z) : Prop := 0 <= n /\ n <= g_i g /\ n <= g_j g.

  Lemma fills_op g ni nj x s s' (op op' : bool -> bool -> turn -> V -> V) inside src old new :
    (forall e n r v, op e n r v = op' e n r v) -> fills g ni nj x s s' op inside src old new -> fills g ni nj x s s' op' inside src old new.
  Proof.
    intros E [A B]. split; [|exact B]. intros e n i j HC IC IN. destruct (A e n i j HC IC IN) as (r & i' & j' & F & ->).
    exists r, i', j'. split; [exact F|]. apply E.
  Qed.
  Lemma fills_ext g ni nj x s s' (op : bool -> bool -> turn -> V -> V) (inside : Z -> Z -> Prop) src old src' old' new :
    (forall i j, src i j = src' i j) -> (forall i j, inside i j -> old i j = old' i j) ->
    fills g ni nj x s s' op inside src old new -> fills g ni nj x s s' op inside src' old' new.
  Proof.
    intros E1 E2 [A B]. split.
    - intros e n i j HC IC IN. destruct (A e n i j HC IC IN) as (r & i' & j' & F & ->). exists r, i', j'. now rewrite E1.
    - intros i j IN N. rewrite <- E2 by exact IN. now apply B.
  Qed.
  Lemma untouched l st f : (forall a, In a l -> t_f a <> f) -> forall i j, exec mul l st f i j = st f i j.
  Proof. intros N i j. apply exec_none. intros a I [= E _ _]. exact (N a I E). Qed.

  (** ** array functions, any halo width *)

  (** A grid scalars, each direction, any combination of corners. *)
  Theorem C41_agrid_array : forall g x q st, wide_enough g (g_halo g) ->
    fills g (g_halo g) (g_halo g) x centre centre as_is everywhere (st q) (st q) (exec mul (fill_2d_agrid g x q) st q) /\
    (forall f i j, f <> q -> exec mul (fill_2d_agrid g x q) st f i j = st f i j).
  Proof.
    intros g x q st (H0 & H1 & H2). pose proof (agrid_good g x q) as G. split.
    - refine (fills_op _ _ _ _ _ _ _ _ _ _ _ _ _ (good_fills g (g_halo g) (g_halo g) (fun _ => centre) (fun _ => x) (fun f => f) scalar_cof _ _ _ mul q _ st everywhere G _)); try lia.
      + intros. apply mul_one.
      + intros e n i j HC IC _. now apply (agrid_complete g x q e n).
    - intros f i j N. apply untouched. intros a I. apply in_loop in I.
      destruct I as (a1 & b1 & _ & I). unfold sw_agrid, nw_agrid, se_agrid, ne_agrid in I.
      destruct x; cbn in I; destruct I as [[_ [<-|[]]]|[[_ [<-|[]]]|[[_ [<-|[]]]|[_ [<-|[]]]]]]; cbn; congruence.
  Qed.

  (** B grid scalars, direction i; the array has the size of the full domain. *)
  Theorem C41_bgrid_array_x : forall g q st, wide_enough g (g_halo g) ->
    fills g (g_halo g) (g_halo g) true vertex vertex as_is everywhere (st q) (st q)
      (exec mul (fill_2d_bgrid g (2 * g_halo g + g_j g + 1) true q) st q).
  Proof.
    intros g q st (H0 & H1 & H2).
    refine (fills_op _ _ _ _ _ _ _ _ _ _ _ _ _ (late_good_fills g (g_halo g) (g_halo g) (fun _ => vertex) (fun _ => true) (fun f => f) scalar_cof _ _ _ mul q _ st everywhere _ _ _)); try lia.
    - intros. apply mul_one.
    - apply bgrid_x_clear; lia.
    - intros e n i j HC IC _. apply (fun A B => bgrid_x_late g q A B e n); auto; lia.
    - intros i j a I [= _ <- <-]. destruct (bgrid_x_weak g q a I) as (_ & _ & X & _). exact X.
  Qed.

  (** B grid scalars, direction j, on ranks without the north-east corner.  Missing: that corner, see the refutation. *)
  Theorem C41_bgrid_array_y_partial : forall g q nj st, wide_enough g (g_halo g) -> has_corner g true true = false ->
    fills g (g_halo g) (g_halo g) false vertex vertex as_is everywhere (st q) (st q) (exec mul (fill_2d_bgrid g nj false q) st q).
  Proof.
    intros g q nj st (H0 & H1 & H2) N.
    assert (E : fill_2d_bgrid g nj false q = loop g (sw_bgrid g false q) (nw_bgrid g false q) (se_bgrid g false q) (fun _ _ => [])).
    { unfold fill_2d_bgrid, loop. apply flat_map_ext. intros [i j]. unfold ne_corner. unfold has_corner in N. rewrite andb_comm, N. reflexivity. }
    rewrite E. refine (fills_op _ _ _ _ _ _ _ _ _ _ _ _ _ (good_fills g (g_halo g) (g_halo g) (fun _ => vertex) (fun _ => false) (fun f => f) scalar_cof _ _ _ mul q _ st everywhere _ _)); try lia.
    - intros. apply mul_one.
    - apply loop_good; [apply sw_bgrid_good|apply nw_bgrid_good|apply se_bgrid_good|intros ? ? ? ? ? []].
    - intros e n i j HC IC _.
      pose proof (sw_bgrid_complete g false q i j) as A. pose proof (nw_bgrid_complete g false q i j) as B. pose proof (se_bgrid_complete g false q i j) as C.
      destruct e, n; [congruence|destruct (C IC) as (a & b & y & P & I & T)|destruct (B IC) as (a & b & y & P & I & T)|destruct (A IC) as (a & b & y & P & I & T)];
        exists y; (split; [|exact T]); apply in_loop; exists a, b; auto 10.
  Qed.

  (** Vectors (and pairs of lengths when mysign is 1): both components on the A grid, any halo width; on the D and C grid for
      three halo points.  Missing: other halo widths on the D and C grid, see the refutation. *)
  Theorem C41_agrid_vector : forall g st, wide_enough g (g_halo g) ->
    let st' := exec mul (fill_agrid g 0 1) st in
    fills g (g_halo g) (g_halo g) true centre centre (x_of_turned (mul Cms)) everywhere (st 1%nat) (st 0%nat) (st' 0%nat) /\
    fills g (g_halo g) (g_halo g) false centre centre (y_of_turned (mul Cms)) everywhere (st 0%nat) (st 1%nat) (st' 1%nat).
  Proof.
    intros g st (H0 & H1 & H2) st'. pose proof (agrid_v_good g) as G.
    split.
    - refine (fills_op _ _ _ _ _ _ _ _ _ _ _ _ _ (good_fills g (g_halo g) (g_halo g) (vec_sg centre centre) (vec_dr true) vec_sf vec_cof _ _ _ mul 0%nat _ st everywhere G _)); try lia.
      + intros e n [] v; cbn; auto.
      + intros e n i j HC IC _. apply (agrid_v_complete g 0 e n); auto.
    - refine (fills_op _ _ _ _ _ _ _ _ _ _ _ _ _ (good_fills g (g_halo g) (g_halo g) (vec_sg centre centre) (vec_dr true) vec_sf vec_cof _ _ _ mul 1%nat _ st everywhere G _)); try lia.
      + intros e n [] v; cbn; auto.
      + intros e n i j HC IC _. apply (agrid_v_complete g 1 e n); auto.
  Qed.
  Theorem C41_dgrid_array_partial : forall g st, wide_enough g (g_halo g) -> g_halo g = 3 ->
    let st' := exec mul (fill_dgrid g 0 1) st in
    fills g 3 3 true y_face x_face (x_of_turned (mul Cms)) everywhere (st 1%nat) (st 0%nat) (st' 0%nat) /\
    fills g 3 3 false x_face y_face (y_of_turned (mul Cms)) everywhere (st 0%nat) (st 1%nat) (st' 1%nat).
  Proof.
    intros g st (H0 & H1 & H2) T st'. pose proof (dgrid_good g T) as G. assert (C := dgrid_complete g). rewrite T in G, C, H0, H1, H2.
    split.
    - refine (fills_op _ _ _ _ _ _ _ _ _ _ _ _ _ (good_fills g 3 3 (vec_sg y_face x_face) (vec_dr true) vec_sf vec_cof _ _ _ mul 0%nat _ st everywhere G _)); try lia.
      + intros e n [] v; cbn; auto.
      + intros e n i j HC IC _. apply (C 0%nat e n); auto.
    - refine (fills_op _ _ _ _ _ _ _ _ _ _ _ _ _ (good_fills g 3 3 (vec_sg y_face x_face) (vec_dr true) vec_sf vec_cof _ _ _ mul 1%nat _ st everywhere G _)); try lia.
      + intros e n [] v; cbn; auto.
      + intros e n i j HC IC _. apply (C 1%nat e n); auto.
  Qed.
  Theorem C41_cgrid_array_partial : forall g st, wide_enough g (g_halo g) -> g_halo g = 3 ->
    let st' := exec mul (fill_cgrid g 0 1) st in
    fills g 3 3 false x_face y_face (x_of_turned (mul Cms)) everywhere (st 1%nat) (st 0%nat) (st' 0%nat) /\
    fills g 3 3 true y_face x_face (y_of_turned (mul Cms)) everywhere (st 0%nat) (st 1%nat) (st' 1%nat).
  Proof.
    intros g st (H0 & H1 & H2) T st'. pose proof (cgrid_good g T) as G. assert (C := cgrid_complete g). rewrite T in G, C, H0, H1, H2.
    split.
    - refine (fills_op _ _ _ _ _ _ _ _ _ _ _ _ _ (good_fills g 3 3 (vec_sg x_face y_face) (vec_dr false) vec_sf vec_cof _ _ _ mul 0%nat _ st everywhere G _)); try lia.
      + intros e n [] v; cbn; auto.
      + intros e n i j HC IC _. apply (C 0%nat e n); auto.
    - refine (fills_op _ _ _ _ _ _ _ _ _ _ _ _ _ (good_fills g 3 3 (vec_sg x_face y_face) (vec_dr false) vec_sf vec_cof _ _ _ mul 1%nat _ st everywhere G _)); try lia.
      + intros e n [] v; cbn; auto.
      + intros e n i j HC IC _. apply (C 1%nat e n); auto.
  Qed.

  (** ** stencils: blocks of three cells, whatever the window they run on *)

  (** copy_corners_xy: field 0 in, fields 1 and 2 out. *)
  Theorem C41_copy_corners : forall g a c b d st, wide_enough g 3 ->
    let w := window_at g a c b d in
    let st' := copy_corners_xy mul w 0 1 2 st in
    fills g 3 3 true centre centre as_is (within w) (st 0%nat) (st 0%nat) (st' 1%nat) /\
    fills g 3 3 false centre centre as_is (within w) (st 0%nat) (st 0%nat) (st' 2%nat) /\
    (forall i j, st' 0%nat i j = st 0%nat i j).
  Proof.
    intros g a c b d st (H0 & H1 & H2) w st'. unfold st', copy_corners_xy.
    set (st1 := fun f i j => if ((f =? 1)%nat || (f =? 2)%nat) && in_window w i j then st 0%nat i j else st f i j).
    set (l := copy_corners_regions 0 1 2).
    assert (K : stmts_ok 3 3 (fun _ => centre) (fun f => (f =? 1)%nat) (fun _ => 0%nat) scalar_cof l = true) by reflexivity.
    assert (K1 : covers 3 3 (fun _ => centre) 1 l = true) by reflexivity.
    assert (K2 : covers 3 3 (fun _ => centre) 2 l = true) by reflexivity.
    assert (S : forall f, (f = 1%nat \/ f = 2%nat) -> forall i j, within w i j -> st1 f i j = st 0%nat i j).
    { intros f F i j W. unfold st1. unfold within in W. rewrite W. destruct F as [-> | ->]; reflexivity. }
    split; [|split].
    - refine (fills_op _ _ _ _ _ _ _ _ _ _ _ _ _ (fills_ext _ _ _ _ _ _ _ _ _ _ _ _ _ _ _ (table_fills mul 3 3 _ _ _ _ g a c b d l 1%nat st1 K K1 _ _ _))); try lia.
      + intros. apply mul_one.
      + reflexivity.
      + apply S. now left.
    - refine (fills_op _ _ _ _ _ _ _ _ _ _ _ _ _ (fills_ext _ _ _ _ _ _ _ _ _ _ _ _ _ _ _ (table_fills mul 3 3 _ _ _ _ g a c b d l 2%nat st1 K K2 _ _ _))); try lia.
      + intros. apply mul_one.
      + reflexivity.
      + apply S. now right.
    - intros i j. rewrite untouched; [reflexivity|]. intros x I. unfold stencil_asgs in I. apply in_flat_map in I. destruct I as (s & Is & I).
      unfold stmt_asgs in I. apply in_flat_map in I. destruct I as (r & _ & I). destruct (in_window w _ _); [|destruct I]. destruct I as [<-|[]]. cbn [t_f].
      assert (T : forallb (fun s => negb (to s =? 0)%nat) l = true) by reflexivity. rewrite forallb_forall in T. specialize (T s Is).
      apply negb_true_iff, Nat.eqb_neq in T. exact T.
  Qed.

  (** FillCornersBGrid, in place *)
  Theorem C41_bgrid_stencil : forall g a c b d x st, wide_enough g 3 ->
    let w := window_at g a c b d in
    fills g 3 3 x vertex vertex as_is (within w) (st 0%nat) (st 0%nat) (fill_bgrid mul w x 0 st 0%nat).
  Proof.
    intros g a c b d x st (H0 & H1 & H2) w. unfold fill_bgrid. set (l := if x then bgrid_x_defn 0 0 else bgrid_y_defn 0 0).
    assert (K : stmts_ok 3 3 (fun _ => vertex) (fun f => x) (fun f => f) scalar_cof l = true) by (subst l; destruct x; reflexivity).
    assert (K1 : covers 3 3 (fun _ => vertex) 0 l = true) by (subst l; destruct x; reflexivity).
    refine (fills_op _ _ _ _ _ _ _ _ _ _ _ _ _ (table_fills mul 3 3 _ _ _ _ g a c b d l 0%nat st K K1 _ _ _)); try lia.
    intros. apply mul_one.
  Qed.

  (** fill_corners_dgrid_defn, in place (fields 0 and 1) and from other fields (2 and 3) *)
  Theorem C41_dgrid_stencil : forall g a c b d st, wide_enough g 3 ->
    let w := window_at g a c b d in
    (let st' := exec mul (stencil_asgs w (dgrid_defn 0 0 1 1)) st in
     fills g 3 3 true y_face x_face (x_of_turned (mul Cms)) (within w) (st 1%nat) (st 0%nat) (st' 0%nat) /\
     fills g 3 3 false x_face y_face (y_of_turned (mul Cms)) (within w) (st 0%nat) (st 1%nat) (st' 1%nat)) /\
    (let st' := exec mul (stencil_asgs w (dgrid_defn 2 0 3 1)) st in
     fills g 3 3 true y_face x_face (x_of_turned (mul Cms)) (within w) (st 3%nat) (st 0%nat) (st' 0%nat) /\
     fills g 3 3 false x_face y_face (y_of_turned (mul Cms)) (within w) (st 2%nat) (st 1%nat) (st' 1%nat)).
  Proof.
    intros g a c b d st (H0 & H1 & H2) w. split; cbv zeta.
    - set (l := dgrid_defn 0 0 1 1).
      assert (K : stmts_ok 3 3 (vec_sg y_face x_face) (vec_dr true) vec_sf vec_cof l = true) by reflexivity.
      assert (K0 : covers 3 3 (vec_sg y_face x_face) 0 l = true) by reflexivity.
      assert (K1 : covers 3 3 (vec_sg y_face x_face) 1 l = true) by reflexivity.
      split.
      + refine (fills_op _ _ _ _ _ _ _ _ _ _ _ _ _ (table_fills mul 3 3 _ _ _ _ g a c b d l 0%nat st K K0 _ _ _)); try lia. intros e n [] v; cbn; auto.
      + refine (fills_op _ _ _ _ _ _ _ _ _ _ _ _ _ (table_fills mul 3 3 _ _ _ _ g a c b d l 1%nat st K K1 _ _ _)); try lia. intros e n [] v; cbn; auto.
    - set (l := dgrid_defn 2 0 3 1).
      set (sg := fun f => match f with 0%nat | 2%nat => y_face | _ => x_face end).
      set (sf := fun f => match f with 0%nat => 3%nat | _ => 2%nat end).
      assert (K : stmts_ok 3 3 sg (vec_dr true) sf vec_cof l = true) by reflexivity.
      assert (K0 : covers 3 3 sg 0 l = true) by reflexivity.
      assert (K1 : covers 3 3 sg 1 l = true) by reflexivity.
      split.
      + refine (fills_op _ _ _ _ _ _ _ _ _ _ _ _ _ (table_fills mul 3 3 _ _ _ _ g a c b d l 0%nat st K K0 _ _ _)); try lia. intros e n [] v; cbn; auto.
      + refine (fills_op _ _ _ _ _ _ _ _ _ _ _ _ _ (table_fills mul 3 3 _ _ _ _ g a c b d l 1%nat st K K1 _ _ _)); try lia. intros e n [] v; cbn; auto.
  Qed.

  (** fill_corners_2cells_mult_x/y, 3cells: the first row (column) of the block, times the corner's multiplier *)
  Definition corner_coef (e n : bool) : coef := if e then if n then Cne else Cse else if n then Cnw else Csw.
  Theorem C41_cells_mult : forall g a c b d st, wide_enough g 3 ->
    let w := window_at g a c b d in
    let op := fun e n (_ : turn) v => mul (corner_coef e n) v in
    let run l := exec mul (stencil_asgs w l) st in
    fills g 2 1 true centre centre op (within w) (st 1%nat) (st 0%nat) (run (fill_2cells_mult_x 0 1) 0%nat) /\
    fills g 3 1 true centre centre op (within w) (st 1%nat) (st 0%nat) (run (fill_3cells_mult_x 0 1) 0%nat) /\
    fills g 1 2 false centre centre op (within w) (st 1%nat) (st 0%nat) (run (fill_2cells_mult_y 0 1) 0%nat) /\
    fills g 1 3 false centre centre op (within w) (st 1%nat) (st 0%nat) (run (fill_3cells_mult_y 0 1) 0%nat).
  Proof.
    intros g a c b d st (H0 & H1 & H2) w op run.
    set (sg := fun _ : nat => centre). set (sf := fun _ : nat => 1%nat). set (cof := fun (_ : nat) e n (_ : turn) => corner_coef e n).
    split; [|split; [|split]].
    - refine (table_fills mul 2 1 sg (fun _ => true) sf cof g a c b d _ 0%nat st _ _ _ _ _); try reflexivity; lia.
    - refine (table_fills mul 3 1 sg (fun _ => true) sf cof g a c b d _ 0%nat st _ _ _ _ _); try reflexivity; lia.
    - refine (table_fills mul 1 2 sg (fun _ => false) sf cof g a c b d _ 0%nat st _ _ _ _ _); try reflexivity; lia.
    - refine (table_fills mul 1 3 sg (fun _ => false) sf cof g a c b d _ 0%nat st _ _ _ _ _); try reflexivity; lia.
  Qed.

  (** ** agreement *)
  Lemma full_window_at g ii ij : full_window g ii ij =
    Some (window_at g 0 (2 * g_halo g + g_i g + one ii) 0 (2 * g_halo g + g_j g + one ij)).
  Proof.
    unfold full_window, get_origin_domain. cbn [origin_from_dims domain_from_dims add_halos g_origin g_domain].
    cbn [bind]. f_equal. f_equal; lia.
  Qed.
  Lemma fills_halo g x s s' (op : bool -> bool -> turn -> V -> V) src old new w :
    full_window g (negb (ci s)) (negb (cj s)) = Some w -> g_halo g <= 3 ->
    fills g 3 3 x s s' op (within w) src old new -> fills g (g_halo g) (g_halo g) x s s' op (within w) src old new.
  Proof.
    intros W L [A B]. rewrite full_window_at in W. apply some_inj in W. subst w.
    assert (E : forall e n i j, within (window_at g 0 (2 * g_halo g + g_i g + one (negb (ci s))) 0 (2 * g_halo g + g_j g + one (negb (cj s)))) i j ->
      in_corner g 3 3 s e n i j -> in_corner g (g_halo g) (g_halo g) s e n i j).
    { intros e n i j W. unfold within in W. apply in_window_spec in W.
      destruct (window_bounds g 0 (2 * g_halo g + g_i g + one (negb (ci s))) 0 (2 * g_halo g + g_j g + one (negb (cj s)))) as (E1 & E2 & E3 & E4 & _).
      cbv zeta in *. rewrite E1, E2, E3, E4 in W. clear E1 E2 E3 E4. unfold in_corner, beyond, rel, corner_pos, half, one in *. cbn [fst snd].
      destruct e, n, (ci s), (cj s); cbn [negb] in W; lia. }
    split.
    - intros e n i j HC [I1 I2] IN. apply A; auto. unfold in_corner, beyond in *. destruct e, n; lia.
    - intros i j IN N. apply B; auto. intros e n HC IC. apply (N e n HC). now apply E.
  Qed.

  (** A grid: the array fill and copy_corners_xy, direction by direction, for up to three halo points, at every point. *)
  Theorem C41_agree_agrid : forall g w st, full_window g false false = Some w -> wide_enough g 3 -> 0 <= g_halo g <= 3 ->
    forall i j, in_window w i j = true ->
    exec mul (fill_2d_agrid g true 0) st 0%nat i j = copy_corners_xy mul w 0 1 2 st 1%nat i j /\
    exec mul (fill_2d_agrid g false 0) st 0%nat i j = copy_corners_xy mul w 0 1 2 st 2%nat i j.
  Proof.
    intros g w st W (H0 & H1 & H2) H3 i j IN.
    assert (We : wide_enough g (g_halo g)) by (unfold wide_enough; lia).
    assert (W' := W). rewrite full_window_at in W'. apply some_inj in W'.
    destruct (C41_copy_corners g 0 (2 * g_halo g + g_i g + one false) 0 (2 * g_halo g + g_j g + one false) st) as (F1 & F2 & _); [unfold wide_enough; lia|].
    cbv zeta in F1, F2. rewrite W' in F1, F2.
    split.
    - refine (fills_unique _ _ _ _ _ _ _ (within w) _ _ _ _ (fills_inside _ _ _ _ _ _ _ everywhere _ _ _ _ _ (proj1 (C41_agrid_array g true 0%nat st We))) (fills_halo g true centre centre _ _ _ _ w W _ F1) i j IN); [reflexivity|lia].
    - refine (fills_unique _ _ _ _ _ _ _ (within w) _ _ _ _ (fills_inside _ _ _ _ _ _ _ everywhere _ _ _ _ _ (proj1 (C41_agrid_array g false 0%nat st We))) (fills_halo g false centre centre _ _ _ _ w W _ F2) i j IN); [reflexivity|lia].
  Qed.

  (** B grid, direction i: the array fill and FillCornersBGrid.  Direction j: on ranks without the north-east corner. *)
  Theorem C41_agree_bgrid_partial : forall g w st, full_window g true true = Some w -> wide_enough g 3 -> 0 <= g_halo g <= 3 ->
    forall i j, in_window w i j = true ->
    exec mul (fill_2d_bgrid g (2 * g_halo g + g_j g + 1) true 0) st 0%nat i j = fill_bgrid mul w true 0 st 0%nat i j /\
    (has_corner g true true = false ->
     exec mul (fill_2d_bgrid g (2 * g_halo g + g_j g + 1) false 0) st 0%nat i j = fill_bgrid mul w false 0 st 0%nat i j).
  Proof.
    intros g w st W (H0 & H1 & H2) H3 i j IN.
    assert (We : wide_enough g (g_halo g)) by (unfold wide_enough; lia).
    assert (W' := W). rewrite full_window_at in W'. apply some_inj in W'.
    assert (F := fun x => C41_bgrid_stencil g 0 (2 * g_halo g + g_i g + one true) 0 (2 * g_halo g + g_j g + one true) x st ltac:(unfold wide_enough; lia)).
    cbv zeta in F. rewrite W' in F.
    split.
    - refine (fills_unique _ _ _ _ _ _ _ (within w) _ _ _ _ (fills_inside _ _ _ _ _ _ _ everywhere _ _ _ _ _ (C41_bgrid_array_x g 0%nat st We)) (fills_halo g true vertex vertex _ _ _ _ w W _ (F true)) i j IN); [reflexivity|lia].
    - intros N. refine (fills_unique _ _ _ _ _ _ _ (within w) _ _ _ _ (fills_inside _ _ _ _ _ _ _ everywhere _ _ _ _ _ (C41_bgrid_array_y_partial g 0%nat _ st We N)) (fills_halo g false vertex vertex _ _ _ _ w W _ (F false)) i j IN); [reflexivity|lia].
  Qed.

  (** D grid vectors: the array fill and the stencil, for three halo points. *)
  Theorem C41_agree_dgrid_partial : forall g a c b d st, wide_enough g 3 -> g_halo g = 3 ->
    let w := window_at g a c b d in
    forall f i j, (f < 2)%nat -> in_window w i j = true ->
    exec mul (fill_dgrid g 0 1) st f i j = exec mul (stencil_asgs w (dgrid_defn 0 0 1 1)) st f i j.
  Proof.
    intros g a c b d st We H w f i j F IN.
    destruct (C41_dgrid_array_partial g st ltac:(rewrite H; exact We) H) as [A0 A1]. destruct (C41_dgrid_stencil g a c b d st We) as [[B0 B1] _]. cbv zeta in *.
    destruct f as [|[|]]; [| |lia].
    - refine (fills_unique _ _ _ _ _ _ _ (within w) _ _ _ _ (fills_inside _ _ _ _ _ _ _ everywhere _ _ _ _ _ A0) B0 i j IN). reflexivity.
    - refine (fills_unique _ _ _ _ _ _ _ (within w) _ _ _ _ (fills_inside _ _ _ _ _ _ _ everywhere _ _ _ _ _ A1) B1 i j IN). reflexivity.
  Qed.
End Props.
Print Assumptions C41_agrid_array.
Print Assumptions C41_bgrid_array_x.
Print Assumptions C41_bgrid_array_y_partial.
Print Assumptions C41_agrid_vector.
Print Assumptions C41_dgrid_array_partial.
Print Assumptions C41_cgrid_array_partial.
Print Assumptions C41_copy_corners.
Print Assumptions C41_bgrid_stencil.
Print Assumptions C41_dgrid_stencil.
Print Assumptions C41_cells_mult.
Print Assumptions C41_agree_agrid.
Print Assumptions C41_agree_bgrid_partial.
Print Assumptions C41_agree_dgrid_partial.

(** a tile with all four corners, five by four cells, three halo points; each point holds its own position *)
Definition ex_grid : grid := mkGrid 5 4 1 3 0 true true true true.
Definition ex_st : @fields (nat * Z * Z) := fun f i j => (f, i, j).
Definition plain (c : coef) (v : nat * Z * Z) := v.
Example C41_case : wide_enough ex_grid (g_halo ex_grid) /\ g_halo ex_grid = 3 /\
  exec plain (fill_2d_agrid ex_grid true 0) ex_st 0%nat 1 2 = (0%nat, 2, 4) /\
  (exists w, full_window ex_grid false false = Some w /\ in_window w 1 2 = true /\ copy_corners_xy plain w 0 1 2 ex_st 1%nat 1 2 = (0%nat, 2, 4)) /\
  (exists w, full_window ex_grid true true = Some w /\ fill_bgrid plain w true 0 ex_st 0%nat 10 8 = (0%nat, 9, 5)) /\
  exec plain (fill_2d_bgrid ex_grid 11 true 0) ex_st 0%nat 10 8 = (0%nat, 9, 5) /\
  exec plain (fill_dgrid ex_grid 0 1) ex_st 0%nat 2 2 = (1%nat, 2, 3).
Proof.
  split; [cbv; intuition discriminate|]. split; [reflexivity|]. split; [vm_compute; reflexivity|]. split; [|split; [|split]].
  - eexists. split; [reflexivity|]. split; vm_compute; reflexivity.
  - eexists. split; [reflexivity|]. vm_compute. reflexivity.
  - vm_compute. reflexivity.
  - vm_compute. reflexivity.
Qed.
Example C41_case_no_ne : has_corner (mkGrid 5 4 1 3 0 true false true true) true true = false.
Proof. reflexivity. Qed.

(** Finding: on the B grid, direction j, north-east corner, the array fill mirrors instead of turning: it disagrees with the stencil
    (and with the other three corners' convention). *)
Theorem C41_bgrid_y_refuted : exists g w i j, wide_enough g 3 /\ g_halo g = 3 /\ full_window g true true = Some w /\ in_window w i j = true /\
  exec plain (fill_2d_bgrid g (2 * g_halo g + g_j g + 1) false 0) ex_st 0%nat i j <> fill_bgrid plain w false 0 ex_st 0%nat i j.
Proof.
  exists ex_grid. eexists. exists 9, 9. split; [cbv; intuition discriminate|]. split; [reflexivity|]. split; [reflexivity|].
  split; [reflexivity|]. vm_compute. discriminate.
Qed.
Print Assumptions C41_bgrid_y_refuted.

(** Finding: the D and C grid array fills index with literal offsets for three halo points; with two they take other points than the stencil,
    inside the block both fill. *)
Theorem C41_dgrid_refuted : exists g w i j, wide_enough g 3 /\ g_halo g = 2 /\ full_window g true true = Some w /\ in_window w i j = true /\
  exec plain (fill_dgrid g 0 1) ex_st 0%nat i j <> exec plain (stencil_asgs w (dgrid_defn 0 0 1 1)) ex_st 0%nat i j /\
  (exists e n, has_corner g e n = true /\ in_corner g (g_halo g) (g_halo g) y_face e n i j).
Proof.
  exists (mkGrid 5 4 1 2 0 true true true true). eexists. exists 1, 1. split; [cbv; intuition discriminate|]. split; [reflexivity|]. split; [reflexivity|].
  split; [reflexivity|]. split; [vm_compute; discriminate|]. exists false, false. split; [reflexivity|]. cbv. intuition discriminate.
Qed.
Print Assumptions C41_dgrid_refuted.
Theorem C41_cgrid_refuted : exists g i j, wide_enough g 3 /\ g_halo g = 2 /\
  ~ fills g (g_halo g) (g_halo g) false x_face y_face (x_of_turned (plain Cms)) everywhere (ex_st 1%nat) (ex_st 0%nat) (exec plain (fill_cgrid g 0 1) ex_st 0%nat) /\
  in_corner g (g_halo g) (g_halo g) x_face false false i j.
Proof.
  exists (mkGrid 5 4 1 2 0 true true true true), 1, 1. split; [cbv; intuition discriminate|]. split; [reflexivity|].
  assert (IC : in_corner (mkGrid 5 4 1 2 0 true true true true) 2 2 x_face false false 1 1) by (cbv; intuition discriminate).
  split; [|exact IC]. intros [A _]. destruct (A false false 1 1 eq_refl IC I) as (r & i' & j' & [F B] & E).
  vm_compute in E. unfold rel, corner_pos in F. cbn in F. assert (F1 := f_equal fst F). assert (F2 := f_equal snd F).
  unfold rel, corner_pos, beside in B. cbn in B. unfold turned in F1, F2. destruct r; cbn in F1, F2; injection E as <- <-; lia.
Qed.
Print Assumptions C41_cgrid_refuted.

(** Finding: with more than three halo points the stencils leave part of the corner blocks which the array functions fill. *)
Theorem C41_wide_halo_refuted : exists g w i j, wide_enough g (g_halo g) /\ full_window g false false = Some w /\ in_window w i j = true /\
  exec plain (fill_2d_agrid g true 0) ex_st 0%nat i j <> copy_corners_xy plain w 0 1 2 ex_st 1%nat i j.
Proof.
  exists (mkGrid 5 4 1 4 0 true true true true). eexists. exists 0, 0. split; [cbv; intuition discriminate|]. split; [reflexivity|].
  split; [reflexivity|]. vm_compute. discriminate.
Qed.
Print Assumptions C41_wide_halo_refuted.
