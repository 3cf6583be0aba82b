(** Proofs about index tuples, boundary regions and rotations. *)
From Verif Require Import Base PartModel PartSpec DecompModel DecompSpec HaloModel HaloSpec.
Open Scope Z_scope.

(** ** put_xy / coord algebra *)
Section Lists.
  Context {T : Type}.
  Implicit Types (l : list T) (dims : list dim).

  Lemma put_xy_length dims l x y : length (put_xy dims l x y) = length l.
  Proof. revert l. induction dims as [|m dims IH]; intros [|v l]; cbn; auto. Qed.

  Lemma put_xy_put dims l x y x' y' : put_xy dims (put_xy dims l x y) x' y' = put_xy dims l x' y'.
  Proof.
    revert l. induction dims as [|m dims IH]; intros [|v l]; cbn; auto. rewrite IH.
    destruct (on_axis AI m), (on_axis AJ m); reflexivity.
  Qed.

  Lemma axis_excl m : on_axis AI m = true -> on_axis AJ m = true -> False.
  Proof. destruct m as [|[] ?]; cbn; congruence. Qed.

  Lemma count_cons a m dims : count_axis a (m :: dims) = ((if on_axis a m then 1 else 0) + count_axis a dims)%nat.
  Proof. unfold count_axis. cbn. destruct (on_axis a m); reflexivity. Qed.

  Lemma coord_put_x dims l x y d : count_axis AI dims <> 0%nat -> length l = length dims ->
    coord AI dims (put_xy dims l x y) d = x.
  Proof.
    revert l. induction dims as [|m dims IH]; intros [|v l]; try discriminate; [cbn; congruence|].
    rewrite count_cons. cbn [length put_xy coord]. intros H E. destruct (on_axis AI m); [reflexivity|]. apply IH; auto.
  Qed.
  Lemma coord_put_y dims l x y d : count_axis AJ dims <> 0%nat -> length l = length dims ->
    coord AJ dims (put_xy dims l x y) d = y.
  Proof.
    revert l. induction dims as [|m dims IH]; intros [|v l]; try discriminate; [cbn; congruence|].
    rewrite count_cons. cbn [length put_xy coord]. intros H E.
    destruct (on_axis AJ m) eqn:J; [|apply IH; auto].
    destruct (on_axis AI m) eqn:I; [exfalso; eapply axis_excl; eauto|reflexivity].
  Qed.

  Lemma put_none dims l x y : count_axis AI dims = 0%nat -> count_axis AJ dims = 0%nat -> put_xy dims l x y = l.
  Proof.
    revert l. induction dims as [|m dims IH]; intros [|v l]; cbn [put_xy]; auto.
    rewrite !count_cons. intros H H'. destruct (on_axis AI m), (on_axis AJ m); try discriminate.
    f_equal. apply IH; auto.
  Qed.
  Lemma put_coord_y dims l x d : count_axis AI dims = 0%nat -> count_axis AJ dims = 1%nat ->
    put_xy dims l x (coord AJ dims l d) = l.
  Proof.
    revert l. induction dims as [|m dims IH]; intros [|v l]; cbn [put_xy coord]; auto.
    rewrite !count_cons. intros H H'. destruct (on_axis AI m), (on_axis AJ m); try discriminate; f_equal.
    - apply put_none; auto; lia.
    - apply IH; auto.
  Qed.
  Lemma put_coord_x dims l y d : count_axis AI dims = 1%nat -> count_axis AJ dims = 0%nat ->
    put_xy dims l (coord AI dims l d) y = l.
  Proof.
    revert l. induction dims as [|m dims IH]; intros [|v l]; cbn [put_xy coord]; auto.
    rewrite !count_cons. intros H H'. destruct (on_axis AI m), (on_axis AJ m); try discriminate; f_equal.
    - apply put_none; auto; lia.
    - apply IH; auto.
  Qed.
  Lemma put_coord dims l d d' : plane dims -> put_xy dims l (coord AI dims l d) (coord AJ dims l d') = l.
  Proof.
    unfold plane. revert l. induction dims as [|m dims IH]; intros [|v l]; cbn [put_xy coord]; auto.
    rewrite !count_cons. intros [H' H]. destruct (on_axis AI m) eqn:EI, (on_axis AJ m) eqn:EJ; f_equal.
    - exfalso; eapply axis_excl; eauto.
    - apply put_coord_y; lia.
    - apply put_coord_x; lia.
    - apply IH; split; auto.
  Qed.
End Lists.

Lemma put_map {T U} (f : T -> U) dims l x y : map f (put_xy dims l x y) = put_xy dims (map f l) (f x) (f y).
Proof.
  revert l. induction dims as [|m dims IH]; intros [|v l]; cbn; auto. rewrite IH.
  destruct (on_axis AI m), (on_axis AJ m); reflexivity.
Qed.
Lemma coord_map {T U} (f : T -> U) a dims l d : coord a dims (map f l) (f d) = f (coord a dims l d).
Proof. revert l. induction dims as [|m dims IH]; intros [|v l]; cbn; auto. destruct (on_axis a m); auto. Qed.

Lemma nth_map2 {T U V} (f : T * U -> V) (l : list T) (l' : list U) m :
  nth_error (map f (combine l l')) m = match nth_error l m, nth_error l' m with Some a, Some b => Some (f (a, b)) | _, _ => None end.
Proof. revert l l'. induction m as [|m IH]; intros [|a l] [|b l']; cbn; auto. destruct (nth_error l m); auto. Qed.

(** ** numpy positions *)
Lemma last_pos_spec p dims i acc :
  last_pos p dims i acc =
  match last_pos p dims 0 None with Some k => Some (i + k)%nat | None => acc end.
Proof.
  revert i acc. induction dims as [|m dims IH]; intros i acc; cbn [last_pos]; [reflexivity|].
  rewrite IH, (IH 1%nat). destruct (last_pos p dims 0 None) as [k|]; [f_equal; lia|].
  destruct (p m); [f_equal; lia|reflexivity].
Qed.

Lemma last_pos_none p dims : Forall (fun m => p m = false) dims -> last_pos p dims 0 None = None.
Proof.
  induction 1 as [|m dims H _ IH]; [reflexivity|]. cbn [last_pos]. rewrite last_pos_spec, IH, H. reflexivity.
Qed.

Lemma count_zero a dims : count_axis a dims = 0%nat -> Forall (fun m => on_axis a m = false) dims.
Proof.
  induction dims as [|m dims IH]; [constructor|]. rewrite count_cons. destruct (on_axis a m) eqn:E; [discriminate|].
  constructor; auto.
Qed.

Definition pred_of (a : axis) : dim -> bool := match a with AI => is_i_dim | _ => is_j_dim end.
Lemma pred_of_spec a m : a <> AV -> pred_of a m = on_axis a m.
Proof. destruct a; [| |congruence]; destruct m as [|[] ?]; reflexivity. Qed.

Lemma position a dims : a <> AV -> count_axis a dims = 1%nat ->
  exists k, last_pos (pred_of a) dims 0 None = Some k /\ (k < length dims)%nat /\
    (exists d, nth_error dims k = Some d /\ on_axis a d = true) /\
    (forall j d, nth_error dims j = Some d -> on_axis a d = true -> j = k) /\
    (forall T (l : list T) d, length l = length dims -> nth k l d = coord a dims l d).
Proof.
  intros Ha. induction dims as [|m dims IH]; [discriminate|]. rewrite count_cons.
  destruct (on_axis a m) eqn:E.
  - intros H. assert (H0 : count_axis a dims = 0%nat) by lia. clear H IH.
    exists 0%nat. repeat split.
    + cbn [last_pos]. rewrite last_pos_spec, last_pos_none.
      * rewrite pred_of_spec, E by auto. reflexivity.
      * eapply Forall_impl; [|apply count_zero, H0]. intros d Hd. cbn beta. rewrite pred_of_spec; auto.
    + cbn; lia.
    + exists m; auto.
    + intros [|j] d Hj Hd; [reflexivity|]. cbn in Hj. apply nth_error_In in Hj.
      pose proof (count_zero _ _ H0) as F. rewrite Forall_forall in F. specialize (F _ Hj). congruence.
    + intros T [|v l] d; [discriminate|]. cbn. rewrite E. reflexivity.
  - intros H. destruct (IH H) as (k & A1 & A2 & (d & A3 & A3') & A4 & A5). exists (S k). repeat split.
    + cbn [last_pos]. rewrite last_pos_spec, A1. reflexivity.
    + cbn; lia.
    + exists d; auto.
    + intros [|j] d' Hj Hd; cbn in Hj; [congruence|]. f_equal. eauto.
    + intros T [|v l] d'; [discriminate|]. cbn. rewrite E. intros; apply A5; lia.
Qed.

Lemma upd_length l k v : length (upd l k v) = length l.
Proof. revert k. induction l as [|a l IH]; intros [|k]; cbn; auto. Qed.
Lemma nth_upd l k v j d : (k < length l)%nat -> nth j (upd l k v) d = if (j =? k)%nat then v else nth j l d.
Proof.
  revert k j. induction l as [|a l IH]; intros [|k] [|j] H; cbn in *; try lia; auto. rewrite IH by lia. reflexivity.
Qed.

Lemma upd_put dims (p : list Z) kx ky x y : length p = length dims -> kx <> ky ->
  (forall j d, nth_error dims j = Some d -> (on_axis AI d = true <-> j = kx)) ->
  (forall j d, nth_error dims j = Some d -> (on_axis AJ d = true <-> j = ky)) ->
  upd (upd p kx x) ky y = put_xy dims p x y.
Proof.
  intros L N HI HJ. apply nth_ext with 0 0; [now rewrite !upd_length, put_xy_length|].
  rewrite !upd_length. intros j Hj.
  assert (G : nth j (put_xy dims p x y) 0 =
    match nth_error dims j with Some d => if on_axis AI d then x else if on_axis AJ d then y else nth j p 0 | None => nth j p 0 end).
  { clear -L. revert p L j. induction dims as [|m dims IH]; intros [|v p] L [|j]; cbn in *; try lia; auto. }
  rewrite G. destruct (nth_error dims j) as [d|] eqn:E; [|apply nth_error_None in E; lia].
  specialize (HI _ _ E). specialize (HJ _ _ E).
  assert (Hx : forall k v (q : list Z), length q = length p -> nth j (upd q k v) 0 = if (j =? k)%nat then v else nth j q 0).
  { intros k v q Lq. destruct (Nat.lt_ge_cases k (length q)).
    - apply nth_upd; auto.
    - destruct (Nat.eqb_spec j k); [lia|]. f_equal. clear -H. revert k H. induction q as [|a q IH]; intros [|k] H; cbn in *; auto; try lia.
      f_equal. apply IH. lia. }
  rewrite Hx by now rewrite upd_length. rewrite Hx by auto.
  destruct (Nat.eqb_spec j ky), (Nat.eqb_spec j kx), (on_axis AI d), (on_axis AJ d); auto; try (exfalso; tauto); lia.
Qed.

Lemma upd_comm l a b x y : a <> b -> upd (upd l a x) b y = upd (upd l b y) a x.
Proof.
  revert a b. induction l as [|v l IH]; intros [|a] [|b] H; cbn; auto; try congruence. f_equal. apply IH. congruence.
Qed.

Lemma reverse_put dims (s p : list Z) : plane dims -> length s = length dims -> length p = length dims ->
  reverse_horizontal dims s p = put_xy dims p (cx dims s - 1 - cx dims p) (cy dims s - 1 - cy dims p).
Proof.
  unfold cx, cy. intros P.
  assert (G : forall X Y dims s p, (count_axis AI dims <= 1)%nat -> (count_axis AJ dims <= 1)%nat ->
     length s = length dims -> length p = length dims ->
     (count_axis AI dims = 1%nat -> X = coord AI dims s 0 - 1 - coord AI dims p 0) ->
     (count_axis AJ dims = 1%nat -> Y = coord AJ dims s 0 - 1 - coord AJ dims p 0) ->
     reverse_horizontal dims s p = put_xy dims p X Y).
  { clear. intros X Y dims. induction dims as [|m dims IH]; intros [|n s] [|v p] CI CJ Ls Lp HX HY; try discriminate; [reflexivity|].
    cbn in Ls, Lp. rewrite !count_cons in *. cbn [reverse_horizontal put_xy coord] in *.
    assert (Ei : is_i_dim m = on_axis AI m) by (destruct m as [|[] ?]; reflexivity).
    assert (Ej : is_j_dim m = on_axis AJ m) by (destruct m as [|[] ?]; reflexivity).
    rewrite Ei, Ej. destruct (on_axis AI m) eqn:I, (on_axis AJ m) eqn:J; cbn [orb].
    - exfalso; eapply axis_excl; eauto.
    - f_equal; [symmetry; apply HX; lia|]. apply IH; auto; lia.
    - f_equal; [symmetry; apply HY; lia|]. apply IH; auto; lia.
    - f_equal. apply IH; auto. }
  destruct P as [PJ PI]. intros Ls Lp. apply G; auto; lia.
Qed.

(** Rotation in coordinates. *)
Definition rot_shape (dims : list dim) (s : list Z) (k : Z) : list Z :=
  if Z.even k then s else put_xy dims s (cy dims s) (cx dims s).
Definition rot_src (dims : list dim) (s : list Z) (k : Z) (p : list Z) : list Z :=
  match k with
  | 0 => p
  | 1 => put_xy dims p (cx dims s - 1 - cy dims p) (cx dims p)
  | 2 => put_xy dims p (cx dims s - 1 - cx dims p) (cy dims s - 1 - cy dims p)
  | _ => put_xy dims p (cy dims p) (cy dims s - 1 - cx dims p)
  end.

Lemma rotate_coords {A} dims s (f : index -> A) n : plane dims -> length s = length dims ->
  fst (rotate_scalar (s, f) dims n) = rot_shape dims s (n mod 4) /\
  forall p, length p = length dims -> snd (rotate_scalar (s, f) dims n) p = f (rot_src dims s (n mod 4) p).
Proof.
  intros P Ls. destruct P as [PJ PI].
  destruct (position AI dims ltac:(discriminate) PI) as (kx & X1 & X2 & (dX & X3 & X3') & X4 & X5).
  destruct (position AJ dims ltac:(discriminate) PJ) as (ky & Y1 & Y2 & (dY & Y3 & Y3') & Y4 & Y5).
  assert (N : kx <> ky). { intros ->. rewrite X3 in Y3. injection Y3 as ->. eapply axis_excl; eauto. }
  assert (HI : forall j d, nth_error dims j = Some d -> (on_axis AI d = true <-> j = kx)).
  { intros j d E. split; [apply X4; auto|]. intros ->. congruence. }
  assert (HJ : forall j d, nth_error dims j = Some d -> (on_axis AJ d = true <-> j = ky)).
  { intros j d E. split; [apply Y4; auto|]. intros ->. congruence. }
  assert (UP : forall p x y, length p = length dims -> upd (upd p kx x) ky y = put_xy dims p x y)
    by (intros; apply upd_put; auto).
  assert (UP' : forall p x y, length p = length dims -> upd (upd p ky y) kx x = put_xy dims p x y)
    by (intros; rewrite upd_comm by auto; apply upd_put; auto).
  unfold rotate_scalar, x_dim, y_dim.
  change (last_pos is_i_dim dims 0 None) with (last_pos (pred_of AI) dims 0 None).
  change (last_pos is_j_dim dims 0 None) with (last_pos (pred_of AJ) dims 0 None).
  rewrite X1, Y1.
  assert (R : 0 <= n mod 4 < 4) by (apply Z.mod_pos_bound; lia).
  unfold rot_shape, rot_src, cx, cy.
  assert (C : n mod 4 = 0 \/ n mod 4 = 1 \/ n mod 4 = 2 \/ n mod 4 = 3) by lia.
  destruct C as [E|[E|[E|E]]]; rewrite E; cbn -[upd nth put_xy reverse_horizontal coord].
  - split; auto.
  - split.
    + rewrite UP' by auto. rewrite X5, Y5 by auto. reflexivity.
    + intros p Lp. rewrite UP' by auto. now rewrite !X5, !Y5 by auto.
  - split; [reflexivity|]. intros p Lp. f_equal. apply reverse_put; auto; split; auto.
  - split.
    + rewrite UP by auto. rewrite X5, Y5 by auto. reflexivity.
    + intros p Lp. rewrite UP by auto. now rewrite !X5, !Y5 by auto.
Qed.

(** ** Boundary regions in coordinates *)
Definition range1 (d o e ov n : Z) (interior : bool) : Z * Z :=
  if d =? 0 then (o, o + e)
  else if d =? -1 then (if interior then (o + ov, o + ov + n) else (o - n, o))
  else (if interior then (o + e - ov - n, o + e - ov) else (o + e, o + e + n)).

Lemma slice1_spec d o e s b n interior sl :
  boundary_slice1 d o e s b n interior = Some sl <->
  sl = range1 (along b d) o e (b2z (is_iface d)) n interior /\ 0 <= fst sl /\ snd sl <= s.
Proof.
  unfold boundary_slice1, range1, along, is_iface, b2z.
  destruct d as [|[] []], b, interior; cbn -[Z.ltb]; 
  match goal with |- context [?a <? 0] => destruct (Z.ltb_spec a 0) end;
  try match goal with |- context [s <? ?a] => destruct (Z.ltb_spec s a) end;
  (split; [intros H'; try discriminate H'; injection H' as <-; cbn; repeat split; lia
          |intros (-> & A & B); cbn in A, B; try lia; reflexivity]).
Qed.

Definition region (s : spec) (b : btype) (interior : bool) : list (Z * Z) :=
  let D := sp_dims s in
  put_xy D (compute_domain s)
    (range1 (dx b) (cx D (sp_origin s)) (cx D (sp_extent s)) (b2z (iface_x D)) (sp_n s) interior)
    (range1 (dy b) (cy D (sp_origin s)) (cy D (sp_extent s)) (b2z (iface_y D)) (sp_n s) interior).

Lemma slice_list dims o e h b n interior sl : length o = length dims -> length e = length dims -> length h = length dims ->
  boundary_slice dims o e h b n interior = Some sl <->
  sl = map (fun dx => range1 (along b (fst dx)) (fst (snd dx)) (snd (snd dx)) (b2z (is_iface (fst dx))) n interior)
           (combine dims (combine o e)) /\ Forall2 (fun r s => 0 <= fst r /\ snd r <= s) sl h.
Proof.
  revert o e h sl. induction dims as [|d dims IH]; intros [|x o] [|y e] [|z h] sl Lo Le Lh; try discriminate.
  - cbn. split; [intros [= <-]|intros [-> _]]; auto.
  - cbn in Lo, Le, Lh. cbn [boundary_slice combine map fst snd].
    destruct (boundary_slice1 d x y z b n interior) as [r|] eqn:E; cbn [bind].
    + destruct (boundary_slice dims o e h b n interior) as [rs|] eqn:E'; cbn [bind].
      * apply slice1_spec in E. apply IH in E'; auto. destruct E as (-> & A & B), E' as (-> & F).
        split; [intros [= <-]; split; auto|intros [-> _]; reflexivity].
      * split; [discriminate|]. intros [-> F]. inversion F as [|? ? ? ? ? F']; subst. exfalso.
        assert (K : None = Some (map (fun dx => range1 (along b (fst dx)) (fst (snd dx)) (snd (snd dx)) (b2z (is_iface (fst dx))) n interior) (combine dims (combine o e)))).
        { rewrite <- E'. apply IH; auto. } discriminate K.
    + split; [discriminate|]. intros [-> F]. inversion F as [|? ? ? ? F0 F']; subst. exfalso.
      assert (K : None = Some (range1 (along b d) x y (b2z (is_iface d)) n interior)).
      { rewrite <- E. apply slice1_spec; auto. } discriminate K.
Qed.

Lemma region_list s b interior : plane (sp_dims s) -> length (sp_origin s) = length (sp_dims s) -> length (sp_extent s) = length (sp_dims s) ->
  map (fun dx => range1 (along b (fst dx)) (fst (snd dx)) (snd (snd dx)) (b2z (is_iface (fst dx))) (sp_n s) interior)
      (combine (sp_dims s) (combine (sp_origin s) (sp_extent s))) = region s b interior.
Proof.
  unfold region, compute_domain, box, iface_x, iface_y, cx, cy. destruct s as [dims o e h n]; cbn [sp_dims sp_origin sp_extent sp_n].
  intros [PJ PI] Lo Le.
  assert (G : forall X Y dims o e, (count_axis AI dims <= 1)%nat -> (count_axis AJ dims <= 1)%nat ->
     length o = length dims -> length e = length dims ->
     (count_axis AI dims = 1%nat -> X = range1 (dx b) (coord AI dims o 0) (coord AI dims e 0) (b2z (is_iface (coord AI dims dims TILE))) n interior) ->
     (count_axis AJ dims = 1%nat -> Y = range1 (dy b) (coord AJ dims o 0) (coord AJ dims e 0) (b2z (is_iface (coord AJ dims dims TILE))) n interior) ->
     map (fun dx => range1 (along b (fst dx)) (fst (snd dx)) (snd (snd dx)) (b2z (is_iface (fst dx))) n interior) (combine dims (combine o e))
     = put_xy dims (map (fun oe => (fst oe, fst oe + snd oe)) (combine o e)) X Y).
  { clear. intros X Y dims. induction dims as [|m dims IH]; intros [|x o] [|y e] CI CJ Lo Le HX HY; try discriminate; [reflexivity|].
    cbn in Lo, Le. rewrite !count_cons in *. cbn [coord] in HX, HY. cbn [combine map fst snd put_xy].
    destruct (on_axis AI m) eqn:I, (on_axis AJ m) eqn:J.
    - exfalso; eapply axis_excl; eauto.
    - f_equal; [|apply IH; auto; lia]. rewrite HX by lia. destruct m as [|[] ?]; try discriminate; reflexivity.
    - f_equal; [|apply IH; auto; lia]. rewrite HY by lia. destruct m as [|[] ?]; try discriminate; reflexivity.
    - f_equal; [|apply IH; auto]. destruct m as [|[] ?]; try discriminate; reflexivity. }
  apply G; auto; lia.
Qed.

Lemma F2_length {A B} (R : A -> B -> Prop) l l' : Forall2 R l l' -> length l = length l'.
Proof. induction 1; cbn; auto. Qed.

Lemma wf_lengths s : wf_spec s -> plane (sp_dims s) /\ length (sp_origin s) = length (sp_dims s) /\
  length (sp_extent s) = length (sp_dims s) /\ length (sp_shape s) = length (sp_dims s).
Proof.
  intros (P & _ & Lo & Le & F). repeat split; auto; try apply P. apply F2_length in F.
  rewrite combine_length, Lo, Le in F. lia.
Qed.

Lemma send_region s b sl : wf_spec s -> send_slice b s = Some sl ->
  sl = region s b true /\ Forall2 (fun r h => 0 <= fst r /\ snd r <= h) sl (sp_shape s).
Proof.
  intros W. destruct (wf_lengths s W) as (P & Lo & Le & Lh). unfold send_slice. intros H. apply slice_list in H; auto.
  rewrite region_list in H; auto.
Qed.
Lemma recv_region s b sl : wf_spec s -> recv_slice b s = Some sl ->
  sl = region s b false /\ Forall2 (fun r h => 0 <= fst r /\ snd r <= h) sl (sp_shape s).
Proof.
  intros W. destruct (wf_lengths s W) as (P & Lo & Le & Lh). unfold recv_slice. intros H. apply slice_list in H; auto.
  rewrite region_list in H; auto.
Qed.

(** ** Points of boxes in coordinates *)
Lemma inside_put dims (L : list (Z * Z)) rx ry p : plane dims -> length L = length dims ->
  inside (put_xy dims L rx ry) p <->
  length p = length dims /\ fst rx <= cx dims p < snd rx /\ fst ry <= cy dims p < snd ry /\
  inside (put_xy dims L (0, 1) (0, 1)) (put_xy dims p 0 0).
Proof.
  unfold plane, inside, cx, cy. intros [PJ PI].
  assert (G : forall dims L p, (count_axis AI dims <= 1)%nat -> (count_axis AJ dims <= 1)%nat -> length L = length dims ->
     Forall2 (fun s x => fst s <= x < snd s) (put_xy dims L rx ry) p <->
     length p = length dims /\ (count_axis AI dims = 1%nat -> fst rx <= coord AI dims p 0 < snd rx) /\
     (count_axis AJ dims = 1%nat -> fst ry <= coord AJ dims p 0 < snd ry) /\
     Forall2 (fun s x => fst s <= x < snd s) (put_xy dims L (0, 1) (0, 1)) (put_xy dims p 0 0)).
  { clear. induction dims as [|m dims IH]; intros [|v L] [|x p] CI CJ HL; try discriminate.
    - cbn. split; [|constructor]. repeat split; auto; discriminate.
    - cbn. split; intros H; [inversion H|destruct H as (H & _); discriminate].
    - cbn [put_xy]. split; intros H; [inversion H|destruct H as (H & _); discriminate].
    - cbn in HL. rewrite !count_cons in *. cbn [put_xy coord length].
      destruct (on_axis AI m) eqn:I, (on_axis AJ m) eqn:J.
      + exfalso; eapply axis_excl; eauto.
      + split.
        * intros H. inversion H as [|? ? ? ? H1 H2]; subst. apply IH in H2; try lia.
          destruct H2 as (A & B & C & D). split; [lia|]. split; [auto|]. split; [intros; apply C; lia|].
          constructor; [cbn; lia|auto].
        * intros (A & B & C & D). inversion D; subst. constructor; [apply B; lia|]. apply IH; try lia.
          split; [lia|]. split; [intros; lia|]. split; [intros; apply C; lia|auto].
      + split.
        * intros H. inversion H as [|? ? ? ? H1 H2]; subst. apply IH in H2; try lia.
          destruct H2 as (A & B & C & D). split; [lia|]. split; [intros; apply B; lia|]. split; [auto|].
          constructor; [cbn; lia|auto].
        * intros (A & B & C & D). inversion D; subst. constructor; [apply C; lia|]. apply IH; try lia.
          split; [lia|]. split; [intros; apply B; lia|]. split; [intros; lia|auto].
      + split.
        * intros H. inversion H as [|? ? ? ? H1 H2]; subst. apply IH in H2; try lia.
          destruct H2 as (A & B & C & D). split; [lia|]. repeat split; auto; try apply B; try apply C; lia.
        * intros (A & B & C & D). inversion D; subst. constructor; [auto|]. apply IH; try lia.
          split; [lia|]. repeat split; auto; try apply B; try apply C; lia. }
  intros HL. rewrite (G dims L p) by (auto; lia). rewrite PI, PJ. intuition.
Qed.

Lemma box_length o e : length o = length e -> length (box o e) = length o.
Proof. intros H. unfold box. rewrite map_length, combine_length. lia. Qed.

Lemma coord_default {T} a dims (l : list T) d d' : count_axis a dims <> 0%nat -> length l = length dims ->
  coord a dims l d = coord a dims l d'.
Proof.
  revert l. induction dims as [|m dims IH]; intros [|v l]; try discriminate; [cbn; congruence|].
  rewrite count_cons. cbn [length coord]. intros H E. destruct (on_axis a m); auto.
Qed.

Lemma box_put dims o e : plane dims -> length o = length dims -> length e = length dims ->
  box o e = put_xy dims (box o e) (cx dims o, cx dims o + cx dims e) (cy dims o, cy dims o + cy dims e).
Proof.
  intros P Lo Le. rewrite <- (put_coord dims (box o e) (0, 0 + 0) (0, 0 + 0) P) at 1. unfold cx, cy.
  assert (G : forall a dims o e, length o = length dims -> length e = length dims ->
    coord a dims (box o e) (0, 0 + 0) = (coord a dims o 0, coord a dims o 0 + coord a dims e 0)).
  { clear. intros a dims. induction dims as [|m dims IH]; intros [|x o] [|y e] Lo Le; try discriminate; [reflexivity|].
    cbn in *. destruct (on_axis a m); [reflexivity|]. apply IH; lia. }
  now rewrite !G by auto.
Qed.

Lemma inside_region s b interior p : wf_spec s ->
  inside (region s b interior) p <->
  let D := sp_dims s in
  let rx := range1 (dx b) (cx D (sp_origin s)) (cx D (sp_extent s)) (b2z (iface_x D)) (sp_n s) interior in
  let ry := range1 (dy b) (cy D (sp_origin s)) (cy D (sp_extent s)) (b2z (iface_y D)) (sp_n s) interior in
  length p = length D /\ fst rx <= cx D p < snd rx /\ fst ry <= cy D p < snd ry /\
  inside (put_xy D (compute_domain s) (0, 1) (0, 1)) (put_xy D p 0 0).
Proof.
  intros W. destruct (wf_lengths s W) as (P & Lo & Le & Lh). unfold region. apply inside_put; auto.
  unfold compute_domain. rewrite box_length; lia.
Qed.

Lemma inside_compute s p : wf_spec s ->
  inside (compute_domain s) p <->
  let D := sp_dims s in
  length p = length D /\ cx D (sp_origin s) <= cx D p < cx D (sp_origin s) + cx D (sp_extent s) /\
  cy D (sp_origin s) <= cy D p < cy D (sp_origin s) + cy D (sp_extent s) /\
  inside (put_xy D (compute_domain s) (0, 1) (0, 1)) (put_xy D p 0 0).
Proof.
  intros W. destruct (wf_lengths s W) as (P & Lo & Le & Lh). cbn zeta.
  assert (L : length (compute_domain s) = length (sp_dims s)) by (unfold compute_domain; rewrite box_length; lia).
  unfold compute_domain at 1. rewrite (box_put (sp_dims s)) by auto.
  apply (inside_put (sp_dims s) (compute_domain s)); auto.
Qed.

Lemma wf_coords s : wf_spec s -> let D := sp_dims s in
  0 <= sp_n s /\ 0 <= cx D (sp_origin s) /\ 0 <= cx D (sp_extent s) /\
  cx D (sp_origin s) + cx D (sp_extent s) <= cx D (sp_shape s) /\
  0 <= cy D (sp_origin s) /\ 0 <= cy D (sp_extent s) /\
  cy D (sp_origin s) + cy D (sp_extent s) <= cy D (sp_shape s).
Proof.
  intros W. destruct (wf_lengths s W) as (P & Lo & Le & Lh). destruct W as (_ & Hn & _ & _ & F).
  destruct s as [dims o e h n]. cbn [sp_dims sp_origin sp_extent sp_shape sp_n] in *. cbn zeta. split; [auto|].
  assert (G : forall a, count_axis a dims <> 0%nat ->
     0 <= coord a dims o 0 /\ 0 <= coord a dims e 0 /\ coord a dims o 0 + coord a dims e 0 <= coord a dims h 0).
  { intros a Ha. clear P Hn. revert o e h F Lo Le Lh. induction dims as [|m dims IH]; [cbn in Ha; congruence|].
    intros [|x o] [|y e] [|z h] F Lo Le Lh; try discriminate. inversion F; subst. rewrite count_cons in Ha. cbn [coord] in *.
    destruct (on_axis a m); [cbn in *; lia|]. apply IH; auto. }
  destruct P as [PJ PI]. destruct (G AI ltac:(lia)) as (?&?&?), (G AJ ltac:(lia)) as (?&?&?). unfold cx, cy. tauto.
Qed.

Lemma slices_inside sl (h : list Z) p : Forall2 (fun r s => 0 <= fst r /\ snd r <= s) sl h -> inside sl p -> in_extent h p.
Proof.
  unfold inside, in_extent. intros F. revert p. induction F as [|r z sl h [A B] _ IH]; intros p H; inversion H; subst; constructor; auto; lia.
Qed.

(** ** C10 *)
Lemma recv_is_halo s b sl p : wf_spec s -> recv_slice b s = Some sl -> inside sl p ->
  in_extent (sp_shape s) p /\ ~ inside (compute_domain s) p.
Proof.
  intros W H I. destruct (recv_region s b sl W H) as [-> F]. split; [eapply slices_inside; eauto|].
  apply inside_region in I; auto. intros J. apply inside_compute in J; auto. cbn zeta in *.
  pose proof (wf_coords s W) as (?&?&?&?&?&?&?). unfold range1 in I.
  destruct b; cbn in I; lia.
Qed.

Lemma recv_disjoint s b1 b2 sl1 sl2 p : wf_spec s -> recv_slice b1 s = Some sl1 -> recv_slice b2 s = Some sl2 ->
  inside sl1 p -> inside sl2 p -> b1 = b2.
Proof.
  intros W H1 H2 I1 I2. destruct (recv_region s b1 sl1 W H1) as [-> _]. destruct (recv_region s b2 sl2 W H2) as [-> _].
  apply inside_region in I1; auto. apply inside_region in I2; auto. cbn zeta in *.
  pose proof (wf_coords s W) as (?&?&?&?&?&?&?). unfold range1 in *.
  destruct b1, b2; try reflexivity; exfalso; cbn in I1, I2; lia.
Qed.

(** Points within n of the compute domain horizontally (and inside it in every other dimension). *)
Lemma recv_tiles_halo s p : wf_spec s -> (forall b, recv_slice b s <> None) ->
  let D := sp_dims s in
  (inside (put_xy D (compute_domain s)
            (cx D (sp_origin s) - sp_n s, cx D (sp_origin s) + cx D (sp_extent s) + sp_n s)
            (cy D (sp_origin s) - sp_n s, cy D (sp_origin s) + cy D (sp_extent s) + sp_n s)) p /\
   ~ inside (compute_domain s) p)
  <-> exists b sl, recv_slice b s = Some sl /\ inside sl p.
Proof.
  intros W A D. destruct (wf_lengths s W) as (P & Lo & Le & Lh).
  pose proof (wf_coords s W) as Wc. cbn zeta in Wc. fold D in Wc. destruct Wc as (?&?&?&?&?&?&?).
  assert (L : length (compute_domain s) = length D) by (unfold compute_domain; rewrite box_length; unfold D; lia).
  rewrite inside_put, inside_compute by auto. cbn zeta. fold D. cbn [fst snd]. split.
  - intros [(Lp & Hx & Hy & R) N].
    assert (K : exists b, inside (region s b false) p).
    { assert (Cx : exists b1, (b1 = -1 \/ b1 = 0 \/ b1 = 1) /\
        fst (range1 b1 (cx D (sp_origin s)) (cx D (sp_extent s)) (b2z (iface_x D)) (sp_n s) false) <= cx D p
        < snd (range1 b1 (cx D (sp_origin s)) (cx D (sp_extent s)) (b2z (iface_x D)) (sp_n s) false) /\
        (b1 = 0 -> cx D (sp_origin s) <= cx D p < cx D (sp_origin s) + cx D (sp_extent s))).
      { destruct (Z_lt_ge_dec (cx D p) (cx D (sp_origin s))); [exists (-1)|destruct (Z_lt_ge_dec (cx D p) (cx D (sp_origin s) + cx D (sp_extent s))); [exists 0|exists 1]];
        cbn; lia. }
      assert (Cy : exists b1, (b1 = -1 \/ b1 = 0 \/ b1 = 1) /\
        fst (range1 b1 (cy D (sp_origin s)) (cy D (sp_extent s)) (b2z (iface_y D)) (sp_n s) false) <= cy D p
        < snd (range1 b1 (cy D (sp_origin s)) (cy D (sp_extent s)) (b2z (iface_y D)) (sp_n s) false) /\
        (b1 = 0 -> cy D (sp_origin s) <= cy D p < cy D (sp_origin s) + cy D (sp_extent s))).
      { destruct (Z_lt_ge_dec (cy D p) (cy D (sp_origin s))); [exists (-1)|destruct (Z_lt_ge_dec (cy D p) (cy D (sp_origin s) + cy D (sp_extent s))); [exists 0|exists 1]];
        cbn; lia. }
      destruct Cx as (bx & Bx & Rx & Zx), Cy as (by_ & By & Ry & Zy).
      assert (Nz : ~ (bx = 0 /\ by_ = 0)) by (intros [E1 E2]; apply N; tauto).
      assert (E : exists b, dx b = bx /\ dy b = by_).
      { destruct Bx as [Ex|[Ex|Ex]], By as [Ey|[Ey|Ey]]; subst;
        try (exfalso; apply Nz; split; reflexivity);
        [exists SOUTHWEST|exists WEST|exists NORTHWEST|exists SOUTH|exists NORTH|exists SOUTHEAST|exists EAST|exists NORTHEAST]; split; reflexivity. }
      destruct E as (b & <- & <-). exists b. apply inside_region; auto. }
    destruct K as [b K]. exists b. destruct (recv_slice b s) as [sl|] eqn:E; [|exfalso; eapply A; eauto].
    exists sl. split; auto. destruct (recv_region s b sl W E) as [-> _]. auto.
  - intros (b & sl & E & I). split.
    + destruct (recv_region s b sl W E) as [-> _]. apply inside_region in I; auto. cbn zeta in I. fold D in I.
      unfold range1 in I. destruct I as (Lp & Ix & Iy & R). split; [auto|].
      destruct b; cbn -[cx cy put_xy inside] in Ix, Iy; (split; [lia|split; [lia|exact R]]).
    + intros K. apply (proj2 (recv_is_halo s b sl p W E I)). apply inside_compute; auto.
Qed.

Lemma slice_none dims o e h b n interior : length o = length dims -> length e = length dims -> length h = length dims ->
  boundary_slice dims o e h b n interior = None <->
  exists m d x y z, nth_error dims m = Some d /\ nth_error o m = Some x /\ nth_error e m = Some y /\ nth_error h m = Some z /\
    boundary_slice1 d x y z b n interior = None.
Proof.
  revert o e h. induction dims as [|d dims IH]; intros [|x o] [|y e] [|z h] Lo Le Lh; try discriminate.
  - cbn. split; [discriminate|]. intros ([|m] & ? & ? & ? & ? & A & _); discriminate A.
  - cbn in Lo, Le, Lh. cbn [boundary_slice]. destruct (boundary_slice1 d x y z b n interior) as [r|] eqn:E; cbn [bind].
    + specialize (IH o e h ltac:(lia) ltac:(lia) ltac:(lia)). destruct (boundary_slice dims o e h b n interior) as [rs|]; cbn [bind].
      * split; [discriminate|]. intros ([|m] & d' & x' & y' & z' & A1 & A2 & A3 & A4 & A5).
        -- cbn in *. congruence.
        -- cbn in *. assert (K : Some rs = None) by (apply IH; exists m, d', x', y', z'; auto). discriminate K.
      * split; auto. intros _. destruct IH as [IH _]. destruct (IH eq_refl) as (m & R). exists (S m). exact R.
    + split; auto. intros _. exists 0%nat, d, x, y, z. cbn. auto.
Qed.

Lemma slice1_none d o e h b n interior : boundary_slice1 d o e h b n interior = None <->
  (fst (range1 (along b d) o e (b2z (is_iface d)) n interior) < 0 \/ h < snd (range1 (along b d) o e (b2z (is_iface d)) n interior)).
Proof.
  pose proof (slice1_spec d o e h b n interior (range1 (along b d) o e (b2z (is_iface d)) n interior)) as K.
  destruct (boundary_slice1 d o e h b n interior) as [r|] eqn:E.
  - apply slice1_spec in E. destruct E as (-> & A & B). split; [discriminate|lia].
  - split; auto. intros _. destruct (Z_lt_ge_dec (fst (range1 (along b d) o e (b2z (is_iface d)) n interior)) 0); auto.
    destruct (Z_lt_ge_dec h (snd (range1 (along b d) o e (b2z (is_iface d)) n interior))); auto.
    destruct K as [_ K]. discriminate K. repeat split; lia.
Qed.

Lemma wf_nth s m d o e h : wf_spec s -> nth_error (sp_dims s) m = Some d -> nth_error (sp_origin s) m = Some o ->
  nth_error (sp_extent s) m = Some e -> nth_error (sp_shape s) m = Some h -> 0 <= o /\ 0 <= e /\ o + e <= h.
Proof.
  intros (_ & _ & _ & _ & F) _ Eo Ee Eh. revert Eo Ee Eh. generalize m. clear m.
  remember (combine (sp_origin s) (sp_extent s)) as c eqn:C.
  revert C. generalize (sp_origin s) (sp_extent s). induction F as [|[a b] z c hs H F IH]; intros lo le C [|m] Eo Ee Eh; try discriminate Eh.
  - cbn in Eh. injection Eh as ->. destruct lo, le; try discriminate. cbn in *. injection C as -> -> ->. injection Eo as ->. injection Ee as ->. exact H.
  - destruct lo, le; try discriminate. cbn in *. injection C as -> -> ->. eapply IH; eauto.
Qed.

Lemma recv_error_iff s b : wf_spec s ->
  (recv_slice b s = None <->
   exists m d o e h, nth_error (sp_dims s) m = Some d /\ nth_error (sp_origin s) m = Some o /\
     nth_error (sp_extent s) m = Some e /\ nth_error (sp_shape s) m = Some h /\
     (along b d = -1 /\ o < sp_n s \/ along b d = 1 /\ h < o + e + sp_n s)).
Proof.
  intros W. destruct (wf_lengths s W) as (P & Lo & Le & Lh). unfold recv_slice. rewrite slice_none by auto.
  split; intros (m & d & o & e & h & A & B & C & D & E); exists m, d, o, e, h; repeat split; auto.
  - rewrite slice1_none in E. destruct (wf_nth s m d o e h W A B C D) as (?&?&?). unfold range1 in E.
    destruct (along b d =? 0) eqn:Z0, (along b d =? -1) eqn:Z1; cbn [fst snd] in E; try lia.
    assert (along b d = 1) by (destruct d as [|[] ?], b; cbn in *; try discriminate; reflexivity).
    assert (0 <= sp_n s) by apply W. lia.
  - rewrite slice1_none. unfold range1. destruct E as [[-> E]|[-> E]]; cbn; lia.
Qed.

Lemma slice_depth s b interior sl m d e r : wf_spec s ->
  boundary_slice (sp_dims s) (sp_origin s) (sp_extent s) (sp_shape s) b (sp_n s) interior = Some sl ->
  nth_error (sp_dims s) m = Some d -> nth_error (sp_extent s) m = Some e -> nth_error sl m = Some r ->
  snd r - fst r = if along b d =? 0 then e else sp_n s.
Proof.
  intros W H A B C. destruct (wf_lengths s W) as (P & Lo & Le & Lh). apply slice_list in H; auto. destruct H as [-> _].
  rewrite nth_map2, A in C. destruct (nth_error (combine (sp_origin s) (sp_extent s)) m) as [[o e']|] eqn:E; [|discriminate].
  injection C as <-. cbn [fst snd].
  assert (e' = e). { clear -E B. revert E B. generalize (sp_origin s) (sp_extent s). intros l l'. revert m l'.
    induction l as [|a l IH]; intros [|m] [|b l']; cbn; try discriminate; [intros [= <- <-] [= <-]; auto|apply IH]. }
  subst e'. unfold range1. destruct (along b d =? 0), (along b d =? -1), interior; cbn; lia.
Qed.

Lemma send_owned s b sl p : wf_spec s -> send_slice b s = Some sl ->
  (forall m d e, nth_error (sp_dims s) m = Some d -> nth_error (sp_extent s) m = Some e -> along b d <> 0 -> sp_n s + b2z (is_iface d) <= e) ->
  inside sl p ->
  inside (compute_domain s) p /\
  forall m d o e x, nth_error (sp_dims s) m = Some d -> nth_error (sp_origin s) m = Some o -> nth_error (sp_extent s) m = Some e ->
    nth_error p m = Some x ->
    (along b d = -1 -> x - o < sp_n s + b2z (is_iface d) /\ (is_iface d = true -> x <> o)) /\
    (along b d = 1 -> o + e - 1 - x < sp_n s + b2z (is_iface d) /\ (is_iface d = true -> x <> o + e - 1)).
Proof.
  intros W H N I. destruct (wf_lengths s W) as (P & Lo & Le & Lh). unfold send_slice in H. apply slice_list in H; auto.
  destruct H as [E F]. assert (Hn : 0 <= sp_n s) by apply W.
  unfold compute_domain, inside, box in *. rewrite E in I. clear E F P W Lh.
  destruct s as [dims o e h n]. cbn [sp_dims sp_origin sp_extent sp_shape sp_n] in *.
  revert o e p Lo Le N I. induction dims as [|d dims IH]; intros [|x o] [|y e] p Lo Le N I; try discriminate.
  - inversion I; subst. split; [constructor|]. intros [|m]; discriminate.
  - cbn [combine map fst snd] in I. inversion I as [|? v ? p' H1 H2]; subst. cbn in Lo, Le.
    destruct (IH o e p' ltac:(lia) ltac:(lia)) as [I1 I2]; auto.
    { intros m d' e' A B C. apply (N (S m) d' e'); auto. }
    specialize (N 0%nat d y eq_refl eq_refl).
    assert (Al : along b d = 0 \/ along b d = -1 \/ along b d = 1) by (destruct d as [|[] ?], b; cbn; auto).
    unfold range1 in H1. assert (0 <= b2z (is_iface d) <= 1) by (destruct (is_iface d); cbn; lia). split.
    + cbn [combine map fst snd]. constructor; auto.
      destruct Al as [Al|[Al|Al]]; rewrite Al in H1, N; cbn -[b2z is_iface] in H1; cbn [fst snd]; [lia| |]; specialize (N ltac:(discriminate)); lia.
    + intros [|m] d' o' e' x' A B C D; cbn in A, B, C, D.
      * injection A as <-. injection B as <-. injection C as <-. injection D as <-.
        destruct (is_iface d); cbn [b2z] in *; split; intros E; rewrite E in H1; cbn in H1; (split; [lia|]); intros; try discriminate; lia.
      * eapply I2; eauto.
Qed.

Lemma deep_halo_refuted : exists s b sl p, wf_spec s /\ send_slice b s = Some sl /\ recv_slice b s <> None /\
  inside sl p /\ ~ inside (compute_domain s) p.
Proof.
  exists (mkSpec [Dim AJ false; Dim AI false] [3; 3] [2; 2] [8; 8] 3), WEST, [(3, 5); (3, 6)], [3; 5].
  repeat split; try (cbn; lia); try discriminate; try (repeat constructor; cbn; lia).
  intros H. unfold inside in H. cbn in H. inversion H as [|? ? ? ? _ H']; subst. inversion H'; subst. cbn in *. lia.
Qed.

(** ** C14 *)
Lemma rot_src_length dims s k p : length (rot_src dims s k p) = length p.
Proof. unfold rot_src. destruct k as [|[[]|[]|]|]; rewrite ?put_xy_length; reflexivity. Qed.

Lemma in_extent_length (s p : list Z) : in_extent s p -> length s = length p.
Proof. apply F2_length. Qed.

Lemma mod4 k : 0 <= k < 4 -> k = 0 \/ k = 1 \/ k = 2 \/ k = 3.
Proof. lia. Qed.

Section Rot.
  Variable dims : list dim.
  Hypothesis P : plane dims.
  Let nx : count_axis AI dims <> 0%nat. Proof. destruct P. lia. Qed.
  Let ny : count_axis AJ dims <> 0%nat. Proof. destruct P. lia. Qed.

  Lemma cx_put p x y : length p = length dims -> cx dims (put_xy dims p x y) = x.
  Proof. intros. apply coord_put_x; auto. Qed.
  Lemma cy_put p x y : length p = length dims -> cy dims (put_xy dims p x y) = y.
  Proof. intros. apply coord_put_y; auto. Qed.
  Lemma put_cxy p : put_xy dims p (cx dims p) (cy dims p) = p.
  Proof. apply put_coord; auto. Qed.
  Lemma put_eq p x y : length p = length dims -> x = cx dims p -> y = cy dims p -> put_xy dims p x y = p.
  Proof. intros _ -> ->. apply put_cxy. Qed.

  Lemma rot_shape_length s k : length (rot_shape dims s k) = length s.
  Proof. unfold rot_shape. destruct (Z.even k); rewrite ?put_xy_length; reflexivity. Qed.

  (** composing two rotations adds the turns *)
  Lemma rot_compose s k j p : length s = length dims -> length p = length dims -> 0 <= k < 4 -> 0 <= j < 4 ->
    rot_shape dims (rot_shape dims s k) j = rot_shape dims s ((k + j) mod 4) /\
    rot_src dims s k (rot_src dims (rot_shape dims s k) j p) = rot_src dims s ((k + j) mod 4) p.
  Proof.
    intros Ls Lp Hk Hj.
    destruct (mod4 k Hk) as [->|[->|[->| ->]]]; destruct (mod4 j Hj) as [->|[->|[->| ->]]];
    cbn -[put_xy cx cy]; rewrite ?cx_put, ?cy_put, ?put_xy_put by (rewrite ?put_xy_length; auto);
    rewrite ?cx_put, ?cy_put by (rewrite ?put_xy_length; auto);
    (split; [try reflexivity; apply put_cxy|]); try reflexivity;
    try (apply put_eq; auto; lia); f_equal; lia.
  Qed.

  Lemma in_extent_xy s p : length s = length dims -> length p = length dims ->
    (in_extent s p <-> 0 <= cx dims p < cx dims s /\ 0 <= cy dims p < cy dims s /\ in_extent (put_xy dims s 1 1) (put_xy dims p 0 0)).
  Proof.
    intros Ls Lp.
    assert (E : forall l q, in_extent l q <-> inside (map (fun h => (0, h)) l) q).
    { clear. unfold in_extent, inside. induction l as [|a l IH]; intros q; cbn; split; intros H; inversion H; subst; constructor; auto; apply IH; auto. }
    rewrite !E. rewrite <- (put_cxy s) at 1. rewrite !put_map. rewrite inside_put by (auto; rewrite map_length; auto).
    cbn [fst snd]. tauto.
  Qed.

  Lemma rot_src_in s k p : length s = length dims -> 0 <= k < 4 -> in_extent (rot_shape dims s k) p -> in_extent s (rot_src dims s k p).
  Proof.
    intros Ls R Hp.
    assert (Lp : length p = length dims) by (apply in_extent_length in Hp; rewrite rot_shape_length in Hp; lia).
    rewrite in_extent_xy in Hp |- *; rewrite ?rot_src_length, ?rot_shape_length; auto.
    unfold rot_src, rot_shape in *.
    destruct (mod4 k R) as [->|[->|[->| ->]]]; cbn -[put_xy cx cy] in *;
    rewrite ?put_xy_put, ?cx_put, ?cy_put in * by auto; intuition lia.
  Qed.

  Lemma mod4_bound n : 0 <= n mod 4 < 4.
  Proof. apply Z.mod_pos_bound; lia. Qed.

  Lemma rotate_same {A} (m m' : list Z * (index -> A)) n : length (fst m) = length dims ->
    same_array m m' -> same_array (rotate_scalar m dims n) (rotate_scalar m' dims n).
  Proof.
    destruct m as [s f], m' as [s' f']. unfold same_array. cbn [fst snd]. intros Ls [<- E].
    destruct (rotate_coords dims s f n P Ls) as [A1 A2], (rotate_coords dims s f' n P Ls) as [B1 B2].
    rewrite A1, B1. split; [reflexivity|]. intros p Hp.
    assert (Lp : length p = length dims).
    { apply in_extent_length in Hp. rewrite rot_shape_length in Hp. lia. }
    rewrite A2, B2 by auto. apply E. apply rot_src_in; auto. apply mod4_bound.
  Qed.

  Lemma rotate_shape_length {A} (m : list Z * (index -> A)) n : length (fst m) = length dims ->
    length (fst (rotate_scalar m dims n)) = length dims.
  Proof.
    destruct m as [s f]. cbn [fst]. intros Ls. destruct (rotate_coords dims s f n P Ls) as [A1 _]. rewrite A1, rot_shape_length. auto.
  Qed.

  Lemma rotate_compose {A} (m : list Z * (index -> A)) a b : length (fst m) = length dims ->
    same_array (rotate_scalar (rotate_scalar m dims a) dims b) (rotate_scalar m dims (a + b)).
  Proof.
    destruct m as [s f]. cbn [fst]. intros Ls.
    destruct (rotate_coords dims s f a P Ls) as [A1 A2], (rotate_coords dims s f (a + b) P Ls) as [C1 C2].
    destruct (rotate_scalar (s, f) dims a) as [s1 f1] eqn:E1. cbn [fst snd] in *. subst s1.
    assert (L1 : length (rot_shape dims s (a mod 4)) = length dims) by (rewrite rot_shape_length; auto).
    destruct (rotate_coords dims _ f1 b P L1) as [B1 B2]. unfold same_array. rewrite B1, C1.
    assert (M : (a + b) mod 4 = (a mod 4 + b mod 4) mod 4) by (apply Z.add_mod; lia). rewrite M.
    split; [apply (rot_compose s _ _ s); auto; apply mod4_bound|].
    intros p Hp.
    assert (Lp : length p = length dims).
    { apply in_extent_length in Hp. rewrite !rot_shape_length in Hp. lia. }
    rewrite B2, C2 by auto. rewrite A2 by (rewrite rot_src_length; auto). f_equal. rewrite M.
    apply rot_compose; auto; apply mod4_bound.
  Qed.

  Lemma same_refl {A} (m : list Z * (index -> A)) : same_array m m.
  Proof. split; auto. Qed.
  Lemma same_trans {A} (m1 m2 m3 : list Z * (index -> A)) : same_array m1 m2 -> same_array m2 m3 -> same_array m1 m3.
  Proof. intros [E1 F1] [E2 F2]. split; [congruence|]. intros p Hp. rewrite F1 by auto. apply F2. rewrite <- E1. auto. Qed.

  Lemma rotate_neg {A} (neg : A -> A) m n : length (fst m) = length dims ->
    same_array (rotate_scalar (neg_arr neg m) dims n) (neg_arr neg (rotate_scalar m dims n)).
  Proof.
    destruct m as [s f]. cbn [fst]. intros Ls. unfold neg_arr at 1. cbn [fst snd].
    destruct (rotate_coords dims s f n P Ls) as [A1 A2], (rotate_coords dims s (fun p => neg (f p)) n P Ls) as [B1 B2].
    split; [cbn; congruence|]. intros p Hp. cbn [neg_arr snd fst].
    assert (Lp : length p = length dims).
    { apply in_extent_length in Hp. rewrite B1, rot_shape_length in Hp. lia. }
    rewrite A2, B2 by auto. reflexivity.
  Qed.
  Lemma neg_same {A} (neg : A -> A) m m' : same_array m m' -> same_array (neg_arr neg m) (neg_arr neg m').
  Proof. intros [E F]. split; [exact E|]. intros p Hp. cbn. f_equal. apply F, Hp. Qed.
  Lemma neg_neg {A} (neg : A -> A) m : (forall a, neg (neg a) = a) -> same_array (neg_arr neg (neg_arr neg m)) m.
  Proof. intros H. split; [reflexivity|]. intros p _. cbn. apply H. Qed.

  Lemma vector_compose {A} (neg : A -> A) x y a b : (forall v, neg (neg v) = v) ->
    length (fst x) = length dims -> length (fst y) = length dims ->
    let '(x1, y1) := rotate_vector neg x y a dims in
    let '(x2, y2) := rotate_vector neg x1 y1 b dims in
    let '(x3, y3) := rotate_vector neg x y (a + b) dims in
    same_array x2 x3 /\ same_array y2 y3.
  Proof.
    intros Nn Lx Ly. unfold rotate_vector.
    assert (M : (a + b) mod 4 = (a mod 4 + b mod 4) mod 4) by (apply Z.add_mod; lia). rewrite M.
    pose proof (mod4_bound a) as Ha. pose proof (mod4_bound b) as Hb.
    assert (L1 : length (fst (rotate_scalar x dims a)) = length dims) by (apply rotate_shape_length; auto).
    assert (L2 : length (fst (rotate_scalar y dims a)) = length dims) by (apply rotate_shape_length; auto).
    pose proof (rotate_compose x a b Lx) as Cx. pose proof (rotate_compose y a b Ly) as Cy.
    pose proof (rotate_neg neg (rotate_scalar x dims a) b L1) as Nx.
    pose proof (rotate_neg neg (rotate_scalar y dims a) b L2) as Ny.
    pose proof (same_trans _ _ _ Nx (neg_same neg _ _ Cx)) as NCx.
    pose proof (same_trans _ _ _ Ny (neg_same neg _ _ Cy)) as NCy.
    pose proof (same_trans _ _ _ (neg_same neg _ _ NCx) (neg_neg neg _ Nn)) as NNx.
    pose proof (same_trans _ _ _ (neg_same neg _ _ NCy) (neg_neg neg _ Nn)) as NNy.
    pose proof (neg_same neg _ _ Cx) as NX. pose proof (neg_same neg _ _ Cy) as NY.
    destruct (mod4 _ Ha) as [E|[E|[E|E]]]; destruct (mod4 _ Hb) as [F|[F|[F|F]]]; rewrite E, F;
    cbn -[rotate_scalar neg_arr]; split; assumption.
  Qed.

  Lemma rotate_zero {A} (m : list Z * (index -> A)) n : n mod 4 = 0 -> rotate_scalar m dims n = m.
  Proof. unfold rotate_scalar. intros ->. reflexivity. Qed.

  Lemma vector_displacement sx k (p p' : index) (u v : index -> Z) :
    length sx = length dims ->
    let src := snd (rotate_scalar (sx, fun i => i) dims k) in
    let '(u', v') := rotate_vector Z.opp (sx, u) (sx, v) k dims in
    in_extent (fst u') p -> in_extent (fst u') p' ->
    u (src p) = cx dims (src p') - cx dims (src p) -> v (src p) = cy dims (src p') - cy dims (src p) ->
    snd u' p = cx dims p' - cx dims p /\ snd v' p = cy dims p' - cy dims p.
  Proof.
    intros Ls. cbn zeta. unfold rotate_vector.
    destruct (rotate_coords dims sx (fun i => i) k P Ls) as [A1 A2].
    destruct (rotate_coords dims sx u k P Ls) as [B1 B2]. destruct (rotate_coords dims sx v k P Ls) as [C1 C2].
    pose proof (mod4_bound k) as Hk. revert A1 A2 B1 B2 C1 C2.
    destruct (mod4 _ Hk) as [E|[E|[E|E]]]; rewrite E; cbn -[rotate_scalar neg_arr cx cy put_xy];
    intros A1 A2 B1 B2 C1 C2 Hp Hp';
    (assert (Lp : length p = length dims) by (apply in_extent_length in Hp; cbn [neg_arr fst] in Hp; rewrite ?B1, ?C1, ?put_xy_length in Hp; lia));
    (assert (Lp' : length p' = length dims) by (apply in_extent_length in Hp'; cbn [neg_arr fst] in Hp'; rewrite ?B1, ?C1, ?put_xy_length in Hp'; lia));
    cbn [neg_arr snd]; rewrite ?A2, ?B2, ?C2 by auto; cbn -[cx cy put_xy];
    rewrite ?cx_put, ?cy_put by auto; lia.
  Qed.
End Rot.

Lemma vector_round_trip (A : Type) (neg : A -> A) dims x y a b :
  plane dims -> (forall v, neg (neg v) = v) -> length (fst x) = length dims -> length (fst y) = length dims ->
  (a + b) mod 4 = 0 ->
  let '(x1, y1) := rotate_vector neg x y a dims in
  let '(x2, y2) := rotate_vector neg x1 y1 b dims in
  same_array x2 x /\ same_array y2 y.
Proof.
  intros P N Lx Ly E. pose proof (vector_compose dims P neg x y a b N Lx Ly) as C.
  destruct (rotate_vector neg x y a dims) as [x1 y1]. destruct (rotate_vector neg x1 y1 b dims) as [x2 y2].
  unfold rotate_vector in C. rewrite E, !rotate_zero in C by auto. exact C.
Qed.
