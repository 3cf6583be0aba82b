(** C36, C46, C58: utilities.  Model and specification in UtilModel.v. *)
From Coq Require Import Ring Permutation.
From Verif Require Import Base Dict UtilModel UtilProofs.

(** C36. For every namelist of groups of settings (as read from a file): flattening raises exactly if some name is set in
    two groups; otherwise every setting of every group has its value in the result and there are no others; and putting the groups in
    another order gives the same answers. *)
Theorem C36_flatten :
  forall V (groups : list (string * dict V)), Forall (fun '(g, s) => NoDup (keys s)) groups ->
  (flatten V (Group (two_level V groups)) = None <->
     exists i j k, i <> j /\ In k (keys (snd (nth i groups (EmptyString, [])))) /\ In k (keys (snd (nth j groups (EmptyString, []))))) /\
  (forall d, flatten V (Group (two_level V groups)) = Some d -> forall k v, get d k = Some v <-> exists g s, In (g, s) groups /\ In (k, v) s) /\
  (forall groups', Permutation groups groups' ->
     match flatten V (Group (two_level V groups)), flatten V (Group (two_level V groups')) with
     | Some d, Some d' => forall k, get d k = get d' k
     | None, None => True
     | _, _ => False
     end).
Proof.
  intros V groups F. destruct (two_level_flatten V groups F) as [A B].
  assert (NC : forall gs : list (string * dict V), keys (flat_map snd gs) = concat (map (fun x => keys (snd x)) gs)).
  { induction gs as [|[g s] gs IH]; auto. cbn. unfold keys in *. rewrite map_app, IH. reflexivity. }
  split; [|split].
  - assert (FN : Forall (@NoDup string) (map (fun x => keys (snd x)) groups)).
    { apply Forall_map. eapply Forall_impl; [|exact F]. intros [g s]; auto. }
    pose proof (nodup_concat_iff _ FN) as N. rewrite <- NC in N.
    assert (Nt : forall i, nth i (map (fun x => keys (snd x)) groups) [] = keys (snd (nth i groups (EmptyString, [])))).
    { intros i. exact (map_nth (fun x : string * dict V => keys (snd x)) groups (EmptyString, []) i). }
    split.
    + intros E. destruct (ListDec.NoDup_dec string_dec (keys (flat_map snd groups))) as [Y|Y]; [rewrite A in E by auto; discriminate|].
      (* decide by searching *)
      assert (D : forall gs : list (string * dict V), Forall (fun '(g, s) => NoDup (keys s)) gs -> ~ NoDup (keys (flat_map snd gs)) ->
        exists i j k, i <> j /\ In k (keys (snd (nth i gs (EmptyString, [])))) /\ In k (keys (snd (nth j gs (EmptyString, []))))).
      { clear. induction gs as [|[g s] gs IH]; intros F N; [exfalso; apply N; constructor|]. apply Forall_cons_iff in F. destruct F as [Fs F].
        destruct (ListDec.NoDup_dec string_dec (keys (flat_map snd gs))) as [Y|Y].
        - destruct (Exists_dec (fun k => In k (keys (flat_map snd gs))) (keys s)) as [X|X]; [intros k; apply in_dec, string_dec| |].
          + apply Exists_exists in X. destruct X as (k & I1 & I2). apply in_map_iff in I2. destruct I2 as ([k' v] & E & I2). cbn in E. subst k'.
            apply in_flat_map in I2. destruct I2 as (x & Ix & Ik). destruct (In_nth gs x (EmptyString, []) Ix) as (j & _ & E).
            exists 0%nat, (S j), k. split; [discriminate|]. split; auto. cbn [nth]. rewrite E. apply in_map_iff. exists (k, v). auto.
          + exfalso. apply N. cbn [flat_map snd]. unfold keys in *. rewrite map_app. clear - Fs Y X. induction (map fst s) as [|y a IHa]; auto. inversion Fs; subst. cbn. constructor.
            * intros I. apply in_app_iff in I. destruct I as [I|I]; [tauto|]. apply X. left. auto.
            * apply IHa; auto.
        - destruct (IH F Y) as (i & j & k & Nij & Hi & Hj). exists (S i), (S j), k. repeat split; auto. }
      apply D; auto.
    + intros (i & j & k & Nij & Hi & Hj). apply B. intros Y. apply Nij. apply (proj1 N Y i j k); rewrite Nt; auto.
  - intros d E k v. destruct (ListDec.NoDup_dec string_dec (keys (flat_map snd groups))) as [Y|Y]; [|rewrite B in E by auto; discriminate].
    rewrite A in E by auto. apply some_inj in E. subst d. split.
    + intros G. apply get_in in G. apply in_flat_map in G. destruct G as ([g s] & I1 & I2). exists g, s. auto.
    + intros (g & s & I1 & I2). apply in_get; auto. apply in_flat_map. exists (g, s). auto.
  - intros groups' P. assert (F' : Forall (fun '(g, s) => NoDup (keys s)) groups').
    { apply Forall_forall. intros x I. apply (proj1 (Forall_forall _ _) F). eapply Permutation_in; [symmetry; exact P|auto]. }
    destruct (two_level_flatten V groups' F') as [A' B'].
    assert (PK : Permutation (keys (flat_map snd groups)) (keys (flat_map snd groups'))).
    { unfold keys. apply Permutation_map. apply Permutation_flat_map. auto. }
    destruct (ListDec.NoDup_dec string_dec (keys (flat_map snd groups))) as [Y|Y].
    + assert (Y' : NoDup (keys (flat_map snd groups'))) by (eapply Permutation_NoDup; eauto). rewrite A, A' by auto. intros k.
      assert (Q : Permutation (flat_map snd groups) (flat_map snd groups')) by (apply Permutation_flat_map; auto).
      destruct (get (flat_map snd groups) k) as [v|] eqn:G.
      * apply get_in in G. symmetry. apply in_get; auto. eapply Permutation_in; eauto.
      * symmetry. apply get_none. apply get_none in G. intros I. apply G. eapply Permutation_in; [symmetry; exact PK|auto].
    + assert (Y' : ~ NoDup (keys (flat_map snd groups'))) by (intros X; apply Y; eapply Permutation_NoDup; [symmetry; exact PK|auto]). rewrite B, B' by auto. exact I.
Qed.
Print Assumptions C36_flatten.

(** ... and at any depth (groups inside groups, settings beside groups), provided all names are distinct, the result is
    exactly the settings. *)
Theorem C36_deep :
  forall V (entries : list (string * nml V)), NoDup (keys (settings V (Group entries))) -> flatten V (Group entries) = Some (settings V (Group entries)).
Proof. intros V entries. exact (flatten_distinct V (Group entries)). Qed.
Print Assumptions C36_deep.

(** ... and with target groups, the groups flattened are exactly those asked for that exist, each once. *)
Theorem C36_targets :
  forall V (n : list (string * nml V)) targets,
  (forall k g, get (extract V n targets []) k = Some g <-> In k targets /\ get n k = Some g) /\ NoDup (keys (extract V n targets [])) /\
  as_dict V n (Some targets) = flatten V (Group (extract V n targets [])).
Proof.
  intros V n targets.
  assert (G : forall acc, (forall k g, get acc k = Some g -> get n k = Some g) -> NoDup (keys acc) ->
    (forall k g, get (extract V n targets acc) k = Some g <-> (In k targets /\ get n k = Some g) \/ get acc k = Some g) /\ NoDup (keys (extract V n targets acc))).
  { induction targets as [|t ts IH]; intros acc A N; cbn [extract].
    - split; auto. intros k g. cbn. tauto.
    - set (acc' := match get n t with Some g => put acc t g | None => acc end).
      assert (P : forall k g, get acc' k = Some g <-> (t = k /\ get n k = Some g) \/ get acc k = Some g).
      { intros k g. unfold acc'. destruct (get n t) as [x|] eqn:E; [|split; [tauto|]; intros [[-> X]|X]; [congruence|auto]].
        rewrite get_put. destruct (String.eqb_spec k t) as [->|Nk].
        - rewrite E. split; [intros [= ->]; auto|]. intros [[_ X]|X]; auto. apply A in X. congruence.
        - split; auto. intros [[-> _]|X]; [congruence|auto]. }
      destruct (IH acc') as [I1 I2].
      + intros k g H. apply P in H. destruct H as [[_ H]|H]; auto.
      + unfold acc'. destruct (get n t); auto. now apply put_NoDup.
      + split; auto. intros k g. specialize (I1 k g). specialize (P k g). cbn [In]. transitivity (get (extract V n ts acc') k = Some g); [reflexivity|]. etransitivity; [exact I1|]. tauto. }
  destruct (G []) as [A B]; [discriminate|constructor|]. split; [|split; auto]. intros k g. rewrite A. cbn. split; [intros [H|H]; [auto|discriminate]|auto].
Qed.
Print Assumptions C36_targets.

Example C36_case :
  let groups := [("fv_core_nml", [("layout", 1); ("npx", 13)]); ("coupler_nml", [("dt_atmos", 225)])]%string in
  flatten Z (Group (two_level Z groups)) = Some [("layout", 1); ("npx", 13); ("dt_atmos", 225)]%string /\
  flatten Z (Group (two_level Z (groups ++ [("main_nml", [("npx", 7)])])))%string = None /\
  flatten Z (Group [("a", Group [("b", Setting 1); ("c", Group [("d", Setting 2)])]); ("e", Setting 3)])%string = Some [("b", 1); ("d", 2); ("e", 3)]%string.
Proof. vm_compute. auto. Qed.

(** Beyond two levels a repeated name is not always refused: a setting that follows a group inside the same group silently
    replaces the group's setting of that name; in the other order it raises. *)
Theorem C36_deep_refuted : exists e1 e2 : string * nml Z,
  flatten Z (Group [("g"%string, Group [e1; e2])]) = Some [("dt"%string, 2)] /\ In ("dt"%string, 1) (settings Z (Group [e1; e2])) /\
  flatten Z (Group [("g"%string, Group [e2; e1])]) = None.
Proof. exists ("physics"%string, Group [("dt"%string, Setting 1)]), ("dt"%string, Setting 2). vm_compute. auto. Qed.
Print Assumptions C36_deep_refuted.

(** C46. For every even number of ranks: a rank's partner is a rank, another one, and its partner is the rank itself. *)
Theorem C46_pairing : forall size rank, size mod 2 = 0 -> 0 <= rank < size ->
  0 <= get_pair_rank rank size < size /\ get_pair_rank rank size <> rank /\ get_pair_rank (get_pair_rank rank size) size = rank.
Proof.
  intros size rank E H. pose proof (Z.div_mod size 2 ltac:(lia)) as D. unfold get_pair_rank. set (h := size / 2) in *. clearbody h.
  destruct (Z.ltb_spec rank h).
  - destruct (Z.ltb_spec (rank + h) h); lia.
  - destruct (Z.ltb_spec (rank - h) h); lia.
Qed.
Print Assumptions C46_pairing.
Example C46_case : map (fun r => get_pair_rank r 6) [0; 1; 2; 3; 4; 5] = [3; 4; 5; 0; 1; 2] /\ 6 mod 2 = 0.
Proof. vm_compute. auto. Qed.
(** For an odd number of ranks the pairing is not an involution: with 3 ranks, rank 2 is paired with 1, rank 1 with 0. *)
Theorem C46_odd_refuted : exists size rank, 0 <= rank < size /\ get_pair_rank (get_pair_rank rank size) size <> rank.
Proof. exists 3, 2. vm_compute. split; [split|]; congruence. Qed.
Print Assumptions C46_odd_refuted.
(** ... for every odd number of ranks above 1 the last rank is not paired back *)
Theorem C46_odd : forall m, 1 <= m -> get_pair_rank (get_pair_rank (2 * m) (2 * m + 1)) (2 * m + 1) = 0.
Proof.
  intros m H. unfold get_pair_rank. replace ((2 * m + 1) / 2) with m by (rewrite Z.mul_comm, Z.div_add_l by lia; change (1 / 2) with 0; lia).
  destruct (Z.ltb_spec (2 * m) m); [lia|]. destruct (Z.ltb_spec (2 * m - m) m); lia.
Qed.
Print Assumptions C46_odd.

(** C58 (partial). In any commutative ring with functions cos and sin such that cos^2 + sin^2 = 1, cos(-a) = cos a and
    sin(-a) = - sin a: rotating points about any of the three axes preserves the dot product of any two of them (so radius and angles), and rotating
    by the opposite angle restores the point.  Missing: the conversion from and to longitude, latitude and radius
    (convert=True). *)
Theorem C58_isometry_partial :
  forall R angle zero one add mul sub opp, ring_theory zero one add mul sub opp eq ->
  forall (cos sin : angle -> R) (neg : angle -> angle),
  (forall a, add (mul (cos a) (cos a)) (mul (sin a) (sin a)) = one) -> (forall a, cos (neg a) = cos a) -> (forall a, sin (neg a) = opp (sin a)) ->
  forall axis a p, axis = 1 \/ axis = 2 \/ axis = 3 ->
  exists p', rot_3d R angle add mul opp cos sin axis p a = Some p' /\
    rot_3d R angle add mul opp cos sin axis p' (neg a) = Some p /\
    forall q q', rot_3d R angle add mul opp cos sin axis q a = Some q' -> dot R add mul p' q' = dot R add mul p q.
Proof.
  intros R angle zero one add mul sub opp Rth cos sin neg P C S axis a p Ha.
  assert (E : exists p', rot_3d R angle add mul opp cos sin axis p a = Some p').
  { destruct p as [[p0 p1] p2]. unfold rot_3d. destruct Ha as [->|[->| ->]]; eexists; reflexivity. }
  destruct E as [p' E]. exists p'. split; auto. split; [eapply rot_back; eauto|]. intros q q' E'. eapply rot_dot; eauto.
Qed.
Print Assumptions C58_isometry_partial.
(** C58, the sense of the rotation: a point on the first axis moves towards the negative second axis when turned about the third, and the rotations
    about the other two axes are the same up to the cyclic renaming of the axes; in particular the coordinate along the axis stays *)
Definition renamed {A} (p : A * A * A) : A * A * A := let '(p0, p1, p2) := p in (p2, p0, p1).
Section Sense.
  Variables (R angle : Type) (zero one : R) (add mul sub : R -> R -> R) (opp : R -> R).
  Hypothesis Rth : ring_theory zero one add mul sub opp eq.
  Add Ring Rr : Rth.
  Variables cos sin : angle -> R.
  Let rot := rot_3d R angle add mul opp cos sin.
  Theorem C58_sense_partial a :
    rot 3 (one, zero, zero) a = Some (cos a, opp (sin a), zero) /\ rot 3 (zero, one, zero) a = Some (sin a, cos a, zero) /\
    (forall p p', rot 3 p a = Some p' -> snd p' = snd p) /\
    (forall p p', rot 3 p a = Some p' -> rot 1 (renamed p) a = Some (renamed p')) /\
    (forall p p', rot 1 p a = Some p' -> rot 2 (renamed p) a = Some (renamed p')).
  Proof.
    unfold rot, rot_3d. cbn [Z.eqb Pos.eqb].
    assert (T : forall u v w u' v' w' : R, u = u' -> v = v' -> w = w' -> Some (u, v, w) = Some (u', v', w')) by (intros; subst; reflexivity).
    split; [apply T; ring|]. split; [apply T; ring|]. split; [|split]; intros [[p0 p1] p2] [[q0 q1] q2] E.
    - injection E as <- <- <-. reflexivity.
    - injection E as <- <- <-. reflexivity.
    - injection E as <- <- <-. cbn [renamed]. apply T; ring.
  Qed.
End Sense.
Print Assumptions C58_sense_partial.
(** integers, quarter turns *)
Example C58_case :
  let cos (a : bool) := 0 in let sin (a : bool) := if a then 1 else -1 in
  rot_3d Z bool Z.add Z.mul Z.opp cos sin 3 (1, 2, 3) true = Some (2, -1, 3) /\
  rot_3d Z bool Z.add Z.mul Z.opp cos sin 3 (2, -1, 3) false = Some (1, 2, 3) /\
  (forall a, cos a * cos a + sin a * sin a = 1) /\ (forall a, cos (negb a) = cos a) /\ (forall a, sin (negb a) = - sin a).
Proof. cbn. repeat split; auto; intros []; reflexivity. Qed.
