(** Lemmas for RefineProps.v. *)
From Verif Require Import Base MergeModel MergeMem RefineModel.

Section Ind.
  Variable P : snode -> Prop.
  Hypothesis HT : forall t, P (STask t).
  Hypothesis HS : forall k s r cs, Forall P cs -> P (Scope k s r cs).
  Hypothesis HI : forall c cs, Forall P cs -> P (SIf c cs).
  Fixpoint snode_ind2 (n : snode) : P n :=
    match n with
    | STask t => HT t
    | Scope k s r cs => HS k s r cs ((fix go l : Forall P l := match l with [] => Forall_nil _ | x :: l' => Forall_cons x (snode_ind2 x) (go l') end) cs)
    | SIf c cs => HI c cs ((fix go l : Forall P l := match l with [] => Forall_nil _ | x :: l' => Forall_cons x (snode_ind2 x) (go l') end) cs)
    end.
End Ind.

(** ** lists *)
Lemma set_nth_inj {A} n (z : A) : forall i j x, nth_error i n = Some x -> nth_error j n = Some x -> set_nth n z i = set_nth n z j -> i = j.
Proof.
  induction n as [|n IH]; intros [|a i] [|b j] x H1 H2; cbn in *; try discriminate; intros E.
  - congruence.
  - injection E as -> E. f_equal. eapply IH; eauto.
Qed.
Lemma map_set_nth {A B} (g : A -> B) n x : forall l, map g (set_nth n x l) = set_nth n (g x) (map g l).
Proof. induction n as [|n IH]; intros [|a l]; cbn; auto. f_equal. apply IH. Qed.
Lemma set_nth_map_some {A} n (x : A) : forall l, set_nth n (Some x) (map Some l) = map Some (set_nth n x l).
Proof. intros. symmetry. apply (map_set_nth Some). Qed.

Lemma points_proj n x : forall b, nth_error b n = Some (x, x) -> points (set_nth n (0, 0) b) = map (set_nth n 0) (points b).
Proof.
  induction n as [|n IH]; intros [|[lo hi] b] H; cbn [nth_error] in H; try discriminate.
  - injection H as -> ->. cbn [set_nth points]. rewrite (zrange_cons x (x + 1)), (zrange_cons 0 (0 + 1)) by lia.
    rewrite !zrange_nil by lia. cbn [flat_map]. rewrite !app_nil_r, map_map. apply map_ext. reflexivity.
  - cbn [set_nth points]. rewrite (IH b H). rewrite !flat_map_concat_map, concat_map, map_map. f_equal. apply map_ext. intros y.
    rewrite !map_map. apply map_ext. reflexivity.
Qed.
Lemma points_coord n x : forall b i, nth_error b n = Some (x, x) -> In i (points b) -> nth_error i n = Some x.
Proof.
  induction n as [|n IH]; intros [|[lo hi] b] i H; cbn [nth_error] in H; try discriminate; cbn [points]; intros Hi;
    apply in_flat_map in Hi; destruct Hi as (y & Hy & Hi); apply in_map_iff in Hi; destruct Hi as (j & <- & Hj).
  - injection H as -> ->. apply in_zrange in Hy. cbn. f_equal. lia.
  - cbn. eapply IH; eauto.
Qed.

Lemma enum_map {A B} (g : A -> B) l : enum (map g l) = map (fun kx => (fst kx, g (snd kx))) (enum l).
Proof.
  unfold enum. rewrite map_length. generalize 0%nat as s. induction l as [|x l IH]; intros s; cbn; [reflexivity|]. f_equal. apply IH.
Qed.
Lemma enum_in {A} (l : list A) x : In x l <-> exists k, In (k, x) (enum l).
Proof.
  unfold enum. generalize 0%nat as s. induction l as [|y l IH]; intros s; cbn.
  - split; [intros []|intros [k []]].
  - rewrite (IH (S s)). split.
    + intros [->|[k H]]; eauto.
    + intros [k [[= <- <-]|H]]; eauto.
Qed.

Section One.
  Variables (d0 : string) (a : axis).
  Notation n := (axis_index a).

  Definition proj (d : string) (i : list Z) : list Z := if String.eqb d d0 then set_nth n 0 i else i.
  Definition proj_box (b : box) : box := if String.eqb (fst b) d0 then (fst b, set_nth n (0, 0) (snd b)) else b.
  Definition proj_ev (ev : event) : event := mkEvent (ev_id ev) (map proj_box (ev_reads ev)) (map proj_box (ev_writes ev)) (ev_code ev).
  (** all accesses of d0 are at x on the axis *)
  Definition thin_box (x : Z) (b : box) : Prop := fst b = d0 -> nth_error (snd b) n = Some (x, x).
  Definition thin (x : Z) (ev : event) : Prop := Forall (thin_box x) (ev_reads ev ++ ev_writes ev).

  Lemma proj_box_points x b : thin_box x b -> fst (proj_box b) = fst b /\ points (snd (proj_box b)) = map (proj (fst b)) (points (snd b)).
  Proof.
    intros H. unfold proj_box. destruct (String.eqb_spec (fst b) d0) as [E|E]; cbn [fst snd].
    - split; [reflexivity|]. rewrite (points_proj n x) by (apply H; exact E). apply map_ext. intros i. unfold proj.
      apply String.eqb_eq in E. rewrite E. reflexivity.
    - split; [reflexivity|]. rewrite <- (map_id (points (snd b))) at 1. apply map_ext. intros i. unfold proj.
      apply String.eqb_neq in E. rewrite E. reflexivity.
  Qed.

  Section Values.
    Context {V : Type}.
    Variable f : nat -> list Z -> list (list V) -> nat -> nat -> V.
    Notation mem := (@mem V).

    Definition proj_store (s : string * list Z * V) := (fst (fst s), proj (fst (fst s)) (snd (fst s)), snd s).

    Lemma stores_proj x (m m' : mem) ev : thin x ev ->
      (forall d i, reads_cell ev d i -> m' d (proj d i) = m d i) ->
      stores f m' (proj_ev ev) = map proj_store (stores f m ev).
    Proof.
      intros T H. unfold thin in T. apply Forall_app in T. destruct T as [TR TW]. unfold stores. cbn [ev_reads ev_writes ev_id ev_code proj_ev].
      assert (E : map (read_box m') (map proj_box (ev_reads ev)) = map (read_box m) (ev_reads ev)).
      { rewrite map_map. apply map_ext_in. intros b Hb. rewrite Forall_forall in TR. destruct (proj_box_points x b (TR b Hb)) as [E1 E2].
        unfold read_box. rewrite E1, E2, map_map. apply map_ext_in. intros i Hi. apply H. exists (snd b). destruct b; auto. }
      rewrite E. generalize (map (read_box m) (ev_reads ev)) as ins. intros ins.
      rewrite enum_map. rewrite !flat_map_concat_map, concat_map, !map_map. f_equal. apply map_ext_in. intros [k b] Hb. cbn [fst snd].
      assert (Hin : In b (ev_writes ev)) by (apply enum_in; eauto).
      rewrite Forall_forall in TW. destruct (proj_box_points x b (TW b Hin)) as [E1 E2]. rewrite E1, E2, enum_map, !map_map.
      apply map_ext. intros [j i]. reflexivity.
    Qed.

    Lemma stores_cells (m : mem) ev d i : writes_cell ev d i <-> exists v, In (d, i, v) (stores f m ev).
    Proof.
      unfold stores, writes_cell. split.
      - intros (b & Hb & Hi). apply enum_in in Hb. destruct Hb as [k Hb]. apply enum_in in Hi. destruct Hi as [j Hi].
        eexists. apply in_flat_map. exists (k, (d, b)). split; [exact Hb|]. apply in_map_iff. exists (j, i). cbn. auto.
      - intros [v H]. apply in_flat_map in H. destruct H as ([k b] & Hb & H). apply in_map_iff in H. destruct H as ([j i'] & E & Hj).
        cbn in E, Hj. injection E as <- <- _. exists (snd b). split; [apply enum_in; exists k; destruct b; exact Hb|apply enum_in; eauto].
    Qed.

    Lemma apply_proj d i : forall (U : list (string * list Z * V)) (m m' : mem),
      (forall i' v, In (d, i', v) U -> proj d i' = proj d i -> i' = i) ->
      (m' d (proj d i) = m d i \/ exists v, In (d, i, v) U) ->
      fold_left put1 (map proj_store U) m' d (proj d i) = fold_left put1 U m d i.
    Proof.
      induction U as [|[[ds is] v] U IH]; intros m m' HU H; cbn [fold_left map].
      - destruct H as [H|[v []]]. exact H.
      - apply IH; [intros; eapply HU; cbn; eauto|]. unfold put1, proj_store. cbn [fst snd].
        destruct (String.eqb_spec d ds) as [<-|Nd]; cbn [andb].
        + destruct (list_eq_dec Z.eq_dec i is) as [<-|Ni].
          * destruct (list_eq_dec Z.eq_dec (proj d i) (proj d i)); [auto|tauto].
          * destruct (list_eq_dec Z.eq_dec (proj d i) (proj d is)) as [E|_].
            -- exfalso. apply Ni. symmetry. apply (HU is v); [cbn; auto|auto].
            -- destruct H as [H|[w [E|H]]]; [auto|congruence|eauto].
        + destruct H as [H|[w [E|H]]]; [auto|congruence|eauto].
    Qed.
    Lemma untouched_store d i : forall (U : list (string * list Z * V)) (m : mem),
      (forall v, ~ In (d, i, v) U) -> fold_left put1 U m d i = m d i.
    Proof.
      induction U as [|[[ds is] v] U IH]; intros m H; cbn [fold_left]; [reflexivity|].
      rewrite IH by (intros w Hw; apply (H w); cbn; auto). unfold put1. cbn [fst snd].
      destruct (String.eqb_spec d ds) as [<-|]; [|reflexivity]. destruct (list_eq_dec Z.eq_dec i is) as [<-|]; [|reflexivity].
      exfalso. apply (H v). cbn. auto.
    Qed.

    (** element (d, i) has not been overwritten through its image *)
    Fixpoint own (past : list event) (d : string) (i : list Z) : Prop :=
      match past with
      | [] => d <> d0
      | ev :: past' =>
          (writes_cell ev d i /\ forall i', writes_cell ev d i' -> proj d i' = proj d i -> i' = i) \/
          ((forall i', writes_cell ev d i' -> proj d i' <> proj d i) /\ own past' d i)
      end.
    Definition inv (past : list event) (m m' : mem) : Prop := forall d i, own past d i -> m' d (proj d i) = m d i.

    Lemma step_inv x past (m m' : mem) ev : thin x ev -> inv past m m' -> (forall d i, reads_cell ev d i -> own past d i) ->
      inv (ev :: past) (run1 f m ev) (run1 f m' (proj_ev ev)).
    Proof.
      intros T HI HR d i Ho. unfold run1. rewrite (stores_proj x m m' ev T) by (intros; apply HI, HR; assumption).
      destruct Ho as [[Hw Hu]|[Hu Ho]].
      - apply apply_proj.
        + intros i' v H. apply Hu. apply (stores_cells m). eauto.
        + right. apply (stores_cells m). exact Hw.
      - apply apply_proj.
        + intros i' v H E. exfalso. apply (Hu i'); [apply (stores_cells m); eauto|exact E].
        + left. apply HI. exact Ho.
    Qed.

    Fixpoint reads_own (past evs : list event) : Prop :=
      match evs with
      | [] => True
      | ev :: evs' => (forall d i, reads_cell ev d i -> own past d i) /\ reads_own (ev :: past) evs'
      end.
    Lemma run_inv : forall evs past (m m' : mem), inv past m m' -> (forall ev, In ev evs -> exists x, thin x ev) -> reads_own past evs ->
      inv (rev evs ++ past) (run f m evs) (run f m' (map proj_ev evs)).
    Proof.
      induction evs as [|ev evs IH]; intros past m m' HI HT HR; [exact HI|]. cbn [run fold_left map rev]. destruct HR as [R1 R2].
      destruct (HT ev (or_introl eq_refl)) as [x Tx]. rewrite <- app_assoc.
      apply (IH (ev :: past)); [apply (step_inv x); auto|intros; apply HT; cbn; auto|exact R2].
    Qed.
    Lemma reads_own_app : forall l1 l2 past, reads_own past (l1 ++ l2) <-> reads_own past l1 /\ reads_own (rev l1 ++ past) l2.
    Proof.
      induction l1 as [|e l1 IH]; intros l2 past; cbn [app reads_own rev]; [tauto|]. rewrite IH, <- app_assoc. cbn [app]. tauto.
    Qed.
  End Values.

  Lemma proj_other d i : d <> d0 -> proj d i = i.
  Proof. intros H. unfold proj. apply String.eqb_neq in H. rewrite H. reflexivity. Qed.
  Lemma writes_dec ev d i : writes_cell ev d i \/ ~ writes_cell ev d i.
  Proof.
    unfold writes_cell. induction (ev_writes ev) as [|[d' b] l IH]; [right; intros (b & [] & _)|].
    destruct IH as [(b' & H1 & H2)|IH]; [left; exists b'; cbn; auto|].
    destruct (string_dec d' d) as [->|N]; [destruct (in_dec (list_eq_dec Z.eq_dec) i (points b)) as [I|I]|].
    - left. exists b. cbn. auto.
    - right. intros (b' & [[= <-]|H] & H2); [tauto|]. apply IH. eauto.
    - right. intros (b' & [[= <- <-]|H] & H2); [tauto|]. apply IH. eauto.
  Qed.
  Lemma own_other d i : d <> d0 -> forall past, own past d i.
  Proof.
    intros H. induction past as [|ev past IH]; [exact H|]. cbn [own]. destruct (writes_dec ev d i) as [W|W].
    - left. split; [exact W|]. intros i'. rewrite !proj_other by exact H. auto.
    - right. split; [|exact IH]. intros i' W'. rewrite !proj_other by exact H. congruence.
  Qed.

  Lemma thin_writes x ev i : thin x ev -> writes_cell ev d0 i -> nth_error i n = Some x.
  Proof.
    intros T (b & Hb & Hi). unfold thin in T. apply Forall_app in T. destruct T as [_ T]. rewrite Forall_forall in T.
    eapply points_coord; [apply (T _ Hb eq_refl)|exact Hi].
  Qed.
  Lemma own_iteration x i past : forall P, Forall (thin x) P -> (exists w, In w P /\ writes_cell w d0 i) -> own (P ++ past) d0 i.
  Proof.
    induction P as [|ev P IH]; intros T (w & Hw & W); [destruct Hw|]. cbn [app own]. inversion T; subst.
    assert (U : forall j w', thin x w' -> writes_cell w' d0 j -> nth_error j n = Some x) by (intros; eapply thin_writes; eauto).
    assert (Hx : nth_error i n = Some x) by (rewrite Forall_forall in T; eapply U; [apply T; exact Hw|exact W]).
    destruct (writes_dec ev d0 i) as [W1|W1].
    - left. split; [exact W1|]. intros i' W' E. unfold proj in E. rewrite String.eqb_refl in E. eapply set_nth_inj; [| |exact E]; eauto.
    - right. split.
      + intros i' W' E. unfold proj in E. rewrite String.eqb_refl in E.
        apply set_nth_inj with (x := x) in E; [subst; contradiction|eauto|exact Hx].
      + apply IH; [assumption|]. destruct Hw as [<-|Hw]; [contradiction|eauto].
  Qed.
  Lemma iteration_ok x L past : Forall (thin x) L -> written_first d0 L -> reads_own past L.
  Proof.
    intros T W. enough (X : forall Q P, L = P ++ Q -> reads_own (rev P ++ past) Q) by (apply (X L []); reflexivity).
    induction Q as [|ev Q IH]; intros P E; [exact I|]. cbn [reads_own]. split.
    - intros d i R. destruct (string_dec d d0) as [->|N]; [|apply own_other; exact N].
      destruct (W P ev Q i E R) as (w & Hw & Ww). apply (own_iteration x).
      + apply Forall_rev. rewrite E in T. apply Forall_app in T. apply T.
      + exists w. split; [apply in_rev in Hw; exact Hw|exact Ww].
    - specialize (IH (P ++ [ev])). rewrite rev_app_distr in IH. apply IH. rewrite <- app_assoc. exact E.
  Qed.

  (** ** trees *)
  (** every access of d0 is at the index expression xi on the axis *)
  Definition aligned (xi : idx) (m : memlet) : Prop := on_axis a m = Some (xi, xi).
  Lemma idx_eqb_eq (u v : idx) : idx_eqb u v = true <-> u = v.
  Proof.
    unfold idx_eqb. destruct u as [[s|] z], v as [[s'|] z']; cbn; try (split; [discriminate|congruence]).
    - rewrite andb_true_iff, String.eqb_eq, Z.eqb_eq. split; [intros [-> ->]; reflexivity|intros [= -> ->]; auto].
    - rewrite Z.eqb_eq. split; [intros ->; reflexivity|intros [= ->]; auto].
  Qed.
  Lemma one_element_aligned ms : one_element a ms = true -> exists xi, Forall (aligned xi) ms.
  Proof.
    unfold one_element. destruct ms as [|m ms]; [discriminate|]. destruct (on_axis a m) as [[xi xe]|] eqn:E; [|discriminate].
    intros H. exists xi. apply Forall_forall. intros m' Hm. rewrite forallb_forall in H. specialize (H m' Hm). unfold aligned.
    destruct (on_axis a m') as [[b e]|]; [|discriminate]. apply andb_true_iff in H. rewrite !idx_eqb_eq in H. destruct H as [-> ->]. reflexivity.
  Qed.

  Lemma resolve_thin e m b xi x : aligned xi m -> eval e xi = Some x -> resolve e m = Some b -> fst b = m_data m /\ nth_error (snd b) n = Some (x, x).
  Proof.
    intros Al Ex. unfold resolve. destruct (all_some _) as [l|] eqn:E; cbn; [|discriminate]. intros [= <-]. cbn. split; [reflexivity|].
    apply all_some_spec in E. unfold aligned, on_axis in Al.
    pose proof (map_nth_error (fun p => match eval e (fst p), eval e (snd p) with Some u, Some v => Some (u, v) | _, _ => None end) _ _ Al) as H.
    rewrite E, nth_error_map in H. cbn [fst snd] in H. rewrite Ex in H. destruct (nth_error l n); cbn in H; congruence.
  Qed.
  Lemma resolve_data e m b : resolve e m = Some b -> fst b = m_data m.
  Proof. unfold resolve. destruct (all_some _); cbn; [intros [= <-]; reflexivity|discriminate]. Qed.
  Lemma resolve_proj e m b : resolve e m = Some b -> resolve e (rebuild_memlet d0 a m) = Some (proj_box b).
  Proof.
    intros H. pose proof (resolve_data _ _ _ H) as D. unfold rebuild_memlet, of_data, proj_box. rewrite D.
    destruct (String.eqb (m_data m) d0); [|exact H]. unfold resolve in *. cbn [m_data m_sub].
    destruct (all_some _) as [l|] eqn:E in H; cbn in H; [|discriminate]. injection H as <-. cbn [fst snd].
    apply all_some_spec in E. rewrite map_set_nth, E. cbn [fst snd zero_idx eval option_map]. unfold eval, zero_idx. cbn [fst snd].
    rewrite set_nth_map_some. replace (all_some (map Some (set_nth n (0, 0) l))) with (Some (set_nth n (0, 0) l)); [reflexivity|].
    symmetry. apply all_some_spec. reflexivity.
  Qed.
  Lemma all_resolve_proj e : forall ms bs, all_some (map (resolve e) ms) = Some bs ->
    all_some (map (resolve e) (map (rebuild_memlet d0 a) ms)) = Some (map proj_box bs).
  Proof.
    induction ms as [|m ms IH]; intros bs H; cbn in *; [injection H as <-; reflexivity|].
    destruct (resolve e m) as [b|] eqn:E; [|discriminate]. rewrite (resolve_proj _ _ _ E).
    destruct (all_some (map (resolve e) ms)) as [r|]; [|discriminate]. injection H as <-. rewrite (IH r eq_refl). reflexivity.
  Qed.
  Lemma run_task_proj e t ev : run_task e t = Some ev -> run_task e (rebuild_task d0 a t) = Some (proj_ev ev).
  Proof.
    unfold run_task, rebuild_task. cbn [t_in t_out t_code t_id].
    destruct (all_some (map (resolve e) (t_in t))) as [r|] eqn:E1; [|discriminate].
    destruct (all_some (map (resolve e) (t_out t))) as [w|] eqn:E2; [|discriminate].
    destruct (all_some (map e (t_code t))) as [c|]; [|discriminate]. intros [= <-].
    rewrite (all_resolve_proj _ _ _ E1), (all_resolve_proj _ _ _ E2). reflexivity.
  Qed.

  Lemma strace_rebuild : forall nd e evs, strace e nd = map Some evs -> strace e (rebuild d0 a nd) = map Some (map proj_ev evs).
  Proof.
    assert (L : forall cs, Forall (fun nd => forall e evs, strace e nd = map Some evs -> strace e (rebuild d0 a nd) = map Some (map proj_ev evs)) cs ->
      forall e evs, flat_map (strace e) cs = map Some evs -> flat_map (strace e) (map (rebuild d0 a) cs) = map Some (map proj_ev evs)).
    { induction cs as [|c cs IH]; intros F e evs H; cbn in *.
      - destruct evs; [reflexivity|discriminate].
      - inversion F; subst. symmetry in H. apply map_eq_app in H. destruct H as (e1 & e2 & -> & H1 & H2').
        rewrite !map_app. f_equal; [apply H2; auto|apply IH; auto]. }
    induction nd as [t|k s r cs IH|c cs IH] using snode_ind2; intros e evs.
    - cbn. destruct evs as [|ev [|? ?]]; try discriminate. intros [= H]. cbn. f_equal. apply run_task_proj. exact H.
    - cbn [strace rebuild]. generalize (iterations r) as ks. intros ks. revert evs.
      induction ks as [|x ks IHk]; intros evs H; cbn in *.
      + destruct evs; [reflexivity|discriminate].
      + symmetry in H. apply map_eq_app in H. destruct H as (e1 & e2 & -> & H1 & H2). rewrite !map_app. f_equal; [apply L; auto|apply IHk; auto].
    - cbn [strace rebuild]. destruct (e (c_sym c)) as [v|].
      + destruct (c_test c v); [apply L; exact IH|]. destruct evs; [reflexivity|discriminate].
      + destruct evs; discriminate.
  Qed.

  (** events of a tree which does not rebind s, in an environment where xi has a value *)
  Lemma thin_events s o x : forall nd e evs, binds s nd = false -> e s = Some x -> Forall (aligned (Some s, o)) (accesses d0 nd) ->
    strace e nd = map Some evs -> Forall (thin (x + o)) evs.
  Proof.
    assert (L : forall cs, Forall (fun nd => forall e evs, binds s nd = false -> e s = Some x -> Forall (aligned (Some s, o)) (accesses d0 nd) ->
        strace e nd = map Some evs -> Forall (thin (x + o)) evs) cs ->
      forall e evs, existsb (binds s) cs = false -> e s = Some x -> Forall (aligned (Some s, o)) (flat_map (accesses d0) cs) ->
        flat_map (strace e) cs = map Some evs -> Forall (thin (x + o)) evs).
    { induction cs as [|c cs IH]; intros F e evs B Ee Al H; cbn in *.
      - destruct evs; [constructor|discriminate].
      - inversion F; subst. apply orb_false_iff in B. apply Forall_app in Al. symmetry in H. apply map_eq_app in H.
        destruct H as (e1 & e2 & -> & H1 & H2'). apply Forall_app. split; [eapply H2|eapply IH]; eauto; tauto. }
    induction nd as [t|k s' r cs IH|c cs IH] using snode_ind2; intros e evs B Ee Al H.
    - cbn in H. destruct evs as [|ev [|? ?]]; try discriminate. injection H as H. constructor; [|constructor].
      unfold run_task in H. destruct (all_some (map (resolve e) (t_in t))) as [rr|] eqn:E1; [|discriminate].
      destruct (all_some (map (resolve e) (t_out t))) as [w|] eqn:E2; [|discriminate].
      destruct (all_some (map e (t_code t))); [|discriminate]. injection H as <-. unfold thin. cbn [ev_reads ev_writes].
      apply Forall_forall. intros b Hb Ed. cbn [accesses] in Al. rewrite Forall_forall in Al.
      assert (exists m, In m (task_memlets t) /\ resolve e m = Some b) as (m & Hm & Em).
      { unfold task_memlets. apply in_app_or in Hb. destruct Hb as [Hb|Hb].
        - destruct (all_some_in _ _ _ _ E1 Hb) as (m & I & R). exists m. split; [apply in_or_app; auto|exact R].
        - destruct (all_some_in _ _ _ _ E2 Hb) as (m & I & R). exists m. split; [apply in_or_app; auto|exact R]. }
      assert (A : aligned (Some s, o) m).
      { apply Al. apply filter_In. split; [exact Hm|]. unfold of_data. apply String.eqb_eq. rewrite <- (resolve_data _ _ _ Em). exact Ed. }
      eapply resolve_thin in A; [apply A| |exact Em]. unfold eval. cbn. rewrite Ee. reflexivity.
    - cbn in B. apply orb_false_iff in B. destruct B as [B1 B2]. cbn in Al. cbn [strace] in H. revert evs H.
      induction (iterations r) as [|y ks IHk]; intros evs H; cbn in H.
      + destruct evs; [constructor|discriminate].
      + symmetry in H. apply map_eq_app in H. destruct H as (e1 & e2 & -> & H1 & H2). apply Forall_app. split; [|apply IHk; auto].
        eapply L; [exact IH|exact B2| |exact Al|symmetry; exact H1]. unfold bind_sym. rewrite String.eqb_sym, B1. exact Ee.
    - cbn in B, Al, H. destruct (e (c_sym c)) as [v|].
      + destruct (c_test c v); [eapply L; eauto|]. destruct evs; [constructor|discriminate].
      + destruct evs; discriminate.
  Qed.

  Lemma unused_events : forall nd e evs, accesses d0 nd = [] -> strace e nd = map Some evs ->
    Forall (fun ev => Forall (fun b => fst b <> d0) (ev_reads ev ++ ev_writes ev)) evs.
  Proof.
    assert (L : forall cs, Forall (fun nd => forall e evs, accesses d0 nd = [] -> strace e nd = map Some evs ->
        Forall (fun ev => Forall (fun b => fst b <> d0) (ev_reads ev ++ ev_writes ev)) evs) cs ->
      forall e evs, flat_map (accesses d0) cs = [] -> flat_map (strace e) cs = map Some evs ->
        Forall (fun ev => Forall (fun b => fst b <> d0) (ev_reads ev ++ ev_writes ev)) evs).
    { induction cs as [|c cs IH]; intros F e evs B H; cbn in *.
      - destruct evs; [constructor|discriminate].
      - inversion F; subst. apply app_eq_nil in B. symmetry in H. apply map_eq_app in H.
        destruct H as (e1 & e2 & -> & H1 & H2'). apply Forall_app. split; [eapply H2|eapply IH]; eauto; tauto. }
    induction nd as [t|k s' r cs IH|c cs IH] using snode_ind2; intros e evs B H.
    - cbn in H. destruct evs as [|ev [|? ?]]; try discriminate. injection H as H. constructor; [|constructor].
      unfold run_task in H. destruct (all_some (map (resolve e) (t_in t))) as [rr|] eqn:E1; [|discriminate].
      destruct (all_some (map (resolve e) (t_out t))) as [w|] eqn:E2; [|discriminate].
      destruct (all_some (map e (t_code t))); [|discriminate]. injection H as <-. cbn [ev_reads ev_writes].
      apply Forall_forall. intros b Hb Ed. cbn [accesses] in B.
      assert (exists m, In m (task_memlets t) /\ resolve e m = Some b) as (m & Hm & Em).
      { unfold task_memlets. apply in_app_or in Hb. destruct Hb as [Hb|Hb].
        - destruct (all_some_in _ _ _ _ E1 Hb) as (m & I & R). exists m. split; [apply in_or_app; auto|exact R].
        - destruct (all_some_in _ _ _ _ E2 Hb) as (m & I & R). exists m. split; [apply in_or_app; auto|exact R]. }
      assert (In m (filter (of_data d0) (task_memlets t))) as X; [|rewrite B in X; destruct X].
      apply filter_In. split; [exact Hm|]. unfold of_data. apply String.eqb_eq. rewrite <- (resolve_data _ _ _ Em). exact Ed.
    - cbn in B. cbn [strace] in H. revert evs H.
      induction (iterations r) as [|y ks IHk]; intros evs H; cbn in H.
      + destruct evs; [constructor|discriminate].
      + symmetry in H. apply map_eq_app in H. destruct H as (e1 & e2 & -> & H1 & H2). apply Forall_app. split; [|apply IHk; auto].
        eapply L; eauto.
    - cbn in B, H. destruct (e (c_sym c)) as [v|].
      + destruct (c_test c v); [eapply L; eauto|]. destruct evs; [constructor|discriminate].
      + destruct evs; discriminate.
  Qed.
  Lemma unused_ok x evs : Forall (fun ev => Forall (fun b => fst b <> d0) (ev_reads ev ++ ev_writes ev)) evs ->
    Forall (thin x) evs /\ forall past, reads_own past evs.
  Proof.
    induction 1 as [|ev evs H _ [IH1 IH2]]; [split; [constructor|intros; exact I]|]. split.
    - constructor; [|exact IH1]. eapply Forall_impl; [|exact H]. intros b Nb E. contradiction.
    - intros past. cbn. split; [|apply IH2]. intros d i (b & Hb & _). apply own_other. rewrite Forall_forall in H.
      apply (H (d, b)). apply in_or_app. auto.
  Qed.

  (** a private tree *)
  Lemma private_ok s o : forall nd e evs, private d0 s nd -> Forall (aligned (Some s, o)) (accesses d0 nd) -> strace e nd = map Some evs ->
    (forall ev, In ev evs -> exists x, thin x ev) /\ forall past, reads_own past evs.
  Proof.
    assert (L : forall cs, Forall (fun nd => forall e evs, private d0 s nd -> Forall (aligned (Some s, o)) (accesses d0 nd) -> strace e nd = map Some evs ->
        (forall ev, In ev evs -> exists x, thin x ev) /\ forall past, reads_own past evs) cs ->
      forall e evs, Forall (private d0 s) cs -> Forall (aligned (Some s, o)) (flat_map (accesses d0) cs) -> flat_map (strace e) cs = map Some evs ->
        (forall ev, In ev evs -> exists x, thin x ev) /\ forall past, reads_own past evs).
    { induction cs as [|c cs IH]; intros F e evs P Al H; cbn in *.
      - destruct evs; [|discriminate]. split; [intros ? []|intros; exact I].
      - inversion F; subst. inversion P; subst. apply Forall_app in Al. symmetry in H. apply map_eq_app in H.
        destruct H as (e1 & e2 & -> & H1 & H2'). destruct (H2 e e1) as [A1 A2]; [auto|tauto|auto|].
        destruct (IH H3 e e2) as [B1 B2]; [auto|tauto|auto|]. split.
        + intros ev Hv. apply in_app_or in Hv. destruct Hv; auto.
        + intros past. apply reads_own_app. auto. }
    induction nd as [t|k s' r cs IH|c cs IH] using snode_ind2; intros e evs P Al H; inversion P; subst.
    all: try (match goal with U : accesses d0 _ = [] |- _ => destruct (unused_ok 0 evs (unused_events _ _ _ U H)) as [X1 X2] end; split;
              [intros ev Hv; exists 0; rewrite Forall_forall in X1; auto|exact X2]).
    all: try match goal with X : existsb (binds _) _ = false |- _ => rename X into Bf end.
    all: try match goal with X : forall e x evs, _ -> written_first _ _ |- _ => rename X into Wf end.
    all: try match goal with X : Forall (private _ _) _ |- _ => rename X into Fp end.
    - cbn [strace] in H. cbn [accesses] in Al. revert evs H. induction (iterations r) as [|y ks IHk]; intros evs H; cbn in H.
      + destruct evs; [|discriminate]. split; [intros ? []|intros; exact I].
      + symmetry in H. apply map_eq_app in H. destruct H as (e1 & e2 & -> & H3 & H4). symmetry in H4. destruct (IHk e2 H4) as [B1 B2]. symmetry in H3.
        assert (W : written_first d0 e1) by (eapply Wf; apply all_some_spec; exact H3).
        assert (T : Forall (thin (y + o)) e1).
        { revert e1 H3 W. clear -Bf Al. intros e1 H3 _. revert e1 H3.
          induction cs as [|c cs IHc]; intros e1 H; cbn in *.
          - destruct e1; [constructor|discriminate].
          - apply orb_false_iff in Bf. apply Forall_app in Al. symmetry in H. apply map_eq_app in H. destruct H as (u1 & u2 & -> & G1 & G2).
            apply Forall_app. split; [|apply IHc; try tauto; auto].
            eapply (thin_events _ o y); [apply Bf| |apply Al|symmetry; exact G1]. unfold bind_sym. rewrite String.eqb_refl. reflexivity. }
        split.
        * intros ev Hv. apply in_app_or in Hv. destruct Hv as [Hv|Hv]; [|auto]. rewrite Forall_forall in T. eauto.
        * intros past. apply reads_own_app. split; [eapply iteration_ok; eauto|apply B2].
    - cbn [strace] in H. cbn [accesses] in Al. revert evs H. induction (iterations r) as [|y ks IHk]; intros evs H; cbn in H.
      + destruct evs; [|discriminate]. split; [intros ? []|intros; exact I].
      + symmetry in H. apply map_eq_app in H. destruct H as (e1 & e2 & -> & H5 & H6). symmetry in H6. destruct (IHk e2 H6) as [B1 B2]. symmetry in H5.
        destruct (L cs IH _ _ Fp Al H5) as [A1 A2]. split.
        * intros ev Hv. apply in_app_or in Hv. destruct Hv; auto.
        * intros past. apply reads_own_app. auto.
    - cbn [strace] in H. cbn [accesses] in Al. destruct (e (c_sym c)) as [v|].
      + destruct (c_test c v); [eapply L; eauto|]. destruct evs; [|discriminate]. split; [intros ? []|intros; exact I].
      + destruct evs; discriminate.
  Qed.

  (** events of a tree which accesses d0 at a constant index *)
  Lemma thin_constant c : forall nd e evs, Forall (aligned (None, c)) (accesses d0 nd) -> strace e nd = map Some evs -> Forall (thin c) evs.
  Proof.
    assert (L : forall cs, Forall (fun nd => forall e evs, Forall (aligned (None, c)) (accesses d0 nd) -> strace e nd = map Some evs -> Forall (thin c) evs) cs ->
      forall e evs, Forall (aligned (None, c)) (flat_map (accesses d0) cs) -> flat_map (strace e) cs = map Some evs -> Forall (thin c) evs).
    { induction cs as [|u cs IH]; intros F e evs Al H; cbn in *.
      - destruct evs; [constructor|discriminate].
      - inversion F; subst. apply Forall_app in Al. symmetry in H. apply map_eq_app in H.
        destruct H as (e1 & e2 & -> & H1 & H2'). apply Forall_app. split; [eapply H2|eapply IH]; eauto; tauto. }
    induction nd as [t|k s' r cs IH|u cs IH] using snode_ind2; intros e evs Al H.
    - cbn in H. destruct evs as [|ev [|? ?]]; try discriminate. injection H as H. constructor; [|constructor].
      unfold run_task in H. destruct (all_some (map (resolve e) (t_in t))) as [rr|] eqn:E1; [|discriminate].
      destruct (all_some (map (resolve e) (t_out t))) as [w|] eqn:E2; [|discriminate].
      destruct (all_some (map e (t_code t))); [|discriminate]. injection H as <-. unfold thin. cbn [ev_reads ev_writes].
      apply Forall_forall. intros b Hb Ed. cbn [accesses] in Al. rewrite Forall_forall in Al.
      assert (exists m, In m (task_memlets t) /\ resolve e m = Some b) as (m & Hm & Em).
      { unfold task_memlets. apply in_app_or in Hb. destruct Hb as [Hb|Hb].
        - destruct (all_some_in _ _ _ _ E1 Hb) as (m & I & R). exists m. split; [apply in_or_app; auto|exact R].
        - destruct (all_some_in _ _ _ _ E2 Hb) as (m & I & R). exists m. split; [apply in_or_app; auto|exact R]. }
      assert (A : aligned (None, c) m).
      { apply Al. apply filter_In. split; [exact Hm|]. unfold of_data. apply String.eqb_eq. rewrite <- (resolve_data _ _ _ Em). exact Ed. }
      eapply resolve_thin in A; [apply A|reflexivity|exact Em].
    - cbn in Al. cbn [strace] in H. revert evs H.
      induction (iterations r) as [|y ks IHk]; intros evs H; cbn in H.
      + destruct evs; [constructor|discriminate].
      + symmetry in H. apply map_eq_app in H. destruct H as (e1 & e2 & -> & H1 & H2). apply Forall_app. split; [|apply IHk; auto].
        eapply L; eauto.
    - cbn in Al, H. destruct (e (c_sym u)) as [v|].
      + destruct (c_test u v); [eapply L; eauto|]. destruct evs; [constructor|discriminate].
      + destruct evs; discriminate.
  Qed.
End One.
