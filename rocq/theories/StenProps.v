(** C104: the stencil factory. *)
From Coq Require Import QArith.
From Verif Require Import Base Dict PartModel DecompModel HaloModel GridModel StenModel.
Open Scope Z_scope.

Lemma update_get {V} (e d : @dict V) k : NoDup (keys e) -> get (update d e) k = match get e k with Some v => Some v | None => get d k end.
Proof.
  revert d. induction e as [|[j v] e IH]; intros d N; [reflexivity|]. inversion N as [|? ? N1 N2]; subst. unfold update. cbn [fold_left fst snd].
  fold (update (put d j v) e). rewrite IH by exact N2. cbn [get]. rewrite get_put. destruct (String.eqb_spec k j) as [->|]; [|reflexivity].
  apply get_none in N1. now rewrite N1.
Qed.

Ltac place_is := unfold denotes, first_index, last_index, big; cbn [s_origin s_domain position nth g_origin g_domain]; f_equal; lia.

(** the offsets of one origin and domain, whatever else is in the dictionary *)
Lemma offsets_mean g f oi oj ok di dj dk a e : all_offsets g [oi; oj; ok] [di; dj; dk] = Some a ->
  (forall k, In k axis_names -> get e k = get a k) -> axis_externals g (Stencil f [oi; oj; ok] [di; dj; dk] e).
Proof.
  unfold all_offsets, axis_offsets. intros [= <-] X.
  assert (M : forall n v, In n axis_names -> get
     [("i_start", EPoint AI (if west g then First (g_origin g AI - oi) else First (- big)));
      ("local_is", EPoint AI (First (g_origin g AI - oi)));
      ("i_end", EPoint AI (if east g then Last (g_origin g AI + g_domain g AI - (oi + di)) else Last big));
      ("local_ie", EPoint AI (Last (g_origin g AI + g_domain g AI - 1 - oi - di + 1)));
      ("j_start", EPoint AJ (if south g then First (g_origin g AJ - oj) else First (- big)));
      ("local_js", EPoint AJ (First (g_origin g AJ - oj)));
      ("j_end", EPoint AJ (if north g then Last (g_origin g AJ + g_domain g AJ - (oj + dj)) else Last big));
      ("local_je", EPoint AJ (Last (g_origin g AJ + g_domain g AJ - 1 - oj - dj + 1)));
      ("k_start", ELevel ok); ("k_end", ELevel (ok + (dk - 1)))]%string n = Some v ->
    forall i, denotes (Stencil f [oi; oj; ok] [di; dj; dk] e) v = Some i -> means (Stencil f [oi; oj; ok] [di; dj; dk] e) n i).
  { intros n v I G i D. exists v. cbn [externals]. rewrite X by exact I. auto. }
  unfold axis_externals, first_index, last_index. cbn [s_origin s_domain position nth].
  assert (I : forall m n, nth_error axis_names m = Some n -> In n axis_names) by (intros m n; apply nth_error_In).
  repeat match goal with |- _ /\ _ => split end.
  - eapply M; [apply (I 1%nat); reflexivity|reflexivity|]. place_is.
  - eapply M; [apply (I 3%nat); reflexivity|reflexivity|]. place_is.
  - eapply M; [apply (I 5%nat); reflexivity|reflexivity|]. place_is.
  - eapply M; [apply (I 7%nat); reflexivity|reflexivity|]. place_is.
  - intros E. eapply M; [apply (I 0%nat); reflexivity|reflexivity|]. rewrite E. place_is.
  - intros E. eapply M; [apply (I 2%nat); reflexivity|reflexivity|]. rewrite E. place_is.
  - intros E. eapply M; [apply (I 4%nat); reflexivity|reflexivity|]. rewrite E. place_is.
  - intros E. eapply M; [apply (I 6%nat); reflexivity|reflexivity|]. rewrite E. place_is.
  - intros E. exists (oi - 32767). split; [|lia]. eapply M; [apply (I 0%nat); reflexivity|reflexivity|]. rewrite E. place_is.
  - intros E. exists (oi + di - 1 + 32767). split; [|lia]. eapply M; [apply (I 2%nat); reflexivity|reflexivity|]. rewrite E. place_is.
  - intros E. exists (oj - 32767). split; [|lia]. eapply M; [apply (I 4%nat); reflexivity|reflexivity|]. rewrite E. place_is.
  - intros E. exists (oj + dj - 1 + 32767). split; [|lia]. eapply M; [apply (I 6%nat); reflexivity|reflexivity|]. rewrite E. place_is.
  - eapply M; [apply (I 8%nat); reflexivity|reflexivity|]. reflexivity.
  - eapply M; [apply (I 9%nat); reflexivity|reflexivity|]. place_is.
Qed.
Lemma offsets_keys g o d a : all_offsets g o d = Some a -> keys a = axis_names.
Proof. unfold all_offsets, axis_offsets. destruct o as [|? [|? [|? []]]]; try discriminate. destruct d as [|? [|? [|? []]]]; try discriminate. intros [= <-]. reflexivity. Qed.
Lemma axis_names_NoDup : NoDup axis_names.
Proof. repeat constructor; cbn; intuition discriminate. Qed.

(** a dictionary's names are different *)
Definition dict_ok (u : option (dict ext)) : Prop := match u with Some u => NoDup (keys u) | None => True end.
Definition given (u : option (dict ext)) (n : string) : option ext := match u with Some u => get u n | None => None end.

(** ** from_dims_halo *)
(** A stencil for the dimensions I, J, K, each on cells or interfaces, with up to three halo sizes, runs on exactly the points of these
    dimensions and that many halo points on each side.  Missing from the full statement: dimensions in another order. *)
Theorem C104_region_partial : forall g f bi bj bk halos user, (length halos <= 3)%nat ->
  exists s, from_dims_halo g f [H AI bi; H AJ bj; H AV bk] halos user = Some s /\ func s = f /\
    forall a iface, (a = AI /\ iface = bi) \/ (a = AJ /\ iface = bj) \/ (a = AV /\ iface = bk) ->
      let h := nth (position a) halos 0 in
      first_index s a = (match a with AV => g_kstart g | _ => g_halo g end) - h /\
      last_index s a = (match a with AI => g_halo g + g_i g | AJ => g_halo g + g_j g | AV => g_kstart g + g_k g end) - 1 + (if iface then 1 else 0) + h.
Proof.
  intros g f bi bj bk halos user L. unfold from_dims_halo. cbn [length Nat.eqb negb].
  unfold get_origin_domain. cbn [origin_from_dims domain_from_dims].
  destruct halos as [|h1 [|h2 [|h3 [|]]]]; try (cbn in L; lia); cbn [add_halos bind fst snd cast_to_index3d length Nat.eqb all_offsets axis_offsets];
    unfold from_origin_domain; cbn [cast_to_index3d length Nat.eqb bind]; eexists; (split; [reflexivity|]); (split; [reflexivity|]);
    intros a iface [[-> ->]|[[-> ->]|[-> ->]]]; unfold first_index, last_index; cbn [s_origin s_domain position nth g_origin g_domain]; unfold one;
    match goal with |- context [if ?b then 1 else 0] => destruct b end; lia.
Qed.
Print Assumptions C104_region_partial.

(** The externals: what the user gives is what the stencil gets; the names of the factory that the user does not give are those of the
    rank's compute domain and of the levels computed. *)
Theorem C104_externals : forall g f ds halos user s, dict_ok user -> from_dims_halo g f ds halos user = Some s ->
  (forall n e, given user n = Some e -> get (externals s) n = Some e) /\
  (forall n, given user n = None -> ~ In n axis_names -> get (externals s) n = None) /\
  ((forall n, In n axis_names -> given user n = None) -> axis_externals g s).
Proof.
  intros g f ds halos user s U. unfold from_dims_halo. destruct (negb _); [discriminate|]. destruct (get_origin_domain g ds halos) as [[o d]|]; [|discriminate].
  cbn [bind fst snd]. unfold cast_to_index3d at 1 2. destruct (Nat.eqb_spec (length o) 3) as [Lo|]; [|discriminate]. destruct (Nat.eqb_spec (length d) 3) as [Ld|]; [|discriminate].
  cbn [bind]. destruct (all_offsets g o d) as [a|] eqn:A; [|discriminate]. cbn [bind]. unfold from_origin_domain, cast_to_index3d. rewrite Lo, Ld. cbn [Nat.eqb bind].
  intros [= <-]. cbn [externals]. set (u := match user with Some u => u | None => [] end).
  assert (Nu : NoDup (keys u)) by (destruct user; [exact U|constructor]). assert (Gu : forall n, given user n = get u n) by (destruct user; reflexivity).
  split; [|split].
  - intros n e G. rewrite update_get by exact Nu. rewrite <- Gu, G. reflexivity.
  - intros n G N. rewrite update_get by exact Nu. rewrite <- Gu, G. apply get_none. rewrite (offsets_keys _ _ _ _ A). exact N.
  - intros G. destruct o as [|oi [|oj [|ok []]]]; try discriminate Lo. destruct d as [|di [|dj [|dk []]]]; try discriminate Ld.
    apply (offsets_mean _ _ _ _ _ _ _ _ a); [exact A|]. intros n I. rewrite update_get by exact Nu. rewrite <- Gu, (G n I). reflexivity.
Qed.
Print Assumptions C104_externals.

(** Three spatial dimensions are needed, and no more halo sizes than dimensions. *)
Lemma origin_length g ds : length (origin_from_dims g ds) = length (filter (fun d => match d with H _ _ => true | Data _ => false end) ds).
Proof. induction ds as [|[a i|n] ds IH]; cbn; auto. Qed.
Lemma add_halos_length l hs f r : add_halos l hs f = Some r -> length r = length l.
Proof.
  revert l r. induction hs as [|h hs IH]; intros [|x l] r; cbn; try discriminate; try (intros [= <-]; reflexivity).
  destruct (add_halos l hs f) as [r'|] eqn:E; [|discriminate]. cbn. intros [= <-]. cbn. now rewrite (IH _ _ E).
Qed.
Theorem C104_refused : forall g f ds halos user, length ds <> 3%nat \/ (exists n, In (Data n) ds) \/ (3 < length halos)%nat ->
  from_dims_halo g f ds halos user = None.
Proof.
  intros g f ds halos user C. unfold from_dims_halo. destruct (Nat.eqb_spec (length ds) 3) as [L|L]; [|reflexivity]. cbn [negb].
  unfold get_origin_domain. destruct (add_halos (origin_from_dims g ds) halos _) as [o|] eqn:Eo; [|reflexivity]. cbn [bind].
  destruct (add_halos (domain_from_dims g ds) halos _) as [d|]; [|reflexivity]. cbn [bind fst snd].
  pose proof (add_halos_length _ _ _ _ Eo) as Lo. rewrite origin_length in Lo. unfold cast_to_index3d at 1.
  destruct (Nat.eqb_spec (length o) 3) as [L3|]; [|reflexivity]. exfalso. destruct C as [C|[[n C]|C]]; [congruence| |].
  - revert C L L3. rewrite Lo. clear. intros C L L3.
    assert (X : forall l : list sdim, (length (filter (fun d => match d with H _ _ => true | Data _ => false end) l) <= length l)%nat).
    { induction l as [|x l IH]; cbn; auto. destruct x; cbn; lia. }
    assert (Y : forall l, In (Data n) l -> (length (filter (fun d => match d with H _ _ => true | Data _ => false end) l) < length l)%nat).
    { induction l as [|x l IH]; cbn; [tauto|]. intros [->|I]; [specialize (X l); cbn; lia|]. specialize (IH I). destruct x; cbn; lia. }
    specialize (Y ds C). lia.
  - assert (X : forall hs l fn r, add_halos l hs fn = Some r -> (length hs <= length l)%nat).
    { clear. induction hs as [|h hs IH]; intros [|x l] fn r E; cbn [length]; try lia; [discriminate E|]. cbn [add_halos] in E.
      destruct (add_halos l hs fn) eqn:E2; [|discriminate E]. specialize (IH _ _ _ E2). lia. }
    specialize (X _ _ _ _ Eo). pose proof (add_halos_length _ _ _ _ Eo). lia.
Qed.
Print Assumptions C104_refused.

(** A factory restricted to levels k, ..., k + nk - 1 makes stencils on exactly these levels of the first factory's. *)
Theorem C104_restricted_partial : forall g g' f k nk bi bj bk user, restrict_vertical g k (Some nk) = Some g' ->
  exists s, from_dims_halo g' f [H AI bi; H AJ bj; H AV bk] [] user = Some s /\
    first_index s AV = g_kstart g + k /\ last_index s AV = g_kstart g + k + nk - 1 + (if bk then 1 else 0) /\ k + nk <= g_k g /\ 0 <= k.
Proof.
  intros g g' f k nk bi bj bk user R.
  destruct (C104_region_partial g' f bi bj bk [] user ltac:(cbn; lia)) as (s & E & _ & A). exists s. split; [exact E|].
  destruct (A AV bk) as [A1 A2]; [auto|]. cbn [nth position] in A1, A2. unfold restrict_vertical in R.
  destruct (Z.ltb_spec k 0); [discriminate|]. destruct (Z.ltb_spec (g_k g) k); [discriminate|]. destruct (Z.ltb_spec nk 0); [discriminate|].
  destruct (Z.ltb_spec (g_k g - k) nk); [discriminate|]. cbn [bind] in R. injection R as <-. cbn [g_kstart g_k] in A1, A2. lia.
Qed.
Print Assumptions C104_restricted_partial.

(** ** get_stencils_with_varied_bounds *)
(** One stencil for each origin and domain, in their order, each with the axis externals of where it runs; the user's externals with
    other names are those of every stencil.  Missing from the full statement: externals of the user's with the names of the factory. *)
Theorem C104_varied_partial : forall g f origins domains user l, dict_ok user ->
  get_stencils_with_varied_bounds g f origins domains user = Some l ->
  length l = length origins /\ length l = length domains /\
  forall m s, nth_error l m = Some s -> func s = f /\ nth_error origins m = Some (s_origin s) /\ nth_error domains m = Some (s_domain s) /\
    axis_externals g s /\ forall n, ~ In n axis_names -> get (externals s) n = given user n.
Proof.
  intros g f origins domains user l U. unfold get_stencils_with_varied_bounds. destruct (Nat.eqb_spec (length origins) (length domains)) as [L|]; [|discriminate]. cbn [negb].
  set (u := match user with Some u => u | None => [] end). assert (Gu : forall n, given user n = get u n) by (destruct user; reflexivity).
  clearbody u. clear U. revert domains L l. induction origins as [|o origins IH]; intros [|d domains] L l; try discriminate L.
  - cbn. intros [= <-]. split; [reflexivity|]. split; [reflexivity|]. intros [|m] s; discriminate.
  - cbn [combine varied]. destruct (all_offsets g o d) as [a|] eqn:A; [|discriminate]. cbn [bind]. unfold from_origin_domain, cast_to_index3d.
    destruct (Nat.eqb_spec (length o) 3) as [Lo|]; [|discriminate]. destruct (Nat.eqb_spec (length d) 3) as [Ld|]; [|discriminate]. cbn [bind].
    destruct (varied g f (combine origins domains) u) as [r|] eqn:V; [|discriminate]. cbn [bind]. intros [= <-].
    destruct (IH domains ltac:(cbn in L; lia) r V) as (L1 & L2 & IHs). cbn [length]. split; [lia|]. split; [lia|].
    intros [|m] s; cbn [nth_error]; [|apply IHs]. intros [= <-]. cbn [func s_origin s_domain externals]. do 3 (split; [reflexivity|]).
    assert (Na : NoDup (keys a)) by (rewrite (offsets_keys _ _ _ _ A); apply axis_names_NoDup). split.
    + destruct o as [|oi [|oj [|ok []]]]; try discriminate Lo. destruct d as [|di [|dj [|dk []]]]; try discriminate Ld.
      apply (offsets_mean _ _ _ _ _ _ _ _ a); [exact A|]. intros n I. rewrite update_get by exact Na.
      rewrite <- (offsets_keys _ _ _ _ A) in I. apply get_some in I. destruct I as [v ->]. reflexivity.
    + intros n N. rewrite update_get by exact Na. rewrite <- (offsets_keys _ _ _ _ A) in N. apply get_none in N. rewrite N. symmetry. apply Gu.
Qed.
Print Assumptions C104_varied_partial.
Theorem C104_lengths_refused : forall g f origins domains user, length origins <> length domains ->
  get_stencils_with_varied_bounds g f origins domains user = None.
Proof. intros g f origins domains user N. unfold get_stencils_with_varied_bounds. destruct (Nat.eqb_spec (length origins) (length domains)); [contradiction|reflexivity]. Qed.
Print Assumptions C104_lengths_refused.

(** ** what does not hold *)
Definition rank12x8 : grid := mkGrid 12 8 5 3 0 true true true false.
Example C104_case : exists s, from_dims_halo rank12x8 "f" [H AI true; H AJ false; H AV false] [2; 1] (Some [("n", EUser 7)]%string) = Some s /\
  s_origin s = [1; 2; 0] /\ s_domain s = [17; 10; 5] /\ means s "local_ie" 14 /\ means s "i_start" 3 /\ means s "k_end" 4.
Proof.
  eexists. split; [vm_compute; reflexivity|]. split; [reflexivity|]. split; [reflexivity|].
  split; [|split]; (eexists; split; [vm_compute; reflexivity|vm_compute; reflexivity]).
Qed.

(** Full statement: a stencil runs on the points of the dimensions given, in whatever order.  J, I, K is accepted; on 12 by 8 cells
    the stencil computes 8 of the 12 columns and rows outside of the domain, and local_is, local_ie remain those of I. *)
Theorem C104_order_refuted : ~ (forall g f ds halos user s, from_dims_halo g f ds halos user = Some s ->
  forall a iface, In (H a iface) ds -> last_index s a = g_origin g a + g_domain g a - 1 + (if iface then 1 else 0) + nth (position a) halos 0).
Proof.
  intros X. destruct (from_dims_halo rank12x8 "f" [H AJ false; H AI false; H AV false] [] None) as [s|] eqn:E; [|vm_compute in E; discriminate E].
  specialize (X _ _ _ _ _ _ E AI false ltac:(cbn; auto)). vm_compute in E. injection E as <-. vm_compute in X. discriminate X.
Qed.
Print Assumptions C104_order_refuted.
(** Full statement: a dimension may be given once.  I, I, K is accepted. *)
Theorem C104_twice_refuted : exists g f s, from_dims_halo g f [H AI false; H AI false; H AV false] [] None = Some s /\
  first_index s AJ = 3 /\ last_index s AJ = 14 /\ g_halo g = 3 /\ g_j g = 8.
Proof. exists rank12x8, "f"%string. eexists. split; [vm_compute; reflexivity|]. vm_compute. auto 7. Qed.
Print Assumptions C104_twice_refuted.
(** Full statement: the user's externals are those of the stencil.  The two ways to make stencils disagree about i_start. *)
Theorem C104_user_refuted : exists g f user s s' e, given (Some user) "i_start"%string = Some e /\
  from_dims_halo g f [H AI false; H AJ false; H AV false] [] (Some user) = Some s /\ get (externals s) "i_start"%string = Some e /\
  get_stencils_with_varied_bounds g f [s_origin s] [s_domain s] (Some user) = Some [s'] /\ get (externals s') "i_start"%string <> Some e.
Proof.
  exists rank12x8, "f"%string, [("i_start"%string, EUser 5)]. do 3 eexists. split; [reflexivity|]. split; [vm_compute; reflexivity|].
  split; [reflexivity|]. split; [vm_compute; reflexivity|]. vm_compute. discriminate.
Qed.
Print Assumptions C104_user_refuted.
