(** C65: the rank comparison tool reports exactly the arguments in which the two ranks differ. *)
From Verif Require Import Dict Base RanksModel RanksProps TwinModel.
From Coq Require Import Sorting.Sorted Lia.
Open Scope list_scope.
Open Scope Z_scope.

Section Twin.
  Context {E : Type}.
  Variable isnan : E -> bool.
  Variable differs : E -> E -> bool.
  Notation dargs := (dict (arg E)).
  Notation compare_ranks := (compare_ranks isnan differs).
  Notation call_raises := (call_raises isnan differs).

  Definition not_wrapped (a : arg E) : Prop := match a with Wrapper _ => False | _ => True end.

  Lemma exchanged_none (m : dargs) : (forall k a, get m k = Some a -> not_wrapped a) -> exchanged m = [].
  Proof.
    intros H. unfold exchanged, sorted_items. generalize (fold_left (fun ks kv => insert (fst kv) ks) m []). intros ks.
    induction ks as [|k ks IH]; [reflexivity|]. cbn [flat_map]. destruct (get m k) as [a|] eqn:G; [|exact IH].
    cbn [app flat_map fst snd]. rewrite IH. specialize (H k a G). destruct a; [reflexivity|reflexivity|destruct H|reflexivity].
  Qed.

  (** Nothing is ever compared among quantities and numpy arrays: whatever the other rank holds, no difference is found. *)
  Theorem C65_nothing_compared (mine theirs : dargs) : (forall k a, get mine k = Some a -> not_wrapped a) -> compare_ranks mine theirs = Some [].
  Proof. intros H. unfold TwinModel.compare_ranks. rewrite (exchanged_none mine H). reflexivity. Qed.

  Lemma get_map_snd (f : arg E -> arg E) (m : dargs) k : get (map (fun ka => (fst ka, f (snd ka))) m) k = match get m k with Some a => Some (f a) | None => None end.
  Proof. induction m as [|[k' a] m IH]; [reflexivity|]. cbn [map get fst snd]. destruct (String.eqb k k'); [reflexivity|exact IH]. Qed.

  Lemma arr_mismatches d : forall e, arr_diffs isnan differs d e = Z.of_nat (mismatches isnan differs d e).
  Proof.
    unfold mismatches. induction d as [|x d IH]; intros [|y e]; try reflexivity. cbn [arr_diffs combine filter fst snd]. rewrite IH.
    destruct (negb (isnan x) && differs x y); cbn [List.length]; lia.
  Qed.

  (** the two ranks pass arguments of the same names, kinds and sizes *)
  Definition twins (mine theirs : dargs) : Prop :=
    forall k, match get mine k, get theirs k with Some a, Some b => alike a b | None, None => True | _, _ => False end.
  (** what the tool should report for a name *)
  Definition difference (a b : option (arg E)) : option Z :=
    match a, b with
    | Some (Wrapper d), Some (Wrapper e) => if (mismatches isnan differs d e =? 0)%nat then None else Some (Z.of_nat (mismatches isnan differs d e))
    | _, _ => None
    end.

  Definition items (m : dargs) (ks : list string) : list (string * arg E) := flat_map (fun k => match get m k with Some a => [(k, a)] | None => [] end) ks.
  Definition sent (m : dargs) (ks : list string) : list (string * list E) :=
    flat_map (fun ka => match compared (snd ka) with Some d => [(fst ka, d)] | None => [] end) (items m ks).

  Lemma compare_ok (mine theirs : dargs) : twins mine theirs -> forall ks, NoDup ks ->
    exists r, compare_loop isnan differs (sent mine ks) (map snd (sent theirs ks)) = Some r
      /\ forall k, get r k = if in_dec string_dec k ks then difference (get mine k) (get theirs k) else None.
  Proof.
    intros H. induction ks as [|k ks IH]; intros N; [exists []; split; [reflexivity|intros; reflexivity]|].
    inversion N as [|? ? N1 N2]; subst. destruct (IH N2) as (r & E0 & G).
    assert (Hr : get r k = None) by (rewrite G; destruct (in_dec string_dec k ks); [contradiction|reflexivity]).
    specialize (H k).
    assert (SM : forall m, sent m (k :: ks) = match get m k with Some a => match compared a with Some d => (k, d) :: sent m ks | None => sent m ks end | None => sent m ks end).
    { intros m. unfold sent, items. cbn [flat_map]. destruct (get m k) as [a|]; [|reflexivity]. cbn [app flat_map fst snd]. destruct (compared a); reflexivity. }
    rewrite !SM.
    assert (skip : difference (get mine k) (get theirs k) = None ->
      forall x, get r x = if in_dec string_dec x (k :: ks) then difference (get mine x) (get theirs x) else None).
    { intros D x. rewrite G. destruct (in_dec string_dec x ks) as [I1|I1], (in_dec string_dec x (k :: ks)) as [I2|I2]; try reflexivity.
      - destruct I2. right. exact I1.
      - destruct I2 as [<-|I2]; [symmetry; exact D|contradiction]. }
    destruct (get mine k) as [a|] eqn:GA, (get theirs k) as [b|] eqn:GB; try contradiction.
    - destruct a as [d|d|d|], b as [e|e|e|]; try contradiction; unfold compared; cbn [unwrap].
      + exists r. split; [exact E0|apply skip; reflexivity].
      + exists r. split; [exact E0|apply skip; reflexivity].
      + cbn [map snd compare_loop]. rewrite E0. cbn [bind]. rewrite arr_mismatches.
        destruct (Z.of_nat (mismatches isnan differs d e) >? 0) eqn:P.
        * eexists. split; [reflexivity|]. intros x. cbn [get]. destruct (String.eqb_spec x k) as [->|NE].
          -- destruct (in_dec string_dec k (k :: ks)) as [_|X]; [|destruct X; left; reflexivity].
             rewrite GA, GB. cbn [difference]. destruct (mismatches isnan differs d e =? 0)%nat eqn:Z0; [|reflexivity].
             apply Nat.eqb_eq in Z0. rewrite Z0 in P. discriminate.
          -- rewrite G. destruct (in_dec string_dec x ks) as [I1|I1], (in_dec string_dec x (k :: ks)) as [I2|I2]; try reflexivity.
             ++ destruct I2. right. exact I1.
             ++ destruct I2; [congruence|contradiction].
        * exists r. split; [reflexivity|]. apply skip. cbn [difference]. replace (mismatches isnan differs d e) with 0%nat by lia. reflexivity.
      + exists r. split; [exact E0|apply skip; reflexivity].
    - exists r. split; [exact E0|apply skip; reflexivity].
  Qed.

  (** Arguments that wrap a numpy array in their attribute [data] are compared entry by entry under their own names.  Missing
      for C65: quantities and numpy arrays are not compared at all, and entries that are NaN here and not there do not count
      (both refuted below). *)
  Theorem C65_differences_partial (mine theirs : dargs) : twins mine theirs ->
    exists r, compare_ranks mine theirs = Some r /\ forall k, get r k = difference (get mine k) (get theirs k).
  Proof.
    intros H. set (ks := fold_left (fun ks kv => insert (fst kv) ks) mine []).
    assert (A : StronglySorted slt ks /\ forall k, In k ks <-> In k (keys mine)).
    { destruct (step_keys mine [] ltac:(constructor)) as [A B]. split; [exact A|]. intros k. unfold ks. rewrite (B k). cbn. intuition. }
    assert (KT : fold_left (fun ks kv => insert (fst kv) ks) theirs [] = ks).
    { destruct (step_keys theirs [] ltac:(constructor)) as [A' B']. apply sorted_unique; [exact A'|apply A|]. intros k. rewrite (B' k), (proj2 A k).
      pose proof (H k) as Hk. destruct (get mine k) eqn:GM, (get theirs k) eqn:GT; try contradiction.
      - apply get_in in GM, GT. apply (in_map fst) in GM, GT. unfold keys. cbn in GM, GT. intuition.
      - apply get_none in GM, GT. cbn. intuition. }
    destruct A as [AS AI]. destruct (compare_ok mine theirs H ks (sorted_nodup ks AS)) as (r & E0 & G).
    exists r. split.
    - unfold TwinModel.compare_ranks, exchanged, sorted_items. rewrite KT. exact E0.
    - intros k. rewrite G. destruct (in_dec string_dec k ks) as [_|N]; [reflexivity|].
      destruct (get mine k) eqn:GM; [|reflexivity]. destruct N. apply AI. unfold keys. apply get_in in GM. apply (in_map fst) in GM. exact GM.
  Qed.
  (** The call stops exactly when a pair of such arguments differs in some entry (that is a number here). *)
  Theorem C65_call_partial (mine theirs : dargs) : twins mine theirs ->
    exists b, call_raises mine theirs = Some b /\
      (b = true <-> exists k d e, get mine k = Some (Wrapper d) /\ get theirs k = Some (Wrapper e) /\ mismatches isnan differs d e <> 0%nat).
  Proof.
    intros H. unfold TwinModel.call_raises.
    assert (H' : twins (map (fun ka => (fst ka, to_storage (snd ka))) mine) (map (fun ka => (fst ka, to_storage (snd ka))) theirs)).
    { intros k. rewrite !get_map_snd. specialize (H k). destruct (get mine k) as [a|], (get theirs k) as [b|]; try exact H. destruct a, b; cbn in *; (exact H || destruct H). }
    destruct (C65_differences_partial _ _ H') as (r & E0 & G). rewrite E0. cbn [bind].
    assert (D : forall k, get r k <> None <-> exists d e, get mine k = Some (Wrapper d) /\ get theirs k = Some (Wrapper e) /\ mismatches isnan differs d e <> 0%nat).
    { intros k. rewrite G, !get_map_snd. unfold difference. specialize (H k). destruct (get mine k) as [a|] eqn:GM, (get theirs k) as [b|] eqn:GT; cbn [option_map] in *.
      - destruct a, b; cbn [to_storage]; try contradiction; try (split; [intros []; reflexivity|intros (d & e & A & _); discriminate]).
        destruct (Nat.eqb_spec (mismatches isnan differs data data0) 0) as [M|M].
        + split; [intros []; reflexivity|]. intros (d & e & A & B & N). injection A as <-. injection B as <-. congruence.
        + split; [|intros _; discriminate]. intros _. exists data, data0. repeat split. congruence.
      - destruct H.
      - destruct H.
      - split; [intros []; reflexivity|intros (d & e & A & _); discriminate]. }
    eexists; split; [reflexivity|]. destruct r as [|[k n] r].
    - split; [discriminate|]. intros (k & X). apply (D k) in X. destruct X. reflexivity.
    - split; [|reflexivity]. intros _. exists k. apply D. cbn [get]. rewrite String.eqb_refl. discriminate.
  Qed.
End Twin.
Print Assumptions C65_nothing_compared.
Print Assumptions C65_call_partial.
Print Assumptions C65_differences_partial.

(** entries: Some n a number, None a NaN *)
Definition fnan (x : option Z) : bool := match x with None => true | _ => false end.
Definition fdiff (x y : option Z) : bool := match x, y with Some a, Some b => negb (a =? b) | _, _ => true end.
Example C65_case :
  let mine := [("u", Wrapper [Some 1; Some 2]); ("dt", Plain); ("q", Wrapper [Some 5])]%string in
  let theirs := [("q", Wrapper [Some 5]); ("u", Wrapper [Some 1; Some 3]); ("dt", Plain)]%string in
  twins mine theirs /\ compare_ranks fnan fdiff mine theirs = Some [("u", 1)]%string.
Proof.
  split; [|reflexivity]. intros k. cbn [get]. destruct (String.eqb_spec k "u"); [subst; reflexivity|]. destruct (String.eqb_spec k "dt"); [subst; exact I|].
  destruct (String.eqb_spec k "q"); [subst; reflexivity|exact I].
Qed.

(** Two ranks hold quantities that differ in every entry, and the call is let through on both. *)
Theorem C65_quantities_refuted : exists mine theirs : dict (arg (option Z)), twins mine theirs
  /\ get mine "u" = Some (Quantity [Some 1; Some 2]) /\ get theirs "u" = Some (Quantity [Some 3; Some 4])
  /\ mismatches fnan fdiff [Some 1; Some 2] [Some 3; Some 4] = 2%nat
  /\ call_raises fnan fdiff mine theirs = Some false /\ call_raises fnan fdiff theirs mine = Some false.
Proof.
  exists [("u", Quantity [Some 1; Some 2])]%string, [("u", Quantity [Some 3; Some 4])]%string.
  split; [|repeat split]. intros k. cbn [get]. destruct (String.eqb k "u"); reflexivity.
Qed.
Print Assumptions C65_quantities_refuted.
(** One rank sees a difference and the other does not, when the latter holds a NaN: only the former stops. *)
Theorem C65_symmetric_refuted : exists mine theirs : dict (arg (option Z)), twins mine theirs
  /\ call_raises fnan fdiff mine theirs = Some true /\ call_raises fnan fdiff theirs mine = Some false.
Proof.
  exists [("u", Wrapper [Some 1])]%string, [("u", Wrapper [None])]%string. split; [|split; reflexivity].
  intros k. cbn [get]. destruct (String.eqb k "u"); reflexivity.
Qed.
Print Assumptions C65_symmetric_refuted.
