(** Proofs about state updates. *)
From Verif Require Import Base Dict StateModel.

Scheme mem_mut := Induction for mem Sort Prop
  with mems_mut := Induction for mems Sort Prop.
Scheme fields_mut := Induction for fields Sort Prop
  with ty_mut := Induction for ty Sort Prop.

Section Update.
  Context {Q A : Type}.
  Variable none_ok : string -> bool.
  Variable assign : Q -> A -> option Q.
  Local Notation items := (@items Q A none_ok assign).
  Local Notation item := (@item Q A none_ok assign).

  Lemma item_none v n : item v n MNone =
    if none_ok n then match setattr v n VNone with Some v' => (v', false) | None => (v, true) end else (v, true).
  Proof. reflexivity. Qed.
  Lemma item_arr v n a : item v n (MArr a) =
    match getattr v n with
    | Some (VQ q) =>
        match assign q a with
        | Some q' => match setattr v n (VQ q') with Some v' => (v', false) | None => (v, true) end
        | None => (v, true)
        end
    | _ => (v, true)
    end.
  Proof. reflexivity. Qed.
  Lemma item_dict v n ms : item v n (MDict ms) =
    match getattr v n with
    | None => (v, true)
    | Some w => let '(w', r) := items w ms in match setattr v n w' with Some v' => (v', r) | None => (v, true) end
    end.
  Proof. reflexivity. Qed.
  Lemma items_cons v n m ms : items v (MCons n m ms) =
    let '(v', r) := item v n m in if r then (v', true) else items v' ms.
  Proof. reflexivity. Qed.

  (** what an update may do to the attribute at a path: nothing, or what the map says *)
  Definition said (v v' : val Q) (ms : mems A) (p : list string) : Prop :=
    match given ms p with
    | Some None => at_path v' p = Some VNone
    | Some (Some a) => exists q q', at_path v p = Some (VQ q) /\ assign q a = Some q' /\ at_path v' p = Some (VQ q')
    | None => True
    end.

  Lemma getattr_setattr (v w v' : val Q) n k : setattr v n w = Some v' ->
    getattr v' k = if (k =? n)%string then Some w else getattr v k.
  Proof. destruct v; cbn; intros E; try discriminate; injection E as <-; reflexivity. Qed.

  Lemma item_other v n m v' r k : item v n m = (v', r) -> k <> n -> getattr v' k = getattr v k.
  Proof.
    intros E N. assert (S : forall w v1, setattr v n w = Some v1 -> getattr v1 k = getattr v k).
    { intros w v1 H. rewrite (getattr_setattr _ _ _ _ _ H). destruct (String.eqb_spec k n); [contradiction|reflexivity]. }
    destruct m; rewrite ?item_none, ?item_arr, ?item_dict in E.
    - destruct (none_ok n); [|injection E as <- <-; reflexivity].
      destruct (setattr v n VNone) eqn:H; injection E as <- <-; eauto.
    - destruct (getattr v n) as [[|q|f]|]; try (injection E as <- <-; reflexivity).
      destruct (assign q a) as [q'|]; [|injection E as <- <-; reflexivity].
      destruct (setattr v n (VQ q')) eqn:H; injection E as <- <-; eauto.
    - destruct (getattr v n) as [w|]; [|injection E as <- <-; reflexivity].
      destruct (items w ms) as [w' r'].
      destruct (setattr v n w') eqn:H; injection E as <- <-; eauto.
  Qed.

  Lemma items_other ms : forall v v' r k, items v ms = (v', r) -> entry_of ms k = None -> getattr v' k = getattr v k.
  Proof.
    induction ms as [|n m ms IH]; intros v v' r k E N; [cbn in E; injection E as <- <-; reflexivity|]. rewrite items_cons in E.
    destruct (item v n m) as [v1 r1] eqn:E1. cbn [entry_of] in N. destruct (String.eqb_spec k n) as [|Nk]; [discriminate|].
    pose proof (item_other _ _ _ _ _ _ E1 Nk) as I. destruct r1; [injection E as <- <-; exact I|].
    rewrite (IH _ _ _ _ E N). exact I.
  Qed.

  (** the claim for one dictionary *)
  Definition good (ms : mems A) : Prop := distinct ms -> forall v v' r, items v ms = (v', r) ->
    (forall p, covered ms p = false -> leaf (at_path v p) -> p <> [] -> at_path v' p = at_path v p) /\
    (forall p, given ms p <> None -> at_path v' p = at_path v p \/ said v v' ms p) /\
    (r = false -> forall p, said v v' ms p).

  Lemma covered_given (ms : mems A) p : covered ms p = false -> given ms p = None.
  Proof.
    revert ms. induction p as [|n p IH]; intros ms; cbn; [reflexivity|].
    destruct (entry_of ms n) as [[|a|ms']|]; auto; discriminate.
  Qed.

  Lemma at_empty (v : val Q) p : leaf (Some v) -> p <> [] -> at_path v p = None.
  Proof. destruct p; [congruence|]. destruct v; cbn; tauto. Qed.

  (** an update leaves what is not a state alone, and a state stays a state *)
  Lemma item_leaf v n m v' r : leaf (Some v) -> item v n m = (v', r) -> v' = v.
  Proof.
    intros L. assert (G : forall k, getattr v k = None) by (destruct v; cbn in *; tauto).
    assert (S : forall w, setattr v n w = None) by (destruct v; cbn in *; tauto).
    destruct m; rewrite ?item_none, ?item_arr, ?item_dict; rewrite ?S, ?G; intros E; [destruct (none_ok n)| |]; now injection E as <- <-.
  Qed.
  Lemma items_leaf ms : forall v v' r, leaf (Some v) -> items v ms = (v', r) -> v' = v.
  Proof.
    induction ms as [|n m ms IH]; intros v v' r L E; [cbn in E; now injection E as <- <-|]. rewrite items_cons in E.
    destruct (item v n m) as [v1 r1] eqn:E1. apply item_leaf in E1; [|exact L]. subst v1.
    destruct r1; [now injection E as <- <-|eauto].
  Qed.

  Lemma items_good : forall ms, good ms.
  Proof.
    apply (mems_mut A (fun m => match m with MDict ms => good ms | _ => True end) good); auto.
    - intros _ v v' r E. cbn in E. injection E as <- <-. split; [auto|]. split; [auto|]. intros _ p. unfold said.
      destruct p; cbn; auto.
    - intros n m Hm ms IH D v v' r E. cbn [distinct] in D. destruct D as (Dn & Dm & D). rewrite items_cons in E.
      destruct (item v n m) as [v1 r1] eqn:E1.
      assert (R : getattr v' n = getattr v1 n).
      { destruct r1; [injection E as <- <-; reflexivity|]. eapply items_other; eauto. }
      assert (O : forall k, k <> n -> getattr v1 k = getattr v k) by (intros k Nk; eapply item_other; eauto).
      assert (Po : forall k p, k <> n -> at_path v1 (k :: p) = at_path v (k :: p)).
      { intros k p Nk. cbn. now rewrite O. }
      assert (Pn : forall p, at_path v' (n :: p) = at_path v1 (n :: p)).
      { intros p. cbn. now rewrite R. }
      assert (Pc : forall k p, k <> n -> covered (MCons n m ms) (k :: p) = covered ms (k :: p)).
      { intros k p Nk. cbn. destruct (String.eqb_spec k n); [contradiction|reflexivity]. }
      assert (Pg : forall k p, k <> n -> given (MCons n m ms) (k :: p) = given ms (k :: p)).
      { intros k p Nk. cbn. destruct (String.eqb_spec k n); [contradiction|reflexivity]. }
      (* paths starting with n *)
      assert (Hn : (forall p, covered (MCons n m ms) (n :: p) = false -> leaf (at_path v (n :: p)) -> at_path v1 (n :: p) = at_path v (n :: p)) /\
                   (forall p, given (MCons n m ms) (n :: p) <> None -> at_path v1 (n :: p) = at_path v (n :: p) \/ said v v1 (MCons n m ms) (n :: p)) /\
                   (r1 = false -> forall p, said v v1 (MCons n m ms) (n :: p))).
      { unfold said. cbn [covered given at_path entry_of]. rewrite String.eqb_refl. clear E R O Po Pn Pc Pg IH.
        assert (Z : v1 = v -> r1 = true ->
          (forall p : list string, match m with MDict ms' => covered ms' p | _ => true end = false ->
             leaf match getattr v n with Some w => at_path w p | None => None end ->
             match getattr v1 n with Some w => at_path w p | None => None end = match getattr v n with Some w => at_path w p | None => None end) /\
          (forall p : list string, True ->
             match getattr v1 n with Some w => at_path w p | None => None end = match getattr v n with Some w => at_path w p | None => None end)).
        { intros -> _. auto. }
        destruct m as [|a|ms1]; rewrite ?item_none, ?item_arr, ?item_dict in E1.
        - split; [discriminate|]. destruct (none_ok n); [|injection E1 as <- <-; split; [auto|discriminate]].
          destruct (setattr v n VNone) as [v2|] eqn:H; injection E1 as <- <-; [|split; [auto|discriminate]].
          rewrite (getattr_setattr _ _ _ _ _ H), String.eqb_refl. split.
          + intros [|k p] Hp; [now right|congruence].
          + intros _ [|k p]; auto.
        - split; [discriminate|]. destruct (getattr v n) as [[|q|f]|] eqn:G; try (injection E1 as <- <-; rewrite ?G; split; [auto|discriminate]).
          destruct (assign q a) as [q'|] eqn:As; [|injection E1 as <- <-; rewrite ?G; split; [auto|discriminate]].
          destruct (setattr v n (VQ q')) as [v2|] eqn:H; injection E1 as <- <-; [|rewrite ?G; split; [auto|discriminate]].
          rewrite (getattr_setattr _ _ _ _ _ H), String.eqb_refl. split.
          + intros [|k p] Hp; [right; exists q, q'; auto|congruence].
          + intros _ [|k p]; auto. exists q, q'. auto.
        - destruct (getattr v n) as [w|] eqn:G.
          + destruct (items w ms1) as [w' r'] eqn:Ei.
            destruct (setattr v n w') as [v2|] eqn:H.
            2: { destruct v; cbn in G, H; try discriminate. }
            injection E1 as <- <-. rewrite (getattr_setattr _ _ _ _ _ H), String.eqb_refl.
            destruct (Hm Dm _ _ _ Ei) as (A1 & A2 & A3).
            split; [|split].
            * intros [|k p] C L; [|apply A1; auto; discriminate].
              cbn in L |- *. f_equal. eapply items_leaf; eauto.
            * intros [|k p] Hp; [cbn in Hp; congruence|]. exact (A2 _ Hp).
            * intros Hr p. destruct p as [|k p]; [cbn; auto|]. exact (A3 Hr (k :: p)).
          + injection E1 as <- <-. rewrite G. split; [auto|]. split; [auto|discriminate]. }
      destruct Hn as (N1 & N2 & N3). destruct r1.
      + injection E as <- <-. split; [|split; [|discriminate]].
        * intros [|k p] C L Np; [congruence|]. destruct (String.eqb_spec k n) as [->|Nk]; auto.
        * intros [|k p] Hp; [cbn in Hp; congruence|]. destruct (String.eqb_spec k n) as [->|Nk]; auto.
      + destruct (IH D _ _ _ E) as (A1 & A2 & A3). split; [|split].
        * intros [|k p] C L Np; [congruence|]. destruct (String.eqb_spec k n) as [->|Nk].
          -- rewrite Pn. auto.
          -- rewrite A1; auto; [now rewrite <- (Pc k p Nk)|now rewrite Po].
        * intros [|k p] Hp; [cbn in Hp; congruence|]. destruct (String.eqb_spec k n) as [->|Nk].
          -- right. specialize (N3 eq_refl p). unfold said in *. now rewrite Pn.
          -- unfold said. rewrite Pg in * by exact Nk. destruct (A2 (k :: p) Hp) as [A0|A0].
             ++ left. now rewrite A0, Po.
             ++ right. unfold said in A0. now rewrite Po in A0.
        * intros Hr [|k p]; [unfold said; cbn; auto|]. destruct (String.eqb_spec k n) as [->|Nk].
          -- specialize (N3 eq_refl p). unfold said in *. now rewrite Pn.
          -- unfold said. rewrite Pg by exact Nk. specialize (A3 Hr (k :: p)). unfold said in A3. now rewrite Po in A3.
  Qed.

  (** None is only taken where it is accepted *)
  Definition none_accepted (ms : mems A) : Prop := distinct ms -> forall v v', items v ms = (v', false) ->
    forall p n, given ms (p ++ [n]) = Some None -> none_ok n = true.
  Lemma items_none : forall ms, none_accepted ms.
  Proof.
    apply (mems_mut A (fun m => match m with MDict ms => none_accepted ms | _ => True end) none_accepted); auto.
    - intros _ v v' _ p n G. destruct p; cbn in G; discriminate.
    - intros n m Hm ms IH D v v' E p k G. cbn [distinct] in D. destruct D as (Dn & Dm & D). rewrite items_cons in E.
      destruct (item v n m) as [v1 r1] eqn:E1. destruct r1; [discriminate|].
      destruct p as [|j p]; cbn [app given entry_of] in G.
      + destruct (String.eqb_spec k n) as [Ek|Nk]; [subst k|].
        * destruct m; try discriminate. cbn in E1. destruct (none_ok n); [auto|discriminate].
        * apply (IH D _ _ E [] k). exact G.
      + destruct (String.eqb_spec j n) as [Ek|Nj]; [subst j|].
        * destruct m as [|a|ms1]; [destruct p; discriminate|destruct p; discriminate|]. rewrite ?item_none, ?item_arr, ?item_dict in E1.
          destruct (getattr v n) as [w|]; [|discriminate]. destruct (items w ms1) as [w' r'] eqn:Ei.
          destruct (setattr v n w'); [|discriminate]. injection E1 as <- ->. eapply Hm; eauto.
        * apply (IH D _ _ E (j :: p) k). exact G.
  Qed.
End Update.

(** ** the table of optional fields *)
Lemma flag_other : forall fs acc n, ~ In n (leaf_names fs) -> get (flag fs acc) n = get acc n.
Proof.
  apply (fields_mut (fun fs => forall acc n, ~ In n (leaf_names fs) -> get (flag fs acc) n = get acc n)
    (fun t => match t with TState fs => forall acc n, ~ In n (leaf_names fs) -> get (flag fs acc) n = get acc n | _ => True end)); auto.
  intros k t Ht fs' IH acc n N. destruct t as [o|gs]; cbn [flag leaf_names] in *.
  - rewrite IH by (intros I; apply N; now right). rewrite get_put. destruct (String.eqb_spec n k) as [->|]; [|reflexivity].
    exfalso. apply N. now left.
  - rewrite IH by (intros I; apply N, in_or_app; auto). apply Ht. intros I. apply N, in_or_app. auto.
Qed.

Lemma nodup_app_parts {B} (l l' : list B) : NoDup (l ++ l') -> NoDup l /\ NoDup l' /\ forall x, In x l -> ~ In x l'.
Proof.
  induction l as [|a l IH]; cbn; intros N; [repeat split; auto; constructor|]. apply NoDup_cons_iff in N. destruct N as [N1 N2].
  destruct (IH N2) as (A & B' & C). rewrite in_app_iff in N1. split; [constructor; tauto|]. split; [auto|].
  intros x [<-|I]; auto.
Qed.

Lemma declared_leaf : forall p fs n o, declared fs (p ++ [n]) = Some (TQuantity o) -> In n (leaf_names fs).
Proof.
  assert (F : forall fs n t, field_of fs n = Some t -> forall x, match t with TQuantity _ => x = n | TState gs => In x (leaf_names gs) end -> In x (leaf_names fs)).
  { intros fs n t. induction fs as [|k t' fs IH]; cbn [field_of]; [discriminate|].
    destruct (String.eqb_spec n k) as [->|].
    - intros [= <-] x Hx. destruct t'; cbn [leaf_names]; [subst; now left|apply in_or_app; auto].
    - intros H x Hx. specialize (IH H x Hx). destruct t'; cbn [leaf_names]; [now right|apply in_or_app; auto]. }
  induction p as [|j p IH]; intros fs n o D; cbn [app declared] in D.
  - destruct (field_of fs n) as [[o'|gs]|] eqn:E; try discriminate. eapply F; [exact E|]. reflexivity.
  - destruct (field_of fs j) as [t|] eqn:E; [|discriminate]. destruct t as [o'|gs].
    + destruct p; discriminate.
    + assert (D' : declared gs (p ++ [n]) = Some (TQuantity o)) by (destruct p; exact D).
      eapply F; [exact E|]. cbn. eapply IH; eauto.
Qed.

Lemma flag_declared : forall p fs acc n o, NoDup (leaf_names fs) -> declared fs (p ++ [n]) = Some (TQuantity o) ->
  get (flag fs acc) n = Some o.
Proof.
  induction p as [|j p IH]; intros fs.
  - cbn [app declared]. induction fs as [|k t fs IHf]; intros acc n o N D; cbn [field_of] in D; [discriminate|].
    destruct (String.eqb_spec n k) as [->|Nk].
    + destruct t as [o'|gs]; [|discriminate]. injection D as ->. cbn [flag leaf_names] in *. apply NoDup_cons_iff in N. destruct N as [N1 N2].
      rewrite flag_other by exact N1. now rewrite get_put, String.eqb_refl.
    + destruct t; cbn [flag leaf_names] in *.
      * apply NoDup_cons_iff in N. apply IHf; tauto.
      * apply nodup_app_parts in N. apply IHf; tauto.
  - induction fs as [|k t fs IHf]; intros acc n o N D; cbn [app declared field_of] in D; [discriminate|].
    destruct (String.eqb_spec j k) as [->|Nk].
    + destruct t as [o'|gs]; [destruct p; discriminate|].
      assert (D' : declared gs (p ++ [n]) = Some (TQuantity o)) by (destruct p; exact D).
      cbn [flag leaf_names] in *. apply nodup_app_parts in N. destruct N as (N1 & N2 & N3).
      rewrite flag_other; [eapply IH; eauto|]. apply N3. eapply declared_leaf; eauto.
    + assert (D' : declared fs ((j :: p) ++ [n]) = Some (TQuantity o)) by exact D.
      destruct t; cbn [flag leaf_names] in *.
      * apply NoDup_cons_iff in N. apply IHf; tauto.
      * apply nodup_app_parts in N. apply IHf; tauto.
Qed.
