(** Lemmas for C99. *)
From Verif Require Import Base Dict StateModel StateProofs SaveModel.

Section Lemmas.
  Context {Q A : Type} (field : Q -> A) (agree : list (string * A) -> bool) (agree_below : list (string * A) -> list (string * A) -> bool).
  Notation save := (save field agree).
  Notation dataset := (dataset agree).

  Lemma save_keys fs v l : save fs v = Some l -> incl (keys l) (names fs).
  Proof.
    revert l. induction fs as [|n t fs IH]; intros l E; cbn [SaveModel.save] in E; [injection E as <-; intros x []|].
    destruct t as [o|gs].
    - destruct (getattr v n) as [[|q|f]|]; try discriminate.
      + intros x I. right. exact (IH _ E x I).
      + destruct (save fs v) as [r|]; [|discriminate]. injection E as <-. intros x [<-|I]; [now left|right; exact (IH r eq_refl x I)].
    - destruct (getattr v n) as [w|]; [|discriminate]. cbn [bind] in E. destruct (save gs w) as [l'|]; [|discriminate]. cbn [bind] in E.
      destruct (dataset l') as [s|]; [|discriminate]. cbn [bind] in E. destruct (save fs v) as [r|]; [|discriminate].
      injection E as <-. intros x [<-|I]; [now left|right; exact (IH r eq_refl x I)].
  Qed.

  Lemma save_nodup fs v l : named fs -> save fs v = Some l -> NoDup (keys l).
  Proof.
    revert l. induction fs as [|n t fs IH]; intros l (Nn & Nt & Nf) E || intros l N E; cbn [SaveModel.save] in E; [injection E as <-; constructor|].
    destruct t as [o|gs].
    - destruct (getattr v n) as [[|q|f]|]; try discriminate; [exact (IH l Nf E)|].
      destruct (save fs v) as [r|] eqn:Er; [|discriminate]. injection E as <-. constructor; [|exact (IH r Nf eq_refl)].
      intros I. apply Nn. exact (save_keys _ _ _ Er _ I).
    - destruct (getattr v n) as [w|]; [|discriminate]. cbn [bind] in E. destruct (save gs w) as [l'|]; [|discriminate]. cbn [bind] in E.
      destruct (dataset l') as [s|]; [|discriminate]. cbn [bind] in E. destruct (save fs v) as [r|] eqn:Er; [|discriminate].
      injection E as <-. constructor; [|exact (IH r Nf eq_refl)]. intros I. apply Nn. exact (save_keys _ _ _ Er _ I).
  Qed.

  (** what is saved for a name *)
  Definition saved_as (v : val Q) (t : option ty) (n : string) (x : option (saved A)) : Prop :=
    match t with
    | None => x = None
    | Some (TQuantity _) => (getattr v n = Some VNone /\ x = None) \/ exists q, getattr v n = Some (VQ q) /\ x = Some (SArr (field q))
    | Some (TState gs) => exists w l s, getattr v n = Some w /\ save gs w = Some l /\ dataset l = Some s /\ x = Some (SSet s)
    end.
  Lemma save_get fs v l n : named fs -> save fs v = Some l -> saved_as v (field_of fs n) n (get l n).
  Proof.
    revert l. induction fs as [|m t fs IH]; intros l N E; cbn [SaveModel.save] in E; [injection E as <-; reflexivity|].
    destruct N as (Nn & Nt & Nf). cbn [field_of]. destruct (String.eqb_spec n m) as [->|Ne].
    - destruct t as [o|gs].
      + cbn [saved_as]. destruct (getattr v m) as [[|q|f]|]; try discriminate.
        * left. split; [reflexivity|]. apply get_none. intros I. apply Nn. exact (save_keys _ _ _ E _ I).
        * right. exists q. split; [reflexivity|]. destruct (save fs v) as [r|]; [|discriminate]. injection E as <-. cbn. now rewrite String.eqb_refl.
      + cbn [saved_as]. destruct (getattr v m) as [w|]; [|discriminate]. cbn [bind] in E. destruct (save gs w) as [l'|] eqn:E1; [|discriminate].
        cbn [bind] in E. destruct (dataset l') as [s|] eqn:E2; [|discriminate]. cbn [bind] in E. destruct (save fs v) as [r|]; [|discriminate].
        injection E as <-. exists w, l', s. cbn. rewrite String.eqb_refl. auto.
    - destruct t as [o|gs].
      + destruct (getattr v m) as [[|q|f]|]; try discriminate; [exact (IH l Nf E)|].
        destruct (save fs v) as [r|] eqn:Er; [|discriminate]. injection E as <-. cbn [get].
        destruct (String.eqb_spec n m); [contradiction|]. exact (IH r Nf eq_refl).
      + destruct (getattr v m) as [w|]; [|discriminate]. cbn [bind] in E. destruct (save gs w) as [l'|]; [|discriminate]. cbn [bind] in E.
        destruct (dataset l') as [s|]; [|discriminate]. cbn [bind] in E. destruct (save fs v) as [r|] eqn:Er; [|discriminate].
        injection E as <-. cbn [get]. destruct (String.eqb_spec n m); [contradiction|]. exact (IH r Nf eq_refl).
  Qed.

  (** the variables of a Dataset *)
  Lemma arrays_get (l : list (string * saved A)) r n : arrays l = Some r -> match get l n with Some (SArr a) => get r n = Some a | Some (SSet _) => False | None => get r n = None end.
  Proof.
    revert r. induction l as [|[m [a|s]] l IH]; intros r E; cbn [arrays] in E; [injection E as <-; reflexivity| |discriminate].
    destruct (arrays l) as [r'|]; [|discriminate]. injection E as <-. cbn [get]. destruct (n =? m)%string; [reflexivity|]. exact (IH r' eq_refl).
  Qed.
  Lemma arrays_keys (l : list (string * saved A)) r : arrays l = Some r -> keys r = keys l.
  Proof.
    revert r. induction l as [|[m [a|s]] l IH]; intros r E; cbn [arrays] in E; [injection E as <-; reflexivity| |discriminate].
    destruct (arrays l) as [r'|]; [|discriminate]. injection E as <-. cbn. f_equal. exact (IH r' eq_refl).
  Qed.
  Lemma dataset_arrays l r : dataset l = Some r -> arrays l = Some r.
  Proof. unfold SaveModel.dataset. destruct (arrays l) as [x|]; [|discriminate]. cbn. destruct (agree x); congruence. Qed.

  Lemma top_keys l : incl (keys (top_level l)) (keys (l : list (string * saved A))).
  Proof. intros x I. apply in_map_iff in I. destruct I as ([k s] & <- & I). apply filter_In in I. apply in_map_iff. exists (k, s). tauto. Qed.
  Lemma top_nodup l : NoDup (keys l) -> NoDup (keys (top_level (l : list (string * saved A)))).
  Proof.
    induction l as [|[m x] l IH]; intros N; [constructor|]. inversion N; subst. unfold top_level. cbn [filter snd]. destruct x; [|apply IH; assumption].
    constructor; [|apply IH; assumption]. intros I. apply H1. exact (top_keys l _ I).
  Qed.
  Lemma top_get (l : list (string * saved A)) n : NoDup (keys l) ->
    get (top_level l) n = match get l n with Some (SArr a) => Some (SArr a) | _ => None end.
  Proof.
    induction l as [|[m x] l IH]; intros N; [reflexivity|]. inversion N; subst. cbn [get]. unfold top_level. cbn [filter snd]. fold (top_level l). destruct x as [a|s].
    - cbn [get]. destruct (n =? m)%string; [reflexivity|]. apply IH. assumption.
    - rewrite IH by assumption. destruct (String.eqb_spec n m) as [->|]; [|reflexivity]. apply get_none in H1. now rewrite H1.
  Qed.
  Lemma sub_keys l : incl (keys (sub_sets l)) (keys (l : list (string * saved A))).
  Proof. induction l as [|[m [a|s]] l IH]; intros x I; [destruct I|right; exact (IH x I)|]. destruct I as [<-|I]; [now left|right; exact (IH x I)]. Qed.
  Lemma sub_nodup l : NoDup (keys l) -> NoDup (keys (sub_sets (l : list (string * saved A)))).
  Proof.
    induction l as [|[m x] l IH]; intros N; [constructor|]. inversion N; subst. cbn [sub_sets]. destruct x; [apply IH; assumption|].
    constructor; [|apply IH; assumption]. intros I. apply H1. exact (sub_keys l _ I).
  Qed.
  Lemma sub_get (l : list (string * saved A)) n : NoDup (keys l) ->
    get (sub_sets l) n = match get l n with Some (SSet s) => Some s | _ => None end.
  Proof.
    induction l as [|[m x] l IH]; intros N; [reflexivity|]. inversion N; subst. cbn [get sub_sets]. destruct x as [a|s].
    - rewrite IH by assumption. destruct (String.eqb_spec n m) as [->|]; [|reflexivity]. apply get_none in H1. now rewrite H1.
    - cbn [get]. destruct (n =? m)%string; [reflexivity|]. apply IH. assumption.
  Qed.

  (** the memory map *)
  Lemma entry_arrays (l : list (string * A)) rest n :
    entry_of (load_arrays l rest) n = match get l n with Some a => Some (MArr a) | None => entry_of rest n end.
  Proof. induction l as [|[m a] l IH]; [reflexivity|]. cbn. now destruct (n =? m)%string. Qed.
  Lemma entry_groups (g : list (string * list (string * A))) n :
    entry_of (load_groups g) n = match get g n with Some s => Some (MDict (load_arrays s MNil)) | None => None end.
  Proof. induction g as [|[m s] g IH]; [reflexivity|]. cbn. now destruct (n =? m)%string. Qed.
  Lemma distinct_arrays (l : list (string * A)) rest : NoDup (keys l) -> (forall n, In n (keys l) -> entry_of rest n = None) -> distinct rest ->
    distinct (load_arrays l rest).
  Proof.
    induction l as [|[m a] l IH]; intros N D R; [exact R|]. inversion N; subst. cbn. split; [|split; [exact I|]].
    - rewrite entry_arrays. apply get_none in H1. rewrite H1. apply D. now left.
    - apply IH; auto. intros n I. apply D. now right.
  Qed.
  Lemma distinct_groups (g : list (string * list (string * A))) : NoDup (keys g) -> (forall n s, In (n, s) g -> NoDup (keys s)) -> distinct (load_groups g).
  Proof.
    induction g as [|[m s] g IH]; intros N D; [exact I|]. inversion N; subst. cbn. split; [|split].
    - rewrite entry_groups. apply get_none in H1. now rewrite H1.
    - apply distinct_arrays; [apply (D m); now left| |exact I]. intros n _. reflexivity.
    - apply IH; auto. intros n s' J. apply (D n). now right.
  Qed.

  Lemma names_field fs n : field_of fs n = None <-> ~ In n (names fs).
  Proof.
    induction fs as [|m t fs IH]; cbn; [tauto|]. destruct (String.eqb_spec n m) as [->|N]; [split; [discriminate|tauto]|].
    rewrite IH. intuition congruence.
  Qed.
  Lemma named_field fs n gs : named fs -> field_of fs n = Some (TState gs) -> named gs.
  Proof.
    induction fs as [|m t fs IH]; cbn; [discriminate|]. intros (_ & Nt & Nf). destruct (n =? m)%string; [|auto]. now intros [= ->].
  Qed.
  Lemma leaves_inv fs p : named fs -> In p (leaves fs) ->
    (exists n o, p = [n] /\ field_of fs n = Some (TQuantity o)) \/
    (exists n gs p', p = n :: p' /\ field_of fs n = Some (TState gs) /\ In p' (leaves gs)).
  Proof.
    induction fs as [|m t fs IH]; intros N I; [destruct I|]. destruct N as (Nn & Nt & Nf).
    assert (K : In p (leaves fs) -> (exists n o, p = [n] /\ field_of (FCons m t fs) n = Some (TQuantity o)) \/
      (exists n gs p', p = n :: p' /\ field_of (FCons m t fs) n = Some (TState gs) /\ In p' (leaves gs))).
    { intros J. destruct (IH Nf J) as [(n & o & -> & F)|(n & gs & p' & -> & F & J')]; [left|right]; exists n.
      - exists o. cbn. destruct (String.eqb_spec n m) as [->|]; [|auto]. exfalso. apply Nn. destruct (in_dec string_dec m (names fs)) as [|X]; [assumption|].
        apply names_field in X. congruence.
      - exists gs, p'. cbn. destruct (String.eqb_spec n m) as [->|]; [|auto]. exfalso. apply Nn. destruct (in_dec string_dec m (names fs)) as [|X]; [assumption|].
        apply names_field in X. congruence. }
    cbn [leaves] in I. destruct t as [o|gs].
    - destruct I as [<-|I]; [|auto]. left. exists m, o. cbn. now rewrite String.eqb_refl.
    - apply in_app_or in I. destruct I as [I|I]; [|auto]. apply in_map_iff in I. destruct I as (p' & <- & I). right. exists m, gs, p'. cbn.
      now rewrite String.eqb_refl.
  Qed.

  (** the tree, by name *)
  Lemma tree_get fs v t : named fs -> to_xarray field agree agree_below fs v = Some t ->
    distinct (load t) /\
    forall n, match field_of fs n with
      | None => entry_of (load t) n = None
      | Some (TQuantity _) => (getattr v n = Some VNone /\ entry_of (load t) n = None) \/
                              exists q, getattr v n = Some (VQ q) /\ entry_of (load t) n = Some (MArr (field q))
      | Some (TState gs) => exists w l s, getattr v n = Some w /\ save gs w = Some l /\ arrays l = Some s /\
                              entry_of (load t) n = Some (MDict (load_arrays s MNil))
      end.
  Proof.
    intros N E. unfold to_xarray in E. destruct (save fs v) as [l|] eqn:El; [|discriminate]. cbn [bind] in E.
    destruct (dataset (top_level l)) as [r|] eqn:Er; [|discriminate]. cbn [bind] in E. destruct (forallb _ _); [|discriminate]. injection E as <-.
    apply dataset_arrays in Er. pose proof (save_nodup fs v l N El) as D. unfold load. cbn [root groups].
    assert (R : forall n, get r n = match get l n with Some (SArr a) => Some a | _ => None end).
    { intros n. pose proof (arrays_get _ _ n Er) as G. rewrite top_get in G by exact D. destruct (get l n) as [[a|s]|]; auto. }
    split.
    - apply distinct_arrays.
      + rewrite (arrays_keys _ _ Er). apply top_nodup, D.
      + intros n I. rewrite entry_groups, sub_get by exact D. apply get_some in I. destruct I as [a Ha]. rewrite R in Ha.
        destruct (get l n) as [[x|s]|]; [reflexivity|discriminate|reflexivity].
      + apply distinct_groups; [apply sub_nodup, D|]. intros n s I. apply (in_get (sub_sets l)) in I; [|apply sub_nodup, D].
        rewrite sub_get in I by exact D. pose proof (save_get fs v l n N El) as G. destruct (get l n) as [[x|s']|]; try discriminate.
        injection I as ->. destruct (field_of fs n) as [[o|gs]|] eqn:F; cbn in G.
        * destruct G as [[_ G]|(q & _ & G)]; discriminate.
        * destruct G as (w & l' & s1 & _ & S1 & S2 & [= ->]). apply dataset_arrays in S2. rewrite (arrays_keys _ _ S2).
          eapply save_nodup; [|exact S1]. eapply named_field; eauto.
        * discriminate.
    - intros n. pose proof (save_get fs v l n N El) as G. rewrite entry_arrays, R, entry_groups, sub_get by exact D.
      destruct (field_of fs n) as [[o|gs]|]; cbn in G.
      + destruct G as [[G1 G2]|(q & G1 & G2)]; rewrite G2; [left|right]; eauto.
      + destruct G as (w & l' & s & G1 & G2 & G3 & G4). rewrite G4. apply dataset_arrays in G3. exists w, l', s. auto.
      + rewrite G. reflexivity.
  Qed.

  Lemma tree_leaf fs v t p : named fs -> to_xarray field agree agree_below fs v = Some t -> In p (leaves fs) ->
    (at_path v p = Some VNone /\ covered (load t) p = false) \/
    (exists q, at_path v p = Some (VQ q) /\ given (load t) p = Some (Some (field q))).
  Proof.
    intros N E I. destruct (tree_get fs v t N E) as (_ & G).
    destruct (leaves_inv fs p N I) as [(n & o & -> & F)|(n & gs & p' & -> & F & I')]; pose proof (G n) as Gn; rewrite F in Gn.
    - cbn. destruct Gn as [[G1 G2]|(q & G1 & G2)]; rewrite G1, G2; [left|right]; eauto.
    - destruct Gn as (w & l & s & G1 & G2 & G3 & G4). assert (N' : named gs) by (eapply named_field; eauto).
      destruct (leaves_inv gs p' N' I') as [(m & o & -> & F')|(m & hs & p'' & -> & F' & I'')]; pose proof (save_get gs w l m N' G2) as Gm; rewrite F' in Gm; cbn in Gm.
      + pose proof (arrays_get _ _ m G3) as Am. cbn [at_path given covered]. rewrite G1, G4, entry_arrays. cbn [at_path].
        destruct Gm as [[H1 H2]|(q & H1 & H2)]; rewrite H1; rewrite H2 in Am; rewrite Am; cbn [entry_of]; [left|right]; eauto.
      + exfalso. destruct Gm as (w' & l' & s' & _ & _ & _ & Gm). pose proof (arrays_get _ _ m G3) as Am. now rewrite Gm in Am.
  Qed.
End Lemmas.

(** an update that finds a place for every array does not raise *)
Section Ready.
  Context {Q A : Type} (none_ok : string -> bool) (copy : Q -> A -> option Q).
  Notation items := (items none_ok copy).
  Definition placed (v : val Q) (n : string) (a : A) : Prop := exists q q', getattr v n = Some (VQ q) /\ copy q a = Some q'.
  Lemma arrays_run (l : list (string * A)) rest v : NoDup (keys l) -> (exists f, v = VNode f) -> (forall n a, get l n = Some a -> placed v n a) ->
    exists f, items v (load_arrays l rest) = items (VNode f) rest /\ forall n, get l n = None -> f n = getattr v n.
  Proof.
    revert v. induction l as [|[m a] l IH]; intros v N [f ->] P; [exists f; auto|]. inversion N; subst. cbn [load_arrays].
    destruct (P m a) as (q & q' & G & C); [cbn; now rewrite String.eqb_refl|]. rewrite items_cons, item_arr, G, C. cbn [setattr].
    destruct (IH (VNode (fun n' => if (n' =? m)%string then Some (VQ q') else f n'))) as (f' & E & K); [assumption|eauto| |].
    - intros n x Gn. assert (Ne : n <> m) by (intros ->; apply get_none in H1; congruence).
      destruct (P n x) as (q1 & q1' & G1 & C1); [cbn; destruct (String.eqb_spec n m); congruence|].
      exists q1, q1'. cbn. destruct (String.eqb_spec n m); [contradiction|]. auto.
    - exists f'. split; [exact E|]. intros n Gn. cbn [get] in Gn. destruct (String.eqb_spec n m) as [|Ne]; [discriminate|].
      rewrite (K n Gn). cbn. destruct (String.eqb_spec n m); [contradiction|reflexivity].
  Qed.
  Lemma groups_run (g : list (string * list (string * A))) v : NoDup (keys g) -> (exists f, v = VNode f) ->
    (forall n s, get g n = Some s -> NoDup (keys s) /\ exists w, getattr v n = Some (VNode w) /\ forall m a, get s m = Some a -> placed (VNode w) m a) ->
    snd (items v (load_groups g)) = false.
  Proof.
    revert v. induction g as [|[m s] g IH]; intros v N [f ->] P; [reflexivity|]. inversion N; subst. cbn [load_groups].
    destruct (P m s) as (Ns & w & G & Pw); [cbn; now rewrite String.eqb_refl|]. rewrite items_cons, item_dict, G.
    destruct (arrays_run s MNil (VNode w) Ns (ex_intro _ w eq_refl) Pw) as (f' & E & _). rewrite E. cbn [StateModel.items setattr].
    apply IH; [assumption|eauto|]. intros n s' Gn. assert (Ne : n <> m) by (intros ->; apply get_none in H1; congruence).
    destruct (P n s') as (Ns' & w' & G' & Pw'); [cbn; destruct (String.eqb_spec n m); congruence|]. split; [exact Ns'|]. exists w'. split; [|exact Pw'].
    cbn. destruct (String.eqb_spec n m); [contradiction|exact G'].
  Qed.
End Ready.
