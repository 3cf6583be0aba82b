(** C66: a frozen stencil runs with its arguments under their own names, at the origin of each field. *)
From Verif Require Import Dict Base FrozenModel.
From Coq Require Import Lia.
Open Scope list_scope.
Open Scope nat_scope.

(** ** Origins *)
Definition origin_spec (origin : Z * Z * Z) (info : option field_info) (o : list Z) : Prop :=
  let '(x, y, z) := origin in
  match info with
  | Some f =>
      List.length o = List.length (axes f) + count_occ Bool.bool_dec (data_mask f) true
      /\ (forall i, nth_error (axes f) i = Some AxI -> nth_error o i = Some x)
      /\ (forall i, nth_error (axes f) i = Some AxJ -> nth_error o i = Some y)
      /\ (forall i, nth_error (axes f) i = Some AxK -> nth_error o i = Some z)
      /\ (forall i, List.length (axes f) <= i < List.length o -> nth_error o i = Some 0%Z)
  | None => o = [x; y; z]
  end.
Lemma zeros_ok m : flat_map (fun b : bool => if b then [0%Z] else []) m = repeat 0%Z (count_occ Bool.bool_dec m true).
Proof. induction m as [|[] m IH]; [reflexivity| |]; cbn [flat_map app count_occ]; destruct (Bool.bool_dec _ _); try congruence; cbn [repeat]; rewrite <- IH; reflexivity. Qed.
Lemma field_origin_ok origin info : origin_spec origin info (field_origin origin info).
Proof.
  destruct origin as [[x y] z], info as [[as_ m]|]; cbn [origin_spec field_origin axes data_mask map]; [|reflexivity].
  assert (A : forall i a, nth_error as_ i = Some a -> nth_error (map (coord (x, y, z)) as_ ++ repeat 0%Z (count_occ Bool.bool_dec m true)) i = Some (coord (x, y, z) a)).
  { intros i a E. rewrite nth_error_app1; [apply map_nth_error; exact E|]. rewrite map_length. apply nth_error_Some. congruence. }
  rewrite zeros_ok. split; [rewrite app_length, map_length, repeat_length; reflexivity|].
  split; [intros i E; exact (A i _ E)|]. split; [intros i E; exact (A i _ E)|]. split; [intros i E; exact (A i _ E)|].
  intros i H. rewrite app_length, map_length, repeat_length in H. rewrite nth_error_app2; rewrite map_length; [|lia]. apply nth_error_repeat. lia.
Qed.

(** Every field gets the origin passed for it or, if none was, the common origin along its own axes and zero along its data
    dimensions. *)
Theorem C66_field_origins infos origin given : NoDup (keys infos) -> forall name,
  match get given name, get infos name with
  | Some o, _ => get (field_origins infos origin given) name = Some o
  | None, Some info => exists o, get (field_origins infos origin given) name = Some o /\ origin_spec origin info o
  | None, None => get (field_origins infos origin given) name = None
  end.
Proof.
  unfold field_origins. revert given. induction infos as [|[k info] infos IH]; intros given N name; cbn [fold_left keys map fst snd get].
  - destruct (get given name); reflexivity.
  - inversion N as [|? ? N1 N2]; subst. unfold has. specialize (IH (if match get given k with Some _ => true | None => false end then given else put given k (field_origin origin info)) N2 name).
    destruct (get given k) as [o'|] eqn:GK.
    + destruct (String.eqb_spec name k) as [->|NE]; [rewrite GK in *; exact IH|exact IH].
    + rewrite get_put in IH. destruct (String.eqb_spec name k) as [->|NE].
      * rewrite GK. exists (field_origin origin info). split; [exact IH|apply field_origin_ok].
      * exact IH.
Qed.
Print Assumptions C66_field_origins.
Example C66_origins_case :
  field_origins [("q", Some (mkInfo [AxI; AxJ; AxK] [true])); ("area", Some (mkInfo [AxI; AxJ] [])); ("ak", Some (mkInfo [AxK] [])); ("unused", None); ("own", Some (mkInfo [AxI; AxJ; AxK] []))]%string
    (3, 4, 5)%Z [("_all_", [3; 4; 5]%Z); ("own", [0; 0; 0]%Z)]%string
  = [("_all_", [3; 4; 5]); ("own", [0; 0; 0]); ("q", [3; 4; 5; 0]); ("area", [3; 4]); ("ak", [5]); ("unused", [3; 4; 5])]%string%Z.
Proof. reflexivity. Qed.

(** ** Calls *)
Section Calls.
  Context {A : Type}.
  Implicit Types (names : list string) (args : list A) (kwargs : dict A).

  Lemma has_in (d : dict A) k : has d k = true <-> In k (keys d).
  Proof. unfold has. rewrite <- get_some. destruct (get d k); split; try discriminate; eauto. intros [v H]; discriminate. Qed.
  Lemma keys_combine names : forall args, keys (combine names args) = firstn (List.length args) names.
  Proof. induction names as [|n names IH]; intros [|a args]; try reflexivity. cbn. rewrite <- IH. reflexivity. Qed.
  Lemma get_app (d e : dict A) k : get (d ++ e) k = match get d k with Some v => Some v | None => get e k end.
  Proof. induction d as [|[k' v] d IH]; [reflexivity|]. cbn [app get]. destruct (String.eqb k k'); [reflexivity|exact IH]. Qed.
  Lemma keys_app' (d e : dict A) : keys (d ++ e) = keys d ++ keys e.
  Proof. apply map_app. Qed.
  Lemma split_names names args : NoDup names -> forall n, In n names <-> (In n (firstn (List.length args) names) \/ In n (skipn (List.length args) names)).
  Proof. intros _ n. rewrite <- (firstn_skipn (List.length args) names) at 1. apply in_app_iff. Qed.
  Lemma split_disjoint names (m : nat) : NoDup names -> forall n, In n (firstn m names) -> In n (skipn m names) -> False.
  Proof.
    revert m. induction names as [|x names IH]; intros [|m] N n H1 H2; cbn in H1, H2; try contradiction.
    inversion N as [|? ? N1 N2]; subst. destruct H1 as [->|H1]; [|exact (IH m N2 n H1 H2)].
    apply N1. rewrite <- (firstn_skipn m names). apply in_app_iff. right. exact H2.
  Qed.

  Lemma bind_some names args kwargs b : bind_params names args kwargs = Some b -> b = combine names args ++ kwargs.
  Proof.
    unfold bind_params. destruct (_ <? _); [discriminate|]. destruct (existsb _ _); [discriminate|]. destruct (existsb _ _); [discriminate|].
    destruct (forallb _ _); [|discriminate]. congruence.
  Qed.
  Lemma bind_iff names args kwargs : NoDup names -> NoDup (keys kwargs) -> bind_params names args kwargs <> None <-> acceptable names args kwargs.
  Proof.
    intros N NK. unfold bind_params, acceptable. destruct (Nat.ltb_spec (List.length names) (List.length args)) as [L|L]; [split; [congruence|intros [H _]; lia]|].
    assert (X1 : existsb (fun kv => has (combine names args) (fst kv)) kwargs = true <-> exists n, In n (keys kwargs) /\ In n (firstn (List.length args) names)).
    { rewrite existsb_exists. split.
      - intros ([k v] & H1 & H2). exists k. apply has_in in H2. rewrite keys_combine in H2. split; [exact (in_map fst _ _ H1)|exact H2].
      - intros (n & H1 & H2). apply in_map_iff in H1. destruct H1 as ([k v] & <- & H1). exists (k, v). split; [exact H1|]. apply has_in. rewrite keys_combine. exact H2. }
    assert (X2 : existsb (fun kv : string * A => negb (existsb (String.eqb (fst kv)) names)) kwargs = true <-> exists n, In n (keys kwargs) /\ ~ In n names).
    { assert (M : forall n, existsb (String.eqb n) names = true <-> In n names).
      { intros n. rewrite existsb_exists. split; [intros (x & H1 & H2); apply String.eqb_eq in H2; subst; exact H1|intros H; exists n; split; [exact H|apply String.eqb_refl]]. }
      rewrite existsb_exists. split.
      - intros ([k v] & H1 & H2). exists k. split; [exact (in_map fst _ _ H1)|]. rewrite <- M. cbn [fst] in H2. destruct (existsb (String.eqb k) names); [discriminate|congruence].
      - intros (n & H1 & H2). apply in_map_iff in H1. destruct H1 as ([k v] & <- & H1). exists (k, v). split; [exact H1|]. cbn [fst] in *.
        destruct (existsb (String.eqb k) names) eqn:Ex; [|reflexivity]. apply M in Ex. contradiction. }
    assert (X3 : forallb (fun n => has (combine names args ++ kwargs) n) names = true <-> forall n, In n names -> In n (firstn (List.length args) names) \/ In n (keys kwargs)).
    { rewrite forallb_forall. split; intros H n Hn; specialize (H n Hn).
      - apply has_in in H. rewrite keys_app', keys_combine in H. apply in_app_iff. exact H.
      - apply has_in. rewrite keys_app', keys_combine. apply in_app_iff. exact H. }
    pose proof (split_names names args N) as SN. pose proof (split_disjoint names (List.length args) N) as SD.
    destruct (existsb (fun kv => has (combine names args) (fst kv)) kwargs).
    { split; [congruence|]. intros (_ & _ & H). destruct (proj1 X1 eq_refl) as (n & H1 & H2). destruct (SD n H2). apply H. exact H1. }
    destruct (existsb (fun kv : string * A => negb (existsb (String.eqb (fst kv)) names)) kwargs).
    { split; [congruence|]. intros (_ & _ & H). destruct (proj1 X2 eq_refl) as (n & H1 & H2). destruct H2. apply SN. right. apply H. exact H1. }
    destruct (forallb (fun n => has (combine names args ++ kwargs) n) names).
    - split; [|congruence]. intros _. split; [exact L|split; [exact NK|]]. intros n. split; intros Hn.
      + destruct (proj1 X3 eq_refl n (proj2 (SN n) (or_intror Hn))) as [H|H]; [destruct (SD n H Hn)|exact H].
      + destruct (in_dec string_dec n names) as [I1|I1]; [|discriminate (proj2 X2 (ex_intro _ n (conj Hn I1)))].
        apply SN in I1. destruct I1 as [I1|I1]; [|exact I1]. discriminate (proj2 X1 (ex_intro _ n (conj Hn I1))).
    - split; [congruence|]. intros (_ & _ & H). enough (true = false) by congruence. rewrite <- (proj2 X3); [reflexivity|].
      intros n Hn. apply SN in Hn. destruct Hn as [Hn|Hn]; [left; exact Hn|right; apply H; exact Hn].
  Qed.
  Lemma bind_bound names args kwargs : NoDup names -> acceptable names args kwargs -> bound_as names args kwargs (combine names args ++ kwargs).
  Proof.
    intros N (L & _ & H). split.
    - intros i n a H1 H2. rewrite get_app. assert (G : get (combine names args) n = Some a); [|rewrite G; reflexivity].
      clear L H. revert args i H1 H2. induction names as [|x names IH]; intros args [|i] H1 H2; try discriminate; destruct args as [|y args]; try discriminate; cbn in *.
      + injection H1 as ->. injection H2 as ->. rewrite String.eqb_refl. reflexivity.
      + inversion N as [|? ? N1 N2]; subst. destruct (String.eqb_spec n x) as [->|NE]; [destruct N1; eapply nth_error_In; exact H1|]. exact (IH N2 args i H1 H2).
    - intros n Hn. rewrite get_app. rewrite <- keys_combine in Hn. apply get_none in Hn. rewrite Hn. reflexivity.
  Qed.

  Lemma nodup_zipped (ns : list string) args kwargs : NoDup ns -> acceptable ns args kwargs -> NoDup (keys (combine ns args ++ kwargs)).
  Proof.
    intros N (_ & NK & H). rewrite keys_app', keys_combine. pose proof (split_disjoint ns (List.length args) N) as SD.
    assert (NF : NoDup (firstn (List.length args) ns)).
    { clear SD H. rewrite <- (firstn_skipn (List.length args) ns) in N. revert N. generalize (skipn (List.length args) ns).
      induction (firstn (List.length args) ns) as [|x l IH]; intros l2 N; [constructor|]. cbn in N. inversion N as [|? ? N1 N2]; subst.
      constructor; [intros HI; apply N1; apply in_app_iff; left; exact HI|exact (IH l2 N2)]. }
    assert (D : forall n, In n (firstn (List.length args) ns) -> In n (keys kwargs) -> False) by (intros n H1 H2; apply H in H2; exact (SD n H1 H2)).
    clear SD N H. revert NF D. induction (firstn (List.length args) ns) as [|x l IH]; intros NF D; [exact NK|]. cbn. inversion NF as [|? ? F1 F2]; subst. constructor.
    - intros HI. apply in_app_iff in HI. destruct HI as [HI|HI]; [contradiction|]. exact (D x (or_introl eq_refl) HI).
    - apply IH; [exact F2|]. intros n H1 H2. exact (D n (or_intror H1) H2).
  Qed.

  (** the call of a stencil in any state: the two code paths agree on acceptable calls *)
  Lemma call_ok (s : stencil A) args kwargs : NoDup (names s) -> ~ In "origin"%string (names s) -> ~ In "domain"%string (names s) ->
    acceptable (names s) args kwargs -> names (fst (call s args kwargs)) = names s /\ snd (call s args kwargs) = Runs (combine (names s) args ++ kwargs).
  Proof.
    intros N NO ND Ac. pose proof Ac as (L & NK & H).
    assert (HK : forall n, In n (keys kwargs) -> In n (names s)).
    { intros n Hn. apply H in Hn. rewrite <- (firstn_skipn (List.length args) (names s)). apply in_app_iff. right. exact Hn. }
    assert (B : bind_params (names s) args kwargs = Some (combine (names s) args ++ kwargs)).
    { destruct (bind_params (names s) args kwargs) as [b|] eqn:E; [apply bind_some in E; rewrite E; reflexivity|]. exfalso. exact (proj2 (bind_iff (names s) args kwargs N NK) Ac E). }
    assert (ND' : forall n, In n (keys (combine (names s) args)) -> In n (keys kwargs) -> False).
    { intros n H1 H2. rewrite keys_combine in H1. apply H in H2. exact (split_disjoint (names s) _ N n H1 H2). }
    unfold call, class_call. destruct (negb (checked s) && validate s).
    - replace (has kwargs "origin" || has kwargs "domain") with false.
      + rewrite B. split; reflexivity.
      + symmetry. apply orb_false_iff. split; apply not_true_is_false; intros E; apply has_in in E; apply HK in E; contradiction.
    - replace (existsb (fun kv => has (combine (names s) args) (fst kv)) kwargs) with false.
      + assert (B2 : bind_params (names s) [] (combine (names s) args ++ kwargs) = Some (combine (names s) args ++ kwargs)).
        { destruct (bind_params (names s) [] (combine (names s) args ++ kwargs)) as [b|] eqn:E.
          - apply bind_some in E. replace (combine (names s) (@nil A)) with (@nil (string * A)) in E by (destruct (names s); reflexivity). rewrite E. reflexivity.
          - exfalso. refine (proj2 (bind_iff (names s) [] (combine (names s) args ++ kwargs) N _) _ E).
            + exact (nodup_zipped (names s) args kwargs N Ac).
            + split; [cbn; lia|]. split; [exact (nodup_zipped (names s) args kwargs N Ac)|].
              intros n. cbn [List.length skipn]. rewrite keys_app', keys_combine, in_app_iff, <- H, <- in_app_iff, firstn_skipn. reflexivity. }
        rewrite B2. split; reflexivity.
      + symmetry. apply not_true_is_false. intros E. apply existsb_exists in E. destruct E as ([k v] & H1 & H2). apply has_in in H2. exact (ND' k H2 (in_map fst _ _ H1)).
  Qed.
  Lemma call_names (s : stencil A) args kwargs : names (fst (call s args kwargs)) = names s.
  Proof. unfold call, class_call. repeat match goal with |- context [if ?b then _ else _] => destruct b | |- context [match bind_params ?a ?b ?c with _ => _ end] => destruct (bind_params a b c) end; reflexivity. Qed.

  (** Whatever was called before, with or without success, a call Python accepts runs the stencil once with every argument
      under its own name, on the first (checked) call and on all later ones.  Missing for C66: in Build mode it must not run,
      and a call with too many arguments must be refused (both refuted below). *)
  Theorem C66_calls_partial ns v mode (l : list (list A * dict A)) i args kwargs :
    NoDup ns -> ~ In "origin"%string ns -> ~ In "domain"%string ns ->
    nth_error l i = Some (args, kwargs) -> acceptable ns args kwargs ->
    exists b, nth_error (calls (new_stencil ns v mode) l) i = Some (Runs b) /\ bound_as ns args kwargs b.
  Proof.
    intros N NO ND E Ac. exists (combine ns args ++ kwargs). split; [|apply bind_bound; assumption].
    assert (G : forall s, names s = ns -> nth_error (calls s l) i = Some (Runs (combine ns args ++ kwargs))).
    { revert i E. induction l as [|[a k] l IH]; intros [|i] E s Hs; try discriminate; cbn [nth_error calls] in *.
      - injection E as -> ->. subst ns. destruct (call_ok s args kwargs N NO ND Ac) as [_ R]. destruct (call s args kwargs) as [s' e]. cbn in *. congruence.
      - pose proof (call_names s a k) as Hn. destruct (call s a k) as [s' e]. cbn [nth_error]. apply IH; [exact E|]. cbn in Hn. congruence. }
    apply G. reflexivity.
  Qed.

  (** The first call of a stencil that validates its arguments refuses whatever Python does not accept. *)
  Theorem C66_first_call_refuses ns mode args kwargs : NoDup ns -> NoDup (keys kwargs) -> ~ acceptable ns args kwargs ->
    snd (call (new_stencil ns true mode) args kwargs) = Raises.
  Proof.
    intros N NK H. unfold call, class_call, new_stencil. cbn [checked validate negb andb names]. destruct (_ || _); [reflexivity|].
    destruct (bind_params ns args kwargs) as [b|] eqn:E; [|reflexivity]. destruct H. apply bind_iff; [assumption|assumption|congruence].
  Qed.
End Calls.
Print Assumptions C66_calls_partial.
Print Assumptions C66_first_call_refuses.
Example C66_case : acceptable ["q"; "dt"; "area"]%string [10; 20]%Z [("area", 30%Z)]%string
  /\ calls (new_stencil ["q"; "dt"; "area"]%string true BuildAndRun) [([10; 20]%Z, [("area", 30%Z)]%string); ([11]%Z, [("area", 30); ("dt", 21)]%Z%string)]
     = [Runs [("q", 10); ("dt", 20); ("area", 30)]%string%Z; Runs [("q", 11); ("area", 30); ("dt", 21)]%string%Z].
Proof. split; [|reflexivity]. split; [cbn; lia|]. split; [repeat constructor; cbn; tauto|]. intros n. cbn. tauto. Qed.

(** A stencil made in Build mode, whose calls are meant to do nothing, runs when called. *)
Theorem C66_build_mode_refuted : exists (ns : list string) (args : list Z), instance_call (new_stencil (A := Z) ns true Build) = Some Nothing
  /\ calls (new_stencil ns true Build) [(args, [])] = [Runs (combine ns args)].
Proof. exists ["q"; "dt"]%string, [10; 20]%Z. split; reflexivity. Qed.
Print Assumptions C66_build_mode_refuted.
(** An argument too many is refused by the first call and silently dropped by every later one. *)
Theorem C66_extra_argument_refuted : exists (ns : list string) (args extra : list Z), ~ acceptable ns extra []
  /\ calls (new_stencil ns true BuildAndRun) [(extra, []); (args, []); (extra, [])] = [Raises; Runs (combine ns args); Runs (combine ns extra)].
Proof. exists ["q"; "dt"]%string, [10; 20]%Z, [10; 20; 30]%Z. split; [|reflexivity]. intros [L _]. cbn in L. lia. Qed.
Print Assumptions C66_extra_argument_refuted.
