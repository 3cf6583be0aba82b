(** Python dictionaries with string keys as association lists in insertion order.  Not a model of NDSL code: only the part of
    the language the models share. *)
From Coq Require Export String List.
From Verif Require Import Base.

Section Dict.
  Context {V : Type}.
  Definition dict := list (string * V).
  Fixpoint get (d : dict) (k : string) : option V :=
    match d with [] => None | (k', v) :: d' => if (k =? k')%string then Some v else get d' k end.
  (** d[k] = v: an existing key keeps its place *)
  Fixpoint put (d : dict) (k : string) (v : V) : dict :=
    match d with
    | [] => [(k, v)]
    | (k', v') :: d' => if (k =? k')%string then (k', v) :: d' else (k', v') :: put d' k v
    end.
  (** del d[k] *)
  Fixpoint del (d : dict) (k : string) : dict :=
    match d with [] => [] | (k', v) :: d' => if (k =? k')%string then del d' k else (k', v) :: del d' k end.
  Definition keys (d : dict) : list string := map fst d.
  (** d.update(e) *)
  Definition update (d e : dict) : dict := fold_left (fun d kv => put d (fst kv) (snd kv)) e d.

  Lemma get_put d k v k' : get (put d k v) k' = if (k' =? k)%string then Some v else get d k'.
  Proof.
    induction d as [|[j w] d IH]; cbn; [reflexivity|].
    destruct (String.eqb_spec k j) as [->|N]; cbn.
    - destruct (k' =? j)%string; reflexivity.
    - destruct (String.eqb_spec k' j) as [->|N']; [|exact IH]. destruct (String.eqb_spec j k); congruence.
  Qed.

  Lemma get_del d k k' : get (del d k) k' = if (k' =? k)%string then None else get d k'.
  Proof.
    induction d as [|[j w] d IH]; cbn; [now destruct (k' =? k)%string|].
    destruct (String.eqb_spec k j) as [->|N].
    - rewrite IH. destruct (k' =? j)%string; reflexivity.
    - cbn. rewrite IH. destruct (String.eqb_spec k' j) as [->|]; [|reflexivity].
      destruct (String.eqb_spec j k); congruence.
  Qed.

  Lemma get_none d k : get d k = None <-> ~ In k (keys d).
  Proof.
    induction d as [|[j w] d IH]; cbn; [tauto|].
    destruct (String.eqb_spec k j) as [->|N]; [split; [discriminate|tauto]|]. rewrite IH. intuition congruence.
  Qed.
  Lemma get_some d k : (exists v, get d k = Some v) <-> In k (keys d).
  Proof.
    destruct (get d k) eqn:E.
    - split; eauto. intros _. destruct (in_dec string_dec k (keys d)) as [|N]; auto. apply get_none in N. congruence.
    - apply get_none in E. split; [intros [v H]; discriminate|tauto].
  Qed.
  Lemma get_in d k v : get d k = Some v -> In (k, v) d.
  Proof.
    induction d as [|[j w] d IH]; cbn; [discriminate|].
    destruct (String.eqb_spec k j) as [->|N]; [intros [= ->]; auto|auto].
  Qed.
  Lemma in_get d k v : NoDup (keys d) -> In (k, v) d -> get d k = Some v.
  Proof.
    induction d as [|[j w] d IH]; cbn; [tauto|]. intros N [[= -> ->]|H].
    - now rewrite String.eqb_refl.
    - inversion N; subst. destruct (String.eqb_spec k j) as [->|]; [|auto]. exfalso. apply H2. apply in_map_iff. exists (j, v). auto.
  Qed.

  Lemma keys_put d k v : keys (put d k v) = if in_dec string_dec k (keys d) then keys d else keys d ++ [k].
  Proof.
    induction d as [|[j w] d IH]; [reflexivity|]. cbn [put]. destruct (String.eqb_spec k j) as [->|N].
    - destruct (in_dec string_dec j (keys ((j, w) :: d))) as [|X]; [reflexivity|]. exfalso. apply X. cbn. auto.
    - cbn [keys map fst]. fold (keys (put d k v)) (keys d). rewrite IH.
      destruct (in_dec string_dec k (keys d)); destruct (in_dec string_dec k (j :: keys d)) as [H|H]; cbn in *; auto; try tauto.
      destruct H; congruence.
  Qed.
  Lemma put_NoDup d k v : NoDup (keys d) -> NoDup (keys (put d k v)).
  Proof.
    intros H. rewrite keys_put. destruct in_dec; auto.
    rewrite <- (rev_involutive (keys d ++ [k])). apply NoDup_rev. rewrite rev_app_distr. cbn. constructor; [|apply NoDup_rev; auto].
    rewrite <- in_rev. auto.
  Qed.
  Lemma del_NoDup d k : NoDup (keys d) -> NoDup (keys (del d k)).
  Proof.
    induction d as [|[j w] d IH]; cbn; auto. intros H. inversion H; subst. destruct (k =? j)%string; auto.
    cbn. constructor; [|auto]. fold (keys (del d k)). intros I. apply get_some in I. destruct I as [x I]. rewrite get_del in I.
    destruct (j =? k)%string; [discriminate|]. apply H2. apply get_some. eauto.
  Qed.
  Lemma nil_no_keys d : d = [] <-> forall k, get d k = None.
  Proof.
    split; [intros ->; reflexivity|]. destruct d as [|[j w] d]; auto. intros H. specialize (H j). cbn in H. now rewrite String.eqb_refl in H.
  Qed.
End Dict.
Arguments dict V : clear implicits.
