(** Proofs about quantities. *)
From Coq Require Import Permutation.
From Verif Require Import Base Dict QuantModel.

Section Pos.
  Context {T : Type} (dec : forall a b : T, {a = b} + {a <> b}).
  Lemma pos_lt x l : In x l -> (pos dec x l < length l)%nat.
  Proof. induction l as [|y l IH]; cbn; [tauto|]. destruct (dec x y); [lia|]. intros [->|H]; [congruence|]. apply IH in H. lia. Qed.
  Lemma nth_pos x l d : In x l -> nth (pos dec x l) l d = x.
  Proof. induction l as [|y l IH]; cbn; [tauto|]. destruct (dec x y) as [->|N]; [auto|]. intros [->|H]; [congruence|auto]. Qed.
  Lemma pos_nth i l d : NoDup l -> (i < length l)%nat -> pos dec (nth i l d) l = i.
  Proof.
    revert i. induction l as [|y l IH]; intros i N L; cbn in *; [lia|]. inversion N; subst. destruct i as [|i].
    - destruct (dec y y); congruence.
    - destruct (dec (nth i l d) y) as [E|E]; [|f_equal; apply IH; auto; lia]. exfalso. apply H1. rewrite <- E. apply nth_In. lia.
  Qed.
End Pos.

Lemma map_nth_seq {T} (l : list T) d : map (fun i => nth i l d) (seq 0 (length l)) = l.
Proof.
  induction l as [|a l IH]; [reflexivity|]. cbn [length seq map nth]. f_equal. rewrite <- seq_shift, map_map. exact IH.
Qed.

Lemma along_nth ds l d : NoDup ds -> length l = length ds -> In d ds -> along ds l d = Some (nth (pos string_dec d ds) l 0).
Proof.
  unfold along. revert l. induction ds as [|e ds IH]; intros l N L I; [destruct I|]. destruct l as [|x l]; [discriminate|]. cbn.
  inversion N; subst. destruct (String.eqb_spec d e) as [->|X]; [destruct string_dec; congruence|].
  destruct string_dec; [congruence|]. apply IH; auto. destruct I; congruence.
Qed.

Section Q.
  Context {A : Type}.
  Variable q : quantity A.
  Hypothesis WF : well_formed q.

  Variable t : list string.
  Hypothesis PT : Permutation t (dims q).
  Let order := map (fun d => pos string_dec d (dims q)) t.
  Let n := length (dims q).

  Lemma t_in d : In d t <-> In d (dims q).
  Proof. split; apply Permutation_in; auto. now apply Permutation_sym. Qed.

  Lemma order_length : length order = n.
  Proof. unfold order, n. rewrite map_length. now apply Permutation_length. Qed.

  Lemma order_all j : (j < n)%nat -> In j order.
  Proof.
    intros L. unfold order. apply in_map_iff. exists (nth j (dims q) ""%string). destruct WF as (N & _).
    split; [apply pos_nth; auto|]. apply t_in, nth_In. auto.
  Qed.

  Lemma order_perm : is_permutation order (length (shape q)) = true.
  Proof.
    destruct WF as (_ & _ & _ & L). rewrite L. fold n. unfold is_permutation. rewrite order_length, Nat.eqb_refl. cbn [andb].
    apply forallb_forall. intros j J. apply in_seq in J. destruct in_dec as [|X]; auto. exfalso. apply X, order_all. lia.
  Qed.

  (** a sequence carried along *)
  Lemma carried {T} (l : list T) (d0 : T) (env : string -> T) : l = map env (dims q) -> transpose_sequence l order d0 = map env t.
  Proof.
    intros ->. unfold transpose_sequence, order. rewrite map_map. apply map_ext_in. intros d D. apply t_in in D.
    rewrite nth_indep with (d' := env ""%string) by (rewrite map_length; apply pos_lt; auto).
    rewrite map_nth, nth_pos; auto.
  Qed.

  Lemma dims_carried : transpose_sequence (dims q) order ""%string = t.
  Proof. rewrite (carried _ _ (fun d => d)); [apply map_id|symmetry; apply map_id]. Qed.

  (** an index tuple of the transposed array, coordinate by dimension name *)
  Lemma index_carried (env : string -> Z) :
    map (fun j => nth (pos Nat.eq_dec j order) (map env t) 0) (seq 0 n) = map env (dims q).
  Proof.
    transitivity (map (fun j => env (nth j (dims q) ""%string)) (seq 0 n)).
    - apply map_ext_in. intros j J. apply in_seq in J. assert (I : In j order) by (apply order_all; lia).
      set (i := pos Nat.eq_dec j order).
      assert (Li : (i < length order)%nat) by (apply pos_lt; auto).
      rewrite nth_indep with (d' := env ""%string) by (rewrite map_length; unfold order in Li; rewrite map_length in Li; auto).
      rewrite map_nth. f_equal.
      assert (E : nth i order O = j) by (apply nth_pos; auto).
      assert (Li' : (i < length t)%nat) by (unfold order in Li; rewrite map_length in Li; auto).
      unfold order in E. rewrite nth_indep with (d' := pos string_dec ""%string (dims q)) in E by (rewrite map_length; auto).
      rewrite (map_nth (fun d => pos string_dec d (dims q))) in E. rewrite <- E. symmetry. apply nth_pos. apply t_in, nth_In. auto.
    - rewrite <- (map_map (fun j => nth j (dims q) ""%string) env). f_equal. apply map_nth_seq.
  Qed.
End Q.

Definition env_of (ds : list string) (l : list Z) (d : string) : Z := nth (pos string_dec d ds) l 0.
Lemma env_of_map ds l : NoDup ds -> length l = length ds -> map (env_of ds l) ds = l.
Proof.
  intros N L. transitivity (map (fun j => nth j l 0) (seq 0 (length ds))); [|rewrite <- L; apply map_nth_seq].
  transitivity (map (env_of ds l) (map (fun j => nth j ds ""%string) (seq 0 (length ds)))); [now rewrite map_nth_seq|]. rewrite map_map.
  apply map_ext_in. intros j J. apply in_seq in J. unfold env_of. rewrite pos_nth; auto; lia.
Qed.

(** the result of a transpose whose collapsed target is a permutation *)
Lemma transpose_ok {A} (q : quantity A) ts t : well_formed q -> collapse_dims ts (dims q) = Some t -> Permutation t (dims q) ->
  exists q', transpose q ts = Some q' /\ well_formed q' /\ dims q' = t /\ n_halo q' = 0 /\
    (forall d, along (dims q') (origin q') d = along (dims q) (origin q) d) /\
    (forall d, along (dims q') (extent q') d = along (dims q) (extent q) d) /\
    (forall d, along (dims q') (shape q') d = along (dims q) (shape q) d) /\
    (forall env, data q' (map env (dims q')) = data q (map env (dims q))) /\
    (forall env, origin q = map env (dims q) -> origin q' = map env t) /\
    (forall env, extent q = map env (dims q) -> extent q' = map env t) /\
    (forall env, shape q = map env (dims q) -> shape q' = map env t).
Proof.
  intros W C P. unfold transpose. rewrite C. cbn [bind]. unfold np_transpose. rewrite (order_perm q W t P). cbn [bind fst snd].
  eexists. split; [reflexivity|]. cbn. rewrite (dims_carried q t P).
  assert (W' := W). destruct W' as (N & L1 & L2 & L3).
  assert (Nt : NoDup t) by (eapply Permutation_NoDup; [apply Permutation_sym; eauto|auto]).
  assert (Al : forall l, length l = length (dims q) ->
      forall d, along t (transpose_sequence l (map (fun d0 => pos string_dec d0 (dims q)) t) 0) d = along (dims q) l d).
  { intros l L d. rewrite (carried q t P l 0 (env_of (dims q) l)) by (symmetry; apply env_of_map; auto).
    destruct (in_dec string_dec d t) as [I|I].
    - rewrite along_nth by (auto; now rewrite map_length). rewrite along_nth by (auto; now apply (t_in q t P)).
      f_equal. rewrite nth_indep with (d' := env_of (dims q) l ""%string) by (rewrite map_length; apply pos_lt; auto).
      rewrite map_nth, nth_pos by auto. reflexivity.
    - assert (I' : ~ In d (dims q)) by (rewrite <- (t_in q t P); auto). unfold along.
      assert (G : forall ds (l0 : list Z), ~ In d ds -> get (combine ds l0) d = None).
      { induction ds as [|e ds IH]; intros l0 X; [reflexivity|]. destruct l0; [reflexivity|]. cbn. destruct (String.eqb_spec d e) as [->|]; [cbn in X; tauto|].
        apply IH. cbn in X. tauto. }
      rewrite !G; auto. }
  split; [|split; [reflexivity|split; [reflexivity|split; [|split; [|split; [|split; [|split; [|split]]]]]]]].
  - unfold well_formed, transpose_sequence; cbn. rewrite !map_length. auto.
  - apply Al; auto.
  - apply Al; auto.
  - apply (Al (shape q)); auto.
  - intros env. rewrite L3. f_equal. apply index_carried; auto.
  - intros env E. apply (carried q t P _ _ env E).
  - intros env E. apply (carried q t P _ _ env E).
  - intros env E. apply (carried q t P (shape q) 0 env E).
Qed.

Lemma collapse_names t ds : (forall d, In d t -> In d ds) -> collapse_dims (map Name t) ds = Some t.
Proof.
  induction t as [|d t IH]; intros H; [reflexivity|]. cbn. destruct in_dec as [|X]; [|exfalso; apply X, H; left; auto]. cbn.
  rewrite IH; [reflexivity|]. intros e E. apply H. right. auto.
Qed.

Lemma collapse_spec ts ds t : Forall2 (names ds) ts t -> collapse_dims ts ds = Some t.
Proof.
  induction 1 as [|x d ts t N F IH]; [reflexivity|]. cbn [collapse_dims]. destruct x as [d'|g]; cbn [names] in N.
  - destruct N as [-> N]. destruct in_dec; [|tauto]. cbn. rewrite IH. reflexivity.
  - destruct N as (D & G & ND & U). set (f := fun d0 => if in_dec string_dec d0 ds then true else false).
    assert (E : filter f g = [d]).
    { assert (ND' : NoDup (filter f g)) by (apply NoDup_filter; auto).
      assert (I : In d (filter f g)) by (apply filter_In; split; auto; unfold f; destruct in_dec; tauto).
      assert (H : forall x, In x (filter f g) -> x = d).
      { intros x X. apply filter_In in X. destruct X as [X Y]. apply U; auto. unfold f in Y. destruct in_dec; [auto|discriminate]. }
      destruct (filter f g) as [|a [|b l]]; [destruct I| |].
      - f_equal. apply H. left. auto.
      - exfalso. inversion ND'; subst. apply H2. left. rewrite (H a), (H b); cbn; auto. }
    fold f. rewrite E. cbn. rewrite IH. reflexivity.
Qed.

Lemma round_trip {A} (q : quantity A) ts t : well_formed q -> Forall2 (names (dims q)) ts t -> Permutation t (dims q) ->
  exists q1 q2, transpose q ts = Some q1 /\ transpose q1 (map Name (dims q)) = Some q2 /\
    dims q2 = dims q /\ origin q2 = origin q /\ extent q2 = extent q /\ shape q2 = shape q /\
    (forall p, length p = length (dims q) -> data q2 p = data q p).
Proof.
  intros W F P. apply collapse_spec in F. destruct (transpose_ok q ts t W F P) as (q1 & T1 & W1 & D1 & _ & _ & _ & _ & V1 & O1 & E1 & S1).
  assert (P1 : Permutation (dims q) (dims q1)) by (rewrite D1; apply Permutation_sym; auto).
  assert (C : collapse_dims (map Name (dims q)) (dims q1) = Some (dims q)).
  { apply collapse_names. intros d. apply Permutation_in. auto. }
  destruct (transpose_ok q1 _ _ W1 C P1) as (q2 & T2 & W2 & D2 & _ & _ & _ & _ & V2 & O2 & E2 & S2).
  exists q1, q2. destruct W as (N & L1 & L2 & L3). split; [auto|]. split; [auto|]. split; [auto|].
  assert (R : forall l, length l = length (dims q) -> l = map (env_of (dims q) l) (dims q)) by (intros; symmetry; apply env_of_map; auto).
  split; [|split; [|split]].
  - rewrite (O2 (env_of (dims q) (origin q))); [symmetry; auto|]. rewrite D1. apply O1; auto.
  - rewrite (E2 (env_of (dims q) (extent q))); [symmetry; auto|]. rewrite D1. apply E1; auto.
  - rewrite (S2 (env_of (dims q) (shape q))); [symmetry; auto|]. rewrite D1. apply S1; auto.
  - intros p Lp. rewrite (R p Lp). specialize (V2 (env_of (dims q) p)). rewrite D2 in V2. rewrite V2. apply V1.
Qed.

(** ** swap_buffer *)
Lemma tuple_lt_all_ge a b : Forall2 (fun x y => y <= x) a b -> tuple_lt a b = false.
Proof. induction 1 as [|x y a b H F IH]; [reflexivity|]. cbn. destruct (Z.eqb_spec x y); auto. apply Z.ltb_ge. lia. Qed.
Lemma tuple_lt_all_le a b : Forall2 (fun x y => x <= y) a b -> a <> b -> tuple_lt a b = true.
Proof.
  induction 1 as [|x y a b H F IH]; intros N; [congruence|]. cbn. destruct (Z.eqb_spec x y) as [->|].
  - apply IH. congruence.
  - apply Z.ltb_lt. lia.
Qed.
Lemma swap_fits {A} (q : quantity A) sh d : Forall2 (fun x y => y <= x) sh (extent q) -> swap_buffer q sh d <> None.
Proof. intros H. unfold swap_buffer. rewrite tuple_lt_all_ge by auto. discriminate. Qed.
Lemma swap_smaller {A} (q : quantity A) sh d : Forall2 (fun x y => x <= y) sh (extent q) -> sh <> extent q -> swap_buffer q sh d = None.
Proof. intros H N. unfold swap_buffer. rewrite tuple_lt_all_le by auto. reflexivity. Qed.
