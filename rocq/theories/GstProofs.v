(** Lemmas about GstModel.v *)
From Coq Require Import Permutation.
From Verif Require Import Base Dict QuantModel QuantProofs StorModel GstModel.

Lemma bounds_map h ds o e : bounds h ds (map o ds) (map e ds) = map (fun d => (o d - halo_of h d, o d + e d + halo_of h d)) ds.
Proof. induction ds as [|d ds IH]; [reflexivity|]. cbn [map bounds]. now rewrite IH. Qed.
Lemma take_map (ds : list string) (sh lo hi : string -> Z) : (forall d, In d ds -> 0 <= lo d <= hi d /\ hi d <= sh d) ->
  take (map sh ds) (map (fun d => (lo d, hi d)) ds) = Some (map (fun d => (lo d, hi d - lo d)) ds).
Proof.
  induction ds as [|d ds IH]; intros H; [reflexivity|]. cbn [map take]. rewrite IH by (intros x X; apply H; now right). cbn [bind].
  destruct (H d (or_introl eq_refl)) as [A B]. unfold slice_of, clip.
  destruct (Z.ltb_spec (lo d) 0), (Z.ltb_spec (hi d) 0); try lia. rewrite !Z.min_l by lia. rewrite Z.max_r by lia. reflexivity.
Qed.
Lemma inside_map (ds : list string) (lo n env : string -> Z) :
  inside (map (fun d => (lo d, n d)) ds) (map env ds) = forallb (fun d => (lo d <=? env d) && (env d <? lo d + n d)) ds.
Proof. induction ds as [|d ds IH]; [reflexivity|]. cbn [map inside forallb]. now rewrite IH. Qed.
Lemma pad_same r shape : length shape = r -> pad r shape = Some shape.
Proof. intros <-. unfold pad. rewrite Nat.sub_diag. cbn. reflexivity. Qed.
Lemma fits_map (ds : list string) (lo n : string -> Z) : fits (map n ds) (map (fun d => (lo d, n d)) ds) = true.
Proof. induction ds as [|d ds IH]; [reflexivity|]. cbn [map fits]. now rewrite Z.eqb_refl, IH. Qed.
Lemma source_map (ds : list string) (lo n env : string -> Z) : (forall d, In d ds -> lo d <= env d < lo d + n d) ->
  source (map n ds) (map (fun d => (lo d, n d)) ds) (map env ds) = map (fun d => env d - lo d) ds.
Proof.
  induction ds as [|d ds IH]; intros H; [reflexivity|]. cbn [map source]. rewrite IH by (intros x X; apply H; now right). f_equal.
  specialize (H d (or_introl eq_refl)). destruct (Z.eqb_spec (n d) 1); lia.
Qed.
Lemma shifted_map (ds : list string) (lo n env : string -> Z) : shifted (map (fun d => (lo d, n d)) ds) (map env ds) = map (fun d => lo d + env d) ds.
Proof. induction ds as [|d ds IH]; [reflexivity|]. cbn [map shifted]. now rewrite IH. Qed.
Lemma gets_map t ds f : (forall d, In d ds -> get t d = Some (f d)) -> gets t ds = Some (map f ds).
Proof. induction ds as [|d ds IH]; intros H; [reflexivity|]. cbn [gets map]. rewrite H by now left. cbn [bind]. rewrite IH by (intros x X; apply H; now right). reflexivity. Qed.
Lemma gets_inv t ds l : gets t ds = Some l -> forall d, In d ds -> exists x, get t d = Some x.
Proof.
  revert l. induction ds as [|d ds IH]; intros l H x X; [destruct X|]. cbn [gets] in H. destruct (get t d) as [y|] eqn:G; cbn [bind] in H; [|discriminate].
  destruct (gets t ds) as [r|]; cbn [bind] in H; [|discriminate]. destruct X as [->|X]; [eauto|]. eapply IH; eauto.
Qed.

Lemma pop_insert {T} k (l : list T) x r : pop k l = Some (x, r) -> insert k x r = l /\ Permutation (r ++ [x]) l /\ (k < length l)%nat.
Proof.
  unfold insert. revert k x r. induction l as [|y l IH]; intros k x r; [destruct k; discriminate|]. destruct k as [|k]; cbn [pop].
  - intros [= <- <-]. cbn [firstn skipn app length]. split; [reflexivity|]. split; [|lia]. rewrite Permutation_app_comm. reflexivity.
  - destruct (pop k l) as [[a b]|] eqn:E; cbn [bind fst snd]; [|discriminate]. intros [= <- <-]. destruct (IH _ _ _ E) as (H1 & H2 & H3).
    cbn [firstn skipn app length]. split; [now rewrite H1|]. split; [now constructor|lia].
Qed.
Lemma pop_some {T} k (l : list T) : (k < length l)%nat -> exists x r, pop k l = Some (x, r).
Proof.
  revert k. induction l as [|y l IH]; intros k H; cbn [length] in H; [lia|]. destruct k as [|k]; cbn [pop]; [eauto|].
  destruct (IH k ltac:(lia)) as (x & r & ->). cbn [bind]. eauto.
Qed.
Lemma pop_last_app {T} (l : list T) x : pop_last (l ++ [x]) = Some (x, l).
Proof. unfold pop_last. rewrite rev_app_distr. cbn [rev app]. now rewrite rev_involutive. Qed.

Section State.
Context {V : Type} (zero : V).
(** a quantity known by its dimensions *)
Definition described (q : quantity V) (ds : list string) (o e sh : string -> Z) (f : (string -> Z) -> V) : Prop :=
  dims q = ds /\ origin q = map o ds /\ extent q = map e ds /\ shape q = map sh ds /\ forall env, data q (map env ds) = f env.
Lemma transpose_described q ds o e sh f t : described q ds o e sh f -> NoDup ds -> Permutation t ds ->
  exists q', transpose q (map Name t) = Some q' /\ described q' t o e sh f.
Proof.
  intros (D & O & E & S & F) N P. assert (W : well_formed q).
  { unfold well_formed. rewrite O, E, S, D, !map_length. auto. }
  destruct (transpose_ok q (map Name t) t W) as (q' & T & _ & D' & _ & _ & _ & _ & V' & O' & E' & S').
  - apply collapse_names. intros d. rewrite D. apply Permutation_in, P.
  - now rewrite D.
  - exists q'. split; [exact T|]. split; [exact D'|]. rewrite D in *. split; [now apply O'|]. split; [now apply E'|]. split; [now apply S'|].
    intros env. rewrite <- D', V'. apply F.
Qed.
(** writing a slice *)
Lemma set_slice_described q ds o e sh f h a : described q ds o e sh f ->
  (forall d, In d ds -> 0 <= o d - halo_of h d /\ 0 <= e d + 2 * halo_of h d /\ o d + e d + halo_of h d <= sh d) ->
  shp a = map (fun d => e d + 2 * halo_of h d) ds ->
  exists q', set_slice q (serialize_slice q h) a = Some q' /\ described q' ds o e sh (fun env =>
    if forallb (fun d => (o d - halo_of h d <=? env d) && (env d <? o d + e d + halo_of h d)) ds then val a (map (fun d => env d - (o d - halo_of h d)) ds) else f env).
Proof.
  intros (D & O & E & S & F) R A. unfold set_slice, serialize_slice. rewrite D, O, E, S, bounds_map.
  rewrite (take_map ds sh (fun d => o d - halo_of h d) (fun d => o d + e d + halo_of h d)) by (intros d I; specialize (R d I); lia). cbn [bind].
  rewrite (map_ext (fun d => (o d - halo_of h d, o d + e d + halo_of h d - (o d - halo_of h d))) (fun d => (o d - halo_of h d, e d + 2 * halo_of h d))) by (intros d; f_equal; lia).
  rewrite A, pad_same by now rewrite !map_length. cbn [bind]. rewrite (fits_map ds (fun d => o d - halo_of h d)).
  eexists. split; [reflexivity|]. split; [reflexivity|]. split; [reflexivity|]. split; [reflexivity|]. split; [reflexivity|]. intros env. cbn [data].
  rewrite !map_length, Nat.sub_diag. cbn [repeat app skipn]. rewrite (inside_map ds (fun d => o d - halo_of h d)).
  assert (B : forallb (fun d => (o d - halo_of h d <=? env d) && (env d <? o d - halo_of h d + (e d + 2 * halo_of h d))) ds
            = forallb (fun d => (o d - halo_of h d <=? env d) && (env d <? o d + e d + halo_of h d)) ds).
  { clear. induction ds as [|d ds IH]; [reflexivity|]. cbn [forallb]. rewrite IH. do 3 f_equal. lia. }
  cbn beta. rewrite B. clear B. destruct (forallb _ ds) eqn:X; [|apply F]. rewrite (source_map ds (fun d => o d - halo_of h d)); [reflexivity|].
  rewrite forallb_forall in X. intros d I. specialize (X d I). cbn beta in X. lia.
Qed.
(** reading one *)
Lemma get_slice_described q ds o e sh f h : described q ds o e sh f ->
  (forall d, In d ds -> 0 <= o d - halo_of h d /\ 0 <= e d + 2 * halo_of h d /\ o d + e d + halo_of h d <= sh d) ->
  exists a, get_slice q (serialize_slice q h) = Some a /\ shp a = map (fun d => e d + 2 * halo_of h d) ds
    /\ forall env, val a (map env ds) = f (fun d => o d - halo_of h d + env d).
Proof.
  intros (D & O & E & S & F) R. unfold get_slice, subarray, serialize_slice. cbn [shp val]. rewrite D, O, E, S, bounds_map.
  rewrite (take_map ds sh (fun d => o d - halo_of h d) (fun d => o d + e d + halo_of h d)) by (intros d I; specialize (R d I); lia). cbn [bind].
  eexists. split; [reflexivity|]. cbn [shp val]. split.
  - rewrite map_map. apply map_ext. intros d. cbn [snd]. lia.
  - intros env. rewrite (shifted_map ds (fun d => o d - halo_of h d)). apply F.
Qed.
End State.
