(** Property theorems C26: transposing a quantity; C55: swapping its buffer.  Model and specification: QuantModel.v. *)
From Coq Require Import Permutation.
From Verif Require Import Base Dict QuantModel QuantProofs.

(** C26, elements and metadata.  If the target entries name each dimension of the quantity exactly once (directly or through a
    group containing one of them), transpose succeeds; the result's dims are the named ones in target order, origin, extent
    and shape belong to the same dimension as before, and the element with given per-dimension indices is the same. *)
Theorem C26_transpose_keeps_dimensions : forall (A : Type) (q : quantity A) ts t, well_formed q ->
  Forall2 (names (dims q)) ts t -> Permutation t (dims q) ->
  exists q', transpose q ts = Some q' /\ dims q' = t /\
    (forall d, along (dims q') (origin q') d = along (dims q) (origin q) d) /\
    (forall d, along (dims q') (extent q') d = along (dims q) (extent q) d) /\
    (forall d, along (dims q') (shape q') d = along (dims q) (shape q) d) /\
    (forall index_of : string -> Z, data q' (map index_of (dims q')) = data q (map index_of (dims q))).
Proof.
  intros A q ts t W F P. apply collapse_spec in F. destruct (transpose_ok q ts t W F P) as (q' & H). exists q'. intuition.
Qed.
Print Assumptions C26_transpose_keeps_dimensions.

(** C26, there and back.  Missing: the halo depth, see the refutation. *)
Theorem C26_round_trip_partial : forall (A : Type) (q : quantity A) ts t, well_formed q ->
  Forall2 (names (dims q)) ts t -> Permutation t (dims q) ->
  exists q1 q2, transpose q ts = Some q1 /\ transpose q1 (map Name (dims q)) = Some q2 /\
    dims q2 = dims q /\ origin q2 = origin q /\ extent q2 = extent q /\ shape q2 = shape q /\
    (forall p, length p = length (dims q) -> data q2 p = data q p).
Proof. intros A. exact round_trip. Qed.
Print Assumptions C26_round_trip_partial.

(** Everything else is refused: a transpose that succeeds had exactly one dimension of the quantity in each target entry, and all of them
    in the target. *)
Theorem C26_refused : forall (A : Type) (q : quantity A) ts q', well_formed q -> transpose q ts = Some q' ->
  Forall (fun t => exists! d, In d (dims q) /\ match t with Name d' => d = d' | Group g => In d g end) ts /\ Permutation (dims q') (dims q).
Proof.
  intros A q ts q' W T. unfold transpose in T. destruct (collapse_dims ts (dims q)) as [t|] eqn:C; [|discriminate]. cbn [bind] in T.
  set (order := map (fun d => pos string_dec d (dims q)) t) in T. unfold np_transpose in T.
  destruct (is_permutation order (length (shape q))) eqn:P; [|discriminate]. cbn [bind fst snd] in T. injection T as <-. cbn [dims].
  assert (F : Forall (fun t => exists! d, In d (dims q) /\ match t with Name d' => d = d' | Group g => In d g end) ts /\ incl t (dims q)).
  { clear P W. subst order. revert t C. induction ts as [|x ts IH]; intros t C; cbn [collapse_dims] in C; [injection C as <-; split; [constructor|intros ? []]|].
    set (here := match x with Name d => _ | Group g => _ end) in C. destruct here as [d|] eqn:D; [|discriminate]. cbn [bind] in C.
    destruct (collapse_dims ts (dims q)) as [r|]; [|discriminate]. injection C as <-. destruct (IH r eq_refl) as [F I].
    assert (U : unique (fun d => In d (dims q) /\ match x with Name d' => d = d' | Group g => In d g end) d).
    { unfold here in D. destruct x as [d'|g].
      - destruct (in_dec string_dec d' (dims q)); [|discriminate]. injection D as <-. split; [auto|]. intros e [_ E]. auto.
      - set (l := filter _ g) in D. destruct l as [|e [|]] eqn:L; try discriminate. injection D as ->.
        assert (In d g /\ In d (dims q)) as [Ig Iq].
        { assert (X : In d l) by (rewrite L; now left). unfold l in X. apply filter_In in X. destruct X as [X Y]. split; [exact X|]. now destruct in_dec. }
        split; [auto|]. intros e [E1 E2]. assert (X : In e l) by (unfold l; apply filter_In; split; [exact E2|]; now destruct in_dec).
        rewrite L in X. now destruct X. }
    split; [constructor; [exists d; exact U|exact F]|]. intros e [<-|E]; [apply U|now apply I]. }
  destruct F as [F I]. split; [exact F|].
  assert (TS : transpose_sequence (dims q) order ""%string = t).
  { unfold transpose_sequence, order. rewrite map_map. rewrite <- (map_id t) at 2. apply map_ext_in. intros d D. apply nth_pos. now apply I. }
  rewrite TS. destruct W as (N & _ & _ & L). unfold is_permutation in P. apply andb_true_iff in P. destruct P as [P1 P2].
  apply Nat.eqb_eq in P1. unfold order in P1. rewrite map_length, L in P1. rewrite forallb_forall in P2.
  apply Permutation_sym. apply NoDup_Permutation_bis; [exact N|lia|].
  intros d D. pose proof (pos_lt string_dec d (dims q) D) as PL.
  specialize (P2 (pos string_dec d (dims q))). destruct in_dec as [O|]; [|discriminate P2; apply in_seq; rewrite L; lia].
  unfold order in O. apply in_map_iff in O. destruct O as (e & E & Ie). rewrite <- (nth_pos string_dec d (dims q) ""%string D), <- E.
  rewrite nth_pos by now apply I. exact Ie.
Qed.
Print Assumptions C26_refused.

Open Scope string_scope.
Definition case_q : quantity (list Z) := mkQ ["x"; "y_interface"; "z"] [3; 3; 0] [4; 5; 6] 3 [10; 12; 7] (fun p => p).
Example C26_case : well_formed case_q /\
  Forall2 (names (dims case_q)) [Name "z"; Group ["x"; "x_interface"]; Group ["y"; "y_interface"]] ["z"; "x"; "y_interface"] /\
  match transpose case_q [Name "z"; Group ["x"; "x_interface"]; Group ["y"; "y_interface"]] with
  | Some q => (dims q, origin q, extent q, shape q, data q [1; 2; 3]) = (["z"; "x"; "y_interface"], [0; 3; 3], [6; 4; 5], [7; 10; 12], [2; 3; 1])
  | None => False
  end /\
  transpose case_q [Name "z"; Name "x"] = None /\ transpose case_q [Name "z"; Name "x"; Name "y"] = None.
Proof.
  assert (ND : forall a b : string, a <> b -> NoDup [a; b]).
  { intros a b H. repeat constructor; cbn; intuition. }
  split; [|split; [|vm_compute; auto]].
  - repeat split. repeat constructor; cbn; intuition discriminate.
  - repeat constructor; cbn; try tauto; try (intuition discriminate); intros d'; intuition congruence.
Qed.

(** C26 fails for the halo depth: a transposed quantity has n_halo = 0, so that no halo update can be requested on it. *)
Theorem C26_halo_depth_refuted : exists (q : quantity (list Z)) q', q = case_q /\
  transpose q [Name "x"; Name "y_interface"; Name "z"] = Some q' /\ n_halo q = 3 /\ n_halo q' = 0 /\
  halo_spec_ok q 3 = true /\ halo_spec_ok q' 3 = false.
Proof. do 2 eexists. split; [reflexivity|]. vm_compute. repeat split. Qed.
Print Assumptions C26_halo_depth_refuted.

(** C55, the part that holds: a buffer at least as large as the extent in every dimension is accepted, and one nowhere larger
    but somewhere smaller is rejected. *)
Theorem C55_swap_buffer_partial : forall (A : Type) (q : quantity A) sh d,
  (Forall2 (fun x y => y <= x) sh (extent q) -> swap_buffer q sh d <> None) /\
  (Forall2 (fun x y => x <= y) sh (extent q) -> sh <> extent q -> swap_buffer q sh d = None).
Proof. intros A q sh d. exact (conj (swap_fits q sh d) (swap_smaller q sh d)). Qed.
Print Assumptions C55_swap_buffer_partial.

Example C55_case : swap_buffer case_q [4; 5; 6] (fun p => p) <> None /\ swap_buffer case_q [4; 4; 6] (fun p => p) = None.
Proof. vm_compute. split; [discriminate|reflexivity]. Qed.

(** C55 fails: a buffer larger in the first dimension is accepted whatever its other dimensions, and the origin is not taken
    into account. *)
Theorem C55_smaller_accepted_refuted : exists sh1 sh2, sh1 = [5; 1; 1] /\ sh2 = [4; 5; 6] /\
  swap_buffer case_q sh1 (fun p => p) <> None /\ swap_buffer case_q sh2 (fun p => p) <> None /\
  nth 1 sh1 0 < nth 1 (extent case_q) 0 /\ nth 0 sh2 0 < nth 0 (origin case_q) 0 + nth 0 (extent case_q) 0.
Proof. do 2 eexists. split; [reflexivity|]. split; [reflexivity|]. vm_compute. repeat split; discriminate. Qed.
Print Assumptions C55_smaller_accepted_refuted.
