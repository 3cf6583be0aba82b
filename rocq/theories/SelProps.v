(** C136: selecting by dimension names. *)
From Coq Require Import Permutation.
From Verif Require Import Base PartModel DecompModel HaloModel ViewModel ViewProofs ViewProps SyncModel SelModel.

Section C136.
  Context {A : Type}.
  Implicit Types (q r : quantity A) (kw : kwargs) (c : option corner).

  Local Notation entry_of kw a := (match kw (a_dim a) with Some e => e | None => Slice None None None end).

  Lemma full_selected o ext s x y : 0 <= o -> 0 <= ext -> o + ext <= s -> selected o ext s x y (Slice None None None) = zrange 0 ext.
  Proof.
    intros O E S. rewrite <- (contiguous o ext s 0 ext) by lia. unfold selected. apply filter_ext. intros i. cbn. reflexivity.
  Qed.
  Lemma wanted_is c kw a : ax_ok a -> wanted c kw a = selected (a_origin a) (a_extent a) (a_shape a) (from_ c a) (until c a) (entry_of kw a).
  Proof. intros (O & E & S). unfold wanted. destruct (kw (a_dim a)); [reflexivity|]. symmetry. now apply full_selected. Qed.

  Lemma combine_map {X Y} (f : X -> Y) (l : list X) : combine l (map f l) = map (fun x => (x, f x)) l.
  Proof. induction l as [|x l IH]; [reflexivity|]. cbn. now rewrite IH. Qed.

  Lemma lookup_is c q kw : proper c q kw -> lookup c q (entries q kw) = Some (map (fun a => map (fun i => a_origin a + i) (wanted c kw a)) (axs q)).
  Proof.
    intros P. unfold proper in P.
    assert (OK : Forall ax_ok (axs q)) by (eapply Forall_impl; [|exact P]; cbn; tauto).
    assert (IN : Forall2 (fun a e => inside (a_origin a) (a_extent a) (a_shape a) (from_ c a) (until c a) e) (firstn (length (entries q kw)) (axs q)) (entries q kw)).
    { unfold entries. rewrite map_length, firstn_all. clear OK. induction P as [|a l [O I] _ IH]; cbn; constructor; [|exact IH].
      destruct (kw (a_dim a)); [exact I|]. cbn. auto. }
    assert (L : (length (entries q kw) <= length (axs q))%nat) by (unfold entries; rewrite map_length; auto).
    assert (E : map (fun '(a, e) => map (fun i => a_origin a + i) (selected (a_origin a) (a_extent a) (a_shape a) (from_ c a) (until c a) e)) (combine (axs q) (pad (axs q) (entries q kw)))
              = map (fun a => map (fun i => a_origin a + i) (wanted c kw a)) (axs q)).
    { unfold pad, entries. rewrite map_length, Nat.sub_diag. cbn [repeat]. rewrite app_nil_r, combine_map, map_map. apply map_ext_in. intros a I.
      rewrite wanted_is; [reflexivity|]. rewrite Forall_forall in OK. auto. }
    rewrite <- E. unfold lookup. destruct c as [c|]; [now apply C25_corner_view_partial|now apply C25_view_partial].
  Qed.

  Lemma shape_is c kw l : Forall (fun a => ax_ok a /\ match kw (a_dim a) with Some e => inside (a_origin a) (a_extent a) (a_shape a) (from_ c a) (until c a) e | None => True end) l ->
    kept_shape (map (fun a => entry_of kw a) l) (map (fun a => map (fun i => a_origin a + i) (wanted c kw a)) l) =
    map (fun a => Z.of_nat (length (wanted c kw a))) (filter (fun a => negb (by_number kw a)) l).
  Proof.
    induction 1 as [|a l [O I] _ IH]; [reflexivity|]. cbn [map filter]. unfold by_number at 1. destruct (kw (a_dim a)) as [[z|s e k|]|] eqn:K; cbn [kept_shape negb map].
    - exact IH.
    - rewrite map_length. now rewrite IH.
    - destruct I.
    - rewrite map_length. now rewrite IH.
  Qed.

  Lemma index_is c kw (g : ax -> Z) l :
    Forall (fun a => ax_ok a /\ match kw (a_dim a) with Some e => inside (a_origin a) (a_extent a) (a_shape a) (from_ c a) (until c a) e | None => True end) l ->
    (forall a, List.In a l -> by_number kw a = false -> 0 <= g a < Z.of_nat (length (wanted c kw a))) ->
    array_index (map (fun a => entry_of kw a) l) (map (fun a => map (fun i => a_origin a + i) (wanted c kw a)) l) (map g (filter (fun a => negb (by_number kw a)) l)) =
    map (fun a => a_origin a + nth (if by_number kw a then 0%nat else Z.to_nat (g a)) (wanted c kw a) 0) l.
  Proof.
    induction 1 as [|a l [O I] F IH]; intros G; [reflexivity|].
    assert (G' : forall b, List.In b l -> by_number kw b = false -> 0 <= g b < Z.of_nat (length (wanted c kw b))) by (intros; apply G; [now right|assumption]).
    specialize (IH G'). pose proof (G a (or_introl eq_refl)) as Ga. cbn [map filter].
    assert (B : by_number kw a = match kw (a_dim a) with Some (Int _) => true | _ => false end) by reflexivity. rewrite B in *.
    destruct (kw (a_dim a)) as [[z|s e k|]|] eqn:K; cbn [array_index negb map hd tl].
    - rewrite IH. f_equal. unfold wanted. rewrite K. reflexivity.
    - rewrite IH. f_equal. rewrite nth_indep with (d' := a_origin a + 0) by (rewrite map_length; specialize (Ga eq_refl); lia). exact (map_nth (fun i => a_origin a + i) _ _ _).
    - destruct I.
    - rewrite IH. f_equal. rewrite nth_indep with (d' := a_origin a + 0) by (rewrite map_length; specialize (Ga eq_refl); lia). exact (map_nth (fun i => a_origin a + i) _ _ _).
  Qed.

  (** *** sel gives, along each dimension, the points asked for by that name: the result has the dimensions not given by a number, in the order
      of the quantity, each as long as the points wanted; its element at position g along them is the value at those points *)
  Theorem C136_values : forall c q kw, proper c q kw -> exists f,
    sel c q kw = Some (map (fun a => Z.of_nat (length (wanted c kw a))) (result_axes kw q), f) /\
    forall g, (forall a, List.In a (result_axes kw q) -> 0 <= g a < Z.of_nat (length (wanted c kw a))) ->
      f (map g (result_axes kw q)) = at_point q (fun a => nth (if by_number kw a then 0%nat else Z.to_nat (g a)) (wanted c kw a) 0).
  Proof.
    intros c q kw P. unfold sel. rewrite (lookup_is c q kw P). cbn [bind]. unfold entries. rewrite (shape_is c kw (axs q) P). eexists. split; [reflexivity|].
    intros g G. cbv beta. unfold result_axes. rewrite (index_is c kw g (axs q) P); [reflexivity|].
    intros a I B. apply G. unfold result_axes. apply filter_In. rewrite B. auto.
  Qed.

  (** *** the order of the dimensions does not matter: the same dimensions with the same lengths in the result, and the same values *)
  Lemma filter_perm {X} (p : X -> bool) l m : Permutation l m -> Permutation (filter p l) (filter p m).
  Proof. induction 1; cbn; repeat match goal with |- context [if ?b then _ else _] => destruct b end; eauto using Permutation. Qed.
  Theorem C136_order : forall c q r kw, reordered q r -> proper c q kw -> exists s f s' f',
    sel c q kw = Some (s, f) /\ sel c r kw = Some (s', f') /\ Permutation (combine (result_axes kw q) s) (combine (result_axes kw r) s') /\
    forall g, (forall a, List.In a (result_axes kw q) -> 0 <= g a < Z.of_nat (length (wanted c kw a))) ->
      f (map g (result_axes kw q)) = f' (map g (result_axes kw r)).
  Proof.
    intros c q r kw [PM V] P.
    assert (P' : proper c r kw) by (unfold proper in *; rewrite Forall_forall in *; intros a I; apply P; eapply Permutation_in; [symmetry; exact PM|exact I]).
    destruct (C136_values c q kw P) as (f & E & F). destruct (C136_values c r kw P') as (f' & E' & F').
    assert (RP : Permutation (result_axes kw q) (result_axes kw r)) by (apply filter_perm, PM).
    exists (map (fun a => Z.of_nat (length (wanted c kw a))) (result_axes kw q)), f, (map (fun a => Z.of_nat (length (wanted c kw a))) (result_axes kw r)), f'.
    split; [exact E|]. split; [exact E'|]. split.
    - rewrite !combine_map. now apply Permutation_map.
    - intros g G. rewrite (F g G), F'; [apply V|]. intros a I. apply G. eapply Permutation_in; [symmetry; exact RP|exact I].
  Qed.

  (** *** arguments for other names change nothing *)
  Theorem C136_ignored : forall c q kw kw', (forall a, List.In a (axs q) -> kw (a_dim a) = kw' (a_dim a)) -> sel c q kw = sel c q kw'.
  Proof.
    intros c q kw kw' H. unfold sel. assert (E : entries q kw = entries q kw') by (apply map_ext_in; intros a I; now rewrite (H a I)). now rewrite E.
  Qed.
End C136.
Print Assumptions C136_values.
Print Assumptions C136_order.
Print Assumptions C136_ignored.

(** *** cases: a 4 x 5 x 3 field with halos, y by number, x by a slice reaching into the halo; with the corner view; with the dimensions in another order *)
Local Definition X := mkAx (Dim AI false) 3 4 10.
Local Definition Y := mkAx (Dim AJ true) 3 5 11.
Local Definition K := mkAx (Dim AV false) 0 3 4.
Local Definition ident (l : list Z) : Z := fold_left (fun v i => v * 100 + i) l 0.
Local Definition field : quantity Z := mkQuantity [X; Y; K] ident.
Local Definition turned : quantity Z := mkQuantity [K; X; Y] (fun l => match l with [k; x; y] => ident [x; y; k] | _ => 0 end).
Local Definition args : @kwargs := fun d => match d with Dim AI _ => Some (Slice (Some (-2)) (Some 2) None) | Dim AJ _ => Some (Int 1) | _ => None end.
Example C136_case : proper None field args /\ proper (Some NW) field args /\ reordered field turned /\
  result_axes args field = [X; K] /\ result_axes args turned = [K; X] /\
  option_map (fun r => (fst r, snd r [0; 0], snd r [3; 2])) (sel None field args) = Some ([4; 3], 10400, 40402) /\
  option_map (fun r => (fst r, snd r [2; 3])) (sel None turned args) = Some ([3; 4], 40402) /\
  option_map (fun r => (fst r, snd r [3; 2])) (sel (Some NW) field args) = Some ([4; 3], 40902).
Proof.
  split; [repeat constructor; cbn; lia|]. split; [repeat constructor; cbn; lia|]. split.
  { split; [|intros h; reflexivity]. cbn. apply Permutation_sym. change [K; X; Y] with ([K] ++ [X; Y])%list. change [X; Y; K] with ([X; Y] ++ [K])%list. apply Permutation_app_comm. }
  repeat split; vm_compute; reflexivity.
Qed.

(** *** a name the quantity does not have is not refused *)
Theorem C136_unknown_refuted : exists (q : quantity Z) kw d, kw d = Some (Int 0) /\ (forall a, List.In a (axs q) -> a_dim a <> d) /\
  (forall a, List.In a (axs q) -> kw (a_dim a) = None) /\ exists f, sel None q kw = Some ([4; 5; 3], f).
Proof.
  exists field, (fun d => match d with Dim AI true => Some (Int 0) | _ => None end), (Dim AI true). split; [reflexivity|]. split; [|split].
  - intros a [<-|[<-|[<-|[]]]]; discriminate.
  - intros a [<-|[<-|[<-|[]]]]; reflexivity.
  - eexists. reflexivity.
Qed.
Print Assumptions C136_unknown_refuted.
