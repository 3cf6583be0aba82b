(** C132: what a halo update accepts. *)
From Coq Require Import ZArith List Bool Arith Lia.
From Verif Require Import Base AskModel.
Import ListNotations.
Local Open Scope nat_scope.

(** the messages by rank *)
Fixpoint look {A} (d : list (Z * list A)) (r : Z) : list A := match d with [] => [] | (q, l) :: d => if Z.eqb q r then l else look d r end.
Lemma look_append {A} (d : list (Z * list A)) b x r : look (append_at d b x) r = if Z.eqb b r then look d r ++ [x] else look d r.
Proof.
  induction d as [|[q l] d IH]; cbn; [reflexivity|]. destruct (Z.eqb_spec q b) as [->|N]; cbn.
  - destruct (Z.eqb b r); reflexivity.
  - destruct (Z.eqb_spec q r) as [->|N2]; [|exact IH]. destruct (Z.eqb_spec b r); [congruence|reflexivity].
Qed.
Lemma keys_append {A} (d : list (Z * list A)) b x : map fst (append_at d b x) = if existsb (Z.eqb b) (map fst d) then map fst d else map fst d ++ [b].
Proof.
  induction d as [|[q l] d IH]; cbn; [reflexivity|]. rewrite (Z.eqb_sym b q). destruct (Z.eqb_spec q b); cbn; [reflexivity|]. rewrite IH. destruct (existsb _ _); reflexivity.
Qed.
Lemma inner_look {A} (l : list A) b d r : look (fold_left (fun d x => append_at d b x) l d) r = if Z.eqb b r then look d r ++ l else look d r.
Proof.
  revert d. induction l as [|x l IH]; intros d; cbn; [destruct (Z.eqb b r); rewrite ?app_nil_r; reflexivity|]. rewrite IH, look_append. destruct (Z.eqb b r); [|reflexivity]. rewrite <- app_assoc. reflexivity.
Qed.
Lemma in_existsb b l : existsb (Z.eqb b) l = true <-> In b l.
Proof. rewrite existsb_exists. split; [intros (x & I & E); apply Z.eqb_eq in E; congruence|]. intros I. exists b. split; [exact I|apply Z.eqb_refl]. Qed.
Lemma inner_keys_in {A} (l : list A) b d : In b (map fst d) -> map fst (fold_left (fun d x => append_at d b x) l d) = map fst d.
Proof. revert d. induction l as [|x l IH]; intros d I; cbn; [reflexivity|]. rewrite IH; rewrite keys_append, (proj2 (in_existsb _ _) I); [reflexivity|exact I]. Qed.
Lemma inner_keys {A} (l : list A) b d : l <> [] -> ~ In b (map fst d) -> map fst (fold_left (fun d x => append_at d b x) l d) = map fst d ++ [b].
Proof.
  intros N I. destruct l as [|x l]; [congruence|]. cbn. assert (E : existsb (Z.eqb b) (map fst d) = false) by (destruct (existsb _ _) eqn:E; [apply in_existsb in E; contradiction|reflexivity]).
  rewrite inner_keys_in; rewrite keys_append, E; [reflexivity|]. apply in_or_app. right. now left.
Qed.
Lemma outer_keys {A} (l : list A) B : l <> [] -> forall d, NoDup (map fst d ++ B) -> map fst (fold_left (fun d b => fold_left (fun d x => append_at d b x) l d) B d) = map fst d ++ B.
Proof.
  intros N. induction B as [|b B IH]; intros d U; cbn; [now rewrite app_nil_r|]. assert (I : ~ In b (map fst d)). { apply NoDup_remove_2 in U. intros I. apply U. apply in_or_app. now left. }
  rewrite IH; rewrite (inner_keys l b d N I), <- app_assoc; [reflexivity|exact U].
Qed.
Lemma outer_look {A} (l : list A) B r : forall d, look (fold_left (fun d b => fold_left (fun d x => append_at d b x) l d) B d) r = look d r ++ concat (repeat l (count_occ Z.eq_dec B r)).
Proof.
  induction B as [|b B IH]; intros d; cbn; [now rewrite app_nil_r|]. rewrite IH, inner_look. destruct (Z.eq_dec b r) as [->|N]; [rewrite Z.eqb_refl; cbn; now rewrite <- app_assoc|].
  destruct (Z.eqb_spec b r); [contradiction|reflexivity].
Qed.
Lemma from_look {A} (d : list (Z * list A)) l : NoDup (map fst d) -> (forall r, In r (map fst d) -> look d r = l) -> d = map (fun b => (b, l)) (map fst d).
Proof.
  induction d as [|[q v] d IH]; intros U H; [reflexivity|]. cbn in *. inversion U as [|? ? N U2]; subst. pose proof (H q (or_introl eq_refl)) as E. rewrite Z.eqb_refl in E. subst v. f_equal. apply IH; [exact U2|].
  intros r I. specialize (H r (or_intror I)). destruct (Z.eqb_spec q r); [subst; contradiction|exact H].
Qed.
Lemma by_rank_is {A} B (l : list A) : NoDup B -> l <> [] -> by_rank B l = map (fun b => (b, l)) B.
Proof.
  intros U N. unfold by_rank. pose proof (outer_keys l B N [] U) as K. cbn [map app] in K. rewrite (from_look _ l); rewrite K; [reflexivity|exact U|]. intros r I. rewrite outer_look. cbn.
  rewrite (proj1 (NoDup_count_occ' Z.eq_dec B) U r I). cbn. apply app_nil_r.
Qed.
Lemma by_rank_nil {A} B : by_rank B (@nil A) = [].
Proof. unfold by_rank. induction B as [|b B IH]; [reflexivity|exact IH]. Qed.
Lemma first_none {A} (f : A -> option refusal) l : first_refusal f l = None <-> Forall (fun x => f x = None) l.
Proof. induction l as [|x l IH]; cbn; [split; constructor|]. destruct (f x) eqn:E; split; intros H; try discriminate; [inversion H; congruence|constructor; [exact E|now apply IH]|inversion H; now apply IH]. Qed.
Lemma same_spec first l : same_dtype first l = true <-> forall s, In s l -> dtype s = dtype first.
Proof. unfold same_dtype. rewrite forallb_forall. split; intros H s I; [symmetry; apply Nat.eqb_eq; exact (H s I)|apply Nat.eqb_eq; symmetry; exact (H s I)]. Qed.

(** the quantities have one dtype *)
Definition uniform (l : list (nat * nat)) : Prop := forall a b, In a l -> In b l -> fst a = fst b.
Lemma uniform_same q l n : same_dtype (Spec n (fst q) (snd q)) (specs n l) = true <-> forall a, In a l -> fst a = fst q.
Proof.
  rewrite same_spec. unfold specs. split; intros H a I; [exact (H _ (in_map (fun q => Spec n (fst q) (snd q)) _ _ I))|]. apply in_map_iff in I as (b & <- & I). exact (H b I).
Qed.
Lemma uniform_head q l : uniform (q :: l) <-> forall a, In a (q :: l) -> fst a = fst q.
Proof. split; [intros U a I; exact (U a q I (or_introl eq_refl))|]. intros H a b Ia Ib. rewrite (H a Ia), (H b Ib). reflexivity. Qed.

Lemma scalar_head n a q : scalar_transformer (specs n (a :: q)) = if same_dtype (Spec n (fst a) (snd a)) (specs n (a :: q)) then None else Some NotImplementedError.
Proof. reflexivity. Qed.
Lemma vector_head n a q ly : vector_transformer (specs n (a :: q)) ly = if same_dtype (Spec n (fst a) (snd a)) (specs n (a :: q)) && same_dtype (Spec n (fst a) (snd a)) ly
  then if Nat.eqb (length (specs n (a :: q))) (length ly) then None else Some RuntimeError else Some NotImplementedError.
Proof. reflexivity. Qed.

(** Several quantities at once: one message to each neighbour and one from it, with all the quantities in order. *)
Theorem C132_scalar : forall B q n, NoDup B -> q <> [] -> n <> 0 -> (B = [] \/ uniform q) -> start_halo_update B q n = (B, inl (map (fun b => (b, map snd q)) B)).
Proof.
  intros B q n U Nq Nn H. unfold start_halo_update, get_scalar. destruct q as [|a q]; [congruence|]. cbn [specs map]. cbn [points]. destruct (Nat.eqb_spec n 0); [contradiction|].
  change (Spec n (fst a) (snd a) :: map (fun q0 => Spec n (fst q0) (snd q0)) q) with (specs n (a :: q)). rewrite by_rank_is; [|exact U|discriminate].
  assert (E : first_refusal (fun p => scalar_transformer (snd p)) (map (fun b => (b, specs n (a :: q))) B) = None).
  { apply first_none. destruct H as [->|H]; [constructor|]. apply Forall_forall. intros x I. apply in_map_iff in I as (b & <- & _). cbn [snd]. rewrite scalar_head. rewrite (proj2 (uniform_same a (a :: q) n)); [reflexivity|]. now apply uniform_head. }
  rewrite E. unfold start, receives, sends. rewrite map_map. cbn [fst snd]. rewrite map_id. f_equal.
  assert (E2 : first_refusal (fun p => pack_scalar (length (a :: q)) (snd p)) (map (fun b => (b, specs n (a :: q))) B) = None).
  { apply first_none. apply Forall_forall. intros x I. apply in_map_iff in I as (b & <- & _). unfold pack_scalar, specs. cbn [snd]. rewrite map_length, Nat.eqb_refl. reflexivity. }
  rewrite E2. f_equal. rewrite map_map. apply map_ext. intros b. cbn [fst snd]. unfold specs. rewrite map_map. reflexivity.
Qed.
Print Assumptions C132_scalar.

Lemma by_rank_some {A} B (l : list A) b : In b B -> l <> [] -> exists v, In (b, l ++ v) (by_rank B l).
Proof.
  intros I N. pose proof (outer_look l B b []) as L. fold (by_rank B l) in L. cbn in L. apply (count_occ_In Z.eq_dec) in I. destruct (count_occ Z.eq_dec B b) as [|k]; [lia|]. cbn in L.
  exists (concat (repeat l k)). clear I. induction (by_rank B l) as [|[q v] d IH]; cbn in L; [destruct l; [congruence|discriminate]|]. destruct (Z.eqb_spec q b) as [->|]; [left; now rewrite L|right; now apply IH].
Qed.
(** Otherwise it is refused, before any message. *)
Theorem C132_scalar_refused : forall B q n, q = [] \/ n = 0 \/ (B <> [] /\ ~ uniform q) -> exists e, start_halo_update B q n = ([], inr e).
Proof.
  intros B q n H. unfold start_halo_update, get_scalar. destruct q as [|a q]; [eexists; reflexivity|]. cbn [specs map points]. destruct (Nat.eqb_spec n 0) as [E|E]; [eexists; reflexivity|].
  destruct H as [H|[H|[NB NU]]]; [discriminate|contradiction|]. change (Spec n (fst a) (snd a) :: map (fun q0 => Spec n (fst q0) (snd q0)) q) with (specs n (a :: q)).
  destruct (first_refusal _ (by_rank B (specs n (a :: q)))) as [e|] eqn:F; [eexists; reflexivity|]. exfalso. apply NU. destruct B as [|b B]; [congruence|].
  destruct (by_rank_some (b :: B) (specs n (a :: q)) b (or_introl eq_refl) ltac:(discriminate)) as [v I]. rewrite first_none, Forall_forall in F. specialize (F _ I). cbn [snd] in F.
  apply uniform_head. apply (uniform_same a (a :: q) n). unfold scalar_transformer in F. cbn [specs map app] in F.
  match type of F with (if ?c then _ else _) = _ => destruct c eqn:C; [|discriminate] end. rewrite same_spec in *. intros s Is. apply C.
  change (In s (specs n (a :: q) ++ v)). apply in_or_app. now left.
Qed.
Print Assumptions C132_scalar_refused.

Lemma combine_same {A} (x y : list A) : length x = length y -> map fst (combine x y) = x /\ map snd (combine x y) = y.
Proof. revert y. induction x as [|a x IH]; intros [|b y] H; try discriminate H; [split; reflexivity|]. injection H as H. destruct (IH y H) as [E1 E2]. cbn. rewrite E1, E2. split; reflexivity. Qed.
Lemma combine_specs n (p : list ((nat * nat) * (nat * nat))) : combine (specs n (map fst p)) (specs n (map snd p)) = map (fun xy => (Spec n (fst (fst xy)) (snd (fst xy)), Spec n (fst (snd xy)) (snd (snd xy)))) p.
Proof. induction p as [|[x y] p IH]; [reflexivity|]. cbn. f_equal. exact IH. Qed.
Lemma pairs_x n (p : list ((nat * nat) * (nat * nat))) : map fst (combine (specs n (map fst p)) (specs n (map snd p))) = specs n (map fst p).
Proof. rewrite combine_specs, map_map. unfold specs. rewrite map_map. reflexivity. Qed.
Lemma pairs_y n (p : list ((nat * nat) * (nat * nat))) : map snd (combine (specs n (map fst p)) (specs n (map snd p))) = specs n (map snd p).
Proof. rewrite combine_specs, map_map. unfold specs. rewrite map_map. reflexivity. Qed.

(** Vectors: each message has x and y of the first, then of the second, ... *)
Theorem C132_vector : forall B x y n, NoDup B -> x <> [] -> length x = length y -> n <> 0 -> (B = [] \/ uniform (x ++ y)) ->
  start_vector_halo_update B x y n = (B, inl (map (fun b => (b, flat_map (fun xy => [snd (fst xy); snd (snd xy)]) (combine x y))) B)).
Proof.
  intros B x y n U Nx L Nn H. destruct (combine_same x y L) as [Ex Ey]. unfold start_vector_halo_update. set (p := combine x y) in *.
  assert (Np : p <> []) by (destruct x as [|a x]; [congruence|]; destruct y as [|b y]; [discriminate|]; discriminate).
  unfold get_vector. destruct p as [|[a b] p0] eqn:Ep; [congruence|]. rewrite <- Ep in *. replace (specs n (map fst p)) with (Spec n (fst a) (snd a) :: specs n (map fst p0)) by (rewrite Ep; reflexivity).
  cbn [points]. destruct (Nat.eqb_spec n 0); [contradiction|]. replace (Spec n (fst a) (snd a) :: specs n (map fst p0)) with (specs n (map fst p)) by (rewrite Ep; reflexivity).
  set (ps := combine (specs n (map fst p)) (specs n (map snd p))). assert (Nps : ps <> []) by (unfold ps; rewrite combine_specs, Ep; discriminate).
  rewrite by_rank_is by assumption.
  assert (E : first_refusal (fun q => vector_transformer (map fst (snd q)) (map snd (snd q))) (map (fun r => (r, ps)) B) = None).
  { apply first_none. destruct H as [->|H]; [constructor|]. apply Forall_forall. intros z I. apply in_map_iff in I as (r & <- & _). cbn [snd]. unfold ps. rewrite pairs_x, pairs_y. replace (map fst p) with (a :: map fst p0) by (rewrite Ep; reflexivity). rewrite vector_head. replace (a :: map fst p0) with (map fst p) by (rewrite Ep; reflexivity).
    assert (Ia : In a x) by (rewrite <- Ex, Ep; now left).
    rewrite (proj2 (uniform_same a (map fst p) n)), (proj2 (uniform_same a (map snd p) n)); cbn [andb].
    - unfold specs. rewrite !map_length, Nat.eqb_refl. reflexivity.
    - intros c Ic. rewrite Ey in Ic. apply H; apply in_or_app; [now right|now left].
    - intros c Ic. rewrite Ex in Ic. apply H; apply in_or_app; now left. }
  rewrite E. unfold start, receives, sends. rewrite map_map. cbn [fst snd]. rewrite map_id. f_equal.
  assert (E2 : first_refusal (fun q => pack_vector (length x) (Some (length y)) (snd q)) (map (fun r => (r, ps)) B) = None).
  { apply first_none. apply Forall_forall. intros z I. apply in_map_iff in I as (r & <- & _). cbn [snd]. unfold pack_vector, ps. rewrite combine_specs, map_length. rewrite <- L. replace (length x) with (length p) by (rewrite <- (map_length fst p), Ex; reflexivity).
    rewrite Nat.eqb_refl. reflexivity. }
  rewrite E2. f_equal. rewrite map_map. apply map_ext. intros r. cbn [fst snd]. f_equal. unfold ps. rewrite combine_specs. clear. induction p as [|[u v] p IH]; [reflexivity|]. cbn. f_equal. f_equal. exact IH.
Qed.
Print Assumptions C132_vector.

(** With neighbours, anything else is refused. *)
Theorem C132_vector_refused : forall B x y n, B <> [] -> x = [] \/ length x <> length y \/ n = 0 \/ ~ uniform (x ++ y) -> exists posted e, start_vector_halo_update B x y n = (posted, inr e).
Proof.
  intros B x y n NB H. unfold start_vector_halo_update. set (p := combine x y). destruct p as [|[a b] p0] eqn:Ep; [eexists _, _; reflexivity|].
  destruct (Nat.eqb_spec n 0) as [En|Nn]; [subst n; eexists _, _; reflexivity|]. unfold get_vector. change (specs n (map fst ((a, b) :: p0))) with (Spec n (fst a) (snd a) :: specs n (map fst p0)). cbn [points].
  destruct (Nat.eqb_spec n 0); [contradiction|]. change (Spec n (fst a) (snd a) :: specs n (map fst p0)) with (specs n (map fst ((a, b) :: p0))). rewrite <- Ep.
  set (ps := combine (specs n (map fst p)) (specs n (map snd p))). assert (Nps : ps <> []) by (unfold ps; rewrite combine_specs, Ep; discriminate).
  destruct (first_refusal _ (by_rank B ps)) as [e|] eqn:F; [eexists _, _; reflexivity|]. unfold start.
  destruct (first_refusal (fun q => pack_vector (length x) (Some (length y)) (snd q)) (by_rank B ps)) as [e|] eqn:F2; [eexists _, _; reflexivity|]. exfalso.
  destruct B as [|r B]; [congruence|]. destruct (by_rank_some (r :: B) ps r (or_introl eq_refl) Nps) as [v I]. rewrite first_none, Forall_forall in F, F2. specialize (F _ I). specialize (F2 _ I). cbn [snd] in F, F2.
  assert (L : length x = length y). { unfold pack_vector in F2. destruct (_ && _); [discriminate|]. destruct (Nat.eqb_spec (length y) (length x)); [congruence|discriminate]. }
  destruct (combine_same x y L) as [Ex Ey]. fold p in Ex, Ey. destruct H as [->|[H|[H|H]]]; [subst p; discriminate|contradiction|contradiction|]. apply H. clear H.
  assert (Q : forall c, In c (x ++ y) -> fst c = fst a).
  { rewrite !map_app in F. replace (map fst ps) with (specs n (map fst p)) in F by (symmetry; apply pairs_x). replace (map snd ps) with (specs n (map snd p)) in F by (symmetry; apply pairs_y).
    rewrite Ex, Ey in F. assert (Hx : exists x0, x = a :: x0) by (exists (map fst p0); rewrite <- Ex, Ep; reflexivity). destruct Hx as [x0 Hx]. rewrite Hx in F. cbn [specs map app vector_transformer] in F.
    match type of F with (if ?c && ?d then _ else _) = _ => destruct c eqn:C; [|discriminate]; destruct d eqn:D; [|discriminate] end. rewrite same_spec in C, D. intros c Ic. apply in_app_or in Ic. destruct Ic as [Ic|Ic].
    - apply (C (Spec n (fst c) (snd c))). change (In (Spec n (fst c) (snd c)) (specs n (a :: x0) ++ map fst v)). apply in_or_app. left. rewrite <- Hx. exact (in_map (fun q => Spec n (fst q) (snd q)) _ _ Ic).
    - apply (D (Spec n (fst c) (snd c))). apply in_or_app. left. exact (in_map (fun q => Spec n (fst q) (snd q)) _ _ Ic). }
  intros c d Ic Id. rewrite (Q c Ic), (Q d Id). reflexivity.
Qed.
Print Assumptions C132_vector_refused.

(** An updater made from specifications, with distinct neighbours, exchanges as many quantities as it has specifications, all of them or none. *)
Theorem C132_updater_partial : forall B l u nx ny, NoDup B -> B <> [] -> get_scalar B l = inl u ->
  (nx = length l -> start u nx ny = (B, inl (map (fun b => (b, map about l)) B))) /\ (nx <> length l -> exists e, start u nx ny = (B, inr e)).
Proof.
  intros B l u nx ny U NB G. unfold get_scalar in G. destruct l as [|s l]; [discriminate|]. destruct (Nat.eqb (points s) 0); [discriminate|]. rewrite by_rank_is in G by (try exact U; discriminate).
  destruct (first_refusal _ _); [discriminate|]. injection G as <-. unfold start, receives, sends. rewrite map_map. cbn [fst snd]. rewrite map_id. split; intros E.
  - f_equal. replace (first_refusal _ _) with (@None refusal); [rewrite map_map; reflexivity|]. symmetry. apply first_none, Forall_forall. intros z I. apply in_map_iff in I as (r & <- & _). cbn [snd]. unfold pack_scalar. rewrite E, Nat.eqb_refl. reflexivity.
  - destruct B as [|r B]; [congruence|]. cbn [map first_refusal]. unfold pack_scalar at 1. cbn [snd]. destruct (Nat.eqb_spec nx (length (s :: l))); [contradiction|]. eexists. reflexivity.
Qed.
Print Assumptions C132_updater_partial.

Example C132_case : start_halo_update [4; 2]%Z [(64, 1); (64, 2)] 3 = ([4; 2]%Z, inl [(4%Z, [1; 2]); (2%Z, [1; 2])]).
Proof. reflexivity. Qed.
Example C132_vector_case : start_vector_halo_update [4; 2]%Z [(64, 1); (64, 2)] [(64, 3); (64, 4)] 3 = ([4; 2]%Z, inl [(4%Z, [1; 3; 2; 4]); (2%Z, [1; 3; 2; 4])]).
Proof. reflexivity. Qed.
Example C132_updater_case : exists u, get_scalar [4; 2]%Z [Spec 3 64 1; Spec 3 64 2] = inl u /\ start u 1 None = ([4; 2]%Z, inr RuntimeError).
Proof. eexists. split; reflexivity. Qed.

(** Which exception is raised: RuntimeError for no quantities, ValueError for no halo points, NotImplementedError for different dtypes, IndexError for a vector of which only y has specifications. *)
Theorem C132_errors : forall B n, NoDup B -> start_halo_update B [] n = ([], inr RuntimeError) /\ (forall q, q <> [] -> start_halo_update B q 0 = ([], inr ValueError)) /\
  (forall q, B <> [] -> n <> 0 -> ~ uniform q -> q <> [] -> start_halo_update B q n = ([], inr NotImplementedError)) /\
  (forall x y, x = [] \/ y = [] -> start_vector_halo_update B x y n = ([], inr RuntimeError)) /\ (forall x y, x <> [] -> y <> [] -> start_vector_halo_update B x y 0 = ([], inr ValueError)) /\
  (forall ly, ly <> [] -> get_vector B [] ly = inr IndexError).
Proof.
  intros B n U. split; [reflexivity|]. split; [intros [|a q] N; [congruence|reflexivity]|]. split.
  - intros q NB Nn NU Nq. unfold start_halo_update, get_scalar. destruct q as [|a q]; [congruence|]. cbn [specs map points]. destruct (Nat.eqb_spec n 0); [contradiction|].
    change (Spec n (fst a) (snd a) :: map (fun q0 => Spec n (fst q0) (snd q0)) q) with (specs n (a :: q)). rewrite by_rank_is; [|exact U|discriminate].
    destruct B as [|b B]; [congruence|]. cbn [map first_refusal snd]. rewrite scalar_head. destruct (same_dtype _ _) eqn:D; [|reflexivity]. exfalso. apply NU. apply uniform_head. apply (uniform_same a (a :: q) n). exact D.
  - split; [intros [|a x] [|b y] [H|H]; solve [reflexivity|discriminate]|]. split; [intros [|a x] [|b y] H H'; solve [reflexivity|congruence]|]. intros [|a ly] H; [congruence|reflexivity].
Qed.
Print Assumptions C132_errors.
(** Refused after the receives were posted, into buffers that nobody waits for; of an updater that is used again (C132_updater_partial) they take the messages of the next exchange, which has the same tag. *)
Theorem C132_receives_refuted : exists B x y n posted e, NoDup B /\ start_vector_halo_update B x y n = (posted, inr e) /\ posted <> [].
Proof. exists [4; 2]%Z, [(64, 1); (64, 2)], [(64, 3)], 3, [4; 2]%Z, AssertionError. split; [repeat constructor; cbn; intuition lia|]. split; [reflexivity|discriminate]. Qed.
Print Assumptions C132_receives_refuted.
(** A vector updater without specifications for y is accepted and exchanges nothing. *)
Theorem C132_no_y_refuted : exists B lx u, B <> [] /\ lx <> [] /\ get_vector B lx [] = inl u /\ forall nx ny, start u nx ny = ([], inl []).
Proof. exists [4; 2]%Z, [Spec 3 64 1], (Vectors []). split; [discriminate|]. split; [discriminate|]. split; reflexivity. Qed.
Print Assumptions C132_no_y_refuted.
(** Of specifications of different number the last are dropped. *)
Theorem C132_dropped_refuted : exists B lx ly u, NoDup B /\ get_vector B lx ly = inl u /\ length lx <> length ly /\ exists m, start u 1 (Some 1) = (B, inl m).
Proof.
  exists [4; 2]%Z, [Spec 3 64 1; Spec 3 64 2], [Spec 3 64 3]. eexists. split; [repeat constructor; cbn; intuition lia|]. split; [reflexivity|]. split; [discriminate|]. eexists. reflexivity.
Qed.
Print Assumptions C132_dropped_refuted.
(** An exchange of zero halo points is refused only for the first specification, and of a vector only if both components have none. *)
Theorem C132_zero_refuted : exists B l lx ly u v, get_scalar B l = inl u /\ (exists s, In s l /\ points s = 0) /\ get_vector B lx ly = inl v /\ (forall s, In s lx -> points s = 0).
Proof.
  exists [4]%Z, [Spec 3 64 1; Spec 0 64 2], [Spec 0 64 1], [Spec 3 64 2]. eexists _, _. split; [reflexivity|]. split; [exists (Spec 0 64 2); split; [right; now left|reflexivity]|]. split; [reflexivity|]. intros s [<-|[]]; reflexivity.
Qed.
Print Assumptions C132_zero_refuted.
