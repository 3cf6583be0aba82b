(** C114: the state of a parallel test of the grid.

    English: A parallel test of the grid gets each declared input under its standard name: an array as a quantity with its own dimensions (the vertical one last if kaxis says
    so), the serialized values in the compute domain and the declared number of halo points around it, and zeros elsewhere; a number as it is.  Each declared output comes
    back under its own name, with the values of the compute domain and the declared number of halo points, its dimensions in the serialized order.  So what the test
    leaves unchanged comes back as it was serialized. *)
From Coq Require Import Permutation.
From Verif Require Import Base Dict StenProps QuantModel QuantProofs StorModel GstModel GstProofs.
Local Open Scope Z_scope.

(** ** specification *)
Definition of_i (d : string) : bool := ((d =? "i") || (d =? "i_interface"))%string%bool.
Definition of_j (d : string) : bool := ((d =? "j") || (d =? "j_interface"))%string%bool.
(** points of the compute domain along a dimension *)
Definition size (s : sizer) (d : string) : option Z :=
  if (d =? "i")%string then Some (s_nx s) else if (d =? "i_interface")%string then Some (s_nx s + 1)
  else if (d =? "j")%string then Some (s_ny s) else if (d =? "j_interface")%string then Some (s_ny s + 1)
  else if (d =? "k")%string then Some (s_nz s) else if (d =? "k_interface")%string then Some (s_nz s + 1) else get (s_data s) d.
(** where it begins in the storage *)
Definition first (s : sizer) (d : string) : Z := if of_i d || of_j d then s_halo s else 0.
(** halo points in the files: as declared, else 3; for each of the two directions or for both *)
Definition halo (p : decl) (d : string) : Z :=
  let '(x, y) := match d_halo p with None => (3, 3) | Some (Both n) => (n, n) | Some (Each i j) => (i, j) end in if of_i d then x else if of_j d then y else 0.
(** the point with these coordinates, counted from the start of the compute domain, is in the file *)
Definition in_file (s : sizer) (p : decl) (at_ : string -> Z) : Prop :=
  forall d, In d (d_dims p) -> exists n, size s d = Some n /\ - halo p d <= at_ d < n + halo p d.
(** the shape of the array in the file *)
Definition file_shape (s : sizer) (p : decl) (l : list Z) : Prop := Forall2 (fun d m => exists n, size s d = Some n /\ m = n + 2 * halo p d) (d_dims p) l.
(** the order of the dimensions in the test *)
Definition order (k : option nat) (file test : list string) : Prop :=
  match k with None => test = file | Some k => exists l x l', length l = k /\ file = l ++ x :: l' /\ test = l ++ l' ++ [x] end.
(** the sizes make sense and the storages have room for the halo points of the declaration *)
Definition sensible (s : sizer) : Prop := 0 <= s_nx s /\ 0 <= s_ny s /\ 0 <= s_nz s /\ 0 <= s_pad s /\ forall d n, get (s_data s) d = Some n -> 0 <= n.
Definition room (s : sizer) (p : decl) : Prop := NoDup (d_dims p) /\ forall d, In d (d_dims p) -> size s d <> None /\ 0 <= halo p d /\ (of_i d || of_j d = true -> halo p d <= s_halo s).

(** ** the tables *)
Definition size0 (s : sizer) (d : string) : Z := match size s d with Some n => n | None => 0 end.
Definition room0 (s : sizer) (d : string) : Z := match get (shape_dict s) d with Some n => n | None => 0 end.
Lemma mem_h d : mem d horizontal_dims = of_i d || of_j d.
Proof.
  unfold mem, of_i, of_j. destruct in_dec as [I|I]; cbn in I; symmetry.
  - destruct I as [<-|[<-|[<-|[<-|[]]]]]; reflexivity.
  - destruct (String.eqb_spec d "i"), (String.eqb_spec d "i_interface"), (String.eqb_spec d "j"), (String.eqb_spec d "j_interface"); subst; cbn; tauto.
Qed.
Lemma mem_i d : mem d i_dims = of_i d.
Proof.
  unfold mem, of_i. destruct in_dec as [I|I]; cbn in I; symmetry.
  - destruct I as [<-|[<-|[]]]; reflexivity.
  - destruct (String.eqb_spec d "i"), (String.eqb_spec d "i_interface"); subst; cbn; tauto.
Qed.
Lemma halo_halo p d : halo_of (halos_of p) d = halo p d.
Proof.
  unfold halo_of, halo, halos_of, n_halo_default. rewrite mem_h. destruct (d_halo p) as [[n|i j]|]; rewrite ?mem_i; destruct (of_i d), (of_j d); reflexivity.
Qed.
Lemma extents_size s d : get (dim_extents s) d = size s d.
Proof.
  unfold dim_extents. rewrite update_get by (cbn; repeat constructor; cbn; intuition congruence). unfold size. cbn [get].
  destruct (d =? "i")%string, (d =? "i_interface")%string, (d =? "j")%string, (d =? "j_interface")%string, (d =? "k")%string, (d =? "k_interface")%string; reflexivity.
Qed.
Lemma room_size s d n : sensible s -> size s d = Some n -> 0 <= n /\ exists m, get (shape_dict s) d = Some m /\ first s d + n + (if of_i d || of_j d then s_halo s else 0) <= m.
Proof.
  intros (X & Y & Z' & P & D) H. unfold shape_dict. rewrite update_get by (cbn; repeat constructor; cbn; intuition congruence). unfold size, first, of_i, of_j in *. cbn [get].
  destruct (d =? "i")%string, (d =? "i_interface")%string, (d =? "j")%string, (d =? "j_interface")%string, (d =? "k")%string, (d =? "k_interface")%string; cbn [orb];
    try (injection H as <-; split; [lia|]; eexists; split; [reflexivity|]; lia).
  all: split; [now apply (D d)|]; exists n; split; [exact H|]; lia.
Qed.

Lemma order_perm k (file test : list string) : order k file test -> Permutation test file.
Proof.
  destruct k as [k|]; cbn [order]; [|intros ->; reflexivity]. intros (l & x & l' & _ & -> & ->). apply Permutation_app_head. rewrite Permutation_app_comm. reflexivity.
Qed.
Lemma pop_order k (file : list string) x r : pop k file = Some (x, r) -> order (Some k) file (r ++ [x]).
Proof.
  revert k x r. induction file as [|y l IH]; intros k x r; [destruct k; discriminate|]. destruct k as [|k]; cbn [pop].
  - intros [= <- <-]. exists [], y, l. auto.
  - destruct (pop k l) as [[a b]|] eqn:E; cbn [bind fst snd]; [|discriminate]. intros [= <- <-]. destruct (IH _ _ _ E) as (l1 & x & l2 & H1 & H2 & H3).
    exists (y :: l1), x, l2. cbn [length app]. rewrite <- H2. split; [now f_equal|]. split; [reflexivity|]. cbn [app] in *. now rewrite H3.
Qed.
Lemma order_inv k (file test : list string) : order (Some k) file test -> exists x r, pop k file = Some (x, r) /\ test = r ++ [x].
Proof.
  intros (l & x & l' & <- & -> & ->). exists x, (l ++ l'). split; [|now rewrite app_assoc]. induction l as [|y l IH]; [reflexivity|]. cbn [app length pop]. rewrite IH. reflexivity.
Qed.

Lemma F2_map_l {X Y} (R : X -> Y -> Prop) (f : X -> Y) l : Forall2 R l (map f l) <-> forall x, In x l -> R x (f x).
Proof.
  split.
  - induction l as [|y l IH]; intros H x I; [destruct I|]. inversion H; subst. destruct I as [<-|I]; auto.
  - induction l as [|y l IH]; intros H; [constructor|]. cbn [map]. constructor; [apply H; now left|]. apply IH. intros x X'. apply H. now right.
Qed.
Lemma window_all s p at_ : (forall d, In d (d_dims p) -> size s d <> None) -> in_file s p at_ <->
  forallb (fun d => (first s d - halo_of (halos_of p) d <=? first s d + at_ d) && (first s d + at_ d <? first s d + size0 s d + halo_of (halos_of p) d)) (d_dims p) = true.
Proof.
  intros K. unfold in_file. rewrite forallb_forall. split; intros H d I; specialize (H d I); specialize (K d I); unfold size0 in *; rewrite halo_halo in *.
  - destruct H as (n & E & H). rewrite E. lia.
  - destruct (size s d) as [n|]; [|congruence]. exists n. split; [reflexivity|]. lia.
Qed.
Lemma room_ok s p : sensible s -> room s p -> forall d, In d (d_dims p) ->
  0 <= first s d - halo_of (halos_of p) d /\ 0 <= size0 s d + 2 * halo_of (halos_of p) d /\ first s d + size0 s d + halo_of (halos_of p) d <= room0 s d.
Proof.
  intros S [_ R] d I. destruct (R d I) as (K & H0 & H1). rewrite halo_halo. unfold size0, room0. destruct (size s d) as [n|] eqn:E; [|congruence].
  destruct (room_size s d n S E) as (N & m & -> & M). unfold first in *. destruct (of_i d || of_j d) eqn:O; [specialize (H1 eq_refl); lia|].
  assert (Z0 : halo p d = 0). { unfold halo. apply orb_false_iff in O. destruct O as [-> ->]. destruct (match d_halo p with None => _ | Some _ => _ end). reflexivity. }
  lia.
Qed.

Section Props.
Context {V : Type} (zero : V) (kaxis : string -> option nat).
(** a quantity for a declared variable *)
Definition for_var (s : sizer) (name : string) (p : decl) (q : quantity V) : Prop :=
  order (kaxis name) (d_dims p) (dims q) /\ origin q = map (first s) (dims q) /\ Forall2 (fun d n => size s d = Some n) (dims q) (extent q)
  /\ Forall2 (fun d m => exists n, size s d = Some n /\ first s d + n + (if of_i d || of_j d then s_halo s else 0) <= m) (dims q) (shape q).
(** its value at a point *)
Definition value_at (s : sizer) (q : quantity V) (at_ : string -> Z) : V := data q (map (fun d => first s d + at_ d) (dims q)).
Definition holds (s : sizer) (name : string) (p : decl) (a : nd V) (v : value V) : Prop :=
  match d_dims p with
  | [] => v = Raw a
  | _ => exists q, v = Qty q /\ for_var s name p q /\ forall at_,
           (in_file s p at_ -> value_at s q at_ = val a (map (fun d => at_ d + halo p d) (d_dims p))) /\ (~ in_file s p at_ -> value_at s q at_ = zero)
  end.
Definition written (s : sizer) (p : decl) (v r : value V) : Prop :=
  match d_dims p with
  | [] => r = v
  | _ => exists q a, v = Qty q /\ r = Raw a /\ file_shape s p (shp a) /\ forall at_, in_file s p at_ -> val a (map (fun d => at_ d + halo p d) (d_dims p)) = value_at s q at_
  end.
Definition standard (name : string) (p : decl) : string := match d_name p with Some n => n | None => name end.

Lemma described_for s name p q t f : sensible s -> room s p -> order (kaxis name) (d_dims p) t -> described q t (first s) (size0 s) (room0 s) f ->
  for_var s name p q /\ forall at_, value_at s q at_ = f (fun d => first s d + at_ d).
Proof.
  intros S [N R] O (D & DO & DE & DS & DF). assert (P := order_perm _ _ _ O).
  assert (K : forall d, In d t -> size s d = Some (size0 s d)).
  { intros d I. assert (J : In d (d_dims p)) by (eapply Permutation_in; eauto). destruct (R d J) as (X & _). unfold size0. destruct (size s d); [reflexivity|congruence]. }
  split; [|intros at_; unfold value_at; rewrite D; apply DF]. unfold for_var. rewrite D. split; [exact O|]. split; [exact DO|]. rewrite DE, DS. split; apply F2_map_l.
  - exact K.
  - intros d I. exists (size0 s d). split; [now apply K|]. destruct (room_size s d _ S (K d I)) as (_ & m & E & M). unfold room0. rewrite E. exact M.
Qed.

(** one variable *)
Lemma load_ok s inputs name p a : sensible s -> room s p -> get inputs name = Some a -> file_shape s p (shp a) -> (forall k, kaxis name = Some k -> (k < length (d_dims p))%nat) ->
  exists v, load zero kaxis s inputs name p = Some v /\ holds s name p a v.
Proof.
  intros S R G A K. unfold load, holds. destruct (d_dims p) as [|d0 ds0] eqn:D0; [rewrite G; cbn [bind]; eauto|]. rewrite <- D0 in *. clear d0 ds0 D0. rewrite G. cbn [bind].
  assert (KN : forall d, In d (d_dims p) -> size s d = Some (size0 s d)).
  { intros d I. destruct R as [_ R]. destruct (R d I) as (X & _). unfold size0. destruct (size s d); [reflexivity|congruence]. }
  unfold zeros_of. rewrite (gets_map _ _ (size0 s)) by (intros d I; rewrite extents_size; auto). cbn [bind].
  rewrite (gets_map _ _ (room0 s)) by (intros d I; unfold room0; destruct (room_size s d _ S (KN d I)) as (_ & m & -> & _); reflexivity). cbn [bind].
  set (q := mkQ _ _ _ _ _ _).
  assert (DQ : described q (d_dims p) (first s) (size0 s) (room0 s) (fun _ => zero)).
  { unfold q. repeat split. cbn [origin]. unfold get_origin. apply map_ext. intros d. unfold first. now rewrite mem_h. }
  destruct (set_slice_described q _ _ _ _ _ (halos_of p) a DQ (room_ok s p S R)) as (q1 & E1 & D1).
  { revert A. unfold file_shape. generalize (shp a). clear - KN. induction (d_dims p) as [|d ds IH]; intros l H; inversion H as [|? m ? l' Hd Hl]; subst; [reflexivity|]. cbn [map].
    destruct Hd as (n & E & ->). rewrite KN in E by now left. injection E as <-. rewrite halo_halo. f_equal. apply IH; [|exact Hl]. intros x X. apply KN. now right. }
  rewrite E1. cbn [bind].
  assert (FIN : forall t q', order (kaxis name) (d_dims p) t -> described q' t (first s) (size0 s) (room0 s) (fun env =>
      if forallb (fun d => (first s d - halo_of (halos_of p) d <=? env d) && (env d <? first s d + size0 s d + halo_of (halos_of p) d)) (d_dims p)
      then val a (map (fun d => env d - (first s d - halo_of (halos_of p) d)) (d_dims p)) else zero) ->
    for_var s name p q' /\ forall at_, (in_file s p at_ -> value_at s q' at_ = val a (map (fun d => at_ d + halo p d) (d_dims p))) /\ (~ in_file s p at_ -> value_at s q' at_ = zero)).
  { intros t q' O DD. destruct (described_for s name p q' t _ S R O DD) as [FV VA]. split; [exact FV|]. intros at_. rewrite VA. cbn beta.
    assert (W := window_all s p at_ (fun d I => proj1 (proj2 R d I))). destruct (forallb _ (d_dims p)).
    - split; [|intros X; exfalso; apply X, W; reflexivity]. intros _. f_equal. apply map_ext. intros d. rewrite halo_halo. lia.
    - split; [|reflexivity]. intros X. apply W in X. discriminate. }
  destruct (kaxis name) as [k|] eqn:EK.
  - destruct (pop_some k (d_dims p) (K k eq_refl)) as (x & r & PO). destruct D1 as (DD1 & D1'). rewrite DD1, PO. cbn [bind fst snd].
    destruct (transpose_described q1 _ _ _ _ _ (r ++ [x]) (conj DD1 D1') (proj1 R)) as (q2 & E2 & D2); [apply (pop_insert _ _ _ _ PO)|]. rewrite E2. cbn [bind].
    eexists. split; [reflexivity|]. exists q2. split; [reflexivity|]. apply (FIN _ _ (pop_order _ _ _ _ PO) D2).
  - eexists. split; [reflexivity|]. exists q1. split; [reflexivity|]. apply (FIN _ _ eq_refl D1).
Qed.

(** all inputs.  missing: storages with fewer halo points than the file (refused) and arrays of other shapes (C114_broadcast_refuted) *)
Theorem C114_loads_partial s decls inputs : sensible s -> NoDup (map (fun x => standard (fst x) (snd x)) decls) ->
  (forall name p, In (name, p) decls -> room s p /\ (exists a, get inputs name = Some a /\ file_shape s p (shp a)) /\ forall k, kaxis name = Some k -> (k < length (d_dims p))%nat) ->
  exists state, state_from_inputs zero kaxis s decls inputs [] = Some state
    /\ (forall name p, In (name, p) decls -> exists a v, get inputs name = Some a /\ get state (standard name p) = Some v /\ holds s name p a v)
    /\ (forall x, In x (keys state) <-> In x (map (fun y => standard (fst y) (snd y)) decls)).
Proof.
  intros S N H.
  assert (X : forall st0, exists state, state_from_inputs zero kaxis s decls inputs st0 = Some state
    /\ (forall name p, In (name, p) decls -> exists a v, get inputs name = Some a /\ get state (standard name p) = Some v /\ holds s name p a v)
    /\ (forall x, ~ In x (map (fun y => standard (fst y) (snd y)) decls) -> get state x = get st0 x)).
  { induction decls as [|[name p] decls IH]; intros st0; cbn [state_from_inputs].
    - exists st0. split; [reflexivity|]. split; [intros ? ? []|reflexivity].
    - cbn [map fst snd] in N. inversion N as [|? ? N1 N2]; subst. destruct (H name p (or_introl eq_refl)) as (R & (a & G & A) & K).
      destruct (load_ok s inputs name p a S R G A K) as (v & E & HV). rewrite E. cbn [bind]. fold (standard name p).
      destruct (IH N2 (fun n q I => H n q (or_intror I)) (put st0 (standard name p) v)) as (state & ES & H1 & H2). exists state. split; [exact ES|]. split.
      + intros n q [[= <- <-]|I]; [|now apply H1]. exists a, v. split; [exact G|]. split; [|exact HV]. rewrite H2 by exact N1. now rewrite get_put, String.eqb_refl.
      + intros x Hx. cbn [map fst snd In] in Hx. rewrite H2 by tauto. rewrite get_put. destruct (String.eqb_spec x (standard name p)) as [->|]; [tauto|reflexivity]. }
  destruct (X []) as (state & E & H1 & H2). exists state. split; [exact E|]. split; [exact H1|]. intros x. rewrite <- get_some. split.
  - intros [v G]. destruct (in_dec string_dec x (map (fun y => standard (fst y) (snd y)) decls)) as [I|I]; [exact I|]. rewrite H2 in G by exact I. discriminate.
  - intros I. apply in_map_iff in I. destruct I as ([n p] & <- & I). destruct (H1 n p I) as (a & v & _ & G & _). eauto.
Qed.

(** an array which fits neither exactly nor by stretching an axis of one point is refused: nothing is dropped silently *)
Lemma load_fits s inputs name p a v : sensible s -> room s p -> get inputs name = Some a -> d_dims p <> [] -> length (shp a) = length (d_dims p) ->
  load zero kaxis s inputs name p = Some v -> Forall2 (fun d m => m = 1 \/ exists n, size s d = Some n /\ m = n + 2 * halo p d) (d_dims p) (shp a).
Proof.
  intros S R G ND L. unfold load. destruct (d_dims p) as [|d0 ds0] eqn:D0; [congruence|]. rewrite <- D0 in *. clear d0 ds0 D0 ND. rewrite G. cbn [bind].
  assert (KN : forall d, In d (d_dims p) -> size s d = Some (size0 s d)).
  { intros d I. destruct R as [_ R]. destruct (R d I) as (X & _). unfold size0. destruct (size s d); [reflexivity|congruence]. }
  unfold zeros_of. rewrite (gets_map _ _ (size0 s)) by (intros d I; rewrite extents_size; auto). cbn [bind].
  rewrite (gets_map _ _ (room0 s)) by (intros d I; unfold room0; destruct (room_size s d _ S (KN d I)) as (_ & m & -> & _); reflexivity). cbn [bind].
  unfold set_slice, serialize_slice. cbn [dims origin extent shape].
  replace (get_origin _ _) with (map (first s) (d_dims p)) by (unfold get_origin; apply map_ext; intros d; unfold first; now rewrite mem_h). rewrite bounds_map.
  rewrite (take_map (d_dims p) (room0 s) (fun d => first s d - halo_of (halos_of p) d) (fun d => first s d + size0 s d + halo_of (halos_of p) d)) by (intros d I; pose proof (room_ok s p S R d I); lia).
  cbn [bind]. rewrite pad_same by now rewrite map_length. cbn [bind]. destruct (fits _ _) eqn:F; [|discriminate]. intros _. clear - F KN L.
  revert F L. generalize (shp a). induction (d_dims p) as [|d ds IH]; intros [|m l]; cbn [map fits length]; try discriminate; [constructor|]. intros F L.
  apply andb_prop in F. destruct F as [F1 F2]. constructor; [|apply IH; [intros x X; apply KN; now right|exact F2|congruence]].
  apply orb_prop in F1. destruct F1 as [F1|F1]; [right|left; lia]. exists (size0 s d). split; [apply KN; now left|]. rewrite halo_halo in F1. lia.
Qed.
Theorem C114_refused s decls inputs state : sensible s -> (forall name p, In (name, p) decls -> room s p) ->
  state_from_inputs zero kaxis s decls inputs [] = Some state ->
  forall name p, In (name, p) decls -> exists a, get inputs name = Some a
    /\ (d_dims p <> [] -> length (shp a) = length (d_dims p) -> Forall2 (fun d m => m = 1 \/ exists n, size s d = Some n /\ m = n + 2 * halo p d) (d_dims p) (shp a)).
Proof.
  intros S. generalize (@nil (string * value V)). induction decls as [|[n0 p0] decls IH]; intros st R; cbn [state_from_inputs]; [intros _ ? ? []|].
  destruct (load zero kaxis s inputs n0 p0) as [v|] eqn:E; [|discriminate]. cbn [bind]. intros H name p [[= -> ->]|I].
  - destruct (get inputs name) as [a|] eqn:G; [|unfold load in E; rewrite G in E; destruct (d_dims p); discriminate]. exists a. split; [reflexivity|]. intros ND L.
    apply (load_fits s inputs name p a v); auto. apply (R name p). now left.
  - eapply IH; [|exact H|exact I]. intros n q J. apply (R n q). now right.
Qed.

Definition usable (s : sizer) (name : string) (p : decl) (v : value V) : Prop :=
  match d_dims p with [] => kaxis name = None | _ => exists q, v = Qty q /\ for_var s name p q end.
Lemma described_of s name p q : room s p -> for_var s name p q -> exists sh, described q (dims q) (first s) (size0 s) sh (fun env => data q (map env (dims q)))
  /\ forall d, In d (d_dims p) -> first s d + size0 s d + (if of_i d || of_j d then s_halo s else 0) <= sh d.
Proof.
  intros [N R] (O & HO & HE & HS). assert (P := order_perm _ _ _ O). assert (ND : NoDup (dims q)) by (eapply Permutation_NoDup; [apply Permutation_sym, P|exact N]).
  exists (fun d => nth (pos string_dec d (dims q)) (shape q) 0).
  assert (SH : shape q = map (fun d => nth (pos string_dec d (dims q)) (shape q) 0) (dims q)).
  { symmetry. apply (env_of_map (dims q) (shape q) ND). clear - HS. induction HS; cbn [length]; congruence. }
  split; [split; [reflexivity|]; split; [exact HO|]; split; [|split; [exact SH|reflexivity]]|].
  - clear - HE. induction HE as [|d n ds es H F IH]; [reflexivity|]. cbn [map]. unfold size0 at 1. rewrite H. now f_equal.
  - intros d I. apply (Permutation_in d (Permutation_sym P)) in I. rewrite SH in HS. rewrite F2_map_l in HS. destruct (HS d I) as (n & E & M). unfold size0. rewrite E. exact M.
Qed.
Lemma write_ok s name p q : sensible s -> room s p -> d_dims p <> [] -> for_var s name p q ->
  exists q', (forall state std, get state std = Some (Qty q) -> turn_back kaxis name std state = Some (match kaxis name with None => state | Some _ => put state std (Qty q') end))
    /\ (kaxis name = None -> q' = q) /\ exists a, output p (Qty q') = Some (Raw a) /\ written s p (Qty q) (Raw a).
Proof.
  intros S R ND FV. destruct (described_of s name p q R FV) as (sh & D & SH). assert (O := proj1 FV). assert (P := order_perm _ _ _ O).
  assert (OK : forall d, In d (d_dims p) -> 0 <= first s d - halo_of (halos_of p) d /\ 0 <= size0 s d + 2 * halo_of (halos_of p) d /\ first s d + size0 s d + halo_of (halos_of p) d <= sh d).
  { intros d I. destruct (room_ok s p S R d I) as (X1 & X2 & _). split; [exact X1|]. split; [exact X2|]. specialize (SH d I). rewrite halo_halo in *. destruct R as [_ R]. destruct (R d I) as (_ & Y1 & Y2).
    unfold first in *. destruct (of_i d || of_j d); [specialize (Y2 eq_refl); lia|lia]. }
  assert (KN : forall d, In d (d_dims p) -> size s d = Some (size0 s d)).
  { intros d I. destruct R as [_ R]. destruct (R d I) as (X & _). unfold size0. destruct (size s d); [reflexivity|congruence]. }
  assert (FIN : forall q', described q' (d_dims p) (first s) (size0 s) sh (fun env => data q (map env (dims q))) -> exists a, output p (Qty q') = Some (Raw a) /\ written s p (Qty q) (Raw a)).
  { intros q' D'. destruct (get_slice_described q' _ _ _ _ _ (halos_of p) D' OK) as (a & E & A & VA). exists a. unfold output, written.
    destruct (d_dims p) as [|d0 ds0] eqn:D0; [congruence|]. rewrite <- D0 in *. rewrite E. cbn [bind]. split; [reflexivity|]. exists q, a. split; [reflexivity|]. split; [reflexivity|]. split.
    - rewrite A. unfold file_shape. apply F2_map_l. intros d I. exists (size0 s d). split; [now apply KN|]. now rewrite halo_halo.
    - intros at_ _. rewrite VA. unfold value_at. f_equal. apply map_ext. intros d. rewrite halo_halo. lia. }
  unfold turn_back. destruct (kaxis name) as [k|] eqn:EK.
  - destruct (order_inv _ _ _ O) as (x & r & PO & DQ). destruct (pop_insert _ _ _ _ PO) as (INS & _).
    assert (NQ : NoDup (dims q)) by (eapply Permutation_NoDup; [apply Permutation_sym, P|apply R]).
    destruct (transpose_described q _ _ _ _ _ (d_dims p) D NQ (Permutation_sym P)) as (q' & E & D'). exists q'. split; [|split; [congruence|now apply FIN]].
    intros state std G. rewrite G. cbn [bind]. rewrite DQ, pop_last_app. cbn [bind fst snd]. rewrite INS, E. reflexivity.
  - exists q. split; [reflexivity|]. split; [reflexivity|]. apply FIN. cbn [order] in O. now rewrite <- O.
Qed.

(** all outputs, whatever the values of the state.  missing: outputs without the entry "name" (C114_name_refuted), two outputs of one quantity with kaxis or a state used twice
    (C114_twice_refuted), more halo points than the storage has (C114_deep_halo_refuted) *)
Theorem C114_outputs_partial s decls state : sensible s -> NoDup (keys decls) -> NoDup (map (fun x => standard (fst x) (snd x)) decls) ->
  (forall name p, In (name, p) decls -> d_name p <> None /\ room s p /\ exists v, get state (standard name p) = Some v /\ usable s name p v) ->
  exists out state', outputs_from_state kaxis decls state [] = Some (out, state')
    /\ (forall name p, In (name, p) decls -> exists v r, get state (standard name p) = Some v /\ get out name = Some r /\ written s p v r)
    /\ (forall x, In x (keys out) <-> In x (keys decls)).
Proof.
  intros S N NS H.
  assert (X : forall st0 o0, (forall name p, In (name, p) decls -> get st0 (standard name p) = get state (standard name p)) -> exists out state', outputs_from_state kaxis decls st0 o0 = Some (out, state')
    /\ (forall name p, In (name, p) decls -> exists v r, get state (standard name p) = Some v /\ get out name = Some r /\ written s p v r)
    /\ (forall x, ~ In x (keys decls) -> get out x = get o0 x)).
  { induction decls as [|[name p] decls IH]; intros st0 o0 SAME; cbn [outputs_from_state].
    - exists o0, st0. split; [reflexivity|]. split; [intros ? ? []|reflexivity].
    - cbn [keys map fst snd] in N, NS. inversion N as [|? ? N1 N2]; inversion NS as [|? ? M1 M2]; subst. destruct (H name p (or_introl eq_refl)) as (DN & R & v & G & U).
      destruct (d_name p) as [std|] eqn:EN; [|congruence]. cbn [bind]. assert (ST : standard name p = std) by (unfold standard; now rewrite EN). rewrite ST in *.
      assert (G0 : get st0 std = Some v) by (rewrite <- ST, SAME by (now left); now rewrite ST).
      assert (STEP : exists st1 v1 r, turn_back kaxis name std st0 = Some st1 /\ get st1 std = Some v1 /\ output p v1 = Some r /\ written s p v r /\ forall x, x <> std -> get st1 x = get st0 x).
      { unfold usable in U. destruct (d_dims p) as [|d0 ds0] eqn:D0.
        - exists st0, v, v. unfold turn_back, output, written. rewrite U, D0. repeat split; auto.
        - destruct U as (q & -> & FV). destruct (write_ok s name p q S R ltac:(congruence) FV) as (q' & TB & SQ & a & OA & WA).
          exists (match kaxis name with None => st0 | Some _ => put st0 std (Qty q') end), (Qty q'), (Raw a). split; [now apply TB|]. split.
          + destruct (kaxis name); [now rewrite get_put, String.eqb_refl|]. now rewrite SQ.
          + split; [exact OA|]. split; [exact WA|]. intros x Hx. destruct (kaxis name); [|reflexivity]. rewrite get_put. destruct (String.eqb_spec x std); [congruence|reflexivity]. }
      destruct STEP as (st1 & v1 & r & E1 & E2 & E3 & W & REST). rewrite E1. cbn [bind]. rewrite E2. cbn [bind]. rewrite E3. cbn [bind].
      destruct (IH N2 M2 (fun n q I => H n q (or_intror I)) st1 (put o0 name r)) as (out & st' & EO & H1 & H2).
      { intros n q I. rewrite REST; [now apply SAME; right|]. intros Y. apply M1. rewrite <- Y. apply in_map_iff. exists (n, q). auto. }
      exists out, st'. split; [exact EO|]. split.
      + intros n q [[= <- <-]|I]; [|now apply H1]. exists v, r. rewrite ST. split; [exact G|]. split; [|exact W]. rewrite H2 by exact N1. now rewrite get_put, String.eqb_refl.
      + intros x Hx. cbn [keys map fst In] in Hx. rewrite H2 by (unfold keys; tauto). rewrite get_put. destruct (String.eqb_spec x name) as [->|]; [tauto|reflexivity]. }
  destruct (X state [] (fun _ _ _ => eq_refl)) as (out & st' & E & H1 & H2). exists out, st'. split; [exact E|]. split; [exact H1|]. intros x. rewrite <- get_some. split.
  - intros [v G]. destruct (in_dec string_dec x (keys decls)) as [I|I]; [exact I|]. rewrite H2 in G by exact I. discriminate.
  - intros I. unfold keys in I. apply in_map_iff in I. destruct I as ([n p] & <- & I). destruct (H1 n p I) as (v & r & _ & G & _). eauto.
Qed.

(** what is left unchanged comes back as it was serialized: same shape, same value at every index *)
Theorem C114_round_trip_partial s decls inputs : sensible s -> NoDup (keys decls) -> NoDup (map (fun x => standard (fst x) (snd x)) decls) ->
  (forall name p, In (name, p) decls -> d_name p <> None /\ room s p /\ (exists a, get inputs name = Some a /\ file_shape s p (shp a))
    /\ (d_dims p = [] -> kaxis name = None) /\ forall k, kaxis name = Some k -> (k < length (d_dims p))%nat) ->
  exists state out state', state_from_inputs zero kaxis s decls inputs [] = Some state /\ outputs_from_state kaxis decls state [] = Some (out, state')
    /\ (forall name p, In (name, p) decls -> exists a b, get inputs name = Some a /\ get out name = Some (Raw b) /\ shp b = shp a
        /\ forall idx, Forall2 (fun n i => 0 <= i < n) (shp a) idx -> d_dims p <> [] -> val b idx = val a idx)
    /\ (forall name p, In (name, p) decls -> d_dims p = [] -> exists a, get inputs name = Some a /\ get out name = Some (Raw a)).
Proof.
  intros S N NS H.
  destruct (C114_loads_partial s decls inputs S NS) as (state & ES & H1 & _). { intros name p I. destruct (H name p I) as (_ & R & A & _ & K). auto. }
  destruct (C114_outputs_partial s decls state S N NS) as (out & st' & EO & H2 & _).
  { intros name p I. destruct (H name p I) as (DN & R & _ & SC & _). split; [exact DN|]. split; [exact R|]. destruct (H1 name p I) as (a & v & _ & G & HV). exists v. split; [exact G|].
    unfold usable, holds in *. destruct (d_dims p); [now apply SC|]. destruct HV as (q & -> & FV & _). eauto. }
  exists state, out, st'. split; [exact ES|]. split; [exact EO|]. split.
  - intros name p I. destruct (H1 name p I) as (a & v & G & GS & HV). destruct (H2 name p I) as (v' & r & GS' & GO & W). rewrite GS in GS'. injection GS' as <-.
    destruct (H name p I) as (_ & R & (a' & G' & A) & _). rewrite G in G'. injection G' as <-. unfold holds, written in *. destruct (d_dims p) as [|d0 ds0] eqn:D0.
    + subst v r. exists a, a. split; [exact G|]. split; [exact GO|]. split; [reflexivity|]. intros idx _ X. congruence.
    + rewrite <- D0 in *. destruct HV as (q & -> & FV & HV). destruct W as (q' & b & [= <-] & -> & B & W). exists a, b. split; [exact G|]. split; [exact GO|]. split.
      * revert A B. unfold file_shape. generalize (shp a) (shp b). clear. induction (d_dims p) as [|d ds IH]; intros l1 l2 F1 F2; inversion F1; inversion F2; subst; [reflexivity|].
        f_equal; [|auto]. repeat match goal with X : exists _, _ |- _ => destruct X as (? & ? & ?) end. congruence.
      * intros idx IX _. set (at_ := fun d => env_of (d_dims p) idx d - halo p d).
        assert (LI : length idx = length (d_dims p)). { clear - A IX. unfold file_shape in A. revert idx IX. induction A; intros idx IX; inversion IX; subst; cbn [length]; auto. }
        assert (EI : map (fun d => at_ d + halo p d) (d_dims p) = idx).
        { transitivity (map (env_of (d_dims p) idx) (d_dims p)); [|exact (env_of_map (d_dims p) idx (proj1 R) LI)]. apply map_ext. intros d. unfold at_. lia. }
        assert (IN : in_file s p at_).
        { intros d J. assert (PL := pos_lt string_dec d (d_dims p) J). unfold at_, env_of.
          assert (Y : forall ds l k, Forall2 (fun d m => exists n, size s d = Some n /\ m = n + 2 * halo p d) ds l -> Forall2 (fun n i => 0 <= i < n) l k -> In d ds ->
                        exists n, size s d = Some n /\ 0 <= nth (pos string_dec d ds) k 0 < n + 2 * halo p d).
          { clear. intros ds l k F. revert k. induction F as [|e m ds l E F IH]; intros k FK J; [destruct J|]. inversion FK as [|? i ? k' Hi FK']; subst. cbn [pos].
            destruct (string_dec d e) as [->|NE]; [destruct E as (n & En & ->); exists n; split; [exact En|cbn [nth]; lia]|]. destruct J as [J|J]; [congruence|]. exact (IH k' FK' J). }
          destruct (Y _ _ _ A IX J) as (n & En & B'). exists n. split; [exact En|lia]. }
        rewrite <- EI. rewrite (W at_ IN). apply (HV at_), IN.
  - intros name p I D0. destruct (H1 name p I) as (a & v & G & GS & HV). destruct (H2 name p I) as (v' & r & GS' & GO & W). rewrite GS in GS'. injection GS' as <-.
    unfold holds, written in *. rewrite D0 in *. subst. eauto.
Qed.
End Props.
Print Assumptions C114_loads_partial.
Print Assumptions C114_outputs_partial.
Print Assumptions C114_round_trip_partial.
Print Assumptions C114_refused.

(** findings *)
Local Open Scope string_scope.
Definition z_sizer : sizer := Sizer 4 4 2 3 1 [].
Definition no_axis (_ : string) : option nat := None.
Definition arr (sh : list Z) : nd (list Z) := mkNd sh (fun idx => idx).

(** with more halo points than the storage has, the slice wraps around: the output is one row from the other end, without an error *)
Theorem C114_deep_halo_refuted : exists (p : decl) q out state', zeros_of [7] z_sizer ["i"; "j"] = Some q /\ d_halo p = Some (Each 4 3) /\ d_dims p = ["i"; "j"]
  /\ outputs_from_state no_axis [("u", p)] [("u", Qty q)] [] = Some (out, state')
  /\ match get out "u" with Some (Raw a) => shp a = [1; 10] | _ => False end.
Proof. exists (Decl ["i"; "j"] (Some "u") (Some (Each 4 3))). do 3 eexists. split; [vm_compute; reflexivity|]. split; [reflexivity|]. split; [reflexivity|]. split; vm_compute; reflexivity. Qed.
Print Assumptions C114_deep_halo_refuted.
(** an array of another shape is repeated over the window, without an error: here one row for all ten *)
Theorem C114_broadcast_refuted : exists p a v, d_dims p = ["i"; "j"] /\ shp a = [1; 10] /\ load [7] no_axis z_sizer [("u", a)] "u" p = Some (Qty v)
  /\ ~ file_shape z_sizer p (shp a) /\ data v [0; 5] = [0; 5] /\ data v [9; 5] = [0; 5].
Proof.
  exists (Decl ["i"; "j"] None None), (arr [1; 10]). eexists. split; [reflexivity|]. split; [reflexivity|]. split; [vm_compute; reflexivity|]. split; [|split; reflexivity].
  intros H. inversion H as [|? ? ? ? (n & E & M) ?]; subst. vm_compute in E, M. injection E as <-. discriminate.
Qed.
Print Assumptions C114_broadcast_refuted.
(** inputs may leave out "name", outputs may not *)
Theorem C114_name_refuted : exists p q, d_name p = None /\ state_from_inputs [7] no_axis z_sizer [("u", p)] [("u", arr [10; 10])] [] = Some [("u", Qty q)]
  /\ outputs_from_state no_axis [("u", p)] [("u", Qty q)] [] = None.
Proof. exists (Decl ["i"; "j"] None None). eexists. split; [reflexivity|]. split; [vm_compute; reflexivity|reflexivity]. Qed.
Print Assumptions C114_name_refuted.
(** the state is turned back in place, so the outputs of the same state taken a second time have their dimensions in another order *)
Definition k_axis (n : string) : option nat := if (n =? "u")%string then Some 0%nat else None.
Theorem C114_twice_refuted : exists p state o1 s1 o2 s2, state_from_inputs [7] k_axis z_sizer [("u", p)] [("u", arr [2; 10; 10])] [] = Some state
  /\ outputs_from_state k_axis [("u", p)] state [] = Some (o1, s1) /\ outputs_from_state k_axis [("u", p)] s1 [] = Some (o2, s2)
  /\ match get o1 "u", get o2 "u" with Some (Raw a), Some (Raw b) => shp a = [2; 10; 10] /\ shp b = [10; 2; 10] | _, _ => False end.
Proof.
  exists (Decl ["k"; "i"; "j"] (Some "u") None). do 5 eexists. split; [vm_compute; reflexivity|]. split; [vm_compute; reflexivity|]. split; [vm_compute; reflexivity|].
  vm_compute. split; reflexivity.
Qed.
Print Assumptions C114_twice_refuted.

(** a case: a number, an array with its vertical axis first, an interface with halos of its own and a data dimension *)
Definition case_sizer : sizer := Sizer 4 6 2 3 1 [("tracer", 5)].
Definition case_decls : dict decl := [("dt", Decl [] (Some "timestep") None); ("u", Decl ["k"; "j"; "i_interface"] (Some "x_wind") (Some (Each 1 0))); ("q", Decl ["i"; "tracer"] (Some "tracers") None)].
Definition case_inputs : dict (nd (list Z)) := [("dt", arr []); ("u", arr [2; 6; 7]); ("q", arr [10; 5])].
Example C114_case_meets : sensible case_sizer /\ NoDup (keys case_decls) /\ NoDup (map (fun x => standard (fst x) (snd x)) case_decls) /\
  forall name p, In (name, p) case_decls -> d_name p <> None /\ room case_sizer p /\ (exists a, get case_inputs name = Some a /\ file_shape case_sizer p (shp a))
    /\ (d_dims p = [] -> k_axis name = None) /\ forall k, k_axis name = Some k -> (k < length (d_dims p))%nat.
Proof.
  split. { unfold sensible. cbn. repeat split; try lia. intros d n. destruct (d =? "tracer")%string; [intros [= <-]; lia|discriminate]. }
  split; [cbn; repeat constructor; cbn; intuition congruence|]. split; [cbn; repeat constructor; cbn; intuition congruence|].
  intros name p [[= <- <-]|[[= <- <-]|[[= <- <-]|[]]]]; (split; [discriminate|]); split.
  1,3,5: split; [cbn; repeat constructor; cbn; intuition congruence|]; cbn [d_dims In]; intros d I; repeat (destruct I as [<-|I]; [vm_compute; repeat split; discriminate|]); destruct I.
  1: split; [exists (arr []); split; [reflexivity|constructor]|]. 2: split; [exists (arr [2; 6; 7]); split; [reflexivity|]|]. 4: split; [exists (arr [10; 5]); split; [reflexivity|]|].
  2,4: repeat (constructor; [eexists; split; vm_compute; reflexivity|]); constructor.
  all: split; [intros X; try reflexivity; discriminate X|intros k E; vm_compute in E; try discriminate E; injection E as <-; cbn; lia].
Qed.
Example C114_case : exists state out s', state_from_inputs [7] k_axis case_sizer case_decls case_inputs [] = Some state /\ outputs_from_state k_axis case_decls state [] = Some (out, s')
  /\ match get state "x_wind" with Some (Qty q) => dims q = ["j"; "i_interface"; "k"] /\ shape q = [13; 11; 3] /\ data q [3; 2; 1] = [1; 0; 0] /\ data q [3; 1; 1] = [7] | _ => False end
  /\ match get out "u" with Some (Raw a) => shp a = [2; 6; 7] /\ val a [1; 5; 6] = [1; 5; 6] | _ => False end.
Proof. do 3 eexists. split; [vm_compute; reflexivity|]. split; [vm_compute; reflexivity|]. vm_compute. repeat split. Qed.
Example C114_refused_case : state_from_inputs [7] k_axis case_sizer case_decls [("dt", arr []); ("u", arr [2; 6; 7]); ("q", arr [9; 5])] [] = None.
Proof. vm_compute. reflexivity. Qed.
