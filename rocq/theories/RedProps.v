(** C105: reductions over all ranks. *)
From Coq Require Import QArith.
From Verif Require Import Base Dict AllocModel RedModel.
Open Scope Z_scope.

(** ** memory *)
Lemma list_eqb_spec a b : list_eqb a b = true <-> a = b.
Proof.
  revert b. induction a as [|x a IH]; intros [|y b]; cbn; split; try discriminate; try reflexivity; rewrite ?andb_true_iff, ?Z.eqb_eq, ?IH.
  - now intros [-> ->].
  - now intros [= -> ->].
Qed.
Lemma size_nonneg ns idx : Forall2 (fun n i => 0 <= i < n) ns idx -> 0 < size ns.
Proof. induction 1; cbn [size fold_right]; [lia|]. fold (size l). nia. Qed.
Lemma flat_map_length_const {X Y} (f : X -> list Y) l n : (forall x, In x l -> length (f x) = n) -> length (flat_map f l) = (length l * n)%nat.
Proof. induction l as [|x l IH]; intros L; cbn; [reflexivity|]. rewrite app_length, L, IH; [lia| |now left]. intros y I. apply L. now right. Qed.
Lemma flat_map_nth {X Y} (f : X -> list Y) l n k r d d' : (forall x, In x l -> length (f x) = n) -> (r < n)%nat -> (k < length l)%nat ->
  nth (k * n + r) (flat_map f l) d = nth r (f (nth k l d')) d.
Proof.
  intros L R. revert k. induction l as [|x l IH]; intros k K; cbn in K; [lia|]. cbn [flat_map].
  assert (Lx : length (f x) = n) by (apply L; now left). destruct k as [|k]; cbn [nth].
  - rewrite app_nth1 by lia. f_equal.
  - rewrite app_nth2 by lia. rewrite Lx. replace (S k * n + r - n)%nat with (k * n + r)%nat by lia. apply IH; [|lia]. intros y I. apply L. now right.
Qed.
Lemma zrange_nth n k : 0 <= k < n -> nth (Z.to_nat k) (zrange 0 n) 0 = k.
Proof.
  intros K. unfold zrange. rewrite Z.sub_0_r.
  rewrite (nth_indep _ 0 (0 + Z.of_nat 0)) by (rewrite map_length, seq_length; lia).
  rewrite (map_nth (fun i => 0 + Z.of_nat i)). rewrite seq_nth by lia. lia.
Qed.
Lemma rows_length ns : Forall (fun n => 0 <= n) ns -> length (rows ns) = Z.to_nat (size ns).
Proof.
  induction 1 as [|n ns P Ps IH]; [reflexivity|]. cbn [rows size fold_right]. fold (size ns).
  rewrite (flat_map_length_const _ _ (Z.to_nat (size ns))) by (intros; now rewrite map_length). rewrite zrange_length.
  assert (0 <= size ns). { clear -Ps. induction Ps; cbn; [lia|]. fold (size l). nia. } nia.
Qed.
Lemma index_pos ns idx : Forall2 (fun n i => 0 <= i < n) ns idx -> Forall (fun n => 0 <= n) ns.
Proof. induction 1; constructor; auto; lia. Qed.
Lemma row_offset_bound ns idx : Forall2 (fun n i => 0 <= i < n) ns idx -> 0 <= row_offset ns idx < size ns.
Proof.
  induction 1 as [|n i ns idx P R IH]; cbn [row_offset size fold_right]; [lia|]. fold (size ns). nia.
Qed.
Lemma rows_nth ns idx : Forall2 (fun n i => 0 <= i < n) ns idx -> nth (Z.to_nat (row_offset ns idx)) (rows ns) [] = idx.
Proof.
  induction 1 as [|n i ns idx P R IH]; [reflexivity|]. cbn [row_offset rows]. pose proof (row_offset_bound _ _ R) as Bo. pose proof (rows_length ns (index_pos _ _ R)) as Lr.
  replace (Z.to_nat (i * size ns + row_offset ns idx)) with (Z.to_nat i * Z.to_nat (size ns) + Z.to_nat (row_offset ns idx))%nat by nia.
  rewrite (flat_map_nth _ _ _ _ _ _ 0); [|intros; now rewrite map_length|lia|rewrite zrange_length; lia].
  rewrite zrange_nth by lia. rewrite (nth_indep _ [] (i :: [])) by (rewrite map_length; lia). rewrite (map_nth (cons i)). now rewrite IH.
Qed.
Lemma Forall2_rev {X Y} (P : X -> Y -> Prop) a b : Forall2 P a b -> Forall2 P (rev a) (rev b).
Proof. induction 1; cbn; [constructor|]. apply Forall2_app; auto. Qed.
Lemma in_memory_nth f ns idx : Forall2 (fun n i => 0 <= i < n) ns idx -> nth (Z.to_nat (offset f ns idx)) (in_memory f ns) [] = idx.
Proof.
  intros R. unfold offset, in_memory. destruct f; [|now apply rows_nth]. apply Forall2_rev in R.
  replace (@nil Z) with (rev (@nil Z)) at 1 by reflexivity. rewrite map_nth. rewrite rows_nth by exact R. apply rev_involutive.
Qed.
Lemma offset_bound f ns idx : Forall2 (fun n i => 0 <= i < n) ns idx -> (Z.to_nat (offset f ns idx) < length (in_memory f ns))%nat.
Proof.
  intros R. unfold offset, in_memory. pose proof (index_pos _ _ R) as P. destruct f.
  - rewrite map_length, rows_length by now apply Forall_rev. pose proof (row_offset_bound _ _ (Forall2_rev _ _ _ R)). lia.
  - rewrite rows_length by exact P. pose proof (row_offset_bound _ _ R). lia.
Qed.

Section Values.
Context {A : Type}.
Variables (add mul : A -> A -> A) (ltb : A -> A -> bool) (cast : dtype -> A -> A) (none : A) (Float : dtype) (layout : string -> bool).
Local Notation reduce := (reduce add mul ltb none).
Local Notation Allreduce := (Allreduce add mul ltb none).
Local Notation allreduce := (allreduce add mul ltb).
Local Notation all_reduce := (all_reduce add mul ltb cast Float layout).
Local Notation per_element := (all_reduce_per_element add mul ltb none).
Local Notation per_element_in_place := (all_reduce_per_element_in_place add mul ltb none).
Local Notation meaning := (of_two add mul ltb).
Local Notation quantity := (quantity A).
Local Notation array := (array A).

Lemma memory_nth (a : array) idx : index_of_array a idx -> nth (Z.to_nat (offset (fortran a) (shape a) idx)) (memory a) none = elt a idx.
Proof.
  intros R. unfold memory. rewrite (nth_indep _ none (elt a [])) by (rewrite map_length; now apply offset_bound). rewrite map_nth. now rewrite in_memory_nth.
Qed.
Lemma meaning_is op x y : apply add mul ltb op x y = meaning op x y.
Proof. unfold of_two. destruct op; cbn; destruct (ltb x y), (ltb y x); reflexivity. Qed.
Lemma fold_meaning op l x : fold_left (apply add mul ltb op) l x = fold_left (meaning op) l x.
Proof. revert x. induction l as [|y l IH]; intros x; cbn; [reflexivity|]. now rewrite meaning_is, IH. Qed.

(** arrays of the same kind: shape and dtype *)
Definition alike (s : list Z) (d : dtype) (l : list array) : Prop := forall a, In a l -> shape a = s /\ dt a = d.

(** ** all_reduce_per_element *)
(** The output's every element, halo included, is the combination of the ranks' elements of that index; its metadata remain.
    Missing from the full statement: quantities in different memory orders. *)
Theorem C105_per_element_partial : forall op (l : list quantity) (out : quantity), l <> [] ->
  alike (shape (data out)) (dt (data out)) (map data l) -> (forall q, In q l -> fortran (data q) = fortran (data out)) ->
  exists r, per_element op l out = Some r /\ per_element_in_place op l out = Some r /\
    metadata r = metadata out /\ v_dims r = v_dims out /\ v_origin r = v_origin out /\ v_extent r = v_extent out /\ shape (data r) = shape (data out) /\ dt (data r) = dt (data out) /\
    forall idx, index_of_array (data out) idx -> reduction (meaning op) (map data l) (elt (data r)) idx.
Proof.
  intros op l out NE AL OR. unfold all_reduce_per_element_in_place, all_reduce_per_element, RedModel.Allreduce.
  assert (M : forall q, In q l -> length (memory (data q)) = length (memory (data out))).
  { intros q I. unfold memory. rewrite !map_length. destruct (AL (data q)) as [-> _]; [now apply in_map|]. now rewrite OR. }
  assert (E : forallb (fun a => dtype_eqb (dt a) (dt (data out)) && (length (memory a) =? length (memory (data out)))%nat) (map data l) = true).
  { apply forallb_forall. intros a I. destruct (AL a I) as [_ ->]. apply in_map_iff in I. destruct I as (q & <- & I).
    rewrite (M q I), Nat.eqb_refl, andb_true_r. destruct (dt (data out)); cbn; try reflexivity. apply String.eqb_refl. }
  rewrite E. cbn [bind]. eexists. split; [reflexivity|]. split; [reflexivity|]. cbn [metadata v_dims v_origin v_extent data].
  do 4 (split; [reflexivity|]). unfold with_memory. cbn [shape dt elt]. do 2 (split; [reflexivity|]). intros idx R.
  pose proof (offset_bound (fortran (data out)) _ _ R) as Bo. set (k := Z.to_nat (offset (fortran (data out)) (shape (data out)) idx)) in *.
  assert (G : nth k (map (fun n => reduce op (map (fun a => nth n (memory a) none) (map data l))) (seq 0 (length (memory (data out))))) none =
              reduce op (map (fun a => nth k (memory a) none) (map data l))).
  { assert (K : (k < length (memory (data out)))%nat) by (unfold memory; now rewrite map_length).
    set (f := fun n => reduce op (map (fun a => nth n (memory a) none) (map data l))).
    rewrite (nth_indep _ none (f 0%nat)) by (rewrite map_length, seq_length; exact K). rewrite map_nth. now rewrite seq_nth by exact K. }
  assert (V : map (fun a => nth k (memory a) none) (map data l) = map (fun a => elt a idx) (map data l)).
  { apply map_ext_in. intros a I. destruct (AL a I) as [Sa _]. apply in_map_iff in I. destruct I as (q & <- & I). unfold k. rewrite <- (OR q I), <- Sa.
    apply memory_nth. unfold index_of_array. now rewrite Sa. }
  unfold reduction. destruct (map (fun a => elt a idx) (map data l)) as [|x rest] eqn:EM; [destruct l; [contradiction|discriminate EM]|].
  exists x, rest. split; [reflexivity|]. fold k. rewrite G, V. cbn [RedModel.reduce]. apply fold_meaning.
Qed.

(** ** all_reduce *)
Lemma allreduce_sum op (l : list array) s d : op = SUM \/ op = PROD -> l <> [] -> alike s d l ->
  exists r, allreduce op l = Some r /\ shape r = s /\ dt r = d /\ forall idx, reduction (meaning op) l (elt r) idx.
Proof.
  intros O NE AL. destruct l as [|x l]; [contradiction|]. cbn [RedModel.allreduce]. destruct (AL x) as [Sx Dx]; [now left|].
  assert (AL' : alike s d l) by (intros a I; apply AL; now right). clear AL NE.
  enough (X : exists r, fold_left (fun acc y => do a <- acc; combine_arrays add mul ltb op a y) l (Some x) = Some r /\ shape r = s /\ dt r = d /\
    forall idx, elt r idx = fold_left (meaning op) (map (fun a => elt a idx) l) (elt x idx)).
  { destruct X as (r & X1 & X2 & X3 & X4). exists r. split; [exact X1|]. split; [exact X2|]. split; [exact X3|]. intros idx. do 2 eexists. split; [reflexivity|apply X4]. }
  revert x Sx Dx. induction l as [|y l IH]; intros x Sx Dx; [exists x; auto|]. cbn [fold_left bind].
  destruct (AL' y) as [Sy Dy]; [now left|].
  assert (C : combine_arrays add mul ltb op x y = Some (Array (shape x) (fortran x) (fun i => apply add mul ltb op (elt x i) (elt y i)) (dt x))).
  { unfold combine_arrays. rewrite (proj2 (list_eqb_spec _ _)) by congruence. destruct O as [->| ->]; reflexivity. }
  rewrite C. destruct (IH (fun a I => AL' a (or_intror I)) (Array (shape x) (fortran x) (fun i => apply add mul ltb op (elt x i) (elt y i)) (dt x))) as (r & R1 & R2 & R3 & R4); auto.
  exists r. split; [exact R1|]. split; [exact R2|]. split; [exact R3|]. intros idx. rewrite R4. cbn [elt map fold_left]. now rewrite meaning_is.
Qed.

(** Sums and products into a new quantity: every rank gets the combination of all ranks' elements under its own dims, units, origin,
    extent and backend, and its view is the compute domain.  Missing from the full statement: the number of halo points, the other
    operators, and quantities in another precision than the model's. *)
Theorem C105_new_partial : forall op (l : list quantity) q d, op = SUM \/ op = PROD -> In q l -> sound q ->
  alike (shape (data q)) d (map data l) -> (exists n, d = Other n) \/ d = Float ->
  exists r, all_reduce op l q None = Some r /\ sound r /\ same_meta (metadata q) (metadata r) /\ shape (data r) = shape (data q) /\
    (forall idx, reduction (meaning op) (map data l) (elt (data r)) idx) /\
    forall idx, length idx = length (shape (data q)) ->
      field r idx = elt (data r) (map (fun '(o, i) => o + i) (combine (origin (metadata q)) idx)).
Proof.
  intros op l q d O I (S1 & S2 & S3 & S4 & S5 & S6 & S7) AL F. unfold RedModel.all_reduce.
  destruct (allreduce_sum op (map data l) (shape (data q)) d O) as (r & -> & R1 & R2 & R3); [destruct l; [contradiction|discriminate]|exact AL|].
  cbn [bind]. unfold make. rewrite R1, R2, S5, S6, S7, !Nat.eqb_refl.
  assert (P : negb false && is_float d && negb (dtype_eqb d Float) = false).
  { destruct F as [[n ->]| ->]; [reflexivity|]. assert (dtype_eqb Float Float = true) as -> by (destruct Float; cbn; try reflexivity; apply String.eqb_refl). now rewrite andb_false_r. }
  rewrite P. cbn [andb]. eexists. split; [reflexivity|]. destruct (AL (data q)) as [_ Dq]; [now apply in_map|].
  unfold sound, same_meta, field. cbn [data metadata v_dims v_origin v_extent dims origin extent units m_dt backend shape dt elt].
  split; [now rewrite S5, S6, S7|]. split; [rewrite S4, Dq; auto 7|]. split; [reflexivity|]. split; [exact R3|]. reflexivity.
Qed.

(** Sums and products into a quantity given: its elements are the combination, its metadata those of the input but for the number of
    halo points, and its view the compute domain if it was that of the input before.  Missing from the full statement: an output
    with another compute domain or another dtype. *)
Theorem C105_into_partial : forall op (l : list quantity) q out, op = SUM \/ op = PROD -> In q l -> sound q -> sound out ->
  alike (shape (data q)) (dt (data q)) (map data l) -> shape (data out) = shape (data q) ->
  exists r, all_reduce op l q (Some out) = Some r /\ same_meta (metadata q) (metadata r) /\ n_halo (metadata r) = n_halo (metadata out) /\
    shape (data r) = shape (data q) /\ dt (data r) = dt (data out) /\
    (forall idx, exists v, reduction (meaning op) (map data l) (fun _ => v) idx /\ elt (data r) idx = cast (dt (data out)) v) /\
    (dims (metadata out) = dims (metadata q) -> origin (metadata out) = origin (metadata q) -> extent (metadata out) = extent (metadata q) ->
     dt (data out) = dt (data q) -> sound r).
Proof.
  intros op l q out O I (S1 & S2 & S3 & S4 & S5 & S6 & S7) (T1 & T2 & T3 & T4 & T5 & T6 & T7) AL SH. unfold RedModel.all_reduce.
  destruct (allreduce_sum op (map data l) (shape (data q)) (dt (data q)) O) as (r & -> & R1 & R2 & R3); [destruct l; [contradiction|discriminate]|exact AL|].
  cbn [bind]. rewrite (proj2 (list_eqb_spec _ _) SH). cbn [negb]. eexists. split; [reflexivity|]. unfold same_meta, duplicate_metadata, sound.
  cbn [data metadata v_dims v_origin v_extent dims origin extent units m_dt backend shape dt elt n_halo].
  split; [auto 7|]. split; [reflexivity|]. split; [exact SH|]. split; [reflexivity|]. split.
  - intros idx. exists (elt r idx). split; [|reflexivity]. destruct (R3 idx) as (x & rest & X1 & X2). exists x, rest. auto.
  - intros E1 E2 E3 E4. rewrite SH. repeat split; congruence.
Qed.

(** the greatest and the least of arrays with one element *)
Lemma one_index ns idx : size ns = 1 -> Forall2 (fun n i => 0 <= i < n) ns idx -> idx = repeat 0 (length ns).
Proof.
  intros E R. revert E. induction R as [|n i ns idx P R IH]; intros E; [reflexivity|]. cbn [size fold_right] in E. fold (size ns) in E.
  pose proof (size_nonneg _ _ R). assert (n = 1 /\ size ns = 1) as [-> Es] by nia. cbn. f_equal; [lia|auto].
Qed.
(** Missing from the full statement: arrays of more than one element. *)
Theorem C105_extremum_partial : forall op (l : list array) s d, l <> [] -> alike s d l -> op = MAX \/ op = MIN -> size s = 1 ->
  exists r, allreduce op l = Some r /\ shape r = s /\ dt r = d /\ forall idx, Forall2 (fun n i => 0 <= i < n) s idx -> reduction (meaning op) l (elt r) idx.
Proof.
  intros op l s d NE AL O E. destruct l as [|x l]; [contradiction|]. cbn [RedModel.allreduce]. destruct (AL x) as [Sx Dx]; [now left|].
  assert (AL' : alike s d l) by (intros a I; apply AL; now right). clear AL NE.
  enough (X : exists r, fold_left (fun acc y => do a <- acc; combine_arrays add mul ltb op a y) l (Some x) = Some r /\ shape r = s /\ dt r = d /\
    elt r (repeat 0 (length s)) = fold_left (meaning op) (map (fun a => elt a (repeat 0 (length s))) l) (elt x (repeat 0 (length s)))).
  { destruct X as (r & X1 & X2 & X3 & X4). exists r. split; [exact X1|]. split; [exact X2|]. split; [exact X3|]. intros idx I. rewrite (one_index s idx E I).
    do 2 eexists. split; [reflexivity|exact X4]. }
  revert x Sx Dx. induction l as [|y l IH]; intros x Sx Dx; [exists x; auto|].
  destruct (AL' y) as [Sy Dy]; [now left|]. cbn [fold_left bind map]. rewrite <- meaning_is. set (i := repeat 0 (length s)) in *.
  set (z := if match op with MAX => ltb (elt x i) (elt y i) | _ => ltb (elt y i) (elt x i) end then y else x).
  assert (C : combine_arrays add mul ltb op x y = Some z).
  { unfold combine_arrays, z, i. rewrite (proj2 (list_eqb_spec _ _)) by congruence. rewrite Sx, E. destruct O as [->| ->]; reflexivity. }
  assert (Z1 : elt z i = apply add mul ltb op (elt x i) (elt y i)) by (unfold z; destruct O as [->| ->]; cbn; match goal with |- context [if ?b then _ else _] => destruct b end; reflexivity).
  assert (Z2 : shape z = s /\ dt z = d) by (unfold z; match goal with |- context [if ?b then _ else _] => destruct b end; auto).
  rewrite C. rewrite <- Z1. apply (IH (fun a J => AL' a (or_intror J)) z); apply Z2.
Qed.
(** On two ranks or more the greatest and the least of larger arrays are always refused, with or without an output. *)
Theorem C105_extremum_refused : forall op (l : list quantity) q out, op = MAX \/ op = MIN -> (2 <= length l)%nat ->
  (forall p, In p l -> size (shape (data p)) <> 1) -> all_reduce op l q out = None.
Proof.
  intros op l q out O L N. unfold RedModel.all_reduce. enough (X : allreduce op (map data l) = None) by now rewrite X.
  destruct l as [|x [|y l]]; try (cbn in L; lia). cbn [RedModel.allreduce map fold_left bind].
  assert (C : combine_arrays add mul ltb op (data x) (data y) = None).
  { unfold combine_arrays. destruct (negb _); [reflexivity|]. destruct (Z.eqb_spec (size (shape (data x))) 1) as [E|]; [exfalso; apply (N x); [now left|exact E]|]. destruct O as [->| ->]; reflexivity. }
  rewrite C. clear. induction (map data l) as [|a m IH]; [reflexivity|]. exact IH.
Qed.
(** An output of another shape is refused. *)
Theorem C105_shape_refused : forall op (l : list quantity) q out, shape (data out) <> shape (data q) -> all_reduce op l q (Some out) = None.
Proof.
  intros op l q out N. unfold RedModel.all_reduce. destruct (allreduce op (map data l)) as [r|]; [|reflexivity]. cbn [bind].
  destruct (list_eqb _ _) eqn:E; [|reflexivity]. apply list_eqb_spec in E. contradiction.
Qed.
End Values.
Print Assumptions C105_per_element_partial.
Print Assumptions C105_new_partial.
Print Assumptions C105_into_partial.
Print Assumptions C105_extremum_partial.
Print Assumptions C105_extremum_refused.
Print Assumptions C105_shape_refused.

(** ** cases: the integers *)
Local Notation all_reduceZ := (all_reduce Z.add Z.mul Z.ltb (fun _ v => v) Float64 (fun _ => false)).
Local Notation per_elementZ := (all_reduce_per_element Z.add Z.mul Z.ltb 0).
(** two rows and three columns with elements 10 n, 10 n + 1, ..., row by row, of which the last two columns are the compute domain *)
Definition quantity23 (n halo : Z) (d : dtype) (f : bool) : quantity Z :=
  Quantity (Array [2; 3] f (fun i => 10 * n + 3 * nth 0 i 0 + nth 1 i 0) d) (Meta [0; 1] [2; 2] halo ["x"; "y"]%string "m" d "numpy") ["x"; "y"]%string [0; 1] [2; 2].
Example C105_case : exists r, all_reduceZ SUM [quantity23 1 0 Float64 false; quantity23 2 0 Float64 false] (quantity23 2 0 Float64 false) None = Some r /\ sound (quantity23 2 0 Float64 false) /\
  field r [1; 0] = 38 /\ alike [2; 3] Float64 (map data [quantity23 1 0 Float64 false; quantity23 2 0 Float64 false]).
Proof.
  eexists. split; [vm_compute; reflexivity|]. split; [vm_compute; auto 10|]. split; [reflexivity|].
  intros a I. cbn in I. destruct I as [<-|[<-|[]]]; auto.
Qed.
Example C105_case_per_element : exists r, per_elementZ MAX [quantity23 1 0 Float64 true; quantity23 2 0 Float64 true] (quantity23 0 0 Float64 true) = Some r /\ field r [1; 1] = 25 /\ elt (data r) [0; 0] = 20.
Proof. eexists. split; [vm_compute; reflexivity|]. split; reflexivity. Qed.
(** MAX and MIN of the integers are the greatest and the least *)
Example C105_greatest : forall l x, let r := fold_left (of_two Z.add Z.mul Z.ltb MAX) l x in In r (x :: l) /\ forall y, In y (x :: l) -> y <= r.
Proof.
  induction l as [|y l IH]; intros x r; unfold r; cbn [fold_left]; [split; [now left|]; intros y [<-|[]]; lia|].
  unfold of_two at 2 4. destruct (Z.ltb_spec x y).
  - destruct (IH y) as [I M]. split; [now right|]. intros z [<-|Iz]; [|now apply M]. specialize (M y (or_introl eq_refl)). lia.
  - destruct (IH x) as [I M]. split; [destruct I; [now left|now right; right]|]. intros z [<-|[<-|Iz]]; [apply M; now left| |apply M; now right]. specialize (M x (or_introl eq_refl)). lia.
Qed.

(** ** what does not hold *)
(** Full statement: the result has the metadata of the input.  A new quantity has no halo points, so that no halo update accepts it
    (C26); one given keeps its own number. *)
Theorem C105_halo_refuted : exists l q out r r', all_reduceZ SUM l q None = Some r /\ all_reduceZ SUM l q (Some out) = Some r' /\ In q l /\
  n_halo (metadata q) = 3 /\ n_halo (metadata r) = 0 /\ n_halo (metadata r') = 1.
Proof. exists [quantity23 1 3 Float64 false], (quantity23 1 3 Float64 false), (quantity23 0 1 Float64 false). do 2 eexists. split; [vm_compute; reflexivity|]. split; [vm_compute; reflexivity|]. cbn. auto 6. Qed.
Print Assumptions C105_halo_refuted.
(** Full statement: the view of the output is its compute domain.  The origin and extent of the output become those of the input, but its
    view stays where it was. *)
Definition whole23 : quantity Z := Quantity (data (quantity23 0 0 Float64 false)) (Meta [0; 0] [2; 3] 0 ["x"; "y"]%string "m" Float64 "numpy") ["x"; "y"]%string [0; 0] [2; 3].
Theorem C105_view_refuted : exists l q out r, all_reduceZ SUM l q (Some out) = Some r /\ In q l /\ sound q /\ sound out /\ origin (metadata r) = [0; 1] /\
  field r [0; 0] = elt (data r) [0; 0] /\ elt (data r) [0; 0] <> elt (data r) [0; 1].
Proof.
  exists [quantity23 1 0 Float64 false], (quantity23 1 0 Float64 false), whole23. eexists. split; [vm_compute; reflexivity|]. split; [now left|]. split; [vm_compute; auto 10|].
  split; [vm_compute; auto 10|]. split; [reflexivity|]. split; [reflexivity|]. vm_compute. discriminate.
Qed.
Print Assumptions C105_view_refuted.
(** Full statement: quantities of any precision can be reduced.  Single precision in a double precision model is refused (after the
    communication) without an output, and accepted with one, whose metadata then say what its data are not. *)
Theorem C105_precision_refuted : exists l q out r, In q l /\ sound q /\ sound out /\ all_reduceZ SUM l q None = None /\ all_reduceZ SUM l q (Some out) = Some r /\
  m_dt (metadata r) = Float32 /\ dt (data r) = Float64.
Proof.
  exists [quantity23 1 0 Float32 false], (quantity23 1 0 Float32 false), (quantity23 0 0 Float64 false). eexists. split; [now left|]. split; [vm_compute; auto 10|]. split; [vm_compute; auto 10|].
  split; [reflexivity|]. split; [vm_compute; reflexivity|]. auto.
Qed.
Print Assumptions C105_precision_refuted.
(** Full statement: the elements of one index are combined, whatever the memory order.  With an input in the order of C and an output
    in the order of Fortran the elements of different indices are exchanged. *)
Theorem C105_order_refuted : exists q out r, per_elementZ SUM [q] out = Some r /\ sound q /\ sound out /\ shape (data q) = shape (data out) /\
  elt (data r) [0; 1] = 12 /\ elt (data q) [0; 1] = 11.
Proof. exists (quantity23 1 0 Float64 false), (quantity23 0 0 Float64 true). eexists. split; [vm_compute; reflexivity|]. split; [vm_compute; auto 10|]. split; [vm_compute; auto 10|]. auto. Qed.
Print Assumptions C105_order_refuted.
(** Full statement: outputs of another shape are refused.  all_reduce_per_element accepts any with as many elements. *)
Definition quantity32 : quantity Z := Quantity (Array [3; 2] false (fun _ => 0) Float64) (Meta [0; 0] [3; 2] 0 ["x"; "y"]%string "m" Float64 "numpy") ["x"; "y"]%string [0; 0] [3; 2].
Theorem C105_shape_refuted : exists q out r, per_elementZ SUM [q] out = Some r /\ sound q /\ sound out /\ shape (data q) <> shape (data out).
Proof. exists (quantity23 1 0 Float64 false), quantity32. eexists. split; [vm_compute; reflexivity|]. split; [vm_compute; auto 10|]. split; [vm_compute; auto 10|]. discriminate. Qed.
Print Assumptions C105_shape_refuted.
