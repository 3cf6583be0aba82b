(** C121: backends are named by what they are, and the memory of refined transients follows the order of their loops.

    Full statement: Backend(s) is made exactly for the listed names that GT4Py can run, and the parts of the name are its strategy, framework, device and loop order; backends are equal exactly if
    their names are, and comparing with anything else gives False; backends of one GT4Py name differ in their strategy only; names for paths are different and have no colon; the maps of
    an orchestrated program are merged from the outermost loop to the innermost; a refined transient has every element at its own place in memory, the axis of the innermost loop
    varying fastest. *)
From Coq Require Import String Ascii Arith Bool List Lia Permutation.
From Verif Require Import BackModel BackProofs.
Import ListNotations.
Local Open Scope list_scope.
Local Open Scope nat_scope.

Definition strategy_name (s : strategy) : string := match s with STENCIL => "st" | ORCHESTRATION => "orch" end.
Definition device_name (d : device) : string := match d with CPU => "cpu" | GPU => "gpu" end.
Definition framework_name (f : framework) : string := match f with GRIDTOOLS => "gt" | DACE => "dace" | PYTHON => "python" | NUMPY => "numpy" end.
Definition order_name (o : order) : string := match o with IJK => "IJK" | IKJ => "IKJ" | JKI => "JKI" | JIK => "JIK" | KIJ => "KIJ" | KJI => "KJI" end.

(** the parts of the names of the table *)
Definition parts : list (strategy * framework * device * order * string) :=
  [(STENCIL, PYTHON, CPU, IJK, "debug"); (STENCIL, NUMPY, CPU, IJK, "numpy"); (STENCIL, GRIDTOOLS, CPU, IJK, "gt:cpu_kfirst"); (STENCIL, GRIDTOOLS, CPU, KJI, "gt:cpu_ifirst"); (STENCIL, GRIDTOOLS, GPU, KJI, "gt:gpu");
   (STENCIL, DACE, CPU, IJK, "dace:cpu_kfirst"); (ORCHESTRATION, DACE, CPU, IJK, "dace:cpu_kfirst"); (STENCIL, DACE, CPU, KIJ, "dace:cpu"); (ORCHESTRATION, DACE, CPU, KIJ, "dace:cpu");
   (STENCIL, DACE, CPU, KJI, "dace:cpu_KJI"); (ORCHESTRATION, DACE, CPU, KJI, "dace:cpu_KJI"); (STENCIL, DACE, GPU, KJI, "dace:gpu"); (ORCHESTRATION, DACE, GPU, KJI, "dace:gpu")]%string.
Definition spelled (s : strategy) (f : framework) (d : device) (o : order) : string := (strategy_name s ++ ":" ++ framework_name f ++ ":" ++ device_name d ++ ":" ++ order_name o)%string.

(** made, and with which parts *)
Theorem C121_made registered s b : make registered s = Some b <->
  exists g, In (b_strategy b, b_framework b, b_device b, b_order b, g) parts /\ s = spelled (b_strategy b) (b_framework b) (b_device b) (b_order b) /\ name b = s /\
    (registered g = Some GPU \/ registered g = Some CPU /\ b_device b = CPU).
Proof.
  split.
  - unfold make. destruct (find naming s) as [g|] eqn:F; [|discriminate]. intros H. exists g. apply find_in in F.
    repeat (destruct F as [[= <- <-]|F]; [cbn in H; destruct (registered _) as [[|]|]; try discriminate; injection H as <-; cbn; (split; [auto 20|]); (split; [reflexivity|]); (split; [reflexivity|]); auto|]). destruct F.
  - intros (g & I & S & N & R). destruct b as [n st fr de ord]. cbn [b_strategy b_framework b_device b_order name] in *. subst n.
    repeat (destruct I as [[= <- <- <- <- <-]|I]; [subst s; unfold make; cbn; destruct R as [->|[-> Q]]; try discriminate; reflexivity|]). destruct I.
Qed.
Print Assumptions C121_made.

(** backends of one GT4Py backend *)
Theorem C121_gt4py registered s s' b b' : make registered s = Some b -> make registered s' = Some b' -> as_gt4py b = as_gt4py b' ->
  b_framework b = b_framework b' /\ b_device b = b_device b' /\ b_order b = b_order b' /\ (b_strategy b = b_strategy b' -> b = b').
Proof.
  intros H H' E. apply C121_made in H, H'. destruct H as (g & I & S & N & _), H' as (g' & I' & S' & N' & _). unfold as_gt4py in E. rewrite N, N' in E. subst s s'.
  destruct b as [n st fr de ord], b' as [n' st' fr' de' ord']. cbn [b_strategy b_framework b_device b_order name] in *.
  repeat (destruct I as [[= <- <- <- <- <-]|I]; [repeat (destruct I' as [[= <- <- <- <- <-]|I']; [cbn in E; try discriminate; subst n n'; repeat split; congruence|]); destruct I'|]). destruct I.
Qed.
Print Assumptions C121_gt4py.
(** only DaCe is orchestrated; every backend is exactly one of the two *)
Theorem C121_strategy registered s b : make registered s = Some b -> (is_orchestrated b = true -> b_framework b = DACE) /\ is_stencil b = negb (is_orchestrated b) /\
  (is_gpu_backend b = true <-> exists g, as_gt4py b = Some g /\ registered g = Some GPU /\ (b_device b = GPU)).
Proof.
  intros H. apply C121_made in H. destruct H as (g & I & S & N & R). destruct b as [n st fr de ord]. unfold is_orchestrated, is_stencil, is_gpu_backend, as_gt4py. cbn [b_strategy b_framework b_device b_order name] in *. subst n.
  split; [|split; [now destruct st|]].
  - repeat (destruct I as [[= <- <- <- <- <-]|I]; [discriminate || reflexivity|]). destruct I.
  - split; [|intros (g' & _ & _ & ->); reflexivity]. intros D. destruct de; [discriminate|]. exists g. subst s. split; [|split; [destruct R as [R|[_ R]]; [exact R|discriminate]|reflexivity]].
    repeat (destruct I as [E|I]; [try discriminate E; injection E as <- <- <- <-; reflexivity|]). destruct I.
Qed.
Print Assumptions C121_strategy.

(** equality.  Partial: with names of backends and with backends only *)
Theorem C121_equal_partial registered s s' b b' : make registered s = Some b -> make registered s' = Some b' ->
  (equal registered b (Bck b') = Some true <-> s = s') /\ (equal registered b (Str s') = Some true <-> s = s') /\ (s <> s' -> equal registered b (Bck b') = Some false /\ equal registered b (Str s') = Some false).
Proof.
  intros H H'. assert (N := H). assert (N' := H'). apply C121_made in N, N'. destruct N as (_ & _ & _ & N & _), N' as (_ & _ & _ & N' & _). unfold equal. rewrite H', N, N'. destruct (string_dec s s'); repeat split; congruence.
Qed.
Print Assumptions C121_equal_partial.
(** comparing with another string or with None raises *)
Theorem C121_equal_refuted : exists registered b s, make registered "st:numpy:cpu:IJK" = Some b /\ s <> "st:numpy:cpu:IJK"%string /\ equal registered b (Str s) = None /\ equal registered b Anything = None.
Proof. eexists (fun _ => Some CPU), _, "numpy"%string. split; [reflexivity|]. repeat split; discriminate. Qed.
Print Assumptions C121_equal_refuted.

(** names in paths *)
Fixpoint has (c : ascii) (s : string) : Prop := match s with EmptyString => False | String d s' => d = c \/ has c s' end.
Theorem C121_path registered s s' b b' : make registered s = Some b -> make registered s' = Some b' ->
  ~ has ":" (as_safe_for_path b) /\ (as_safe_for_path b = as_safe_for_path b' -> s = s').
Proof.
  intros H H'. assert (N := H). assert (N' := H'). apply C121_made in N, N'. destruct N as (g & I & S & N & _), N' as (g' & I' & S' & N' & _). unfold as_safe_for_path. rewrite N, N'. split.
  - clear. induction s as [|c s IH]; cbn; [tauto|]. intros [E|E]; [|exact (IH E)]. destruct (Ascii.eqb c ":") eqn:Q; [discriminate|]. subst c. discriminate.
  - assert (U : forall t, has "_" t -> t <> s /\ t <> s').
    { assert (V : forall st fr de ord, ~ has "_" (spelled st fr de ord)) by (intros [] [] [] []; cbn; intuition discriminate). intros t T. split; intros ->; [rewrite S in T|rewrite S' in T]; exact (V _ _ _ _ T). }
    assert (K : forall t t', ~ has "_" t -> ~ has "_" t' -> replace ":" "_" t = replace ":" "_" t' -> t = t').
    { induction t as [|c t IH]; intros [|c' t'] X X' E; cbn in E; try discriminate; [reflexivity|]. injection E as E1 E2. cbn in X, X'. f_equal; [|apply IH; tauto].
      destruct (Ascii.eqb_spec c ":") as [->|C], (Ascii.eqb_spec c' ":") as [->|C']; [reflexivity| | |exact E1]; exfalso; [apply X'|apply X]; left; congruence. }
    apply K; intros T; apply U in T; destruct T; congruence.
Qed.
Print Assumptions C121_path.

(** the layout lists the axes from the innermost loop to the outermost, for the loop orders that backends have *)
Theorem C121_layout o : as_layout_map o = rev (loops o) <-> o <> IKJ /\ o <> JIK.
Proof. destruct o; vm_compute; split; (intros [A B]; congruence) || (intros H; split; discriminate) || (intros H; reflexivity) || (intros H; discriminate). Qed.
Print Assumptions C121_layout.
Theorem C121_merges registered s b : make registered s = Some b -> merges (b_order b) = Some (loops (b_order b)) /\ as_layout_map (b_order b) = rev (loops (b_order b)).
Proof.
  intros H. apply C121_made in H. destruct H as (g & I & _). destruct b as [n st fr de ord]. cbn [b_strategy b_framework b_device b_order] in *.
  repeat (destruct I as [[= <- <- <- <- <-]|I]; [split; reflexivity|]). destruct I.
Qed.
Print Assumptions C121_merges.

(** every element of a refined transient has its own place, whatever the order, the axis and the number of data dimensions *)
Lemma set_at_length n x l : length (set_at n x l) = length l.
Proof. revert n. induction l as [|y l IH]; intros [|n]; cbn; auto. Qed.
Theorem C121_places o axis shape : 3 <= length shape ->
  let '(shape', (strides, total)) := refine o axis shape in
  (forall i, (forall d, d < length shape -> i d < nth d shape' 1) -> address (length shape) strides i < total) /\
  (forall i j, (forall d, d < length shape -> i d < nth d shape' 1) -> (forall d, d < length shape -> j d < nth d shape' 1) ->
     address (length shape) strides i = address (length shape) strides j -> forall d, d < length shape -> i d = j d).
Proof.
  intros R. unfold refine. set (shape' := set_at axis 1 shape). assert (L : length shape' = length shape) by apply set_at_length. rewrite L.
  set (dims := layout (as_layout_map o) (length shape)). assert (P : Permutation dims (seq 0 (length shape))) by (apply layout_perm, R).
  assert (N : NoDup dims) by (apply (Permutation_NoDup (Permutation_sym P)), seq_NoDup). assert (T := total_is shape' dims).
  assert (S : forall a d b, dims = a ++ d :: b -> fst (strides_from_layout shape' dims) d = prod shape' a).
  { intros a d b E. rewrite E in N |- *. apply stride_at. apply NoDup_remove_2 in N. intros I. apply N, in_or_app. right. exact I. }
  destruct (strides_from_layout shape' dims) as [strides total]. cbn [fst snd] in *. subst total.
  assert (B : forall d, In d dims -> d < length shape) by (intros d I; apply (Permutation_in d P), in_seq in I; lia).
  assert (AD : forall i, address (length shape) strides i = part strides dims i) by (intros i; symmetry; apply part_perm, P).
  split.
  - intros i I. rewrite AD. apply (part_bound shape' strides dims i N S (fun d D => I d (B d D)) dims []). now rewrite app_nil_r.
  - intros i j I J E d D. rewrite !AD in E. apply (part_inj shape' strides dims i j N S (fun d D => I d (B d D)) (fun d D => J d (B d D)) dims [] ltac:(now rewrite app_nil_r) E).
    apply (Permutation_in d (Permutation_sym P)), in_seq. lia.
Qed.
Print Assumptions C121_places.

(** with three dimensions, the axes vary in the order of the loops: the innermost is contiguous *)
Theorem C121_strides_partial registered s b axis ni nj nk outer middle inner : make registered s = Some b -> loops (b_order b) = [outer; middle; inner] ->
  let '(shape', (strides, total)) := refine (b_order b) axis [ni; nj; nk] in
  strides inner = 1 /\ strides middle = nth inner shape' 1 /\ strides outer = nth inner shape' 1 * nth middle shape' 1.
Proof.
  intros H E. destruct (C121_merges registered s b H) as [_ M]. unfold refine. rewrite M, E. set (shape' := set_at axis 1 [ni; nj; nk]). assert (L : length shape' = 3) by apply set_at_length. rewrite L. cbn [rev app].
  assert (D : NoDup [inner; middle; outer]) by (destruct (b_order b); injection E as <- <- <-; repeat constructor; cbn; intuition discriminate).
  inversion D as [|? ? D1 D2]; subst. inversion D2 as [|? ? D3 D4]; subst. unfold layout. cbn [Nat.eqb].
  assert (S1 := stride_at shape' [] inner [middle; outer] D1). assert (S2 := stride_at shape' [inner] middle [outer] D3). assert (S3 := stride_at shape' [inner; middle] outer [] ltac:(cbn; tauto)). cbn [app] in *.
  destruct (strides_from_layout shape' [inner; middle; outer]) as [strides total]. cbn [fst] in *. rewrite S1, S2, S3. unfold prod. cbn [fold_left]. repeat split; lia.
Qed.
Print Assumptions C121_strides_partial.
(** with data dimensions: for loops in the order IJK the last dimension is contiguous, the first the slowest.  Partial: this order only *)
Theorem C121_data_dims_partial rank : 3 <= rank -> layout (as_layout_map IJK) rank = rev (seq 0 rank).
Proof.
  intros R. unfold layout. destruct (Nat.eqb_spec rank 3) as [->|N]; [reflexivity|]. set (n := rank - 3). replace rank with (n + 3) by lia. rewrite seq_app, rev_app_distr. reflexivity.
Qed.
Print Assumptions C121_data_dims_partial.
(** with a data dimension the axis of the innermost loop is the slowest one *)
Theorem C121_data_dims_refuted : exists registered b shape, make registered "orch:dace:gpu:KJI" = Some b /\ length shape = 4 /\ (forall n, In n shape -> 1 < n) /\
  let '(shape', (strides, total)) := refine (b_order b) 2 shape in forall d, d < 4 -> d <> 0 -> strides d < strides 0.
Proof.
  exists (fun _ => Some GPU), (NewBackend "orch:dace:gpu:KJI" ORCHESTRATION DACE GPU KJI), [4; 5; 6; 7]. repeat split.
  - cbn. intuition lia.
  - vm_compute. intros [|[|[|[|d]]]] D N; lia.
Qed.
Print Assumptions C121_data_dims_refuted.

Example C121_case : make (fun _ => Some CPU) "orch:dace:cpu:KIJ" = Some (NewBackend "orch:dace:cpu:KIJ" ORCHESTRATION DACE CPU KIJ) /\ make (fun _ => Some CPU) "st:dace:gpu:KJI" = None /\ make (fun _ => Some CPU) "st:dace:cpu:IKJ" = None.
Proof. repeat split. Qed.
(** refining shortens the one axis to a single layer and leaves every other one as it is *)
Theorem C121_shrunk : forall o axis shape d, nth_error (fst (refine o axis shape)) d = if Nat.eqb d axis then option_map (fun _ => 1) (nth_error shape d) else nth_error shape d.
Proof.
  intros o axis shape. unfold refine. cbn [fst]. revert axis. induction shape as [|x l IH]; intros axis d.
  - replace (set_at axis 1 []) with (@nil nat) by now destruct axis. destruct d as [|d]; cbn [nth_error option_map]; match goal with |- context [if ?b then _ else _] => now destruct b end.
  - destruct axis as [|a], d as [|d]; cbn [set_at nth_error Nat.eqb]; try reflexivity. apply IH.
Qed.
Print Assumptions C121_shrunk.
Example C121_refine_case : let '(shape', (strides, total)) := refine KIJ 2 [10; 20; 30] in shape' = [10; 20; 1] /\ map strides [0; 1; 2] = [20; 1; 200] /\ total = 200.
Proof. vm_compute. auto. Qed.
