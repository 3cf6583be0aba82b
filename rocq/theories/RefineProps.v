(** Property theorems C63: refinement of transients on schedule trees.  Model and specification: RefineModel.v. *)
From Verif Require Import Base MergeModel MergeMem RefineModel RefineProofs.

(** C63.  An axis of a transient which is indexed by one loop symbol is reduced to one element: if every iteration of a loop over that
    symbol writes the elements it reads before it reads them, every other array ends with the same values, whatever the tasklets
    compute, however the loops are nested and whatever the transient held before.  Missing: values which a transient carries from one
    iteration or loop to another (C63_two_loops_refuted, C63_repeated_map_refuted); one axis of one transient at a time. *)
Theorem C63_refine_keeps_results_partial : forall (V : Type) (f : nat -> list Z -> list (list V) -> nat -> nat -> V) d a s l l' e evs,
  refine d a l = Some l' -> Forall (private d s) l ->
  (forall m b x, In m (flat_map (accesses d) l) -> on_axis a m = Some (b, x) -> fst b = Some s) ->
  all_some (straces e l) = Some evs ->
  exists evs', all_some (straces e l') = Some evs' /\
    forall m m' : string -> list Z -> V, (forall d' i, d' <> d -> m' d' i = m d' i) ->
      forall d' i, d' <> d -> run f m' evs' d' i = run f m evs d' i.
Proof.
  intros V f d a s l l' e evs HR HP HS HE. unfold refine in HR. destruct (refinable d a l) eqn:R; [|discriminate]. injection HR as <-.
  unfold refinable in R. apply andb_true_iff in R. destruct R as [_ R]. apply one_element_aligned in R. destruct R as [xi Al].
  apply all_some_spec in HE. unfold straces in *.
  exists (map (proj_ev d a) evs). split.
  - apply all_some_spec. clear HP HS Al. revert evs HE. induction l as [|n l IH]; intros evs H; cbn in *.
    + destruct evs; [reflexivity|discriminate].
    + symmetry in H. apply map_eq_app in H. destruct H as (e1 & e2 & -> & H1 & H2). rewrite !map_app. f_equal; [apply strace_rebuild; auto|apply IH; auto].
  - assert (X : (forall ev, In ev evs -> exists x, thin d a x ev) /\ forall past, reads_own d a past evs).
    { revert evs HE. induction l as [|n l IH]; intros evs H; cbn in *.
      - destruct evs; [|discriminate]. split; [intros ? []|intros; exact I].
      - symmetry in H. apply map_eq_app in H. destruct H as (e1 & e2 & -> & H1 & H2). inversion HP; subst. apply Forall_app in Al. destruct Al as [Al1 Al2].
        destruct (IH Al2 H4 (fun m b x Hm => HS m b x (in_or_app _ _ _ (or_intror Hm))) e2 (eq_sym H2)) as [B1 B2].
        assert (Y : (forall ev, In ev e1 -> exists x, thin d a x ev) /\ forall past, reads_own d a past e1).
        { destruct (accesses d n) as [|m ms] eqn:Ea.
          - destruct (unused_ok d a 0 e1 (unused_events d _ _ _ Ea (eq_sym H1))) as [X1 X2]. split; [|exact X2].
            intros ev Hv. exists 0. rewrite Forall_forall in X1. auto.
          - assert (Hxi : xi = (Some s, snd xi)).
            { inversion Al1; subst. specialize (HS m xi xi (or_introl eq_refl) H5). destruct xi; cbn in *. congruence. }
            rewrite Hxi in Al1. rewrite <- Ea in Al1. eapply private_ok; eauto. }
        destruct Y as [A1 A2]. split.
        + intros ev Hv. apply in_app_or in Hv. destruct Hv; auto.
        + intros past. apply reads_own_app. auto. }
    destruct X as [X1 X2]. intros m m' Hm d' i Hd.
    assert (Inv : inv d a [] m m'). { intros d1 i1 N. cbn in N. rewrite proj_other by exact N. apply Hm. exact N. }
    pose proof (run_inv d a f evs [] m m' Inv X1 (X2 [])) as Fin.
    specialize (Fin d' i (own_other d a d' i Hd _)). rewrite proj_other in Fin by exact Hd. exact Fin.
Qed.
Print Assumptions C63_refine_keeps_results_partial.

(** C63, accesses at one constant index: it is enough that the program as a whole writes what it reads. *)
Theorem C63_refine_constant_index_partial : forall (V : Type) (f : nat -> list Z -> list (list V) -> nat -> nat -> V) d a c l l' e evs,
  refine d a l = Some l' ->
  (forall m b x, In m (flat_map (accesses d) l) -> on_axis a m = Some (b, x) -> b = (None, c)) ->
  all_some (straces e l) = Some evs -> written_first d evs ->
  exists evs', all_some (straces e l') = Some evs' /\
    forall m m' : string -> list Z -> V, (forall d' i, d' <> d -> m' d' i = m d' i) ->
      forall d' i, d' <> d -> run f m' evs' d' i = run f m evs d' i.
Proof.
  intros V f d a c l l' e evs HR HS HE HW. unfold refine in HR. destruct (refinable d a l) eqn:R; [|discriminate]. injection HR as <-.
  unfold refinable in R. apply andb_true_iff in R. destruct R as [_ R]. apply one_element_aligned in R. destruct R as [xi Al].
  apply all_some_spec in HE. unfold straces in *.
  exists (map (proj_ev d a) evs). split.
  - apply all_some_spec. clear HS Al HW. revert evs HE. induction l as [|n l IH]; intros evs H; cbn in *.
    + destruct evs; [reflexivity|discriminate].
    + symmetry in H. apply map_eq_app in H. destruct H as (e1 & e2 & -> & H1 & H2). rewrite !map_app. f_equal; [apply strace_rebuild; auto|apply IH; auto].
  - assert (T : Forall (thin d a c) evs).
    { destruct (flat_map (accesses d) l) as [|m ms] eqn:Ea.
      - assert (A0 : Forall (fun n => accesses d n = []) l).
        { clear -Ea. induction l as [|n l IH]; constructor; cbn in Ea; apply app_eq_nil in Ea; [tauto|apply IH; tauto]. }
        clear -A0 HE. revert evs HE. induction l as [|n l IH]; intros evs H; cbn in *.
        + destruct evs; [constructor|discriminate].
        + inversion A0; subst. symmetry in H. apply map_eq_app in H. destruct H as (e1 & e2 & -> & G3 & G4). apply Forall_app. split; [|apply IH; auto].
          apply (unused_ok d a c e1 (unused_events d _ _ _ ltac:(eassumption) (eq_sym G3))).
      - assert (xi = (None, c)) as -> by (inversion Al; subst; apply (HS m xi xi (or_introl eq_refl) H1)).
        rewrite <- Ea in Al. clear -Al HE. revert evs HE. induction l as [|n l IH]; intros evs H; cbn in *.
        + destruct evs; [constructor|discriminate].
        + symmetry in H. apply map_eq_app in H. destruct H as (e1 & e2 & -> & H3 & H4). apply Forall_app in Al. apply Forall_app.
          split; [|apply IH; [tauto|auto]]. eapply thin_constant; [apply Al|symmetry; exact H3]. }
    intros m m' Hm d' i Hd.
    assert (Inv : inv d a [] m m'). { intros d1 i1 N. cbn in N. rewrite proj_other by exact N. apply Hm. exact N. }
    assert (X1 : forall ev, In ev evs -> exists x, thin d a x ev) by (intros ev Hv; exists c; rewrite Forall_forall in T; auto).
    pose proof (run_inv d a f evs [] m m' Inv X1 (iteration_ok d a c evs [] T HW)) as Fin.
    specialize (Fin d' i (own_other d a d' i Hd _)). rewrite proj_other in Fin by exact Hd. exact Fin.
Qed.
Print Assumptions C63_refine_constant_index_partial.

(** the programs of the witnesses: t is the transient, a the input, b the output *)
Definition at_k (d : string) : memlet := mkMemlet d [((None, 0), (None, 0)); ((None, 0), (None, 0)); ((Some "__k"%string, 0), (Some "__k"%string, 0))].
Definition copy (id : nat) (from to : string) : snode := STask (mkTask id [at_k from] [at_k to] []).
Definition first_input (id : nat) (code : list Z) (ins : list (list Z)) (o j : nat) : Z := nth j (nth 0 ins []) 0.
Definition empty_env : env := fun _ => None.
Definition final (l : list snode) (m : string -> list Z -> Z) (d : string) (i : list Z) : option Z :=
  option_map (fun evs => run first_input m evs d i) (all_some (straces empty_env l)).
Definition input (d : string) (i : list Z) : Z := match d, i with "a"%string, [_; _; k] => 10 + k | _, _ => 0 end.

(** C63 fails: a transient written by one for loop over K and read by the next is refined (only maps are counted); the second loop then
    reads the last value everywhere. *)
Theorem C63_two_loops_refuted : exists l l' : list snode,
  refine "t" AxK l = Some l' /\ final l input "b" [0; 0; 0] = Some 10 /\ final l' input "b" [0; 0; 0] = Some 12.
Proof.
  exists [Scope AFor "__k" (mkRange 0 2 1) [copy 1 "a" "t"]; Scope AFor "__k" (mkRange 0 2 1) [copy 2 "t" "b"]].
  eexists. split; [reflexivity|]. split; vm_compute; reflexivity.
Qed.
Print Assumptions C63_two_loops_refuted.

(** C63 fails: one map, run twice by an enclosing loop, writing the transient the first time and reading it the second time. *)
Theorem C63_repeated_map_refuted : exists l l' : list snode,
  refine "t" AxK l = Some l' /\ final l input "b" [0; 0; 0] = Some 10 /\ final l' input "b" [0; 0; 0] = Some 12.
Proof.
  exists [Scope AFor "n" (mkRange 0 1 1)
            [Scope (AMap 0) "__k" (mkRange 0 2 1)
               [SIf (mkCond "n" (fun n => n =? 0)) [copy 1 "a" "t"]; SIf (mkCond "n" (fun n => n =? 1)) [copy 2 "t" "b"]]]].
  eexists. split; [reflexivity|]. split; vm_compute; reflexivity.
Qed.
Print Assumptions C63_repeated_map_refuted.

(** C63 (part): a temporary that two different maps over the axis use is left alone.  [direct]: the node uses d outside of any map over
    the axis that it contains; [used_in e]: a use of d whose innermost map over the axis is e *)
Inductive direct (d : string) (a : axis) : snode -> Prop :=
| DTask t m : In m (t_in t ++ t_out t) -> m_data m = d -> direct d a (STask t)
| DFor s r cs n : In n cs -> direct d a n -> direct d a (Scope AFor s r cs)
| DMap e s r cs n : String.prefix (axis_str a) s = false -> In n cs -> direct d a n -> direct d a (Scope (AMap e) s r cs)
| DIf c cs n : In n cs -> direct d a n -> direct d a (SIf c cs).
Inductive used_in (d : string) (a : axis) (e : nat) : snode -> Prop :=
| UMap s r cs n : String.prefix (axis_str a) s = true -> In n cs -> direct d a n -> used_in d a e (Scope (AMap e) s r cs)
| UScope k s r cs n : In n cs -> used_in d a e n -> used_in d a e (Scope k s r cs)
| UIf c cs n : In n cs -> used_in d a e n -> used_in d a e (SIf c cs).
Lemma direct_maps d a e n : direct d a n -> In e (maps_of d a (Some e) n).
Proof.
  induction 1 as [t m Hm Hd|s r cs n Hn _ IH|e' s r cs n P Hn _ IH|c cs n Hn _ IH]; cbn [maps_of].
  - replace (existsb (of_data d) (task_memlets t)) with true; [left; reflexivity|]. symmetry. apply existsb_exists. exists m. split; [exact Hm|]. apply String.eqb_eq, Hd.
  - apply in_flat_map. exists n. auto.
  - rewrite P. apply in_flat_map. exists n. auto.
  - apply in_flat_map. exists n. auto.
Qed.
Lemma used_in_maps d a e n : used_in d a e n -> forall x, In e (maps_of d a x n).
Proof.
  induction 1 as [s r cs n P Hn D|k s r cs n Hn _ IH|c cs n Hn _ IH]; intros x; cbn [maps_of].
  - rewrite P. apply in_flat_map. exists n. split; [exact Hn|]. apply direct_maps, D.
  - destruct k; apply in_flat_map; exists n; split; auto.
  - apply in_flat_map. exists n. split; auto.
Qed.
Theorem C63_two_maps_refused d a l e1 e2 n1 n2 : In n1 l -> In n2 l -> used_in d a e1 n1 -> used_in d a e2 n2 -> e1 <> e2 -> refine d a l = None.
Proof.
  intros H1 H2 U1 U2 N. unfold refine, refinable.
  set (u := nodup Nat.eq_dec (flat_map (maps_of d a None) l)).
  assert (I1 : In e1 u) by (apply nodup_In, in_flat_map; exists n1; split; [exact H1|apply used_in_maps, U1]).
  assert (I2 : In e2 u) by (apply nodup_In, in_flat_map; exists n2; split; [exact H2|apply used_in_maps, U2]).
  destruct u as [|x [|y u]]; [destruct I1| |reflexivity]. destruct I1 as [<-|[]]. destruct I2 as [<-|[]]. congruence.
Qed.
Print Assumptions C63_two_maps_refused.
Example C63_two_maps_case :
  let n1 := Scope (AMap 0) "__k" (mkRange 0 2 1) [copy 1 "a" "t"] in let n2 := Scope (AMap 1) "__k" (mkRange 0 2 1) [Scope (AMap 2) "__i" (mkRange 0 0 1) [copy 2 "t" "b"]] in
  used_in "t" AxK 0 n1 /\ used_in "t" AxK 1 n2 /\ refine "t" AxK [n1; n2] = None /\ refine "t" AxK [n1] <> None.
Proof.
  cbn zeta. split; [|split; [|split; [reflexivity|discriminate]]].
  - eapply UMap; [reflexivity|left; reflexivity|]. eapply DTask; [right; left; reflexivity|reflexivity].
  - eapply UMap; [reflexivity|left; reflexivity|]. eapply DMap; [reflexivity|left; reflexivity|]. eapply DTask; [left; reflexivity|reflexivity].
Qed.

(** a map which writes and then reads the transient at the same level *)
Example C63_case :
  let l := [Scope (AMap 0) "__k" (mkRange 0 2 1) [copy 1 "a" "t"; copy 2 "t" "b"]] in
  (exists l', refine "t" AxK l = Some l' /\ map (fun k => final l' input "b" [0; 0; k]) [0; 1; 2] = [Some 10; Some 11; Some 12]) /\
  Forall (private "t" "__k") l /\
  (forall m b x, In m (flat_map (accesses "t") l) -> on_axis AxK m = Some (b, x) -> fst b = Some "__k"%string).
Proof.
  cbn zeta. split; [eexists; split; [reflexivity|vm_compute; reflexivity]|]. split.
  - constructor; [|constructor]. apply InScope; [reflexivity|]. intros e x evs H. cbn in H. injection H as <-.
    intros before ev after i E R. destruct before as [|b1 [|b2 before]]; cbn in E.
    + injection E as <- _. destruct R as (b & [[=]|[]] & _).
    + injection E as <- <- _. exists (mkEvent 1 [("a"%string, [(0, 0); (0, 0); (x + 0, x + 0)])] [("t"%string, [(0, 0); (0, 0); (x + 0, x + 0)])] []).
      split; [left; reflexivity|]. destruct R as (b & [[= <-]|[]] & Hi). exists [(0, 0); (0, 0); (x + 0, x + 0)]. split; [left; reflexivity|exact Hi].
    + injection E as _ _ E. destruct before; discriminate.
  - cbn. intros m b x [<-|[<-|[]]] [= <- _]; reflexivity.
Qed.
