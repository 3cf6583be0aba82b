(** C141: pipelines of schedule tree optimizations. *)
From Coq Require Import List Bool String Ascii Arith Lia DecimalString.
From Verif Require Import Base Dict SaveModel SaveProps PipeModel.
Import ListNotations.
Local Open Scope list_scope.
Local Open Scope nat_scope.

(** ** names of the reports *)
Lemma app_inj_l (a b c : string) : (a ++ b = a ++ c -> b = c)%string.
Proof. induction a as [|x a IH]; cbn; [auto|]. intros [= E]. auto. Qed.
Lemma digits_sep (u v : Decimal.uint) (x y : string) : (NilEmpty.string_of_uint u ++ String "_" x = NilEmpty.string_of_uint v ++ String "_" y)%string -> NilEmpty.string_of_uint u = NilEmpty.string_of_uint v.
Proof.
  revert v. induction u; destruct v; cbn; intros E; try reflexivity; try discriminate; injection E as E; f_equal; auto.
Qed.
Lemma report_path_inj {T} dir i j (p q : pass T) : report_path dir i p = report_path dir j q -> i = j.
Proof.
  intros E. assert (E' : ("pass" ++ decimal i ++ "_" ++ p_name p ++ ".txt" = "pass" ++ decimal j ++ "_" ++ p_name q ++ ".txt")%string).
  { unfold report_path in E. destruct dir as [d|]; [|exact E]. apply app_inj_l in E. apply (app_inj_l "/") in E. exact E. }
  apply (app_inj_l "pass") in E'. apply decimal_inj. unfold decimal in *. cbn [append] in E'. exact (digits_sep _ _ _ _ E').
Qed.

Section Props.
Context {T : Type}.
Variables (as_string : T -> string) (can_write : string -> bool).
Local Notation run := (run as_string can_write).
Local Notation run_from := (run_from as_string can_write).

(** Without verbose the run succeeds exactly if every pass does, each on the tree as the one before has left it; the result is the tree after the last one, and no file is touched. *)
Theorem C141_order : forall dir passes t files t' files',
  run dir false passes t files = (t', files', false) <-> files' = files /\ exists ts, chain passes t ts /\ t' = last ts t.
Proof.
  intros dir passes t files t' files'. unfold PipeModel.run.
  enough (G : forall i t, run_from dir false i passes t files = (t', files', false) <-> files' = files /\ exists ts, chain passes t ts /\ t' = last ts t) by apply G.
  clear t. induction passes as [|p l IH]; intros i t; cbn [PipeModel.run_from].
  - split; [intros [= <- <-]; split; [reflexivity|]; exists []; split; [constructor|reflexivity]|]. intros (-> & ts & C & ->). inversion C; subst. reflexivity.
  - destruct (p_visit p t) as [t1 [|]] eqn:V.
    + split; [discriminate|]. intros (_ & ts & C & _). inversion C; subst. congruence.
    + rewrite IH. assert (L : forall ts, last (t1 :: ts) t = last ts t1).
      { intros ts. revert t1 V. clear. intros t1 _. revert t1. induction ts as [|a ts IH]; intros t1; [reflexivity|]. change (last (t1 :: a :: ts) t) with (last (a :: ts) t). rewrite IH. symmetry.
        destruct ts as [|b ts]; [reflexivity|]. change (last (b :: ts) t1 = last (b :: ts) a). clear. revert b. induction ts as [|c ts IH]; intros b; [reflexivity|]. exact (IH c). }
      split; intros (-> & ts & C & ->); split; try reflexivity.
      * exists (t1 :: ts). split; [econstructor; eassumption|]. now rewrite L.
      * inversion C as [|? ? ? t2 ts' V' C']; subst. rewrite V in V'. injection V' as <-. exists ts'. split; [exact C'|apply L].
Qed.

(** A pass that raises is the last one that runs, verbose or not, and the exception reaches the caller. *)
Theorem C141_stops : forall dir before p after t ts t1 files, chain before t ts -> p_visit p (last ts t) = (t1, true) -> run dir false (before ++ p :: after) t files = (t1, files, true).
Proof.
  intros dir before p after t ts t1 files C. unfold PipeModel.run.
  enough (G : forall i, p_visit p (last ts t) = (t1, true) -> run_from dir false i (before ++ p :: after) t files = (t1, files, true)) by apply G.
  induction C as [t|q l t t2 ts V C IH]; intros i F.
  - cbn in F |- *. now rewrite F.
  - cbn [app PipeModel.run_from]. rewrite V. apply IH. rewrite <- F. clear. f_equal. revert t2. induction ts as [|a ts IH]; intros t2; [reflexivity|]. change (last (t2 :: a :: ts) t) with (last (a :: ts) t).
    clear IH. revert a. induction ts as [|b ts IH]; intros a; [reflexivity|exact (IH b)].
Qed.

(** Verbose, with reports that can be written: the same tree, for every pass a report with the tree as that pass has left it, under its number and name, and no other file is touched. *)
Theorem C141_verbose_partial : forall dir passes t files ts, chain passes t ts ->
  (forall i p, nth_error passes i = Some p -> can_write (report_path dir i p) = true) ->
  exists files', run dir true passes t files = (last ts t, files', false) /\
    (forall i p ti, nth_error passes i = Some p -> nth_error ts i = Some ti ->
       get files' (match dir with None => "" | Some d => d ++ "/" end ++ "pass" ++ decimal i ++ "_" ++ p_name p ++ ".txt")%string = Some (as_string ti)) /\
    (forall name, (forall i p, nth_error passes i = Some p -> name <> report_path dir i p) -> get files' name = get files name).
Proof.
  intros dir passes t files ts C W.
  assert (G : forall k files, (forall i p, nth_error passes i = Some p -> can_write (report_path dir (k + i) p) = true) ->
    exists files', run_from dir true k passes t files = (last ts t, files', false) /\
    (forall i p ti, nth_error passes i = Some p -> nth_error ts i = Some ti -> get files' (report_path dir (k + i) p) = Some (as_string ti)) /\
    (forall name, (forall i p, nth_error passes i = Some p -> name <> report_path dir (k + i) p) -> get files' name = get files name)).
  { clear W files. induction C as [t|q l t t1 ts V C IH]; intros k files W.
    - exists files. split; [reflexivity|]. split; [intros [|i] p ti; discriminate|reflexivity].
    - cbn [PipeModel.run_from]. rewrite V. assert (W0 : can_write (report_path dir k q) = true) by (rewrite <- (Nat.add_0_r k); exact (W 0 q eq_refl)). rewrite W0.
      destruct (IH (S k) (put files (report_path dir k q) (as_string t1))) as (files' & R & S1 & S2).
      { intros i p N. rewrite Nat.add_succ_comm. exact (W (S i) p N). }
      exists files'. split.
      { rewrite R. f_equal. f_equal. clear. revert t1. induction ts as [|a ts IH]; intros t1; [reflexivity|]. change (last (t1 :: a :: ts) t) with (last (a :: ts) t).
        clear IH. revert a. induction ts as [|b ts IH]; intros a; [reflexivity|exact (IH b)]. }
      split.
      + intros [|i] p ti N M.
        * injection N as <-. injection M as <-. rewrite Nat.add_0_r. rewrite S2, get_put, String.eqb_refl; [reflexivity|].
          intros i p N E. apply report_path_inj in E. lia.
        * rewrite <- Nat.add_succ_comm. exact (S1 i p ti N M).
      + intros name D. rewrite S2.
        * rewrite get_put. destruct (String.eqb_spec name (report_path dir k q)) as [E|]; [|reflexivity]. exfalso. apply (D 0 q eq_refl). now rewrite Nat.add_0_r.
        * intros i p N. rewrite Nat.add_succ_comm. exact (D (S i) p N). }
  destruct (G 0 files W) as (files' & R & S1 & S2). exists files'. split; [exact R|]. split; [|exact S2].
  intros i p ti N M. rewrite <- (S1 i p ti N M). f_equal. unfold report_path. destruct dir as [d|]; [|reflexivity]. rewrite SaveProps.append_assoc. reflexivity.
Qed.
(** The reports never change what is in the tree: verbose or not, a run that succeeds gives the same. *)
Theorem C141_same : forall dir passes t files t' files', run dir true passes t files = (t', files', false) -> run dir false passes t files = (t', files, false).
Proof.
  intros dir passes t files t' files'. unfold PipeModel.run. enough (H : forall passes t i f1 f2, run_from dir true i passes t f1 = (t', files', false) -> run_from dir false i passes t f2 = (t', f2, false)) by eauto.
  clear. induction passes as [|p l IH]; intros t i f1 f2; cbn [PipeModel.run_from]; [intros [= <- _]; reflexivity|].
  destruct (p_visit p t) as [t1 [|]]; [discriminate|]. destruct (can_write _); [apply IH|discriminate].
Qed.
(** Passes that are given are the ones that run, an empty list too; without any, a CPUPipeline merges along K and a GPUPipeline does nothing. *)
Theorem C141_given : forall merge_k (l : list (pass T)), cpu_passes merge_k (Some l) = l /\ gpu_passes (Some l) = l /\
  (forall dir verbose t files, run dir verbose (gpu_passes None) t files = (t, files, false)) /\
  (forall dir t files, run dir false (cpu_passes merge_k None) t files = (fst (p_visit merge_k t), files, snd (p_visit merge_k t))).
Proof. intros merge_k l. repeat split. intros dir t files. cbn. now destruct (p_visit merge_k t) as [t1 [|]]. Qed.
End Props.
Print Assumptions C141_order.
Print Assumptions C141_stops.
Print Assumptions C141_verbose_partial.
Print Assumptions C141_same.
Print Assumptions C141_given.

(** The full statement is false where reports cannot be written, e.g. because the build folder is not there yet: neither run nor its caller (orchestration.py 236-238) makes it.  If nothing else did,
    the first report raises, with the tree changed by one pass, where the same run without verbose succeeds. *)
Definition add_one (name : string) : pass nat := Pass name (fun t => (S t, false)).
Theorem C141_folder_refuted : exists (T : Type) (as_string : T -> string) can_write dir passes t t' files, chain passes t [t'; t] /\ t' <> t /\
  run as_string can_write dir false passes t files = (t, files, false) /\ run as_string can_write dir true passes t files = (t', files, true).
Proof.
  exists bool, (fun b : bool => if b then "true" else "false")%string, (fun _ => false), (Some "/scratch/.gt_cache_FV3_A/dacecache/step"%string), [Pass "swap" (fun t => (negb t, false)); Pass "swap" (fun t => (negb t, false))], true, false, [].
  split; [repeat econstructor|]. split; [discriminate|]. split; reflexivity.
Qed.
Print Assumptions C141_folder_refuted.

Example C141_case : chain [add_one "CleanUpScheduleTree"; add_one "CartesianAxisMerge__I_"] 3 [4; 5] /\
  run decimal (fun _ => true) (Some "build"%string) true [add_one "CleanUpScheduleTree"; add_one "CartesianAxisMerge__I_"] 3 [] =
  (5, [("build/pass0_CleanUpScheduleTree.txt", "4"); ("build/pass1_CartesianAxisMerge__I_.txt", "5")]%string, false).
Proof. split; [repeat econstructor|reflexivity]. Qed.
