(** C56: performance reports.  Model and specification in PerfModel.v. *)
From Verif Require Import Base Dict TimerModel TimerProofs PerfModel PerfProofs.

(** C56 (partial). After any sequence of timer calls, collections and clears on a new collector - whichever of them raise -
    the rank-0 report gives, for every operation name, the number of intervals timed in all steps collected since the last
    clear and the total of each step it occurred in, and has no entry for any other name; the full report (written once)
    adds the total timer's intervals as one more step.  Missing: a second full report, see [C56_second_report_refuted]. *)
Theorem C56_hits_partial :
  forall T (minus plus : T -> T -> T) os,
  let '(c, h) := exec_all minus plus os new_collector [] in
  (exists report, fst (write_rank_0 c) = Some report /\ forall n, get report n = entry_of plus (collected minus h n)) /\
  (exists report, fst (write_all c) = Some report /\
     forall n, get report n = entry_of plus (collected minus h n ++ [intervals minus true (total_calls h) n])).
Proof.
  intros T minus plus os. pose proof (exec_all_inv minus plus os new_collector [] (new_inv minus plus)) as I.
  destruct (exec_all minus plus os new_collector []) as [c h]. destruct I as (I1 & I2 & N1 & N2 & S). split.
  - destruct (report_ok plus _ _ _ S) as (info & E & A). exists info. split; auto. intros n. rewrite A, snaps_collected. reflexivity.
  - assert (S' : snap_ok plus (snaps minus h ++ [intervals minus true (total_calls h)]) (times_per_step c ++ [acc (total_timer c)]) (hits_per_step c ++ [hit (total_timer c)])).
    { constructor; auto. apply inv_dicts; auto. }
    destruct (report_ok plus _ _ _ S') as (info & E & A). exists info. split; auto. intros n. rewrite A, map_app, snaps_collected. reflexivity.
Qed.
Print Assumptions C56_hits_partial.

Example C56_case :
  let '(c, h) := exec_all Z.sub Z.add [TotalTimer (Start "total" 0); StepTimer (Start "a" 1); StepTimer (Stop "a" 3); StepTimer (Start "a" 4); StepTimer (Stop "a" 9);
      Collect; StepTimer (Start "b" 10); Collect; StepTimer (Stop "b" 12); StepTimer (Stop "b" 12); StepTimer (Start "a" 20); StepTimer (Stop "a" 21); Collect;
      TotalTimer (Stop "total" 30)]%Z%string new_collector [] in
  option_map (fun r => map (fun n => get r n) ["a"; "b"; "total"; "z"]%string) (fst (write_all c)) =
    Some [Some (3, [7; 1]); Some (1, [2]); Some (1, [30]); None]%Z /\
  collected Z.sub h "a" = [[2; 5]; []; [1]]%Z.
Proof. vm_compute. auto. Qed.

(** Full statement: every report equals the number of timed events.  False for a second full report: each write_out_performance appends the total
    timer's counts to the collected steps for good, so the second one counts them twice. *)
Theorem C56_second_report_refuted : exists os n,
  let '(c, h) := exec_all Z.sub Z.add os new_collector [] in
  let c' := snd (write_all c) in
  length (intervals Z.sub true (total_calls h) n) = 1%nat /\ collected Z.sub h n = [] /\
  option_map (fun r => get r n) (fst (write_all c')) = Some (Some (2, [5; 5]))%Z.
Proof. exists [TotalTimer (Start "total" 0); TotalTimer (Stop "total" 5)]%Z%string, "total"%string. vm_compute. auto. Qed.
Print Assumptions C56_second_report_refuted.
