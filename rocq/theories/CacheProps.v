(** Property theorems C24: replaying recorded communication.  Model and the discipline [in_order]: CacheModel.v. *)
From Verif Require Import Base CacheModel CacheProofs.

(** C24.  Let a rank run a program (p ++ rest) whose deferred receives are waited for in the order they were posted, with no
    other receiving call in between, and whose gathers are on the root.  Then replaying from the record the same program
    never raises, and after every prefix p all the program's arrays and all the objects returned to it are the same as
    when recording.  (A program that branches on received data therefore takes the same branches.)
    Missing: other orders of waits, and gathers on ranks other than the root — see the refutations. *)
Theorem C24_replay_equals_recording_partial : forall (V : Type) (data : nat -> V) (from_none : option V) p rest m, in_order (p ++ rest) [] 0 ->
  exists fs, replay from_none p (r_start m (record data (p ++ rest) (w_start m))) = Some fs /\
    r_mem fs = w_mem (record data p (w_start m)) /\ r_out fs = w_out (record data p (w_start m)).
Proof. intros V. exact replay_ok. Qed.
Print Assumptions C24_replay_equals_recording_partial.

Definition case_prog : list (call (V := Z)) :=
  [Bcast; Irecv 1; Irecv 2; SendCall; Allreduce; Wait 0; Compute (fun m => set m 5 (m 1 + 1)); Wait 1; Recv 1; Gather (Some 3); Irecv 4; Wait 2]%Z.
Example C24_case : in_order case_prog [] 0 /\
  match replay None case_prog (r_start (fun _ => 0%Z) (record (fun n => Z.of_nat n * 10)%Z case_prog (w_start (fun _ => 0%Z)))) with
  | Some s => map (r_mem s) [1; 2; 3; 4; 5]%Z = [40; 30; 50; 60; 21]%Z /\ r_out s = [0; 10]%Z
  | None => False
  end.
Proof. vm_compute. intuition. Qed.

(** C24 fails when two deferred receives are waited for in the other order: the replay gives each the other's data.
    (Two halo updates started A, B and waited B, A.) *)
Theorem C24_wait_order_refuted : exists prog : list (call (V := Z)), prog = [Irecv 1; Irecv 2; Wait 1; Wait 0]%Z /\
  let w := record Z.of_nat prog (w_start (fun _ => (-1)%Z)) in
  match replay None prog (r_start (fun _ => (-1)%Z) w) with
  | Some s => (w_mem w 1, w_mem w 2) = (1, 0)%Z /\ (r_mem s 1, r_mem s 2) = (0, 1)%Z
  | None => False
  end.
Proof. eexists. split; [reflexivity|]. vm_compute. auto. Qed.
Print Assumptions C24_wait_order_refuted.

(** C24 fails after a gather on a rank that is not the root: recording stores an entry (None) which replaying does not
    consume, so the next receive raises or gets whatever None converts to (NaN), never the recorded 7. *)
Theorem C24_gather_refuted : forall from_none : option Z, from_none <> Some 7%Z ->
  exists prog : list (call (V := Z)), prog = [Gather None; Recv 1]%Z /\
  let w := record (fun _ => 7%Z) prog (w_start (fun _ => 0%Z)) in
  match replay from_none prog (r_start (fun _ => 0%Z) w) with
  | Some s => r_mem s 1%Z <> w_mem w 1%Z
  | None => True
  end.
Proof. intros fn H. eexists. split; [reflexivity|]. destruct fn; cbn; [|auto]. congruence. Qed.
Print Assumptions C24_gather_refuted.
