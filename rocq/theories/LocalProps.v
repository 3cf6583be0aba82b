(** Property theorems C19, C20, C21: the simulated communicator.  Model: LocalModel.v.  Specification: LocalSpec.v.
    [ops] is any interleaving of calls by any ranks, writes to arrays by the program, and waits in any order. *)
From Verif Require Import Base LocalModel LocalSpec LocalProofs.
Open Scope Z_scope.

(** C19.  For each (source, destination, tag) the values received are a prefix of the values sent (as they were when
    sent), in order. *)
Theorem C19_received_is_prefix_of_sent : forall (V : Type) total (a : Z -> V) tb ops k,
  exists rest, sent k (trace ops (initial total a tb)) = got k (trace ops (initial total a tb)) ++ rest.
Proof. intros V. exact fifo. Qed.
Print Assumptions C19_received_is_prefix_of_sent.

(** C19.  After any history, a receive succeeds exactly when some value sent on its key is still undelivered; it then
    delivers the next one, and changes no other array.  Otherwise it raises and changes nothing. *)
Theorem C19_receive_delivers_next : forall (V : Type) total (a : Z -> V) tb ops r l src tag,
  let s := exec ops (initial total a tb) in let t := trace ops (initial total a tb) in let k := (src, r, tag) in
  match skipn (length (got k t)) (sent k t) with
  | v :: _ => fst (step (Recv r l src tag) s) = Returned None /\ arr (snd (step (Recv r l src tag) s)) l = v /\
      (forall l', l' <> l -> arr (snd (step (Recv r l src tag) s)) l' = arr s l') /\
      tab (snd (step (Recv r l src tag) s)) = tab s
  | [] => snd (step (Recv r l src tag) s) = s /\
      fst (step (Recv r l src tag) s) = Raised (match sent k t with [] => ConcurrencyError | _ => IndexError end)
  end.
Proof. intros V. exact recv_outcome. Qed.
Print Assumptions C19_receive_delivers_next.

(** C19.  A deferred receive behaves as a receive made when it is waited for. *)
Theorem C19_deferred_receive : forall (V : Type) (s : st (V := V)) k q, nth_error (reqs s) k = Some q ->
  step (Wait k) s = step (Recv (rq_rank q) (rq_buf q) (rq_src q) (rq_tag q)) s.
Proof. intros V. exact wait_is_recv. Qed.
Print Assumptions C19_deferred_receive.

(** Two sends, the sender's array overwritten in between and after, waits in the order of the requests. *)
Example C19_case :
  let ops := [Irecv 1 20 0 5; Write 10 100; Send 0 10 1 5; Write 10 200; Send 0 10 2 5; Send 0 10 1 5; Write 10 300; Wait 0; Recv 1 21 0 5] in
  got (0, 1, 5) (trace ops (initial 3 (fun _ => 0) (fun _ => []))) = [100; 200] /\
  sent (0, 1, 5) (trace ops (initial 3 (fun _ => 0) (fun _ => []))) = [100; 200].
Proof. vm_compute. split; reflexivity. Qed.

(** C20.  When nothing was ever sent on the key, completing a receive raises ConcurrencyError and changes nothing.
    Missing from C20: the case in which everything sent has been received (see the next theorem). *)
Theorem C20_never_sent_partial : forall (V : Type) total (a : Z -> V) tb ops r l src tag,
  sent (src, r, tag) (trace ops (initial total a tb)) = [] ->
  step (Recv r l src tag) (exec ops (initial total a tb)) = (Raised ConcurrencyError, exec ops (initial total a tb)).
Proof.
  intros V total a tb ops r l src tag E. pose proof (recv_outcome total a tb ops r l src tag) as H. cbn zeta in H.
  rewrite E in H. rewrite skipn_nil in H. destruct H as [H1 H2]. apply injective_projections; assumption.
Qed.
Print Assumptions C20_never_sent_partial.

(** C20 as stated fails: after one message was sent and received, a second receive raises IndexError. *)
Theorem C20_drained_refuted : exists (ops : list (op (V := Z))) r l src tag,
  let s := exec ops (initial 2 (fun _ => 0) (fun _ => [])) in
  sent (src, r, tag) (trace ops (initial 2 (fun _ => 0) (fun _ => []))) = got (src, r, tag) (trace ops (initial 2 (fun _ => 0) (fun _ => []))) /\
  step (Recv r l src tag) s = (Raised IndexError, s).
Proof.
  exists [Send 0 10 1 5; Recv 1 20 0 5], 1, 20, 0, 5. cbn zeta. split; [reflexivity|].
  pose proof (recv_outcome 2 (fun _ => 0) (fun _ => []) [Send 0 10 1 5; Recv 1 20 0 5] 1 20 0 5) as H. cbn zeta in H.
  vm_compute (skipn _ _) in H. destruct H as [H1 H2]. vm_compute (match sent _ _ with [] => _ | _ => _ end) in H2.
  apply injective_projections; assumption.
Qed.
Print Assumptions C20_drained_refuted.

(** C21.  The k-th broadcast call of every rank returns, if it does not raise, the object rank 0 gave in its k-th. *)
Theorem C21_bcast_gives_root_value : forall (V : Type) total (a : Z -> V) tb ops r k x,
  nth_error (bcast_results r (trace ops (initial total a tb))) k = Some (Some x) ->
  nth_error (offered (trace ops (initial total a tb))) k = Some x.
Proof. intros V. exact bcast_root_value. Qed.
Print Assumptions C21_bcast_gives_root_value.

(** C21.  It does not raise on rank 0, nor on a rank that has made fewer calls than rank 0. *)
Theorem C21_bcast_succeeds : forall (V : Type) total (a : Z -> V) tb ops r ref,
  let s := exec ops (initial total a tb) in let t := trace ops (initial total a tb) in
  r = 0 \/ (length (bcast_results r t) < length (offered t))%nat -> exists x, fst (step (Bcast r ref 0) s) = Returned (Some x).
Proof. intros V. exact bcast_succeeds. Qed.
Print Assumptions C21_bcast_succeeds.

(** C21.  The k-th scatter call of rank r leaves in its receive buffer, if it does not raise, the r-th row of the
    array rank 0 gave in its k-th, as that array was at that time. *)
Theorem C21_scatter_gives_pieces : forall (V : Type) total (a : Z -> V) tb ops r k x,
  nth_error (scatter_results r (trace ops (initial total a tb))) k = Some (Some x) ->
  exists rows, nth_error (scattered (trace ops (initial total a tb))) k = Some (Some rows) /\ nth_error rows (Z.to_nat r) = Some x.
Proof. intros V. exact scatter_pieces. Qed.
Print Assumptions C21_scatter_gives_pieces.

(** C21, gather: the root obtains every rank's most recent contribution, in rank order, and raises exactly when some
    rank has never contributed.  Missing: that the contributions belong to the same gather (next theorem). *)
Theorem C21_gather_partial : forall (V : Type) total (a : Z -> V) tb ops r send recv,
  valid_gathers total ops -> 0 <= r < total ->
  let s := exec ops (initial total a tb) in
  let t := trace (ops ++ [Gather r send recv r]) (initial total a tb) in
  let '(o, s') := step (Gather r send recv r) s in
  (o = Returned None /\ map Some (tab s' recv) = map (fun i => hd_error (contributions i t)) (zrange 0 total)) \/
  (o = Raised ConcurrencyError /\ tab s' = tab s /\ exists i, 0 <= i < total /\ contributions i t = []).
Proof. intros V. exact gather_latest. Qed.
Print Assumptions C21_gather_partial.

(** C21 fails for repeated gathers to rank 0 executed in rank order: the first raises on the root (it goes first), the
    second silently delivers the other rank's contribution to the first. *)
Theorem C21_stale_gather_refuted : exists (ops : list (op (V := Z))),
  ops = [Write 10 1; Gather 0 10 0 0; Write 11 2; Gather 1 11 0 0; (* first round, rank by rank *)
         Write 10 3; Gather 0 10 0 0; Write 11 4; Gather 1 11 0 0]  (* second round *) /\
  gather_results (trace ops (initial 2 (fun _ => 0) (fun _ => []))) = [[3; 2]].
Proof. eexists. split; [reflexivity|]. vm_compute. reflexivity. Qed.
Print Assumptions C21_stale_gather_refuted.

(** C21 fails for broadcast contents: the object is shared, so a change made by the root after its call and before rank
    1's is what rank 1 sees. *)
Theorem C21_bcast_alias_refuted : exists (ops : list (op (V := Z))) ref,
  ops = [Write ref 1; Bcast 0 ref 0; Write ref 2; Bcast 1 99 0] /\
  bcast_results 1 (trace ops (initial 2 (fun _ => 0) (fun _ => []))) = [Some ref] /\
  arr (exec ops (initial 2 (fun _ => 0) (fun _ => []))) ref = 2.
Proof. exists [Write 10 1; Bcast 0 10 0; Write 10 2; Bcast 1 99 0], 10. vm_compute. auto. Qed.
Print Assumptions C21_bcast_alias_refuted.

Example C21_case :
  let ops := [WriteTab 1 [7; 8; 9]; Scatter 0 (Some 1) 10 0; Bcast 0 40 0; Scatter 1 None 11 0; WriteTab 1 []; Scatter 2 None 12 0;
              Bcast 0 41 0; Bcast 2 0 0; Bcast 2 0 0; Gather 0 10 0 2; Gather 1 11 0 2; Gather 2 12 5 2] in
  let t := trace ops (initial 3 (fun _ => 0) (fun _ => [])) in
  valid_gathers 3 ops /\ gather_results t = [[7; 8; 9]] /\ bcast_results 2 t = [Some 40; Some 41] /\ scatter_results 2 t = [Some 9].
Proof. split; [repeat constructor; cbn; lia|]. vm_compute. auto. Qed.
