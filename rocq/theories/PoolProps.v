(** Property theorems C23: the buffer pool.  Model and specification ([in_use], [waited_once]): PoolModel.v. *)
From Verif Require Import Base PoolModel PoolProofs.

(** C23.  After any sequence of operations by any number of transformers, buffer contexts and interface requests in which no
    request is waited for twice: all buffers in use are different, each has the allocator, shape and dtype its user asked
    for, none of them is in the pool, and every pooled buffer is filed under its own key. *)
Theorem C23_buffers_not_shared : forall (K : Type) (K_dec : forall a b : K, {a = b} + {a <> b}) k0 ops,
  waited_once (run K_dec ops (start k0)) ->
  let s := run K_dec ops (start k0) in
  NoDup (map snd (in_use s)) /\
  (forall k b, In (k, b) (in_use s) -> key_of (pl s) b = k /\ ~ In b (map snd (cache (pl s)))) /\
  (forall k b, In (k, b) (cache (pl s)) -> key_of (pl s) b = k).
Proof. intros K K_dec. exact (no_sharing K_dec). Qed.
Print Assumptions C23_buffers_not_shared.

(** Keys 1 and 2; a transformer finalised twice, its buffers reused by a context and a request. *)
Example C23_case :
  let s := run Nat.eq_dec [NewTransformer 1; Enter 2; Finalize 0; Finalize 0; Enter 1; NewRequest [1; 1; 2]; Exit 1 true; WaitRequest 3; NewTransformer 1]%nat (start (fun _ => 0%nat)) in
  waited_once s /\ in_use s = [(1, 1); (1, 3); (1, 0)]%nat /\ fresh (pl s) = 5%nat.
Proof.
  split; [|vm_compute; split; reflexivity]. intros i bs w. vm_compute. do 6 (destruct i as [|i]; [intros H; inversion H; lia|]). destruct i; discriminate.
Qed.

(** Without that proviso C23 fails: HaloUpdateRequest.wait() called twice returns its buffers twice, and two later users
    get the same buffer. *)
Theorem C23_double_wait_refuted : exists ops : list (op (K := nat)),
  ops = [NewRequest [1]; WaitRequest 0; WaitRequest 0; Enter 1; Enter 1]%nat /\
  in_use (run Nat.eq_dec ops (start (fun _ => 0%nat))) = [(1, 0); (1, 0)]%nat.
Proof. eexists. split; [reflexivity|]. vm_compute. reflexivity. Qed.
Print Assumptions C23_double_wait_refuted.
