(** Model of ndsl/comm/caching_comm.py: CachingCommWriter (record) and CachingCommReader (replay) on one rank.

    A program is the list of communication calls a rank makes, with its local computations in between (arbitrary functions of
    its arrays).  The underlying communicator is an oracle: [data n] is what the n-th completed receiving call delivers.
    Arrays are numbered; [mem] gives their contents.  Copies are deep (26, 196, 207, ...).  Simplified: shapes match; Split (each
    sub-communicator has its own record, used the same way) and pickling are left out; the calls raising
    NotImplementedError are left out. *)
From Verif Require Import Base.

Section Caching.
  Context {V : Type}.

  Inductive call :=
  | Compute (f : (Z -> V) -> (Z -> V))       (* the program's own work on its arrays *)
  | SendCall                                 (* Send / Isend / barrier: nothing comes back *)
  | Bcast                                    (* returns an object *)
  | Allreduce                                (* returns an object *)
  | Scatter (recv : Z)
  | Gather (recv : option Z)                 (* recvbuf is None except on the root *)
  | Recv (recv : Z)
  | Irecv (recv : Z)
  | Wait (k : nat).                          (* wait() on the k-th request returned by Irecv *)

  Definition set (m : Z -> V) (a : Z) (v : V) : Z -> V := fun b => if (b =? a)%Z then v else m b.

  (** ** recording *)
  Record wst := mkW {
    w_mem : Z -> V; w_reqs : list Z; w_n : nat;   (* arrays; buffers of the requests made; receiving calls completed *)
    w_bcast : list V; w_obj : list V;             (* bcast_objects, generic_obj_buffers *)
    w_buf : list (option V);                      (* received_buffers (None: recvbuf was None) *)
    w_out : list V }.                             (* objects returned to the program so far *)

  Variable data : nat -> V.

  Definition w_recv (s : wst) (a : Z) : wst :=
    mkW (set (w_mem s) a (data (w_n s))) (w_reqs s) (S (w_n s)) (w_bcast s) (w_obj s) (w_buf s ++ [Some (data (w_n s))]) (w_out s).

  Definition w_step (c : call) (s : wst) : wst :=
    match c with
    | Compute f => mkW (f (w_mem s)) (w_reqs s) (w_n s) (w_bcast s) (w_obj s) (w_buf s) (w_out s)
    | SendCall => s                                                                       (* 216-220, 199-203 *)
    | Bcast => mkW (w_mem s) (w_reqs s) (S (w_n s)) (w_bcast s ++ [data (w_n s)]) (w_obj s) (w_buf s) (w_out s ++ [data (w_n s)]) (* 194-197 *)
    | Allreduce => mkW (w_mem s) (w_reqs s) (S (w_n s)) (w_bcast s) (w_obj s ++ [data (w_n s)]) (w_buf s) (w_out s ++ [data (w_n s)]) (* 244-249 *)
    | Scatter a | Recv a => w_recv s a                                                    (* 205-207, 222-224 *)
    | Gather (Some a) => w_recv s a                                                       (* 209-211 *)
    | Gather None => mkW (w_mem s) (w_reqs s) (w_n s) (w_bcast s) (w_obj s) (w_buf s ++ [None]) (w_out s)
    | Irecv a => mkW (w_mem s) (w_reqs s ++ [a]) (w_n s) (w_bcast s) (w_obj s) (w_buf s) (w_out s)   (* 226-230 *)
    | Wait k => match nth_error (w_reqs s) k with Some a => w_recv s a | None => s end    (* 24-26 *)
    end.
  Definition record (prog : list call) (s : wst) : wst := fold_left (fun s c => w_step c s) prog s.
  Definition w_start (m : Z -> V) : wst := mkW m [] 0 [] [] [] [].

  (** ** replaying; None = the reader raises *)
  (** what [recvbuf[:] = None] leaves in an array: NaN for floating point, an exception (None) for integers *)
  Variable from_none : option V.
  Definition assigned (v : option V) : option V := match v with Some x => Some x | None => from_none end.

  Record rst := mkR {
    r_mem : Z -> V; r_reqs : list (Z * option V);   (* arrays; requests made, with the data they hold *)
    r_bcast : list V; r_obj : list V; r_buf : list (option V);   (* what is left of the record *)
    r_out : list V }.

  Definition r_recv (s : rst) (a : Z) : option rst :=
    match r_buf s with
    | v :: rest => do x <- assigned v; Some (mkR (set (r_mem s) a x) (r_reqs s) (r_bcast s) (r_obj s) rest (r_out s))
    | [] => None
    end.

  Definition r_step (c : call) (s : rst) : option rst :=
    match c with
    | Compute f => Some (mkR (f (r_mem s)) (r_reqs s) (r_bcast s) (r_obj s) (r_buf s) (r_out s))
    | SendCall => Some s
    | Bcast => match r_bcast s with v :: l => Some (mkR (r_mem s) (r_reqs s) l (r_obj s) (r_buf s) (r_out s ++ [v])) | [] => None end
    | Allreduce => match r_obj s with v :: l => Some (mkR (r_mem s) (r_reqs s) (r_bcast s) l (r_buf s) (r_out s ++ [v])) | [] => None end
    | Scatter a | Recv a => r_recv s a                                                    (* 125-126, 141-142 *)
    | Gather (Some a) => r_recv s a                                                       (* 128-130 *)
    | Gather None => Some s
    | Irecv a =>                                                                          (* 144-145: taken at posting *)
        match r_buf s with
        | v :: rest => Some (mkR (r_mem s) (r_reqs s ++ [(a, v)]) (r_bcast s) (r_obj s) rest (r_out s))
        | [] => None
        end
    | Wait k =>                                                                           (* 34-35 *)
        match nth_error (r_reqs s) k with
        | Some (a, v) => do x <- assigned v; Some (mkR (set (r_mem s) a x) (r_reqs s) (r_bcast s) (r_obj s) (r_buf s) (r_out s))
        | None => Some s
        end
    end.
  Fixpoint replay (prog : list call) (s : rst) : option rst :=
    match prog with [] => Some s | c :: prog' => do s' <- r_step c s; replay prog' s' end.

  (** 98-108, 59-63, 165-168: the reader starts at the beginning of everything recorded *)
  Definition r_start (m : Z -> V) (w : wst) : rst := mkR m [] (w_bcast w) (w_obj w) (w_buf w) [].

  (** ** specification: the discipline under which recording order and replay order agree.
      [pending]: requests made and not yet waited for, oldest first; [made]: number of requests made so far. *)
  Fixpoint in_order (prog : list call) (pending : list nat) (made : nat) : Prop :=
    match prog with
    | [] => pending = []
    | Compute _ :: p | SendCall :: p | Bcast :: p | Allreduce :: p => in_order p pending made
    | Scatter _ :: p | Recv _ :: p | Gather (Some _) :: p => pending = [] /\ in_order p pending made
    | Gather None :: _ => False
    | Irecv _ :: p => in_order p (pending ++ [made]) (S made)
    | Wait k :: p => match pending with [] => False | j :: rest => k = j /\ in_order p rest made end
    end.
End Caching.
