(** Model of ndsl/comm/local_comm.py LocalComm: one process playing all the ranks, sharing [buffer_dict].

    Values of arrays are of an arbitrary type [V]; [arr] maps array objects to their contents and [tab] maps the
    two-dimensional arrays of scatter/gather to their rows, so that later writes by the program are visible where an
    object is shared.  Simplified: arrays are contiguous and shapes match (no BufferError / ValueError); logging, Split and
    the operations that always raise NotImplementedError (allgather, sendrecv, allreduce) are left out. *)
From Verif Require Import Base.
Open Scope Z_scope.

Inductive exn := ConcurrencyError | IndexError | TypeError | NotImplemented.
(** what a call returns: nothing (or, for bcast, a reference to an object) *)
Inductive outcome := Returned (ref : option Z) | Raised (e : exn).

Definition key := (Z * Z * Z)%type.   (* (from_rank, to_rank, tag) *)
Definition key_eqb (a b : key) : bool :=
  let '(x, y, z) := a in let '(x', y', z') := b in (x =? x') && (y =? y') && (z =? z').
Record request := mkReq { rq_rank : Z; rq_buf : Z; rq_src : Z; rq_tag : Z }.

Section Local.
  Context {V : Type}.
  Variable total : Z.   (* total_ranks *)

  Record st := mkSt {
    arr : Z -> V; tab : Z -> list V;             (* the program's arrays *)
    sr : key -> option (list V);                 (* _buffer["send_recv"]; None = key absent *)
    reqs : list request;                         (* AsyncResult objects made by Irecv, in order of creation *)
    bcasts : list Z; scatters : list (option (list V)); (* _buffer["bcast"], _buffer["scatter"] *)
    gathers : list (option V);                   (* _buffer["gather"] (69-72: initially total_ranks times None) *)
    ib : Z -> nat; is_ : Z -> nat }.             (* _i_buffer["bcast"], _i_buffer["scatter"] of each rank's object *)

  Inductive op :=
  | Write (l : Z) (v : V)                        (* the program changes an array between calls *)
  | WriteTab (l : Z) (rows : list V)
  | Send (r l dest tag : Z)                      (* also Isend: the send is done at once, 155-161 *)
  | Recv (r l src tag : Z)
  | Irecv (r l src tag : Z)
  | Wait (k : nat)                               (* wait() on the k-th request made *)
  | Bcast (r ref root : Z)
  | Scatter (r : Z) (send : option Z) (recv root : Z)
  | Gather (r send recv root : Z).

  Definition upd_at {T} (f : Z -> T) (a : Z) (v : T) : Z -> T := fun b => if b =? a then v else f b.
  Definition upd_key {T} (f : key -> T) (a : key) (v : T) : key -> T := fun b => if key_eqb b a then v else f b.
  Fixpoint set_nth {T} (n : nat) (v : T) (l : list T) : list T :=
    match n, l with
    | _, [] => []
    | O, _ :: l' => v :: l'
    | S n', x :: l' => x :: set_nth n' v l'
    end.

  Definition with_arr (s : st) a := mkSt a (tab s) (sr s) (reqs s) (bcasts s) (scatters s) (gathers s) (ib s) (is_ s).
  Definition with_tab (s : st) t := mkSt (arr s) t (sr s) (reqs s) (bcasts s) (scatters s) (gathers s) (ib s) (is_ s).
  Definition with_sr (s : st) q := mkSt (arr s) (tab s) q (reqs s) (bcasts s) (scatters s) (gathers s) (ib s) (is_ s).
  Definition with_reqs (s : st) q := mkSt (arr s) (tab s) (sr s) q (bcasts s) (scatters s) (gathers s) (ib s) (is_ s).
  Definition with_bcasts (s : st) b i := mkSt (arr s) (tab s) (sr s) (reqs s) b (scatters s) (gathers s) i (is_ s).
  Definition with_scatters (s : st) b i := mkSt (arr s) (tab s) (sr s) (reqs s) (bcasts s) b (gathers s) (ib s) i.
  Definition with_gathers (s : st) g := mkSt (arr s) (tab s) (sr s) (reqs s) (bcasts s) (scatters s) g (ib s) (is_ s).

  (** 78-82 _put_send_recv, 151-153 Send: a deep copy is queued *)
  Definition do_send (s : st) (r l dest tag : Z) : outcome * st :=
    let k := (r, dest, tag) in
    let old := match sr s k with Some q => q | None => [] end in
    (Returned None, with_sr s (upd_key (sr s) k (Some (old ++ [arr s l])))).

  (** 64-76 _get_send_recv, 163-165 Recv: list.pop(0) raises IndexError on an empty list *)
  Definition do_recv (s : st) (r l src tag : Z) : outcome * st :=
    let k := (src, r, tag) in
    match sr s k with
    | None => (Raised ConcurrencyError, s)
    | Some [] => (Raised IndexError, s)
    | Some (v :: q) => (Returned None, with_arr (with_sr s (upd_key (sr s) k (Some q))) (upd_at (arr s) l v))
    end.

  (** 55-62 _get_buffer: the rank's counter advances even when the lookup then fails *)
  Definition get_buffer {T} (r : Z) (buf : list T) (count : Z -> nat) (v : T) : list T * (Z -> nat) * option T :=
    let i := count r in
    let buf' := if r =? 0 then buf ++ [v] else buf in
    (buf', upd_at count r (S i), nth_error buf' i).

  (** 102-110 bcast: the object itself is stored and returned, not a copy *)
  Definition do_bcast (s : st) (r ref root : Z) : outcome * st :=
    if negb (root =? 0) then (Raised NotImplemented, s) else
    let '(b, i, x) := get_buffer r (bcasts s) (ib s) ref in
    (match x with Some v => Returned (Some v) | None => Raised IndexError end, with_bcasts s b i).

  (** 118-130 Scatter *)
  Definition do_scatter (s : st) (r : Z) (send : option Z) (recv root : Z) : outcome * st :=
    if negb (root =? 0) then (Raised NotImplemented, s) else
    let v := match send with Some l => Some (tab s l) | None => None end in
    let '(b, i, x) := get_buffer r (scatters s) (is_ s) v in
    let s' := with_scatters s b i in
    match x with
    | None => (Raised IndexError, s')
    | Some None => (Raised TypeError, s')
    | Some (Some rows) =>
        match nth_error rows (Z.to_nat r) with
        | None => (Raised IndexError, s')
        | Some row => (Returned None, with_arr s' (upd_at (arr s') recv row))
        end
    end.

  (** 132-147 Gather; the buffer is never emptied *)
  Fixpoint all_some {T} (l : list (option T)) : option (list T) :=
    match l with
    | [] => Some []
    | None :: _ => None
    | Some v :: l' => match all_some l' with Some vs => Some (v :: vs) | None => None end
    end.
  Definition do_gather (s : st) (r send recv root : Z) : outcome * st :=
    let s' := with_gathers s (set_nth (Z.to_nat r) (Some (arr s send)) (gathers s)) in
    if r =? root then
      match all_some (gathers s') with
      | None => (Raised ConcurrencyError, s')
      | Some rows => (Returned None, with_tab s' (upd_at (tab s') recv rows))
      end
    else (Returned None, s').

  Definition step (o : op) (s : st) : outcome * st :=
    match o with
    | Write l v => (Returned None, with_arr s (upd_at (arr s) l v))
    | WriteTab l rows => (Returned None, with_tab s (upd_at (tab s) l rows))
    | Send r l dest tag => do_send s r l dest tag
    | Recv r l src tag => do_recv s r l src tag
    | Irecv r l src tag => (Returned None, with_reqs s (reqs s ++ [mkReq r l src tag]))   (* 167-171 *)
    | Wait k =>                                                                           (* 21-26 *)
        match nth_error (reqs s) k with
        | Some q => do_recv s (rq_rank q) (rq_buf q) (rq_src q) (rq_tag q)
        | None => (Returned None, s)
        end
    | Bcast r ref root => do_bcast s r ref root
    | Scatter r send recv root => do_scatter s r send recv root
    | Gather r send recv root => do_gather s r send recv root
    end.

  Definition initial (a : Z -> V) (t : Z -> list V) : st :=
    mkSt a t (fun _ => None) [] [] [] (repeat None (Z.to_nat total)) (fun _ => O) (fun _ => O).

  (** exceptions are caught by the program (the ranks are retried), so execution goes on *)
  Fixpoint exec (ops : list op) (s : st) : st :=
    match ops with [] => s | o :: ops' => exec ops' (snd (step o s)) end.
End Local.
