(** Model of the life cycle of ndsl/halo/updater.py HaloUpdater (34-311) and of the message tags handed out by
    ndsl/comm/communicator.py and VectorInterfaceHaloUpdater.

    What an exchange carries is C12/C13; here the k-th exchange's data is an oracle: [write k q m] is memory m after the
    received data of exchange k has been unpacked into quantities q (297-300).  [packs q] says whether packing q succeeds
    (right number of quantities, shapes large enough); unpacking quantities that packed is taken to succeed.  Python runs
    without -O, so the check at 279 is made.  The updater's timer is used by this updater only. *)
From Verif Require Import Base.

Section Updater.
  Context {M Q : Type}.                     (* memory; the quantities given to start *)
  Variable write : nat -> Q -> M -> M.
  Variable packs : Q -> bool.
  Variable neighbours : bool.               (* there is at least one transformer *)
  Variable timed : bool.                    (* the timer is enabled *)

  Inductive event :=
  | Start (q : Q)
  | Wait
  | Force                                   (* force_finalize_on_wait *)
  | Compute (f : M -> M).                   (* anything else the program does to its memory *)

  Record updater := mkU {
    inflight : option (nat * Q);            (* _inflight_x/y_quantities, and which exchange it is *)
    started : nat;                          (* exchanges whose sends were posted *)
    fin : bool;                             (* _finalize_on_wait *)
    gone : bool;                            (* the transformers were finalized: their buffers are None *)
    clock : bool;                           (* TIMER_HALO_EX_KEY is running *)
    mem : M }.
  Definition new_updater (m : M) : updater := mkU None 0 false false false m.   (* 65-73 *)

  (** one call: state afterwards, and whether it completed (false = raised) *)
  Definition call (s : updater) (e : event) : updater * bool :=
    match e with
    | Start q =>                                                          (* 222-275 *)
        match inflight s with
        | Some _ => (s, false)                                            (* 230-237 *)
        | None =>
            if (timed && clock s)%bool then (s, false)                    (* 239: Timer.start raises ValueError *)
            else if (neighbours && gone s || negb (packs q))%bool         (* 247: no unpack buffer; 256 *)
            then (mkU None (started s) (fin s) (gone s) timed (mem s), false)     (* the clock keeps running *)
            else (mkU (Some (started s, q)) (S (started s)) (fin s) (gone s) (clock s) (mem s), true)  (* 258-275 *)
        end
    | Wait =>                                                             (* 277-311 *)
        match inflight s with
        | None => (s, false)                                              (* 279-280 *)
        | Some (k, q) =>
            if (timed && clock s)%bool then (s, false)                    (* 282 *)
            else (mkU None (started s) (fin s) (gone s || fin s) (clock s) (write k q (mem s)), true)
        end
    | Force => (mkU (inflight s) (started s) true (gone s) (clock s) (mem s), true)      (* 75-80 *)
    | Compute f => (mkU (inflight s) (started s) (fin s) (gone s) (clock s) (f (mem s)), true)
    end.

  (** the history of calls, most recent first, each with whether it completed *)
  Fixpoint run (es : list event) (s : updater) (h : list (event * bool)) : updater * list (event * bool) :=
    match es with [] => (s, h) | e :: es' => let '(s', ok) := call s e in run es' s' ((e, ok) :: h) end.

  (** ** specification, in terms of the history alone *)

  (** quantities of the completed starts, oldest first; number of completed waits *)
  Fixpoint starts (h : list (event * bool)) : list Q :=
    match h with [] => [] | (Start q, true) :: h' => starts h' ++ [q] | _ :: h' => starts h' end.
  Fixpoint waits (h : list (event * bool)) : nat :=
    match h with [] => O | (Wait, true) :: h' => S (waits h') | _ :: h' => waits h' end.

  (** memory: the program's own work, and at the j-th completed wait the data of exchange j, once, in the quantities of the
      j-th start *)
  Fixpoint memory (m0 : M) (h : list (event * bool)) : M :=
    match h with
    | [] => m0
    | (Compute f, _) :: h' => f (memory m0 h')
    | (Wait, true) :: h' =>
        match nth_error (starts h') (waits h') with
        | Some q => write (waits h') q (memory m0 h')
        | None => memory m0 h'
        end
    | _ :: h' => memory m0 h'
    end.

  Definition forced (h : list (event * bool)) : bool := existsb (fun x => match fst x with Force => true | _ => false end) h.
  (** a wait completed after force_finalize_on_wait *)
  Fixpoint spent (h : list (event * bool)) : bool :=
    match h with [] => false | (Wait, true) :: h' => (forced h' || spent h')%bool | _ :: h' => spent h' end.
  (** some start raised although the previous exchange was complete *)
  Fixpoint broken (h : list (event * bool)) : bool :=
    match h with
    | [] => false
    | (Start _, false) :: h' => ((length (starts h') =? waits h')%nat || broken h')%bool
    | _ :: h' => broken h'
    end.

  (** does the call complete after history h? *)
  Definition accepted (h : list (event * bool)) (e : event) : bool :=
    match e with
    | Start q => (length (starts h) =? waits h)%nat && packs q && negb (neighbours && spent h) && negb (timed && broken h)
    | Wait => (length (starts h) =? S (waits h))%nat
    | _ => true
    end.
End Updater.

(** ** tags *)

(** what can be created on a communicator: get_scalar_halo_updater (582-597), get_vector_halo_updater (598-615) — also through
    start_halo_update and start_vector_halo_update — and start_synchronize_vector_interfaces (552-580) *)
Inductive exchange := Scalar | Vector | Interfaces.

(** _get_halo_tag (617-619): a counter starting from 0 (57), incremented before use; for the interfaces a new
    VectorInterfaceHaloUpdater with a counter of its own (updater.py 384-391, 417) *)
Fixpoint tags (last : Z) (es : list exchange) : list Z :=
  match es with
  | [] => []
  | Scalar :: es' | Vector :: es' => (last + 1) :: tags (last + 1) es'
  | Interfaces :: es' => (0 + 1) :: tags last es'
  end.
