(** Property theorem C33: timers.  Model and history specification: TimerModel.v. *)
From Verif Require Import Base Dict TimerModel TimerProofs.

(** C33.  After any sequence of calls on a new Timer (enabled or not) or NullTimer:
    - the next call raises exactly if it is a second start, an unmatched stop (while enabled), an enable of a NullTimer, or
      a disable while some clock runs; a call that raises changes nothing;
    - hits[name] is the number of intervals completed since the last reset and times[name] their sum, in order (no entry if
      there are none);
    - while disabled, start and stop change nothing. *)
Theorem C33_timer_accounting : forall (T : Type) (minus plus : T -> T -> T) es (null init : bool), (null = true -> init = false) ->
  let '(s, h) := run minus plus es (if null then new_null else new_timer init) [] in
  (forall e, snd (call minus plus s e) = true <-> should_raise null init h e) /\
  (forall e, snd (call minus plus s e) = true -> fst (call minus plus s e) = s) /\
  (forall n, get (hit s) n = count (intervals minus init h n)) /\
  (forall n, get (acc s) n = total plus (intervals minus init h n)) /\
  (on init h = false -> forall n t, fst (call minus plus s (Start n t)) = s /\ fst (call minus plus s (Stop n t)) = s).
Proof. intros T. exact timer_ok. Qed.
Print Assumptions C33_timer_accounting.

Example C33_case :
  let '(s, h) := run Z.sub Z.add [Start "a" 1; Start "b" 2; Start "a" 3; Stop "a" 5; Disable; Stop "b" 6; Stop "b" 7; Disable; Start "a" 8; Enable;
      Start "a" 10; Reset; Stop "a" 12; Start "a" 20; Stop "a" 25]%Z (new_timer true) [] in
  (get (acc s) "a", get (hit s) "a", get (acc s) "b", map snd (rev h)) =
  (Some 7, Some 2, None, [false; false; true; false; true; false; true; false; false; false; false; false; false; false; false])%Z /\
  intervals Z.sub true h "a" = [2; 5]%Z.
Proof. vm_compute. auto. Qed.
