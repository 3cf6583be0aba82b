(** Model of ndsl/performance/timer.py (Timer 9-146, NullTimer 149-162).

    Clock readings are arguments of the calls (any values); intervals are subtracted and summed with arbitrary operations
    [minus] and [plus], so that floating-point rounding is covered.  Left out: the CUDA synchronisation and NVTX ranges
    (26-28, 41-43), which touch no timer state, and the warnings of [times] and [hits]. *)
From Verif Require Import Base Dict.

Section Timer.
  Context {T : Type}.
  Variables (minus plus : T -> T -> T).

  Inductive event :=
  | Start (name : string) (now : T)
  | Stop (name : string) (now : T)
  | Reset | Enable | Disable.
  (** clock(name) (55-95) is a Start at the beginning of the with-block and a Stop at its end, whatever happens inside. *)

  Record timer := mkTimer {
    is_null : bool;                  (* a NullTimer *)
    starts : dict T;                 (* _clock_starts *)
    acc : dict T;                    (* _accumulated_time *)
    hit : dict Z;                    (* _hit_count *)
    enabled : bool }.

  (** Timer.__init__ (12-19), NullTimer.__init__ (155-156) *)
  Definition new_timer (en : bool) : timer := mkTimer false [] [] [] en.
  Definition new_null : timer := mkTimer true [] [] [] false.

  (** one call: the state afterwards and whether it raised *)
  Definition call (s : timer) (e : event) : timer * bool :=
    match e with
    | Start n t =>                                                                    (* 21-32 *)
        if negb (enabled s) then (s, false)
        else match get (starts s) n with
             | Some _ => (s, true)
             | None => (mkTimer (is_null s) (put (starts s) n t) (acc s) (hit s) (enabled s), false)
             end
    | Stop n t =>                                                                     (* 34-53 *)
        if negb (enabled s) then (s, false)
        else match get (starts s) n with
             | None => (s, true)                                                      (* KeyError from pop *)
             | Some t0 =>
                 let a := match get (acc s) n with None => minus t t0 | Some x => plus x (minus t t0) end in
                 let h := match get (hit s) n with None => 1 | Some x => x + 1 end in
                 (mkTimer (is_null s) (del (starts s) n) (put (acc s) n a) (put (hit s) n h) (enabled s), false)
             end
    | Reset => (mkTimer (is_null s) (starts s) [] [] (enabled s), false)              (* 125-128 *)
    | Enable =>                                                                       (* 130-132, 158-162 *)
        if is_null s then (s, true) else (mkTimer (is_null s) (starts s) (acc s) (hit s) true, false)
    | Disable =>                                                                      (* 134-141 *)
        if (0 <? Z.of_nat (length (starts s)))%Z then (s, true) else (mkTimer (is_null s) (starts s) (acc s) (hit s) false, false)
    end.

  (** the history of calls made, most recent first, each with whether it raised *)
  Fixpoint run (es : list event) (s : timer) (h : list (event * bool)) : timer * list (event * bool) :=
    match es with [] => (s, h) | e :: es' => let '(s', r) := call s e in run es' s' ((e, r) :: h) end.

  (** ** specification, in terms of the history alone *)

  (** was the timer enabled after history h? *)
  Fixpoint on (init : bool) (h : list (event * bool)) : bool :=
    match h with
    | [] => init
    | (Enable, false) :: _ => true
    | (Disable, false) :: _ => false
    | _ :: h' => on init h'
    end.

  (** the reading at which the clock of [n] that is still running after h was started *)
  Fixpoint running (init : bool) (h : list (event * bool)) (n : string) : option T :=
    match h with
    | [] => None
    | (Start m t, false) :: h' => if ((m =? n)%string && on init h')%bool then Some t else running init h' n
    | (Stop m _, false) :: h' => if ((m =? n)%string && on init h')%bool then None else running init h' n
    | _ :: h' => running init h' n
    end.

  (** the intervals of [n] completed since the last reset, oldest first *)
  Fixpoint intervals (init : bool) (h : list (event * bool)) (n : string) : list T :=
    match h with
    | [] => []
    | (Reset, _) :: _ => []
    | (Stop m t, false) :: h' =>
        if ((m =? n)%string && on init h')%bool
        then match running init h' n with Some t0 => intervals init h' n ++ [minus t t0] | None => intervals init h' n end
        else intervals init h' n
    | _ :: h' => intervals init h' n
    end.

  (** the sum of a list of intervals in order of occurrence; no entry if there are none *)
  Definition total (l : list T) : option T := match l with [] => None | x :: l' => Some (fold_left plus l' x) end.

  Definition count (l : list T) : option Z := match l with [] => None | _ => Some (Z.of_nat (length l)) end.

  (** which call raises after history h *)
  Definition should_raise (null init : bool) (h : list (event * bool)) (e : event) : Prop :=
    match e with
    | Start n _ => on init h = true /\ running init h n <> None
    | Stop n _ => on init h = true /\ running init h n = None
    | Reset => False
    | Enable => null = true
    | Disable => exists n, running init h n <> None
    end.
End Timer.
