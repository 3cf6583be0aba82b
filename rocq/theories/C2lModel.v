(** Model of ndsl/stencils/c2l_ord.py 154-284: CubedToLatLon, which order it takes, whose halos it exchanges and what it writes.

    Arrays are places in a memory; the state holds places under names (WrapModel.v).  The stencils (C82), the exchange of halos of a vector (C01-C12: [exchange] is what
    the two arrays of this rank hold after it) and mock_exchange (27-57; C83) are arbitrary functions.  Left out: the specifications of the halos (219-229), the
    domain and externals of the stencils (206-217; C82 has their effect), DaCe. *)
From Verif Require Import Base Dict WrapModel.
Local Open Scope string_scope.

Section C2l.
  Context {A : Type}.
  Definition memory := nat -> A.
  Definition set (m : memory) (p : nat) (a : A) : memory := fun q => if (q =? p)%nat then a else m q.
  Variable truth : nat -> bool.                          (* of a quantity in a condition *)
  Variable exchange : A -> A -> A * A.
  Variables mock_u mock_v : A -> A.                      (* mock_exchange on u[:, :-1, :] and on v[:-1, :, :] *)
  Variables ord2 ord4 : A -> A -> A -> A -> A * A.       (* ua and va from u, v, ua, va *)

  Record converter := Converter { do_ord4 : bool; one_rank : bool; updater : wrapped }.
  (** 159-249; None = an exception *)
  Definition make (order size : Z) (s : state nat) : option converter :=
    let one := (size =? 1)%Z in                                                       (* 191-194 *)
    let c := Converter (negb (order =? 2)%Z) one (Wrapped ["u"] (Some ["v"]) true) in (* 204-211, 241-249 *)
    if one then Some c
    else
      do u <- check_for_attribute truth s "u";                                        (* 237-240 *)
      if u then Some c
      else do v <- check_for_attribute truth s "v"; if v then None else Some c.

  (** what the updater does to the memory *)
  Fixpoint effect (es : list (event nat)) (m : memory) : memory :=
    match es with
    | Start (x :: _) (Some (y :: _)) :: es' => let '(a, b) := exchange (m x) (m y) in effect es' (set (set m x a) y b)
    | _ :: es' => effect es' m
    | [] => m
    end.
  (** 251-284, with the state as it is then; None = an exception *)
  Definition call (c : converter) (s : state nat) (m : memory) (u v ua va : nat) : option memory :=
    do m <- (if do_ord4 c then
               if one_rank c then Some (let m := set m u (mock_u (m u)) in set m v (mock_v (m v)))
               else do es <- update (updater c) s; Some (effect es m)
             else Some m);
    let '(a, b) := (if do_ord4 c then ord4 else ord2) (m u) (m v) (m ua) (m va) in
    Some (set (set m ua a) va b).

  (** ** Specification *)
  (** what the state has under a name *)
  Definition under (s : state nat) (x : string) : option nat := match s with Dataclass l | Dictionary l => get l x | Else => None end.
  (** memory after: the places listed hold the values beside them, all others are as before *)
  Definition only (m m' : memory) (l : list (nat * A)) : Prop := (forall p a, List.In (p, a) l -> m' p = a) /\ forall p, ~ List.In p (map fst l) -> m' p = m p.
End C2l.
