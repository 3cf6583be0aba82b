(** Model of Communicator.scatter_state and gather_state: ndsl/comm/communicator.py:303-388.

    A state is a dictionary; "time" holds a time, every other name a quantity.  A quantity is its dimensions, its extent and the
    values of its compute domain (origin, units, dtype and transfer_type are left out).  The collectives of the ranks are matched in
    the order in which each rank calls them, as MPI does.  Simplified: a collective whose buffers differ in shape fails (MPI looks
    at their sizes only); a failing rank is None for that rank only (the others would wait for ever). *)
From Verif Require Import Dict Base PartModel DecompModel.
From Coq Require Import QArith.
Open Scope Z_scope.

Section States.
  Context {A T : Type}.
  Variables (rnd : Q -> Q) (l : layout) (ratio : Q) (zero : A).

  Record quantity := mkQ { q_dims : list dim; q_extent : list Z; q_view : index -> A }.
  Inductive item := Fld (q : quantity) | Tm (t : T) | PyNone.
  Definition state := dict item.
  Definition as_field (v : item) : option quantity := match v with Fld q => Some q | _ => None end.
  Definition is_time (name : string) : bool := (name =? "time")%string.

  (** 358-360: the names which are broadcast *)
  Definition field_names (st : state) : list string := filter (fun n => negb (is_time n)) (keys st).

  (** 363-366 and 374-377, one name: communicator.py:162-219 scatter, into the quantity of the receiving state if there is one *)
  Definition scatter_one (send : state) (r : Z) (st : state) (name : string) : option state :=
    do v <- get send name;
    do q <- as_field v;
    do shape <- subtile_extent rnd l ratio (q_dims q) (q_extent q) r;
    do piece <- scatter rnd l ratio (q_dims q) (q_extent q) (q_view q) r;
    match get st name with
    | Some v' => do q' <- as_field v';
                 if list_eqb (q_extent q') shape then Some (put st name (Fld (mkQ (q_dims q') shape piece))) else None
    | None => Some (put st name (Fld (mkQ (q_dims q) shape piece)))
    end.
  Fixpoint scatter_names (send : state) (r : Z) (names : list string) (st : state) : option state :=
    match names with
    | [] => Some st
    | n :: names' => do st' <- scatter_one send r st n; scatter_names send r names' st'
    end.
  (** 340-388: the state returned on rank r; recv = [] if recv_state is None *)
  Definition scatter_state (send recv : state) (r : Z) : option state :=
    do st <- scatter_names send r (field_names send) recv;
    let time := match get send "time" with Some v => v | None => PyNone end in          (* send_state.get("time", None) *)
    let st := put st "time" time in
    Some (match time with PyNone => del st "time" | _ => st end).

  (** the quantities a rank sends, in the order of its dictionary; 319-328 *)
  Definition sent (st : state) : list quantity :=
    flat_map (fun kv => if is_time (fst kv) then [] else match snd kv with Fld q => [q] | _ => [] end) st.
  Definition ranks : list Z := zrange 0 (tile_ranks l).
  Definition matches (send : Z -> state) (k : nat) (shape : list Z) : bool :=
    forallb (fun r => match nth_error (sent (send r)) k with Some q => list_eqb (q_extent q) shape | None => false end) ranks.
  Definition block (send : Z -> state) (k : nat) (q0 : quantity) (r : Z) : index -> A :=
    match nth_error (sent (send r)) k with Some q => q_view q | None => q_view q0 end.

  (** 331-337 and communicator.py:262-292: the k-th gather, of the quantity q of the root, into the state of the root *)
  Definition gather_one (send : Z -> state) (k : nat) (q : quantity) (st : state) (name : string) : option state :=
    if matches send k (q_extent q) then
      match get st name with
      | Some v' => do q' <- as_field v';
                   do g <- gather rnd l ratio (q_dims q') (q_extent q') (q_extent q) (block send k q) (q_view q');
                   Some (put st name (Fld (mkQ (q_dims q') (q_extent q') g)))
      | None => let ext := global_extent l (q_dims q) (q_extent q) in
                do g <- gather rnd l ratio (q_dims q) ext (q_extent q) (block send k q) (fun _ => zero);
                Some (put st name (Fld (mkQ (q_dims q) ext g)))
      end
    else None.
  (** 319-340 on the root; at the end no rank is left with a gather which nobody receives *)
  Fixpoint gather_items (send : Z -> state) (k : nat) (items : state) (st : state) : option state :=
    match items with
    | [] => if forallb (fun r => Nat.eqb (List.length (sent (send r))) k) ranks then Some st else None
    | (name, v) :: items' =>
        if is_time name then gather_items send k items' (put st "time" v)
        else do q <- as_field v;
             do st' <- gather_one send k q st name;
             gather_items send (S k) items' st'
    end.
  (** 303-341: the state returned on the root *)
  Definition gather_state (send : Z -> state) (recv : state) : option state := gather_items send 0 (send 0) recv.
End States.
Arguments quantity A : clear implicits.
Arguments item A T : clear implicits.
Arguments state A T : clear implicits.
