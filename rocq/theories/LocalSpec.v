(** What programs using LocalComm observe: which values went in and came out. *)
From Verif Require Import Base LocalModel.
Open Scope Z_scope.

Section Spec.
  Context {V : Type}.

  Inductive event :=
  | Sent (k : key) (v : V)                     (* a send call, with the array's contents at that moment *)
  | Got (k : key) (v : V)                      (* a successful receive, with the contents of the receive buffer after it *)
  | Offered (ref : Z)                          (* rank 0 enters a broadcast of this object *)
  | BcastCall (r : Z) (res : option Z)         (* rank r calls bcast; the object returned, or None on an error *)
  | ScatterRoot (rows : option (list V))       (* rank 0 enters a scatter *)
  | ScatterCall (r : Z) (res : option V)       (* rank r calls scatter; its receive buffer after, or None on an error *)
  | Contributed (r : Z) (v : V)                (* rank r enters a gather *)
  | Gathered (rows : list V).                  (* the gather succeeded on the root *)

  Definition ok (o : outcome) : bool := match o with Returned _ => true | Raised _ => false end.

  Definition observe_recv (o : outcome) (s' : st (V := V)) (r l src tag : Z) : list event :=
    if ok o then [Got (src, r, tag) (arr s' l)] else [].

  (** observations at one call: arguments, state before, outcome, state after *)
  Definition observe (c : op (V := V)) (s : st) (o : outcome) (s' : st) : list event :=
    match c with
    | Write _ _ | WriteTab _ _ | Irecv _ _ _ _ => []
    | Send r l dest tag => [Sent (r, dest, tag) (arr s l)]
    | Recv r l src tag => observe_recv o s' r l src tag
    | Wait k =>
        match nth_error (reqs s) k with
        | Some q => observe_recv o s' (rq_rank q) (rq_buf q) (rq_src q) (rq_tag q)
        | None => []
        end
    | Bcast r ref root =>
        if root =? 0 then
          (if r =? 0 then [Offered ref] else []) ++ [BcastCall r (match o with Returned x => x | Raised _ => None end)]
        else []
    | Scatter r send recv root =>
        if root =? 0 then
          (if r =? 0 then [ScatterRoot (match send with Some l => Some (tab s l) | None => None end)] else []) ++
          [ScatterCall r (if ok o then Some (arr s' recv) else None)]
        else []
    | Gather r send recv root =>
        Contributed r (arr s send) :: (if (r =? root) && ok o then [Gathered (tab s' recv)] else [])
    end.

  Fixpoint trace (ops : list op) (s : st) : list event :=
    match ops with
    | [] => []
    | c :: ops' => let '(o, s') := step c s in observe c s o s' ++ trace ops' s'
    end.

  Definition sent (k : key) (t : list event) : list V :=
    flat_map (fun e => match e with Sent k' v => if key_eqb k k' then [v] else [] | _ => [] end) t.
  Definition got (k : key) (t : list event) : list V :=
    flat_map (fun e => match e with Got k' v => if key_eqb k k' then [v] else [] | _ => [] end) t.
  Definition offered (t : list event) : list Z := flat_map (fun e => match e with Offered v => [v] | _ => [] end) t.
  Definition bcast_results (r : Z) (t : list event) : list (option Z) :=
    flat_map (fun e => match e with BcastCall r' v => if r =? r' then [v] else [] | _ => [] end) t.
  Definition scattered (t : list event) : list (option (list V)) := flat_map (fun e => match e with ScatterRoot v => [v] | _ => [] end) t.
  Definition scatter_results (r : Z) (t : list event) : list (option V) :=
    flat_map (fun e => match e with ScatterCall r' v => if r =? r' then [v] else [] | _ => [] end) t.
  (** the contributions of rank r, latest first *)
  Definition contributions (r : Z) (t : list event) : list V :=
    rev (flat_map (fun e => match e with Contributed r' v => if r =? r' then [v] else [] | _ => [] end) t).
  Definition gather_results (t : list event) : list (list V) := flat_map (fun e => match e with Gathered v => [v] | _ => [] end) t.
End Spec.
