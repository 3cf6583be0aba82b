(** Model of what a halo update accepts and which messages it then posts: ndsl/comm/communicator.py 405-440 (start_halo_update), 471-529 (start_vector_halo_update), 582-615
    (get_scalar_halo_updater, get_vector_halo_updater), ndsl/halo/updater.py 96-211 (the specifications by rank), 222-275 (start), ndsl/halo/data_transformer.py 192-227 (the lengths),
    244-289 (get), 418-425 and 447-462 (the checks of packing).

    A specification is its number of halo points, its dtype and which quantity it describes; the slices, the rotation and the contents of the buffers are HaloModel.v (C10-C14).  A boundary is
    the rank at the other side.  Left out: the numpy modules (a quantity that is neither numpy nor cupy), what happens after the messages are posted (C22), python -O. *)
From Coq Require Import ZArith List Bool Arith.
From Verif Require Import Base.
Import ListNotations.
Local Open Scope nat_scope.

Record spec := Spec { points : nat; dtype : nat; about : nat }.
Inductive refusal := RuntimeError | ValueError | NotImplementedError | IndexError | AssertionError.

(** defaultdict(list): d[r].append(x), in the order of first use *)
Fixpoint append_at {A} (d : list (Z * list A)) (r : Z) (x : A) : list (Z * list A) :=
  match d with
  | [] => [(r, [x])]
  | (q, l) :: d => if Z.eqb q r then (q, l ++ [x]) :: d else (q, l) :: append_at d r x
  end.
(** updater.py 125-135 *)
Definition by_rank {A} (boundaries : list Z) (l : list A) : list (Z * list A) :=
  fold_left (fun d b => fold_left (fun d x => append_at d b x) l d) boundaries [].

(** data_transformer.py 262-274, then 208-215 *)
Definition same_dtype (first : spec) (l : list spec) : bool := forallb (fun s => Nat.eqb (dtype first) (dtype s)) l.
Definition scalar_transformer (l : list spec) : option refusal :=
  match l with [] => Some RuntimeError | first :: _ => if same_dtype first l then None else Some NotImplementedError end.
Definition vector_transformer (lx ly : list spec) : option refusal :=
  match lx with
  | [] => Some RuntimeError
  | first :: _ => if same_dtype first lx && same_dtype first ly then if Nat.eqb (length lx) (length ly) then None else Some RuntimeError else Some NotImplementedError
  end.
Fixpoint first_refusal {A} (f : A -> option refusal) (l : list A) : option refusal :=
  match l with [] => None | x :: l => match f x with Some e => Some e | None => first_refusal f l end end.

(** An updater: for each rank the specifications of the message to and from it, scalar or x and y *)
Inductive updater := Scalars (t : list (Z * list spec)) | Vectors (t : list (Z * list (spec * spec))).

(** communicator.py 582-596 and updater.py 96-146 *)
Definition get_scalar (boundaries : list Z) (l : list spec) : updater + refusal :=
  match l with
  | [] => inr RuntimeError
  | first :: _ =>
      if Nat.eqb (points first) 0 then inr ValueError
      else let t := by_rank boundaries l in
           match first_refusal (fun p => scalar_transformer (snd p)) t with Some e => inr e | None => inl (Scalars t) end
  end.
(** communicator.py 598-615 and updater.py 148-211; "and" does not look at y when x[0] has points *)
Definition get_vector (boundaries : list Z) (lx ly : list spec) : updater + refusal :=
  match lx, ly with
  | [], [] => inr RuntimeError
  | [], _ => inr IndexError
  | fx :: _, _ =>
      let zero := if Nat.eqb (points fx) 0 then match ly with [] => Some IndexError | fy :: _ => if Nat.eqb (points fy) 0 then Some ValueError else None end else None in
      match zero with
      | Some e => inr e
      | None => let t := by_rank boundaries (combine lx ly) in
                match first_refusal (fun p => vector_transformer (map fst (snd p)) (map snd (snd p))) t with Some e => inr e | None => inl (Vectors t) end
      end
  end.

(** updater.py 222-275 with data_transformer.py 418-425, 447-462: the receives posted, then the sends or what was raised while packing.  A message is the rank and the quantities in it. *)
Definition pack_scalar (nx : nat) (l : list spec) : option refusal := if Nat.eqb nx (length l) then None else Some RuntimeError.
Definition pack_vector (nx : nat) (ny : option nat) (l : list (spec * spec)) : option refusal :=
  match ny with
  | None => Some AssertionError
  | Some ny => if negb (Nat.eqb nx (length l)) && negb (Nat.eqb ny (length l)) then Some RuntimeError else if Nat.eqb ny nx then None else Some AssertionError
  end.
Definition receives (u : updater) : list Z := match u with Scalars t => map fst t | Vectors t => map fst t end.
Definition sends (u : updater) : list (Z * list nat) :=
  match u with
  | Scalars t => map (fun p => (fst p, map about (snd p))) t
  | Vectors t => map (fun p => (fst p, flat_map (fun xy => [about (fst xy); about (snd xy)]) (snd p))) t
  end.
Definition start (u : updater) (nx : nat) (ny : option nat) : list Z * (list (Z * list nat) + refusal) :=
  (receives u,
   match match u with Scalars t => first_refusal (fun p => pack_scalar nx (snd p)) t | Vectors t => first_refusal (fun p => pack_vector nx ny (snd p)) t end with
   | Some e => inr e
   | None => inl (sends u)
   end).

(** communicator.py 405-440 and 471-529; a quantity is its dtype and which it is.  The updater is made (no message), then started. *)
Definition specs (n : nat) (l : list (nat * nat)) : list spec := map (fun q => Spec n (fst q) (snd q)) l.
Definition start_halo_update (boundaries : list Z) (q : list (nat * nat)) (n : nat) : list Z * (list (Z * list nat) + refusal) :=
  match get_scalar boundaries (specs n q) with inr e => ([], inr e) | inl u => start u (length q) None end.
Definition start_vector_halo_update (boundaries : list Z) (x y : list (nat * nat)) (n : nat) : list Z * (list (Z * list nat) + refusal) :=
  match get_vector boundaries (specs n (map fst (combine x y))) (specs n (map snd (combine x y))) with inr e => ([], inr e) | inl u => start u (length x) (Some (length y)) end.
