(** Model of ndsl/quantity/quantity.py: transpose (393-449, 463-492), halo_spec's check (201-208) and swap_buffer (297-315).

    A quantity is its metadata and its array, a function from index tuples together with a shape.  Left out: units,
    attributes, dtype and device checks, and the copy into the backend's preferred layout (the values are the same). *)
From Verif Require Import Base Dict.

(** position of the first x in l; length l if there is none *)
Section Pos.
  Context {T : Type} (dec : forall a b : T, {a = b} + {a <> b}).
  Fixpoint pos (x : T) (l : list T) : nat :=
    match l with [] => O | y :: l' => if dec x y then O else S (pos x l') end.
End Pos.

Record quantity (A : Type) := mkQ {
  dims : list string; origin : list Z; extent : list Z;     (* QuantityMetadata, metadata.py:18-35 *)
  n_halo : Z;
  shape : list Z; data : list Z -> A }.
Arguments mkQ {A}. Arguments dims {A}. Arguments origin {A}. Arguments extent {A}. Arguments n_halo {A}. Arguments shape {A}. Arguments data {A}.

(** an entry of target_dims *)
Inductive target := Name (d : string) | Group (ds : list string).

(** quantity.py:467-492 _collapse_dims; None = ValueError *)
Fixpoint collapse_dims (ts : list target) (ds : list string) : option (list string) :=
  match ts with
  | [] => Some []
  | t :: ts' =>
      do d <- match t with
              | Name d => if in_dec string_dec d ds then Some d else None
              | Group g => match filter (fun d => if in_dec string_dec d ds then true else false) g with
                           | [d] => Some d
                           | _ => None
                           end
              end;
      do r <- collapse_dims ts' ds; Some (d :: r)
  end.

(** numpy.transpose: raises unless axes is a permutation of the axes; result axis i is axis axes[i] *)
Definition is_permutation (axes : list nat) (n : nat) : bool :=
  ((length axes =? n)%nat && forallb (fun j => if in_dec Nat.eq_dec j axes then true else false) (seq 0 n))%bool.
Definition np_transpose {A} (shape : list Z) (data : list Z -> A) (axes : list nat) : option (list Z * (list Z -> A)) :=
  if is_permutation axes (length shape)
  then Some (map (fun j => nth j shape 0) axes,
             fun p => data (map (fun j => nth (pos Nat.eq_dec j axes) p 0) (seq 0 (length shape))))
  else None.

(** quantity.py:463-464 _transpose_sequence *)
Definition transpose_sequence {T} (s : list T) (order : list nat) (d : T) : list T := map (fun i => nth i s d) order.

(** quantity.py:393-449 transpose.  The new Quantity is made without number_of_halo_points, whose default is 0 (31-42). *)
Definition transpose {A} (q : quantity A) (ts : list target) : option (quantity A) :=
  do t <- collapse_dims ts (dims q);
  let order := map (fun d => pos string_dec d (dims q)) t in
  do x <- np_transpose (shape q) (data q) order;
  Some (mkQ (transpose_sequence (dims q) order ""%string) (transpose_sequence (origin q) order 0)
            (transpose_sequence (extent q) order 0) 0 (fst x) (snd x)).

(** quantity.py:201-208: is halo_spec(n) refused? *)
Definition halo_spec_ok {A} (q : quantity A) (n : Z) : bool := n <=? n_halo q.

(** Python's < on tuples of integers: lexicographic *)
Fixpoint tuple_lt (a b : list Z) : bool :=
  match a, b with
  | _, [] => false
  | [], _ :: _ => true
  | x :: a', y :: b' => if x =? y then tuple_lt a' b' else x <? y
  end.
(** quantity.py:297-315 swap_buffer; None = ValueError *)
Definition swap_buffer {A} (q : quantity A) (sh : list Z) (d : list Z -> A) : option (quantity A) :=
  if tuple_lt sh (extent q) then None else Some (mkQ (dims q) (origin q) (extent q) (n_halo q) sh d).

(** ** specification *)
Definition well_formed {A} (q : quantity A) : Prop :=
  NoDup (dims q) /\ length (origin q) = length (dims q) /\ length (extent q) = length (dims q) /\ length (shape q) = length (dims q).
(** per-dimension metadata: the entry of l that belongs to dimension d *)
Definition along (ds : list string) (l : list Z) (d : string) : option Z := get (combine ds l) d.
(** the target entry names dimension d of a quantity with dimensions ds *)
Definition names (ds : list string) (t : target) (d : string) : Prop :=
  match t with
  | Name d' => d = d' /\ In d ds
  | Group g => In d ds /\ In d g /\ NoDup g /\ forall d', In d' g -> In d' ds -> d' = d
  end.
