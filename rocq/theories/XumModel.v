(** The reductions of xumpy: maxima, minima and counts over arrays and quantities (C122) *)
From Coq Require Import ZArith List Bool String Lia.
From Verif Require Import Base StorModel GridModel.
Import ListNotations.
Local Open Scope Z_scope.

(** ** numpy *)
(** the axis argument: none, a number or a tuple of numbers (minmax.py 59-63, count_nonzero.py 10-14) *)
Inductive axis := All | One (k : Z) | Many (l : list Z).
(** numpy's normalize_axis_tuple: negative axes count from the end, axes out of range and repeated axes are refused *)
Definition normal (r : nat) (k : Z) : option nat :=
  let r' := Z.of_nat r in if (- r' <=? k) && (k <? r') then Some (Z.to_nat (if k <? 0 then k + r' else k)) else None.
Fixpoint distinct (l : list nat) : bool := match l with [] => true | x :: l => negb (existsb (Nat.eqb x) l) && distinct l end.
Definition mask_of (r : nat) (ax : axis) : option (list bool) :=
  match ax with
  | All => Some (repeat true r)
  | One k => do p <- normal r k; Some (map (Nat.eqb p) (seq 0 r))
  | Many l => do ps <- all_some (map (normal r) l);
              if distinct ps then Some (map (fun p => existsb (Nat.eqb p) ps) (seq 0 r)) else None
  end.
(** the entries of a list of axes that are marked, those that are not, and the list put together from both *)
Fixpoint marked {T} (m : list bool) (l : list T) : list T :=
  match m, l with b :: m, x :: l => if b then x :: marked m l else marked m l | _, _ => [] end.
Fixpoint unmarked {T} (m : list bool) (l : list T) : list T :=
  match m, l with b :: m, x :: l => if b then unmarked m l else x :: unmarked m l | _, _ => [] end.
Fixpoint weave (m : list bool) (red kept : list Z) : list Z :=
  match m with
  | [] => []
  | true :: m => match red with x :: red => x :: weave m red kept | [] => [] end
  | false :: m => match kept with x :: kept => x :: weave m red kept | [] => [] end
  end.
(** the indices of an array of this shape *)
Fixpoint places (shape : list Z) : list (list Z) :=
  match shape with [] => [[]] | n :: shape => flat_map (fun i => map (cons i) (places shape)) (zrange 0 n) end.
Definition total (shape : list Z) : Z := fold_right Z.mul 1 shape.

Section Num.
Context {T : Type} (le : T -> T -> bool) (nonzero : T -> bool).
(** a number, or not a number; [le] is the order of the numbers, infinities included *)
Definition num := option T.
Definition larger (a b : num) : num := match a, b with Some x, Some y => Some (if le y x then x else y) | _, _ => None end.
Definition smaller (a b : num) : num := match a, b with Some x, Some y => Some (if le x y then x else y) | _, _ => None end.
Definition nonzero_num (a : num) : bool := match a with Some x => nonzero x | None => true end.
(** a.max(axis) and a.min(axis): without an identity the reduction of no element is an error unless no result is asked for.
    Simplified: results of no axes are arrays of rank 0 here, numbers there. *)
Definition fold (op : num -> num -> num) (l : list num) : num := match l with [] => None | x :: l => fold_left op l x end.
Definition reduce (op : num -> num -> num) (a : nd num) (ax : axis) : option (nd num) :=
  do m <- mask_of (rank a) ax;
  if (total (shp a) =? 0) && negb (total (unmarked m (shp a)) =? 0) then None else
  Some (mkNd (unmarked m (shp a)) (fun kept => fold op (map (fun red => val a (weave m red kept)) (places (marked m (shp a)))))).
(** numpy.count_nonzero(a, axis) *)
Definition count (a : nd num) (ax : axis) : option (nd Z) :=
  do m <- mask_of (rank a) ax;
  Some (mkNd (unmarked m (shp a)) (fun kept => Z.of_nat (List.length (filter nonzero_num (map (fun red => val a (weave m red kept)) (places (marked m (shp a)))))))).
(** a[b0, b1, ...] = r; a[:] of an array of rank 0 is an error *)
Definition write (a : nd num) (b : list (Z * Z)) (r : nd num) : option (nd num) :=
  match shp a with
  | [] => None
  | _ =>
    do target <- take (shp a) b;
    do padded <- pad (List.length target) (shp r);
    if fits padded target then
      Some (mkNd (shp a) (fun idx =>
        if inside target idx then val r (repeat 0 (rank r - List.length target) ++ skipn (List.length target - rank r) (source padded target idx)) else val a idx))
    else None
  end.

(** ** what xumpy is called with: quantity.py 100-160 (dims, origin, extent and the array), the other attributes play no role here *)
Record quantity := Q { q_dims : list string; q_origin : list Z; q_extent : list Z; q_data : nd num }.
Inductive buffer := Array (a : nd num) | Quantity (q : quantity) | Other.
(** bounds.py 147-165 with the slice [:]: from the origin to origin + extent on every axis *)
Fixpoint compute_index (o e : list Z) : list (Z * Z) := match o, e with o0 :: o, e0 :: e => (o0, o0 + e0) :: compute_index o e | _, _ => [] end.
(** quantity.py 272-274 and bounds.py 133-143 *)
Definition field (q : quantity) : option (nd num) := subarray num (q_data q) (compute_index (q_origin q) (q_extent q)).
(** field[:] = r writes through the view into the array of the quantity *)
Definition write_field (q : quantity) (r : nd num) : option quantity :=
  do d <- write (q_data q) (compute_index (q_origin q) (q_extent q)) r; Some (Q (q_dims q) (q_origin q) (q_extent q) d).

(** minmax.py 59-81 and 84-106: dispatch on the type, the quantity's field, everything of an array *)
Definition over (op : num -> num -> num) (b : buffer) (ax : axis) : option (nd num) :=
  match b with
  | Array a => reduce op a ax
  | Quantity q => do f <- field q; reduce op f ax
  | Other => None
  end.
Definition max (b : buffer) (ax : axis) : option (nd num) := over larger b ax.
Definition min (b : buffer) (ax : axis) : option (nd num) := over smaller b ax.
(** count_nonzero.py 10-38 *)
Definition count_nonzero (b : buffer) (ax : axis) : option (nd Z) :=
  match b with
  | Array a => count a ax
  | Quantity q => do f <- field q; count f ax
  | Other => None
  end.
(** minmax.py 15-34 and 37-56: the first argument decides.  An array's result goes to out_buffer[:], which for a Quantity is the full buffer
    (quantity.py 353-355); a quantity's result goes to out_quantity.field[:], and an array has no attribute field *)
Definition on_plane (op : num -> num -> num) (b out : buffer) : option buffer :=
  match b with
  | Array a =>
      do r <- reduce op a (Many [0; 1]);
      match out with
      | Array o => do o' <- write o [] r; Some (Array o')
      | Quantity q => do d <- write (q_data q) [] r; Some (Quantity (Q (q_dims q) (q_origin q) (q_extent q) d))
      | Other => None
      end
  | Quantity q =>
      do f <- field q;
      do r <- reduce op f (Many [0; 1]);
      match out with
      | Quantity o => do o' <- write_field o r; Some (Quantity o')
      | _ => None
      end
  | Other => None
  end.
Definition max_on_horizontal_plane := on_plane larger.
Definition min_on_horizontal_plane := on_plane smaller.
End Num.
Arguments Array {T}.
Arguments Quantity {T}.
Arguments Other {T}.
Arguments Q {T}.
Arguments q_dims {T}.
Arguments q_origin {T}.
Arguments q_extent {T}.
Arguments q_data {T}.
