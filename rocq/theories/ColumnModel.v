(** Model of column algorithms: ndsl/stencils/tridiag.py, ndsl/stencils/column_operations.py, get_kstarts and k_split_run of
    ndsl/dsl/gt4py_utils.py, ndsl/grid/eta.py.

    One column of a field is a function from the level; a stencil's FORWARD/BACKWARD computation visits the levels one by
    one.  Arithmetic is that of an arbitrary field (exact): floating-point rounding is not represented. *)
From Verif Require Import Base Dict.

(** ** stencils/tridiag.py *)
Section Tridiag.
Variable F : Type.
Variables (zero one : F) (add mul sub div : F -> F -> F).

Definition column := nat -> F.
Definition put_level (f : column) (k : nat) (v : F) : column := fun j => if Nat.eqb j k then v else f j.

Variables (a b c d : column).
(** tridiag.py:43-45 *)
Definition fwd_first (st : column * column) : column * column :=
  let '(x, delta) := st in (put_level x 0 (div (c 0%nat) (b 0%nat)), put_level delta 0 (div (d 0%nat) (b 0%nat))).
(** 46-48 *)
Definition fwd (st : column * column) (k : nat) : column * column :=
  let '(x, delta) := st in
  let x' := put_level x k (div (c k) (sub (b k) (mul (a k) (x (k - 1)%nat)))) in
  (x', put_level delta k (div (sub (d k) (mul (a k) (delta (k - 1)%nat))) (sub (b k) (mul (a k) (x' (k - 1)%nat))))).
(** 53 *)
Definition bwd (delta : column) (x : column) (k : nat) : column := put_level x k (sub (delta k) (mul (x k) (x (S k)))).
(** 6-53 tridiag_solve on one column of n levels: the final x and delta *)
Definition tridiag_solve (n : nat) (x delta : column) : column * column :=
  let '(x, delta) := fold_left fwd (seq 1 (n - 1)) (fwd_first (x, delta)) in
  (fold_left (bwd delta) (rev (seq 0 (n - 1))) (put_level x (n - 1) (delta (n - 1)%nat)), delta).
(** 56-92 masked_tridiag_solve: [mask] is the column's flag (a horizontal field), tested at every level *)
Definition masked_tridiag_solve (mask : bool) (n : nat) (x delta : column) : column * column :=
  let st := if mask then fwd_first (x, delta) else (x, delta) in
  let '(x, delta) := fold_left (fun st k => if mask then fwd st k else st) (seq 1 (n - 1)) st in
  let x := if mask then put_level x (n - 1) (delta (n - 1)%nat) else x in
  (fold_left (fun x k => if mask then bwd delta x k else x) (rev (seq 0 (n - 1))) x, delta).

(** *** specification *)
(** x satisfies the n equations a_k x_{k-1} + b_k x_k + c_k x_{k+1} = d_k, without the a term in the first, the c term in
    the last *)
Definition solves (n : nat) (x : column) : Prop := forall k, (k < n)%nat ->
  add (add (if Nat.eqb k 0 then zero else mul (a k) (x (k - 1)%nat)) (mul (b k) (x k)))
      (if Nat.eqb k (n - 1) then zero else mul (c k) (x (S k))) = d k.
(** determinant of the leading k x k block of the matrix *)
Fixpoint minor (k : nat) : F :=
  match k with
  | O => one
  | S k' => match k' with
            | O => b 0%nat
            | S k'' => sub (mul (b k') (minor k')) (mul (mul (a k') (c k'')) (minor k''))
            end
  end.
End Tridiag.

(** ** stencils/column_operations.py *)
Section Extremum.
Variable V : Type.
Variable better : V -> V -> bool.    (* value > max_value in column_max, value < min_value in column_min *)
Variable field : Z -> V.             (* field.at(K=level) (or at(K=level, ddim=[ddim])) *)
(** 18-29 (43-55, 70-81, 95-107): the while loop, [fuel] bounds the number of iterations *)
Fixpoint scan (fuel : nat) (level end_index : Z) (best : V) (index : Z) : V * Z :=
  match fuel with
  | O => (best, index)
  | S fuel' =>
      if level <=? end_index then
        let value := field level in
        if better value best then scan fuel' (level + 1) end_index value level
        else scan fuel' (level + 1) end_index best index
      else (best, index)
  end.
Definition column_extremum (start_index end_index : Z) : V * Z :=
  scan (Z.to_nat (end_index - start_index + 2)) start_index end_index (field start_index) start_index.
End Extremum.

(** ** dsl/gt4py_utils.py *)
Section KSplit.
Variable V : Type.
Variable eqb : V -> V -> bool.    (* == of two column values *)
(** the dictionary of column values at level k, gt4py_utils.py:393-396; the keys come in the order of column_info *)
Definition column_vals (info : dict (list V)) (k : nat) : dict V :=
  flat_map (fun '(q, v) => match nth_error v k with Some x => [(q, x)] | None => [] end) info.
(** == of two dictionaries with keys in the same order *)
Fixpoint dict_eqb (a b : dict V) : bool :=
  match a, b with
  | [], [] => true
  | (q, x) :: a', (q', y) :: b' => (q =? q')%string && eqb x y && dict_eqb a' b'
  | _, _ => false
  end.
(** 392-399 *)
Fixpoint starts (info : dict (list V)) (ks : list nat) (compare : option (dict V)) : list nat :=
  match ks with
  | [] => []
  | k :: ks' =>
      let vals := column_vals info k in
      if match compare with None => true | Some c => negb (dict_eqb vals c) end
      then k :: starts info ks' (Some vals)
      else starts info ks' compare
  end.
(** 400-403 *)
Fixpoint blocks (ks : list nat) (npz : nat) : list (nat * nat) :=
  match ks with
  | [] => []
  | k :: ks' => match ks' with
                | [] => [(k, npz - k)%nat]
                | k' :: _ => (k, k' - k)%nat :: blocks ks' npz
                end
  end.
(** 389-403 get_kstarts; None = IndexError *)
Definition get_kstarts (info : dict (list V)) (npz : nat) : option (list (nat * nat)) :=
  match starts info (seq 0 npz) None with
  | [] => None
  | ks => Some (blocks ks npz)
  end.
(** 406-417 k_split_run: the calls made, as (kstart, nk, split variables); None = IndexError *)
Fixpoint k_split_run (ks : list (nat * nat)) (vars : dict (list V)) : option (list (nat * nat * dict V)) :=
  match ks with
  | [] => Some []
  | (ki, nk) :: ks' =>
      if forallb (fun '(_, v) => (ki <? length v)%nat) vars then
        do r <- k_split_run ks' vars; Some ((ki, nk, column_vals vars ki) :: r)
      else None
  end.
(** *** specification: level k lies in block (start, size) *)
Definition covers (p : nat * nat) (k : nat) : Prop := (fst p <= k < fst p + snd p)%nat.
End KSplit.

(** ** grid/eta.py *)
Section Eta.
Variable F : Type.
Variables (add mul div : F -> F -> F) (leb : F -> F -> bool) (is_zero : F -> bool).
Variables (half surface_pressure : F) (vertical_coordinate : F -> F).    (* eta.py:15, 100-105 *)
(** adjacent pairs l[:-1], l[1:] *)
Definition pairs {T} (l : list T) : list (T * T) := combine l (tl l).
(** eta.py:108-115 compute_eta *)
Definition compute_eta (ak bk : list F) : list F :=
  map (fun '((a0, a1), (b0, b1)) => mul half (add (add (div (add a0 a1) surface_pressure) b0) b1)) (combine (pairs ak) (pairs bk)).
(** np.all(l[:-1] <= l[1:]) *)
Definition non_decreasing (l : list F) : bool := forallb (fun '(x, y) => leb x y) (pairs l).
(** np.where(bk == 0)[0] *)
Definition zero_levels (bk : list F) : list nat :=
  map fst (filter (fun '(_, x) => is_zero x) (combine (seq 0 (length bk)) bk)).
(** eta.py:75-97 set_hybrid_pressure_coefficients after loading; the result is (ks, ptop); None = ValueError *)
Definition set_coefficients (km : Z) (ak bk : list F) : option (nat * F) :=
  if negb (Z.of_nat (length ak) - 1 =? km) then None
  else if negb (Z.of_nat (length bk) - 1 =? km) then None
  else
    let eta := compute_eta ak bk in
    if negb (non_decreasing eta) then None
    else if negb (non_decreasing (map vertical_coordinate eta)) then None
    else match zero_levels bk with
         | [] => None
         | z :: zs => do p <- hd_error ak; Some (if km =? 91 then 0%nat else last zs z, p)
         end.
End Eta.
