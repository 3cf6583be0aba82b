(** Model of the comparison of two data files: ndsl/stencils/testing/best_guess_diff.py 41-157 (main, up to the difference of one variable).

    A variable is its shape and its values.  Modelled is which parts of A and B are subtracted from each other.  Simplified: the files are dictionaries; the subtraction itself, the distances in units of the
    last place, the messages and the file written (159-179) are left out; the halo is not negative. *)
From Coq Require Import List Bool String Arith.
From Verif Require Import Base Dict.
Import ListNotations.
Local Open Scope list_scope.
Local Open Scope nat_scope.

Section Best.
Context {V : Type}.
Record var := Var { shape : list nat; value : list nat -> V }.
(** 73-82: data[0, 0, ::] of data with five or more dimensions *)
Definition drop_leading (d : var) : var := if 5 <=? length (shape d) then Var (skipn 2 (shape d)) (fun i => value d (0 :: 0 :: i)) else d.
(** 154-157: data[halo:-halo, halo:-halo, ::]; with halo = 0 the slice 0:-0 is empty *)
Definition inner_size (halo n : nat) : nat := if halo =? 0 then 0 else n - 2 * halo.
Definition trim (halo : nat) (d : var) : var :=
  match shape d with
  | ni :: nj :: r => Var (inner_size halo ni :: inner_size halo nj :: r) (fun idx => match idx with i :: j :: k => value d (halo + i :: halo + j :: k) | _ => value d idx end)
  | _ => d
  end.
(** 91-114 and 119-137: a pair of sizes is accepted, and which of the two has a halo *)
Inductive fit := Unfit | Same | HaloA | HaloB.
Definition resolve (halo a b : nat) : fit :=
  if a =? b then Same
  else if a <? b then (if (2 * halo <=? b) && (b - 2 * halo =? a) then HaloB else Unfit)
  else (if (2 * halo <=? a) && (a - 2 * halo =? b) then HaloA else Unfit).
(** 57-68: the name in B; None = skipped *)
Definition resolve_name {W} (B : dict W) (name_map : dict string) (name : string) : option string :=
  match get B name with Some _ => Some name | None => get name_map name end.
(** what is done with a variable: skipped (continue), an exception, or the subtraction of the second from the first *)
Inductive outcome := Skipped | Error | Compared (a b : var).
(** 71-157 *)
Definition compare (halo : nat) (a b : var) : outcome :=
  let a := drop_leading a in
  let b := drop_leading b in
  if negb (length (shape a) =? length (shape b)) then Skipped
  else match shape a, shape b with
  | ai :: ra, bi :: rb =>
      match resolve halo ai bi with
      | Unfit => Skipped
      | f =>
          match ra, rb with
          | aj :: ra, bj :: rb =>
              match resolve halo aj bj with
              | Unfit => Skipped
              | _ =>
                  match ra, rb with
                  | ak :: _, bk :: _ =>
                      if negb (ak =? bk) then Skipped
                      else Compared (match f with HaloA => trim halo a | _ => a end) (match f with HaloB => trim halo b | _ => b end)
                  | _, _ => Error
                  end
              end
          | _, _ => Error
          end
      end
  | _, _ => Error
  end.
Definition best_guess (halo : nat) (A B : dict var) (name_map : dict string) (name : string) : outcome :=
  match get A name with
  | None => Skipped
  | Some a => match resolve_name B name_map name with None => Skipped | Some n => match get B n with None => Error | Some b => compare halo a b end end
  end.
End Best.
Arguments var : clear implicits.
