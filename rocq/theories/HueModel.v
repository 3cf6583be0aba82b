(** Model of the colours and dimensions of plots: ndsl/viz/fv3/_plot_helpers.py 6-23 (_align_grid_var_dims), 26-36 (_align_plot_var_dims), 39-58 (_min_max_from_percentiles),
    61-125 (_infer_color_limits) and 153-177 (infer_cmap_params).

    Numbers are rational; a value of the data may be NaN (None).  Left out: data without any value, for which np.nanmin raises, and infinities.  numpy and xarray are not part of this
    repository: np.percentile interpolates linearly between the two nearest values, as its documentation says; a data array has names of dimensions and a value for each
    assignment of positions to the names. *)
From Coq Require Import List Bool String QArith Qminmax Qabs.
Import ListNotations.
Local Open Scope Q_scope.
Local Open Scope list_scope.

Definition num : Type := option Q.
Definition nlt (x y : num) : bool := match x, y with Some a, Some b => negb (Qle_bool b a) | _, _ => false end.
Definition neq (x y : num) : bool := match x, y with Some a, Some b => Qeq_bool a b | _, _ => false end.
Definition neg (x : num) : num := option_map Qopp x.
(** np.max([np.abs(a), np.abs(b)]): NaN if one of them is *)
Definition max_abs (x y : num) : num := match x, y with Some a, Some b => Some (Qmax (Qabs a) (Qabs b)) | _, _ => None end.

(** Python: not cmap *)
Definition named (cmap : option string) : bool := match cmap with None | Some EmptyString => false | Some _ => true end.
Definition cmap_or (d : string) (cmap : option string) : string := match cmap with Some s => if named cmap then s else d | None => d end.

(** 97-125; None = ValueError *)
Definition infer_color_limits (xmin xmax : num) (vmin vmax : option num) (cmap : option string) : option (num * num * string) :=
  match vmin, vmax with
  | None, None =>
      if nlt xmin (Some 0) && nlt (Some 0) xmax then let m := max_abs xmin xmax in Some (neg m, m, cmap_or "RdBu_r" cmap)
      else Some (xmin, xmax, cmap_or "viridis" cmap)
  | None, Some v =>
      if nlt xmin (Some 0) && nlt (Some 0) v then Some (neg v, v, cmap_or "RdBu_r" cmap)
      else Some (xmin, v, cmap_or "viridis" cmap)
  | Some v, None =>
      if nlt (Some 0) xmax && nlt v (Some 0) then Some (v, neg v, cmap_or "RdBu_r" cmap)
      else Some (v, xmax, cmap_or "viridis" cmap)
  | Some v, Some w =>
      if negb (named cmap) then Some (v, w, (if neq v (neg w) then "RdBu_r" else "viridis")%string) else None
  end.

(** x[~np.isnan(x)] *)
Definition valid (data : list num) : list Q := flat_map (fun x => match x with Some a => [a] | None => [] end) data.
Fixpoint smallest (x : Q) (l : list Q) : Q := match l with [] => x | y :: l' => smallest (Qmin x y) l' end.
Fixpoint largest (x : Q) (l : list Q) : Q := match l with [] => x | y :: l' => largest (Qmax x y) l' end.
Definition nanmin (data : list num) : num := match valid data with [] => None | x :: l => Some (smallest x l) end.
Definition nanmax (data : list num) : num := match valid data with [] => None | x :: l => Some (largest x l) end.

Fixpoint insert (x : Q) (l : list Q) : list Q := match l with [] => [x] | y :: l' => if Qle_bool x y then x :: l else y :: insert x l' end.
Definition sort (l : list Q) : list Q := fold_right insert [] l.
(** np.percentile(l, p), p a number of percent *)
Definition percentile (l : list Q) (p : nat) : Q :=
  let s := sort l in
  let at_ := (p * (List.length l - 1))%nat in
  let j := (at_ / 100)%nat in
  let g := inject_Z (Z.of_nat (at_ mod 100)) / 100 in
  let a := nth j s 0 in
  let b := nth (S j) s a in
  a + (b - a) * g.
(** 51-58 *)
Definition min_max_from_percentiles (data : list num) (lo hi : nat) : num * num :=
  match valid data with [] => (None, None) | l => (Some (percentile l lo), Some (percentile l hi)) end.

(** 172-177 *)
Definition infer_cmap_params (data : list num) (vmin vmax : option num) (cmap : option string) (robust : bool) : option (num * num * string) :=
  let '(xmin, xmax) := if robust then min_max_from_percentiles data 2 98 else (nanmin data, nanmax data) in
  infer_color_limits xmin xmax vmin vmax cmap.

(** Data arrays. *)
Section Arrays.
Context {V : Type}.
Record array := Array { dims : list string; val : (string -> nat) -> V }.
Definition mem (d : string) (l : list string) : bool := if in_dec string_dec d l then true else false.
Definition missing (required : list string) (a : array) : bool := negb (forallb (fun d => mem d (dims a)) required).
(** 7-23; transpose changes the order of the names only; isel takes position 0 *)
Definition align_grid_var_dims (a : array) (required : list string) : option array :=
  if missing required a then None
  else let redundant := filter (fun d => negb (mem d required)) (dims a) in
       match redundant with
       | [] => Some (Array required (val a))
       | _ => Some (Array required (fun at_ => val a (fun d => if mem d redundant then O else at_ d)))
       end.
(** 27-36; [order] is the order in which Python lists the elements of a set *)
Definition align_plot_var_dims (order : list string -> list string) (a : array) (y x : string) : option array :=
  let first := [y; x; "tile"%string] in
  if missing first a then None
  else Some (Array (first ++ order (filter (fun d => negb (mem d first)) (dims a))) (val a)).
End Arrays.
Arguments array : clear implicits.
