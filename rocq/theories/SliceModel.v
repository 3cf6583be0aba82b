(** Model of code whose content is index slicing: ndsl/checkpointer/validation.py (_clip_pace_array_to_target),
    ndsl/stencils/c2l_ord.py (mock_exchange), ndsl/grid/mirror.py (set_halo_nan).  Slices are resolved by the model of
    Python and numpy in ViewModel.v. *)
From Verif Require Import Base PartModel DecompModel HaloModel ViewModel.

(** ** checkpointer/validation.py: the addresses of the array that remain, per axis *)

Definition full_slice : entry := Slice None None None.
(** validation.py:42-47 *)
Definition buffer_selection (array_len target_len : Z) : entry :=
  if (array_len - target_len) mod 2 =? 1 then Slice (Some 0) (Some (-1)) None else full_slice.
(** 55-60 *)
Definition halo_selection (array_len target_len : Z) : entry :=
  let n_halo_clip := (array_len - target_len) / 2 in
  if n_halo_clip =? 0 then full_slice else Slice (Some n_halo_clip) (Some (- n_halo_clip)) None.
(** indexing the result of an indexing along one axis: the addresses [l] of the original that [e] keeps *)
Definition index_of_view (l : list Z) (e : entry) : option (list Z) :=
  do p <- resolve1 (Z.of_nat (length l)) e; Some (map (fun i => nth (Z.to_nat i) l 0) p).
(** 13-31, one axis *)
Definition clip1 (array_len target_len : Z) : option (list Z) :=
  do l <- resolve1 array_len (buffer_selection array_len target_len);
  index_of_view l (halo_selection (Z.of_nat (length l)) target_len).
(** 13-31: zip stops at the shorter of the two shapes; the remaining axes of the array are kept whole *)
Fixpoint clip (shape target : list Z) : option (list (list Z)) :=
  match shape, target with
  | n :: shape', t :: target' => do l <- clip1 n t; do r <- clip shape' target'; Some (l :: r)
  | _, _ => Some (map (fun n => zrange 0 n) shape)
  end.

(** ** numpy assignment of a block of an array to another block of it *)
Section Assign.
Variable V : Type.
Definition field2 := Z -> Z -> V.    (* the first two axes; the third one is ":" throughout *)

(** which source index goes to which destination index along one axis; numpy broadcasts a source of length 1;
    None = ValueError *)
Definition axis_map (n : Z) (dst src : entry) : option (list (Z * Z)) :=
  do d <- resolve1 n dst; do s <- resolve1 n src;
  if (length d =? length s)%nat then Some (combine d s)
  else match s with [x] => Some (map (fun i => (i, x)) d) | _ => None end.
Definition source (m : list (Z * Z)) (i : Z) : option Z :=
  match find (fun p => fst p =? i) m with Some p => Some (snd p) | None => None end.
(** a[rows_d, cols_d] = a[rows_s, cols_s] on an array of ni x nj; numpy reads the source before it writes where they overlap *)
Definition assign (ni nj : Z) (f : field2) (rows_d cols_d rows_s cols_s : entry) : option field2 :=
  do r <- axis_map ni rows_d rows_s; do c <- axis_map nj cols_d cols_s;
  Some (fun i j => match source r i, source c j with Some i', Some j' => f i' j' | _, _ => f i j end).
(** a[rows, cols] = v *)
Definition assign_const (ni nj : Z) (f : field2) (rows cols : entry) (v : V) : option field2 :=
  do r <- resolve1 ni rows; do c <- resolve1 nj cols;
  Some (fun i j => if existsb (Z.eqb i) r && existsb (Z.eqb j) c then v else f i j).

(** ** stencils/c2l_ord.py:28-58 mock_exchange *)
Definition sl (a b : Z) : entry := Slice (Some a) (Some b) None.
Definition mock_exchange (ni nj isc iec isd ied jsc jec jsd jed : Z) (f : field2) : option field2 :=
  let nhalo := isc - isd in
  do f <- assign ni nj f (sl isd isc) full_slice (sl (iec - nhalo + 1) (iec + 1)) full_slice;                (* 41 *)
  do f <- assign ni nj f (sl (iec + 1) (ied + 1)) full_slice (sl isc (isc + nhalo)) full_slice;              (* 42 *)
  do f <- assign ni nj f full_slice (sl jsd jsc) full_slice (sl (jec - nhalo + 1) (jec + 1));                (* 43 *)
  do f <- assign ni nj f full_slice (sl (jec + 1) (jed + 1)) full_slice (sl jsc (jsc + nhalo));              (* 44 *)
  do f <- assign ni nj f (sl isd isc) (sl jsd jsc) (sl (iec - nhalo + 1) (iec + 1)) (sl (jec - nhalo + 1) (jec + 1));   (* 46-48 *)
  do f <- assign ni nj f (sl isd isc) (sl (jec + 1) (jed + 1)) (sl (iec - nhalo + 1) (iec + 1)) (sl jsc (jsc + nhalo)); (* 49-51 *)
  do f <- assign ni nj f (sl (iec + 1) (ied + 1)) (sl jsd jsc) (sl isc (isc + nhalo)) (sl (jec - nhalo + 1) (jec + 1)); (* 52-54 *)
  assign ni nj f (sl (iec + 1) (ied + 1)) (sl (jec + 1) (jed + 1)) (sl isc (isc + nhalo)) (sl jsc (jsc + nhalo)).       (* 55-57 *)

(** ** grid/mirror.py:272-277 set_halo_nan *)
Definition set_halo_nan (ni nj ng : Z) (nan : V) (f : field2) : option field2 :=
  do f <- assign_const ni nj f (Slice None (Some ng) None) full_slice nan;
  do f <- assign_const ni nj f full_slice (Slice None (Some ng) None) nan;
  do f <- assign_const ni nj f (Slice (Some (- ng)) None None) full_slice nan;
  assign_const ni nj f full_slice (Slice (Some (- ng)) None None) nan.
End Assign.

(** ** specifications *)
(** periodic image of i in the domain of n points starting at s *)
Definition image (s n i : Z) : Z := s + (i - s) mod n.
(** i is within w points of an edge of an axis of n points *)
Definition near_edge (n w i : Z) : Prop := i < w \/ n - w <= i.
