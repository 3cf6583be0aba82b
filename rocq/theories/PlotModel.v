(** Model of drawing fields on the cubed sphere: ndsl/viz/fv3/_masking.py 4-117, ndsl/viz/fv3/_plot_cube.py 264-320
    (pcolormesh_cube, _pcolormesh_cube_all_handles), 323-343 (UpdateablePColormesh), 346-371 (_apply_to_non_non_nan_segments), 374-425
    (_segment_plot_inputs), 428-433 (center_longitudes).

    Longitudes are real numbers in degrees, rounding is left out; a value is Some or None = NaN.  A drawing is the list of the arrays
    (longitudes and latitudes at corners, values at cells) that ax.pcolormesh gets.  Left out: matplotlib and cartopy, colours. *)
From Coq Require Import Reals Lra.
From Verif Require Import Base Dict.
Open Scope Z_scope.

(** arrays of rows and columns *)
Record arr (A : Type) := Arr { nr : Z; nc : Z; at_ : Z -> Z -> A }.
Arguments Arr {A}. Arguments nr {A}. Arguments nc {A}. Arguments at_ {A}.
Definition rows {A} (x : arr A) (lo hi : Z) : arr A := Arr (hi - lo) (nc x) (fun i j => at_ x (lo + i) j).     (* x[lo:hi, :], 0 <= lo <= hi <= rows *)
Definition cols {A} (x : arr A) (lo hi : Z) : arr A := Arr (nr x) (hi - lo) (fun i j => at_ x i (lo + j)).     (* x[:, lo:hi] *)
Definition T {A} (x : arr A) : arr A := Arr (nc x) (nr x) (fun i j => at_ x j i).
Definition is_nan {V} (m : arr (option V)) : Z -> Z -> bool := fun i j => match at_ m i j with Some _ => false | None => true end.

(** ** 374-425 *)
(** numbers of NaN in a row, in a column, in all *)
Definition count (f : Z -> bool) (n : Z) : Z := Z.of_nat (length (filter f (zrange 0 n))).
Definition in_row (p : Z -> Z -> bool) (cols : Z) (i : Z) : Z := count (fun j => p i j) cols.
Definition in_col (p : Z -> Z -> bool) (rows : Z) (j : Z) : Z := count (fun i => p i j) rows.
Definition total (p : Z -> Z -> bool) (rows cols : Z) : Z := fold_right Z.add 0 (map (in_row p cols) (zrange 0 rows)).
Definition largest (l : list Z) : Z := fold_right Z.max 0 l.
(** the index of the first largest entry *)
Fixpoint argmax_from (l : list Z) (i : Z) (m : Z) : Z := match l with [] => i | x :: l' => if x =? m then i else argmax_from l' (i + 1) m end.
Definition argmax (l : list Z) : Z := argmax_from l 0 (largest l).
(** 406-410 the inner while loop *)
Fixpoint run_end (fuel : nat) (row : Z -> bool) (n i_start i_end : Z) : Z :=
  match fuel with
  | O => i_end
  | S fuel => if (i_end <? n) && Bool.eqb (row i_start) (row i_end) then run_end fuel row n i_start (i_end + 1) else i_end
  end.
(** 405-417 the outer one: the pieces [i_start, i_end) *)
Fixpoint runs (fuel : nat) (row : Z -> bool) (n i_start i_end : Z) : list (Z * Z) :=
  match fuel with
  | O => []
  | S fuel => if i_end <? n then let e := run_end (Z.to_nat n) row n i_start i_end in (i_start, e) :: runs fuel row n e e else []
  end.
Definition concat_opt {A} (l : list (option (list A))) : option (list A) :=
  fold_right (fun x acc => do a <- x; do b <- acc; Some (a ++ b)) (Some []) l.
(** None = out of fuel (proved not to happen).  Simplified: fractions of NaN are compared exactly, by cross-multiplication; in double precision they compare
    the same way for fewer than 2^26 rows and columns *)
Fixpoint segments {X Y V} (fuel : nat) (x : arr X) (y : arr Y) (m : arr (option V)) : option (list (arr X * arr Y * arr (option V))) :=
  match fuel with
  | O => None
  | S fuel =>
      let p := is_nan m in
      if total p (nr m) (nc m) =? 0
      then Some (if 0 <? nr m * nc m then [(x, y, m)] else [])
      else
        let x_nans := map (in_row p (nc m)) (zrange 0 (nr m)) in      (* each over nc m *)
        let y_nans := map (in_col p (nr m)) (zrange 0 (nc m)) in      (* each over nr m *)
        if largest y_nans * nc m <=? largest x_nans * nr m then
          let i := argmax x_nans in
          if in_row p (nc m) i =? nc m
          then concat_opt [segments fuel (rows x 0 (i + 1)) (rows y 0 (i + 1)) (rows m 0 i);
                           segments fuel (rows x (i + 1) (nr x)) (rows y (i + 1) (nr y)) (rows m (i + 1) (nr m))]
          else concat_opt (map (fun '(s, e) => segments fuel (cols x s (e + 1)) (cols y s (e + 1)) (cols m s e)) (runs (Z.to_nat (nc m)) (p i) (nc m) 0 1))
        else segments fuel (T x) (T y) (T m)
  end.
Definition segment_plot_inputs {X Y V} (x : arr X) (y : arr Y) (m : arr (option V)) : option (list (arr X * arr Y * arr (option V))) :=
  segments (Z.to_nat (2 * (nr m + nc m) + 2)) x y m.

(** ** _masking.py *)
Definition antimeridian (central : R) : R := (central + 180 - 360 * IZR (Int_part ((central + 180) / 360)))%R.    (* 29 *)
Definition periodic_difference (x1 x2 : R) : R :=    (* 99-117 *)
  if Rle_dec (Rabs (x1 - x2)) 180 then (x1 - x2)%R else if Rle_dec 0 (x1 - x2) then (x1 - (x2 + 360))%R else (x1 + 360 - x2)%R.
Definition periodic_le (x1 x2 : R) : bool :=         (* 49-71 *)
  if Rle_dec (Rabs (x1 - x2)) 180 then if Rle_dec (x1 - x2) 0 then true else false
  else if Rle_dec 0 (x1 - x2) then if Rle_dec (x1 - (x2 + 360)) 0 then true else false
  else if Rle_dec (x1 + 360 - x2) 0 then true else false.
Definition periodic_gt (x1 x2 : R) : bool :=         (* 74-96 *)
  if Rle_dec (Rabs (x1 - x2)) 180 then if Rlt_dec 0 (x1 - x2) then true else false
  else if Rle_dec 0 (x1 - x2) then if Rlt_dec 0 (x1 - (x2 + 360)) then true else false
  else if Rlt_dec 0 (x1 + 360 - x2) then true else false.
(** 36 the vertices of a cell *)
Definition vertices {A} (x : arr A) (i j : Z) : list A := [at_ x i j; at_ x (i + 1) j; at_ x i (j + 1); at_ x (i + 1) (j + 1)].
(** 36-43 true = the cell is kept *)
Definition kept (a : R) (v : list R) : bool :=
  negb (negb (forallb (fun x => periodic_le x a) v) && negb (forallb (fun x => periodic_gt x a) v)
        && forallb (fun x => if Rlt_dec (periodic_difference x a) 90 then true else false) v).
(** 428-433 *)
Definition centred (central x : R) : R := if Rlt_dec x (antimeridian central) then x else (x - 360)%R.
Definition map_arr {A B} (f : A -> B) (x : arr A) : arr B := Arr (nr x) (nc x) (fun i j => f (at_ x i j)).

(** one tile: latitudes and longitudes at corners, values at cells *)
Definition tile (V : Type) : Type := (arr R * arr R * arr (option V))%type.
(** 305-307; only the first six tiles are masked (_masking.py 31).  Simplified: the transpositions of lon, the mask and the array cancel each other *)
Definition masked {V} (central : R) (k : nat) (lon : arr R) (m : arr (option V)) : arr (option V) :=
  Arr (nr m) (nc m) (fun i j => if (k <? 6)%nat then if kept (antimeridian central) (vertices lon i j) then at_ m i j else None else at_ m i j).
(** 346-371 from tile k on; the arrays that func gets *)
Fixpoint apply_segments {V} (central : R) (centre : R -> R) (k : nat) (tiles : list (tile V)) : option (list (arr R * arr R * arr (option V))) :=
  match tiles with
  | [] => Some []
  | (lat, lon, m) :: l => do a <- segment_plot_inputs (map_arr centre lon) lat (masked central k lon m); do b <- apply_segments central centre (S k) l; Some (a ++ b)
  end.
(** 297-320; None = IndexError in the mask for fewer than six tiles *)
Definition all_handles {V} (central : R) (tiles : list (tile V)) : option (list (arr R * arr R * arr (option V))) :=
  if (length tiles <? 6)%nat then None else apply_segments central (centred central) 0 tiles.
(** 293-294; None = IndexError *)
Definition pcolormesh_cube {V} (central : R) (tiles : list (tile V)) : option (arr R * arr R * arr (option V)) :=
  do h <- all_handles central tiles; nth_error (rev h) 0.

(** 339-341: the handle keeps its corners and gets the values one after the other.  None = StopIteration, or ValueError of matplotlib for another number of values.
    Handles that are not reached keep their values *)
Definition set_array {V} (h new : arr (option V)) : option (arr (option V)) :=
  if nr h * nc h =? nr new * nc new then Some (Arr (nr h) (nc h) (fun i j => at_ new ((i * nc h + j) / nc new) ((i * nc h + j) mod nc new))) else None.
Fixpoint set_arrays {X Y V} (handles : list (arr X * arr Y * arr (option V))) (new : list (arr (option V))) : option (list (arr X * arr Y * arr (option V))) :=
  match new, handles with
  | [], h => Some h
  | _, [] => None
  | m :: new', (x, y, o) :: h' => do a <- set_array o m; do r <- set_arrays h' new'; Some ((x, y, a) :: r)
  end.
(** 331-343; here the longitudes are not centred, and not used.  tiles = the latitudes and longitudes of the object with the new values *)
Definition update {V} (central : R) (handles : list (arr R * arr R * arr (option V))) (tiles : list (tile V)) : option (list (arr R * arr R * arr (option V))) :=
  do s <- (if (length tiles <? 6)%nat then None else apply_segments central (fun x => x) 0 tiles); set_arrays handles (map snd s).

(** ** specification *)
(** A rectangular part of an array, possibly transposed: for each of its places the row and column of the whole *)
Record window := Window { height : Z; width : Z; place : Z -> Z -> Z * Z }.
Definition cells {A} (x : arr A) (w : window) : arr A := Arr (height w) (width w) (fun i j => at_ x (fst (place w i j)) (snd (place w i j))).
Definition corners {A} (x : arr A) (w : window) : arr A := Arr (height w + 1) (width w + 1) (fun i j => at_ x (fst (place w i j)) (snd (place w i j))).
(** the cells of the part lie as they do in the whole (or transposed), and so do their corners *)
Definition straight (w : window) : Prop :=
  exists r c, (forall i j, place w i j = (r + i, c + j)) \/ (forall i j, place w i j = (r + j, c + i)).
Definition has (w : window) (i j : Z) : Prop := exists p q, 0 <= p < height w /\ 0 <= q < width w /\ place w p q = (i, j).
(** parts that together have every cell without NaN exactly once, and no cell with NaN *)
Record covers (nan : Z -> Z -> bool) (n m : Z) (ws : list window) : Prop := {
  c_straight : forall w, In w ws -> straight w /\ 0 < height w /\ 0 < width w;
  c_sound : forall w i j, In w ws -> has w i j -> 0 <= i < n /\ 0 <= j < m /\ nan i j = false;
  c_complete : forall i j, 0 <= i < n -> 0 <= j < m -> nan i j = false -> exists w, In w ws /\ has w i j;
  c_once : forall k k' w w' i j, nth_error ws k = Some w -> nth_error ws k' = Some w' -> has w i j -> has w' i j -> k = k' }.
(** longitudes of a narrow cell, as angles: all of them within 90 degrees of each other *)
Definition narrow (v : list R) : Prop := forall x y, In x v -> In y v -> (0 <= x < 360 /\ 0 <= y < 360 /\ (Rabs (x - y) < 90 \/ 270 < Rabs (x - y)))%R.
(** the numbers that are drawn are within 90 degrees of each other, too *)
Definition contiguous (central : R) (v : list R) : Prop := forall x y, In x v -> In y v -> (Rabs (centred central x - centred central y) < 90)%R.
(** the cells of tile k that are left out: NaN, or cut by the antimeridian *)
Definition left_out {V} (central : R) (k : nat) (t : tile V) (i j : Z) : bool :=
  let '(lat, lon, m) := t in is_nan m i j || (k <? 6)%nat && negb (kept (antimeridian central) (vertices lon i j)).
Definition sized {V} (t : tile V) : Prop :=
  let '(lat, lon, m) := t in 0 <= nr m /\ 0 <= nc m /\ nr lat = nr m + 1 /\ nc lat = nc m + 1 /\ nr lon = nr m + 1 /\ nc lon = nc m + 1.
(** arrays that agree *)
Definition same {A} (x y : arr A) : Prop := nr x = nr y /\ nc x = nc y /\ forall i j, 0 <= i < nr x -> 0 <= j < nc x -> at_ x i j = at_ y i j.
(** what is drawn for a part of a tile: its corners, with the longitudes centred, and its values *)
Definition shows {V} (central : R) (t : tile V) (w : window) (d : arr R * arr R * arr (option V)) : Prop :=
  let '(lat, lon, m) := t in same (fst (fst d)) (corners (map_arr (centred central) lon) w) /\ same (snd (fst d)) (corners lat w) /\ same (snd d) (cells m w).
