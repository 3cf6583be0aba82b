(** Model of the storages made from arrays: ndsl/dsl/gt4py_utils.py 53-381 (make_storage_data and its helpers, make_storage_dict) and reshape
    480-493; the storages of the translate tests: ndsl/stencils/testing/translate.py 131-182 (make_storage_data), 187-202 (starts) and 264-313
    (slice_output of arrays), with ndsl/stencils/testing/grid.py 274-293 and 430-442.

    An array is a shape and a value for each list of indices; values are an abstract type with a zero.  [None]: an exception.  The arrays
    returned are copies in a fresh buffer, so no aliasing appears.  Left out: devices, element types (the conversion of values), memory layout.
    Axes, dummies and max_dim are not negative.  gt4py.storage.from_array is not part of this repository; its requirement that aligned_index and
    dimensions have one entry for each axis is in [from_array]. *)
Require Import ZArith List Bool.
From Verif Require Import Base.
Local Open Scope Z_scope.

Section Values.
  Variable V : Type.
  Variable zero : V.
  Record nd := mkNd { shp : list Z; val : list Z -> V }.
  Definition rank (a : nd) : nat := List.length (shp a).

  (** ** numpy *)
  Definition zeros (shape : list Z) : option nd := if forallb (fun n => 0 <=? n) shape then Some (mkNd shape (fun _ => zero)) else None.
  (** the slice a:b of an axis of n: first index and number of indices *)
  Definition clip (n x : Z) : Z := if x <? 0 then Z.max 0 (x + n) else Z.min x n.
  Definition slice_of (n a b : Z) : Z * Z := (clip n a, Z.max 0 (clip n b - clip n a)).
  (** buffer[s0 : s0 + d0, s1 : s1 + d1, ...] = data, the sizes being those of the data; further axes of the buffer are taken whole.  The data are
      spread over the slices: missing axes in front and axes of length 1 are repeated. *)
  Fixpoint slices (shape starts sizes : list Z) : option (list (Z * Z)) :=
    match starts, sizes, shape with
    | [], _, _ => Some (map (fun n => (0, n)) shape)
    | s :: starts, d :: sizes, n :: shape => do r <- slices shape starts sizes; Some (slice_of n s (s + d) :: r)
    | _, _, _ => None
    end.
  (** drop surplus axes of length 1 in front, add missing ones *)
  Definition pad (r : nat) (shape : list Z) : option (list Z) :=
    let k := (List.length shape - r)%nat in
    if forallb (fun n => n =? 1) (firstn k shape) then Some (repeat 1 (r - List.length shape) ++ skipn k shape) else None.
  Fixpoint fits (data : list Z) (target : list (Z * Z)) : bool :=
    match data, target with
    | [], [] => true
    | d :: data, (_, m) :: target => ((d =? m) || (d =? 1)) && fits data target
    | _, _ => false
    end.
  Fixpoint inside (target : list (Z * Z)) (idx : list Z) : bool :=
    match target, idx with
    | (a, m) :: target, i :: idx => (a <=? i) && (i <? a + m) && inside target idx
    | [], [] => true
    | _, _ => false
    end.
  Fixpoint source (data : list Z) (target : list (Z * Z)) (idx : list Z) : list Z :=
    match data, target, idx with
    | d :: data, (a, _) :: target, i :: idx => (if d =? 1 then 0 else i - a) :: source data target idx
    | _, _, _ => []
    end.
  Definition assign (buffer : nd) (starts sizes : list Z) (data : nd) : option nd :=
    do target <- slices (shp buffer) starts sizes;
    do padded <- pad (List.length target) (shp data);
    if fits padded target then
      Some (mkNd (shp buffer) (fun idx => if inside target idx then val data (repeat 0 (rank data - List.length target) ++ skipn (List.length target - rank data) (source padded target idx)) else val buffer idx))
    else None.
  (** repeat(array[..., newaxis], n, axis=-1) *)
  Definition repeat_last (n : Z) (a : nd) : option nd := if 0 <=? n then Some (mkNd (shp a ++ [n]) (fun idx => val a (removelast idx))) else None.
  (** repeat(array[newaxis, ...], n, axis=0) *)
  Definition repeat_first (n : Z) (a : nd) : option nd := if 0 <=? n then Some (mkNd (n :: shp a) (fun idx => val a (List.tl idx))) else None.
  (** tile of an array of one axis *)
  Definition tile (a : nd) (reps : list Z) : option nd :=
    match shp a with
    | [n] => if forallb (fun m => 0 <=? m) reps && negb (Nat.eqb (List.length reps) 0) then
               Some (mkNd (removelast reps ++ [n * List.last reps 1]) (fun idx => val a [List.last idx 0 mod n])) else None
    | _ => None
    end.
  (** moveaxis(array, 2, axis) of an array of three axes *)
  Definition moveaxis_2 (axis : nat) (a : nd) : option nd :=
    match shp a, axis with
    | [n; m; p], 0%nat => Some (mkNd [p; n; m] (fun idx => match idx with [k; i; j] => val a [i; j; k] | _ => zero end))
    | [n; m; p], 1%nat => Some (mkNd [n; p; m] (fun idx => match idx with [i; k; j] => val a [i; j; k] | _ => zero end))
    | [n; m; p], 2%nat => Some a
    | _, _ => None
    end.
  (** reshape: elements in row-major order (no negative size in the new shape) *)
  Definition size (shape : list Z) : Z := fold_right Z.mul 1 shape.
  Fixpoint ravel (shape idx : list Z) : Z :=
    match shape, idx with _ :: shape, i :: idx => i * size shape + ravel shape idx | _, _ => 0 end.
  Fixpoint unravel (shape : list Z) (x : Z) : list Z :=
    match shape with [] => [] | _ :: shape => x / size shape :: unravel shape (x mod size shape) end.
  Definition np_reshape (a : nd) (shape : list Z) : option nd :=
    if (size (shp a) =? size shape) && forallb (fun n => 0 <=? n) shape then Some (mkNd shape (fun idx => val a (unravel (shp a) (ravel shape idx)))) else None.
  (** squeeze *)
  Fixpoint unsqueeze (shape idx : list Z) : list Z :=
    match shape with
    | [] => []
    | n :: shape => if n =? 1 then 0 :: unsqueeze shape idx else match idx with i :: idx => i :: unsqueeze shape idx | [] => [] end
    end.
  Definition squeeze (a : nd) : nd := mkNd (filter (fun n => negb (n =? 1)) (shp a)) (fun idx => val a (unsqueeze (shp a) idx)).

  (** shape[axis]; IndexError *)
  Definition item (l : list Z) (k : nat) : option Z := nth_error l k.
  Fixpoint set_item (l : list Z) (k : nat) (x : Z) : option (list Z) :=
    match l, k with [], _ => None | _ :: l, O => Some (x :: l) | y :: l, S k => do r <- set_item l k x; Some (y :: r) end.
  Definition truthy (dummy : option (list nat)) : bool := match dummy with Some (_ :: _) => true | _ => false end.
  Definition without (l : list Z) (k : nat) : list Z := firstn k l ++ skipn (k + 1) l.

  (** ** 198-232 *)
  Definition make_storage_data_1d (data : nd) (shape start : list Z) (dummy : option (list nat)) (axis : nat) (read_only : bool) : option nd :=
    let axis := Nat.min axis (List.length shape - 1) in
    do n <- item shape axis;
    do buffer <- zeros [n];
    do axis <- (if truthy dummy then
                  (* list(set((0, 1, 2)).difference(dummy))[0]: the sets of CPython yield 0, 1, 2 in this order *)
                  match filter (fun k => negb (existsb (Nat.eqb k) (match dummy with Some l => l | None => [] end))) [0%nat; 1%nat; 2%nat] with
                  | k :: _ => Some k
                  | [] => None
                  end
                else Some axis);
    do kstart <- item start 2;
    do buffer <- assign buffer [kstart] (shp data) data;
    if negb read_only then
      do tile_spec <- set_item shape axis 1;
      match axis with
      | 2%nat => tile buffer tile_spec
      | 1%nat => do n0 <- item shape 0; do x <- repeat_first n0 buffer; do n2 <- item shape 2; repeat_last n2 x
      | _ => do n1 <- item shape 1; do y <- repeat_last n1 buffer; do n2 <- item shape 2; repeat_last n2 y
      end
    else if Nat.eqb axis 1 then np_reshape buffer [1; n]
    else Some buffer.

  (** ** 235-269 *)
  Definition make_storage_data_2d (data : nd) (shape start : list Z) (dummy : option (list nat)) (axis : nat) (read_only : bool) : option nd :=
    let do_reshape := truthy dummy || negb (Nat.eqb axis 2) in
    let shape2d := if do_reshape then without shape (match dummy with Some (d :: _) => d | _ => axis end) else firstn 2 shape in
    match firstn 2 start, shp data with
    | [start1; start2], [size1; size2] =>
        do buffer <- zeros shape2d;
        do buffer <- assign buffer [start1; start2] [size1; size2] data;
        if negb read_only then
          (* buffer[:, :, newaxis] *)
          if Nat.leb 2 (rank buffer) then
            do n <- item shape axis;
            match shp buffer with
            | [_; _] => do b <- repeat_last n buffer; if negb (Nat.eqb axis 2) then moveaxis_2 axis b else Some b
            | _ => None (* more than two axes: the result is not the shape asked for; not followed further *)
            end
          else None
        else if do_reshape then np_reshape buffer shape
        else Some buffer
    | _, _ => None
    end.

  (** ** 272-288, and 291-304 where start is given: the sizes of as many axes as there are starts *)
  Definition make_storage_data_3d (data : nd) (shape start : list Z) : option nd :=
    match start, shp data with
    | [_; _; _], [_; _; _] => do buffer <- zeros shape; assign buffer start (shp data) data
    | _, _ => None
    end.
  Definition make_storage_data_Nd (data : nd) (shape start : list Z) : option nd :=
    do buffer <- zeros shape; assign buffer start (shp data) data.

  (** ** 53-78 *)
  Inductive dimension := I | J | K | Extra (n : Z).
  Definition mask_to_dimensions (mask : list bool) (shape : list Z) : option (list dimension) :=
    match mask with
    | mi :: mj :: mk :: rest =>
        do more <- (fix go (k : nat) (rest : list bool) := match rest with
                      | [] => Some []
                      | b :: rest => do r <- go (S k) rest; if b : bool then (do n <- item shape k; Some (Extra n :: r)) else Some r
                      end) 3%nat rest;
        Some ((if mi : bool then [I] else []) ++ (if mj : bool then [J] else []) ++ (if mk : bool then [K] else []) ++ more)
    | _ => None
    end.
  Definition translate_origin (origin : list Z) (mask : list bool) : option (list Z) :=
    if Nat.eqb (List.length origin) (List.length (filter (fun b => b) mask)) then Some origin
    else match mask with
         | [mi; mj; mk] =>
             do r <- (fix go (origin : list Z) (mask : list bool) : option (list Z) := match mask with
                      | [] => Some origin
                      | b :: mask => match origin with
                                     | [] => if b : bool then None else go [] mask
                                     | o :: origin => do r <- go origin mask; Some (if b : bool then o :: r else r)
                                     end
                      end) origin mask; Some r
         | _ => None
         end.

  (** ** 81-195: the array, aligned_index and dimensions given to gt4py *)
  Record storage := mkStorage { array : nd; aligned_index : list Z; dimensions : list dimension }.
  Definition from_array (a : nd) (aligned : list Z) (dims : list dimension) : option storage :=
    if Nat.eqb (List.length aligned) (rank a) && Nat.eqb (List.length dims) (rank a) then Some (mkStorage a aligned dims) else None.
  Definition make_storage_data (data : nd) (shape : option (list Z)) (origin : list Z) (mask : option (list bool)) (start : list Z)
      (dummy : option (list nat)) (axis max_dim : nat) (read_only : bool) : option storage :=
    let n_dims := rank data in
    let shape := match shape with Some s => s | None => shp data end in
    do mask_shape <- match mask with
      | Some m => Some (m, shape)
      | None =>
          if negb read_only then Some ([true; true; true], shape)
          else if Nat.eqb n_dims 1 then
            if Nat.eqb axis 1 then do n <- item shape axis; Some ([true; true; false], [1; n])
            else Some (map (fun i => Nat.eqb i axis) (seq 0 max_dim), shape)
          else if truthy dummy || negb (Nat.eqb axis 2) then Some ([true; true; true], shape)
          else Some (repeat true n_dims ++ repeat false (max_dim - n_dims), shape)
      end;
    let '(mask, shape) := mask_shape in
    do data <- match n_dims with
      | 1%nat => make_storage_data_1d data shape start dummy axis read_only
      | 2%nat => make_storage_data_2d data shape start dummy axis read_only
      | S (S (S (S _))) => make_storage_data_Nd data shape start
      | _ => make_storage_data_3d data shape start
      end;
    do aligned <- translate_origin origin mask;
    do dims <- mask_to_dimensions mask (shp data);
    from_array data aligned dims.

  (** ** 354-381: data[:, :, :, i] of an array of four axes *)
  Definition layer (data : nd) (i : Z) : option nd :=
    match shp data with [a; b; c; _] => Some (mkNd [a; b; c] (fun idx => val data (idx ++ [i]))) | _ => None end.
  Fixpoint dict_loop {N} (data : nd) (shape : list Z) (origin start : list Z) (dummy : option (list nat)) (names : list N) (axis : nat) (i : nat) (count : nat) {struct count}
      : option (list (N * storage)) :=
    match count with
    | O => Some []
    | S count =>
        match names with
        | [] => None
        | name :: names =>
            do l <- layer data (Z.of_nat i);
            do s <- make_storage_data (squeeze l) (Some shape) origin None start dummy axis 3 true;
            do r <- dict_loop data shape origin start dummy names axis (S i) count;
            Some ((name, s) :: r)
        end
    end.
  (** the entries in the order they are stored; a later entry of the same name replaces an earlier one *)
  Definition make_storage_dict {N} (data : nd) (shape : option (list Z)) (origin start : list Z) (dummy : option (list nat)) (names : option (list N)) (axis : nat)
      : option (list (N * storage)) :=
    match names, shp data with
    | Some names, [_; _; _; q] =>
        dict_loop data (match shape with Some s => s | None => shp data end) origin start dummy names axis 0 (Z.to_nat q)
    | _, _ => None
    end.

  (** ** 480-493 *)
  Definition reshape (a : nd) (new_shape : list Z) : option nd :=
    if (if list_eq_dec Z.eq_dec (shp a) new_shape then true else false) then Some a
    else if Nat.ltb (rank a) (List.length new_shape) then
      if Nat.eqb (rank a) 2 then do n <- item new_shape 2; repeat_last n a
      else if Nat.eqb (rank a) 1 then do n1 <- item new_shape 1; do b <- repeat_last n1 a; do n2 <- item new_shape 2; repeat_last n2 b
      else None (* no axis, or at least three: not used *)
    else np_reshape a new_shape.

  (** ** translate.py 131-182 for one array (names_4d is None); [axis] is the variable of the loop over the dummies, too *)
  Definition translate_make_storage_data (maxshape : list Z) (data : nd) (istart jstart kstart : Z) (dummy_axes : option (list nat)) (axis : nat)
      (read_only full_shape : bool) : option storage :=
    do shape_axis <- (if truthy dummy_axes then
        (fix go (dummies : list nat) (shape : list Z) (axis : nat) : option (list Z * nat) := match dummies with
           | [] => Some (shape, axis)
           | d :: dummies => do shape <- set_item shape d 1; go dummies shape d
           end) (match dummy_axes with Some l => l | None => [] end) maxshape axis
      else if negb full_shape && Nat.ltb (rank data) 3 && Nat.eqb axis (rank data - 1) && negb (Nat.eqb (rank data) 0) then do shape <- set_item maxshape 1 1; Some (shape, axis)
      else Some (maxshape, axis));
    let '(use_shape, axis) := shape_axis in
    let start := [istart; jstart; kstart] in
    let '(start, use_shape) := if Nat.eqb (rank data) 4 then (start ++ [0], use_shape ++ [List.last (shp data) 0]) else (start, use_shape) in
    make_storage_data data (Some use_shape) start None start dummy_axes axis 3 read_only.

  (** grid.py 430-442 and translate.py 187-202: the horizontal starts from the shape; is_ and js of the grid, nic and njc its compute sizes *)
  Definition horizontal_starts (is_ js nic njc : Z) (shape : list Z) : Z * Z :=
    let here n m := if list_eq_dec Z.eq_dec (firstn 2 shape) [n; m] then true else false in
    if here nic njc || here (nic + 1) njc || here nic (njc + 1) || here (nic + 1) (njc + 1) then (is_, js)
    else if here (nic + 2) (njc + 2) then (is_ - 1, js - 1)
    else (0, 0).

  (** grid.py 274-283, translate.py 304-313: a[i0:i1+1, j0:j1+1, k0:k1+1], the first or (of one axis) the last of the slices, then squeeze *)
  Fixpoint take (shape : list Z) (bounds : list (Z * Z)) : option (list (Z * Z)) :=
    match bounds, shape with
    | [], _ => Some (map (fun n => (0, n)) shape)
    | (a, b) :: bounds, n :: shape => do r <- take shape bounds; Some (slice_of n a b :: r)
    | _, _ => None
    end.
  Fixpoint shifted (target : list (Z * Z)) (idx : list Z) : list Z :=
    match target, idx with (a, _) :: target, i :: idx => (a + i) :: shifted target idx | _, _ => [] end.
  Definition subarray (a : nd) (bounds : list (Z * Z)) : option nd :=
    do target <- take (shp a) bounds; Some (mkNd (map snd target) (fun idx => val a (shifted target idx))).
  Definition slice_output (a : nd) (i j k : Z * Z) : option nd :=
    let window := map (fun x => (fst x, snd x + 1)) [i; j; k] in
    let n := Nat.min (rank a) 3 in
    let cartesian := if Nat.ltb 1 n then firstn n window else firstn n (skipn 2 window) in
    let more := map (fun m => (0, m)) (skipn 3 (shp a)) in
    do r <- subarray a (cartesian ++ more); Some (squeeze r).
End Values.
Arguments mkNd {V}. Arguments rank {V}. Arguments shp {V}. Arguments val {V}. Arguments array {V}. Arguments aligned_index {V}. Arguments dimensions {V}.
