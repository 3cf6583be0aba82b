(** Model of mirror_grid (ndsl/grid/mirror.py:9-212), which turns the gnomonic grid of a rank into its part of one of the six tiles, and of
    global_mirror_grid (ndsl/grid/global_setup.py:92-280), which does the same for whole tiles in one process.

    Numbers are an arbitrary type [F] with the operations the code uses on longitudes and latitudes (so that the same definitions serve
    for real numbers and for binary64); an array holds (longitude, latitude) pairs, which are the last dimension of the code's arrays.
    The rotations of a tile act on each point by itself (_rot_3d with convert=True, modelled in SphereModel.v): [rot t] is their
    composition for tile t on a (longitude, latitude) at radius RADIUS, the radius it returns being unused. *)
From Coq Require Import ZArith Bool List.
From Verif Require Import Base.
Import ListNotations.
Open Scope Z_scope.

Section Mirror.
  Context {F : Type}.
  Variables (fabs : F -> F) (fadd : F -> F -> F) (quarter : F -> F) (copysign : F -> F -> F).
  Variables (zero pi half_pi minus_half_pi : F).
  Variable rot : Z -> F * F -> F * F.

  Definition arr := Z -> Z -> F * F.
  Definition put (a : arr) (i j : Z) (v : F * F) : arr := fun i' j' => if (i' =? i) && (j' =? j) then v else a i' j'.

  (** mirror.py:44-51 and 56-62 (x1 and y1): a quarter of the sum, added from left to right *)
  Definition average (a b c d : F) : F := quarter (fadd (fadd (fadd (fabs a) (fabs b)) (fabs c)) (fabs d)).
  Definition average2 (a b c d : F * F) : F * F :=
    (average (fst a) (fst b) (fst c) (fst d), average (snd a) (snd b) (snd c) (snd d)).
  Definition copysign2 (x y : F * F) : F * F := (copysign (fst x) (fst y), copysign (snd x) (snd y)).

  (** ** mirror.py:9-212.  [local], [ew], [ns], [diag] are the four arrays of mirror_data; [len_j] is the extent of the second dimension
      of the north-south array, to which the index -(j + 1) is relative. *)
  Section Local.
    Variables (t npx npy xw yw gis gjs ng len_j : Z).
    Definition istart := ng.
    Definition iend := ng + xw.
    Definition jstart := ng.
    Definition jend := ng + yw.
    (** mirror.py:26-33; ng + (npx - 1) / 2 is a true division, so both sides are doubled *)
    Definition x_center : bool := (2 * gis <=? 2 * ng + (npx - 1)) && (2 * ng + (npx - 1) <? 2 * (gis + xw)).
    Definition y_center : bool := (2 * gjs <=? 2 * ng + (npy - 1)) && (2 * ng + (npy - 1) <? 2 * (gjs + yw)).
    (** mirror.py:35-36 *)
    Definition i_mid := npx / 2 - gis + istart.
    Definition j_mid := npy / 2 - gjs + jstart.

    (** mirror.py:40-72, one pass of the inner loop; the state is (local, north-south) *)
    Definition base_point (ew diag : arr) (st : arr * arr) (j i : Z) : arr * arr :=
      let '(local, ns) := st in
      let iend_domain := iend - 1 + ng in
      let jend_domain := jend - 1 + ng in
      let x := average2 (local i j) (ew (iend_domain - i) j) (ns i (jend_domain - j)) (diag (iend_domain - i) (jend_domain - j)) in
      let local := put local i j (copysign2 x (local i j)) in
      if negb (npx mod 2 =? 0) then
        if x_center && (i =? ng + i_mid) then
          (put local i j (zero, snd (local i j)), put ns i (len_j - (j + 1)) (zero, snd (ns i (len_j - (j + 1)))))
        else (local, ns)
      else (local, ns).
    Definition base_region (ew diag : arr) (st : arr * arr) : arr * arr :=
      fold_left (fun st j => fold_left (fun st i => base_point ew diag st j i) (zrange istart (iend + 1)) st) (zrange jstart (jend + 1)) st.

    (** mirror.py:74-212, one pass of the loop on j: the rows x2, y2 (indices from 0 to iend - istart) after the rotations, with the
        values forced on tiles 2, 3 and 5.  On tile 5 the condition reads [i], which is left from the loop above: it is iend. *)
    Definition force (j : Z) (x2 y2 : Z -> F) : (Z -> F) * (Z -> F) :=
      let odd := negb (npx mod 2 =? 0) in
      if t =? 2 then
        if odd then
          let c := (j =? ng + j_mid) && x_center && y_center && (i_mid =? j_mid) in
          let x2a := if c then fun k => if k =? i_mid then zero else x2 k else x2 in
          let y2a := if c then fun k => if k =? i_mid then half_pi else y2 k else y2 in
          let x2b := if (j =? ng + j_mid) && y_center then
                       if x_center then fun k => if k <? i_mid + 1 then zero else pi
                       else if 2 * (gis + i_mid) <? 2 * ng + (npx - 1) then fun _ => zero
                       else if 2 * ng + (npx - 1) <? 2 * (gis + i_mid) then fun _ => pi
                       else x2a
                     else x2a in
          (x2b, y2a)
        else (x2, y2)
      else if t =? 3 then
        if odd then (if (j =? ng + j_mid) && y_center then fun _ => pi else x2, y2) else (x2, y2)
      else if t =? 5 then
        if odd then
          let i := iend in
          let c := (i =? ng + i_mid) && x_center && y_center && (i_mid =? j_mid) in
          let x2a := if c then fun k => if k =? i_mid then zero else x2 k else x2 in
          let y2a := if c then fun k => if k =? i_mid then minus_half_pi else y2 k else y2 in
          let x2b := if (2 * ng + (npy - 1) <? 2 * (gjs + j_mid)) && x_center then fun k => if k =? i_mid then zero else x2a k
                     else if (2 * (gjs + j_mid) <? 2 * ng + (npy - 1)) && x_center then fun k => if k =? i_mid then pi else x2a k
                     else x2a in
          (x2b, y2a)
        else (x2, y2)
      else (x2, y2).
    Definition tile_row (local : arr) (j : Z) : arr :=
      let x2 k := fst (rot t (local (istart + k) j)) in
      let y2 k := snd (rot t (local (istart + k) j)) in
      let '(x3, y3) := force j x2 y2 in
      fun i' j' => if (j' =? j) && (istart <=? i') && (i' <? iend + 1) then (x3 (i' - istart), y3 (i' - istart)) else local i' j'.
    Definition mirror_grid (local ew ns diag : arr) : arr :=
      let local := fst (base_region ew diag (local, ns)) in
      if 0 <? t then fold_left tile_row (zrange jstart (jend + 1)) local else local.
  End Local.

  (** ** global_setup.py:92-280: all six tiles; [grid t] is grid_global[:, :, :, t] *)
  Section Global.
    Variables (npx npy ng : Z).
    (** global_setup.py:103-149, one pass of the inner loop *)
    Definition global_base_point (g : arr) (j i : Z) : arr :=
      let p1 := (ng + i, ng + j) in
      let p2 := (ng + npx - (i + 1), ng + j) in
      let p3 := (ng + i, ng + npy - (j + 1)) in
      let p4 := (ng + npx - (i + 1), ng + npy - (j + 1)) in
      let get (g : arr) p := g (fst p) (snd p) in
      let x := average2 (get g p1) (get g p2) (get g p3) (get g p4) in
      let sign (g : arr) p := put g (fst p) (snd p) (copysign2 x (get g p)) in
      let g := sign (sign (sign (sign g p1) p2) p3) p4 in
      if negb (npx mod 2 =? 0) then
        if i =? (npx - 1) / 2 then
          let g := put g (fst p1) (snd p1) (zero, snd (get g p1)) in
          put g (fst p3) (snd p3) (zero, snd (get g p3))
        else g
      else g.
    (** math.ceil(npy / 2) and math.ceil(npx / 2) *)
    Definition global_base (g : arr) : arr :=
      fold_left (fun g j => fold_left (fun g i => global_base_point g j i) (zrange 0 ((npx + 1) / 2)) g) (zrange 0 ((npy + 1) / 2)) g.
    (** global_setup.py:151-278: one row of tile [t] > 0 *)
    Definition global_force (t j : Z) (x2 y2 : Z -> F) : (Z -> F) * (Z -> F) :=
      let im := (npx - 1) / 2 in
      let jm := (npy - 1) / 2 in
      let odd := negb (npx mod 2 =? 0) in
      if t =? 2 then
        if odd then
          let c := j =? im in
          let x2a := if c then fun k => if k =? im then zero else x2 k else x2 in
          let y2a := if c then fun k => if k =? im then half_pi else y2 k else y2 in
          (if j =? jm then fun k => if k <? im + 1 then zero else pi else x2a, y2a)
        else (x2, y2)
      else if t =? 3 then
        if odd then (if j =? (npy - 1) / 2 then fun _ => pi else x2, y2) else (x2, y2)
      else if t =? 5 then
        if odd then
          let c := j =? im in
          let x2a := if c then fun k => if k =? im then zero else x2 k else x2 in
          let y2a := if c then fun k => if k =? im then minus_half_pi else y2 k else y2 in
          (if jm <? j then fun k => if k =? im then zero else x2a k
           else if j <? jm then fun k => if k =? im then pi else x2a k else x2a, y2a)
        else (x2, y2)
      else (x2, y2).
    Definition global_row (t : Z) (base : arr) (g : arr) (j : Z) : arr :=
      let x2 k := fst (rot t (base (ng + k) (ng + j))) in
      let y2 k := snd (rot t (base (ng + k) (ng + j))) in
      let '(x3, y3) := global_force t j x2 y2 in
      fun i' j' => if (j' =? ng + j) && (ng <=? i') && (i' <? ng + npx) then (x3 (i' - ng), y3 (i' - ng)) else g i' j'.
    Definition global_mirror_grid (grid : Z -> arr) : Z -> arr := fun t =>
      let base := global_base (grid 0) in
      if t =? 0 then base else fold_left (global_row t base) (zrange 0 npy) (grid t).
  End Global.
End Mirror.
