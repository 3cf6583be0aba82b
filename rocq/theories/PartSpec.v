(** Specification vocabulary for rank topology, independent of the model.

    Torus: ranks of a (ny, nx) layout are cells (row, col), numbered row * nx + col; neighbours wrap.

    Cube: the six tiles of the cubed sphere are the faces of a cube in 3-space.  Face t is spanned by an outward
    normal [nrm t] and two in-plane axes [ax t] (increasing x) and [ay t] (increasing y).  A subtile (row, col) of
    an n x n face has its centre at in-plane coordinates (2 col + 1 - n, 2 row + 1 - n), the face spanning
    [-n, n].  Walking off the face by some distance means walking the same distance down the adjacent face
    ([fold]). *)
From Coq Require Import ZArith.
From Verif Require Import PartModel.  (* only for the names of the eight boundary directions *)
Open Scope Z_scope.

(** ** 3-vectors *)
Definition vec := (Z * Z * Z)%type.
Definition vadd (a b : vec) : vec :=
  match a, b with (x, y, z), (x', y', z') => (x + x', y + y', z + z') end.
Definition vscale (k : Z) (a : vec) : vec := match a with (x, y, z) => (k * x, k * y, k * z) end.
Definition vopp (a : vec) : vec := vscale (-1) a.
Definition dot (a b : vec) : Z :=
  match a, b with (x, y, z), (x', y', z') => x * x' + y * y' + z * z' end.

(** ** The cube: normal, x axis, y axis of faces 0..5 *)
Definition nrm (t : Z) : vec :=
  match t with
  | 0 => (1, 0, 0) | 1 => (0, 1, 0) | 2 => (0, 0, 1)
  | 3 => (-1, 0, 0) | 4 => (0, -1, 0) | _ => (0, 0, -1)
  end.
Definition ax (t : Z) : vec :=
  match t with
  | 0 => (0, 1, 0) | 1 => (-1, 0, 0) | 2 => (-1, 0, 0)
  | 3 => (0, 0, -1) | 4 => (0, 0, -1) | _ => (0, 1, 0)
  end.
Definition ay (t : Z) : vec :=
  match t with
  | 0 => (0, 0, 1) | 1 => (0, 0, 1) | 2 => (0, -1, 0)
  | 3 => (0, -1, 0) | 4 => (1, 0, 0) | _ => (1, 0, 0)
  end.

(** In-plane point of face t at half-width n: on the cube surface when |x|,|y| <= n. *)
Definition surface (n t x y : Z) : vec :=
  vadd (vscale n (nrm t)) (vadd (vscale x (ax t)) (vscale y (ay t))).

(** Fold the point (x, y) of face t's plane around the edge it lies beyond; [None] at a cube vertex
    (both coordinates outside). *)
Definition fold (n t x y : Z) : option vec :=
  let outx := orb (x <? - n) (n <? x) in
  let outy := orb (y <? - n) (n <? y) in
  if andb outx outy then None
  else if n <? x then
    Some (vadd (vscale (n - (x - n)) (nrm t)) (vadd (vscale n (ax t)) (vscale y (ay t))))
  else if x <? - n then
    Some (vadd (vscale (n - (- n - x)) (nrm t)) (vadd (vscale (- n) (ax t)) (vscale y (ay t))))
  else if n <? y then
    Some (vadd (vscale (n - (y - n)) (nrm t)) (vadd (vscale x (ax t)) (vscale n (ay t))))
  else if y <? - n then
    Some (vadd (vscale (n - (- n - y)) (nrm t)) (vadd (vscale x (ax t)) (vscale (- n) (ay t))))
  else Some (surface n t x y).

(** Directions in face t's plane, carried across the edge beyond which (x, y) lies: the images of the
    x axis and of the y axis of face t. *)
Definition carried_ax (n t x y : Z) : vec :=
  if n <? x then vopp (nrm t) else if x <? - n then nrm t else ax t.
Definition carried_ay (n t x y : Z) : vec :=
  if n <? y then vopp (nrm t) else if y <? - n then nrm t else ay t.

(** Quarter turns of a pair of axes (e1, e2): the images of e1 and of e2. *)
Definition turn_x (k : Z) (e1 e2 : vec) : vec :=
  match k mod 4 with 0 => e1 | 1 => e2 | 2 => vopp e1 | _ => vopp e2 end.
Definition turn_y (k : Z) (e1 e2 : vec) : vec :=
  match k mod 4 with 0 => e2 | 1 => vopp e1 | 2 => vopp e2 | _ => e1 end.

(** Centre coordinate of the c-th of n subtiles along an axis. *)
Definition centre (n c : Z) : Z := 2 * c + 1 - n.

(** Direction of each boundary type: (dx, dy) in {-1,0,1}. *)
Definition dx (bt : btype) : Z :=
  match bt with WEST | NORTHWEST | SOUTHWEST => -1 | EAST | NORTHEAST | SOUTHEAST => 1 | _ => 0 end.
Definition dy (bt : btype) : Z :=
  match bt with SOUTH | SOUTHWEST | SOUTHEAST => -1 | NORTH | NORTHWEST | NORTHEAST => 1 | _ => 0 end.

(** The four edge directions (as opposed to the four diagonals). *)
Definition is_edge (bt : btype) : bool :=
  match bt with WEST | EAST | NORTH | SOUTH => true | _ => false end.

(** The direction opposite to [bt]. *)
Definition opposite (bt : btype) : btype :=
  match bt with
  | WEST => EAST | EAST => WEST | NORTH => SOUTH | SOUTH => NORTH
  | NORTHWEST => SOUTHEAST | SOUTHEAST => NORTHWEST | NORTHEAST => SOUTHWEST | SOUTHWEST => NORTHEAST
  end.

(** The in-plane direction (a, b) of a face expressed in the axes of a neighbour whose axes, turned k quarter
    turns, are the carried axes of the face (see [turn_x], [turn_y]). *)
Definition seen_from (k : Z) (a b : Z) : Z * Z :=
  match k mod 4 with 0 => (a, b) | 1 => (- b, a) | 2 => (- a, - b) | _ => (b, - a) end.

(** Subtile (r', c') of face t' is the one found at the point (x, y) of face t's plane folded onto the cube, and its
    axes turned k quarter turns are the axes of face t carried there. *)
Definition is_neighbour (n t x y : Z) (t' r' c' k : Z) : Prop :=
  0 <= t' < 6 /\ 0 <= r' < n /\ 0 <= c' < n /\ 0 <= k < 4 /\
  fold n t x y = Some (surface n t' (centre n c') (centre n r')) /\
  turn_x k (ax t') (ay t') = carried_ax n t x y /\
  turn_y k (ax t') (ay t') = carried_ay n t x y.

