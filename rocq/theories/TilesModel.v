(** Model of the rotations that carry the base region to the six tiles (ndsl/grid/mirror.py:74-212, the calls of _rot_3d), of the four calls of
    local_gnomonic_ed and the call of mirror_grid in MetricTerms._init_dgrid (ndsl/grid/generation.py:1706-1834), and of the shift of the
    longitudes that follows (generation.py:1836-1843), over the real numbers.

    Not modelled: the halo update and the corner fill that follow (C12, C41), rounding. *)
Require Import Reals ZArith Bool List.
From Verif Require Import SphereModel GnomModel MirrorModel.
Import ListNotations.
Open Scope R_scope.

(** mirror.py:80-196: (axis, angle in degrees) of the successive rotations of tile t *)
Definition rotations (t : Z) : list (nat * R) :=
  match t with
  | 1%Z => [(3%nat, -90)]
  | 2%Z => [(3%nat, -90); (1%nat, 90)]
  | 3%Z => [(3%nat, -180); (1%nat, 90)]
  | 4%Z => [(3%nat, 90); (2%nat, 90)]
  | 5%Z => [(2%nat, 90); (3%nat, 0)]
  | _ => []
  end.
(** np.deg2rad *)
Definition deg2rad (a : R) : R := a * PI / 180.
Fixpoint rotate_all (rhg : bool) (l : list (nat * R)) (p : vec) : vec :=
  match l with
  | [] => p
  | (axis, angle) :: l => match rot_spherical rhg axis p (deg2rad angle) with Some q => rotate_all rhg l q | None => p end
  end.
(** x1, y1 with z1 = RADIUS; the axes are 1, 2, 3, so no rotation raises *)
Definition tile_rot (radius : R) (t : Z) (p : R * R) : R * R :=
  let '(lon, lat, _) := rotate_all false (rotations t) (fst p, snd p, radius) in (lon, lat).

(** np.copysign on real numbers (there is no negative zero) *)
Definition copysign_R (x y : R) : R := if Rlt_dec y 0 then - Rabs x else Rabs x.

(** mirror_grid over the real numbers *)
Definition mirror_R (radius : R) := mirror_grid (F := R) Rabs Rplus (Rmult (1 / 4)) copysign_R 0 PI (PI / 2) (- (PI / 2)) (tile_rot radius).

(** a view (without halo) of an array with a halo of [ng] points: the array after the view has been assigned *)
Definition assign_view (ng : Z) (g : grid (R * R)) (a : Z -> Z -> R * R) (ni nj : nat) : Z -> Z -> R * R :=
  fun i j => if ((ng <=? i) && (i <? ng + Z.of_nat ni) && (ng <=? j) && (j <? ng + Z.of_nat nj))%Z%bool
             then g (Z.to_nat (i - ng)) (Z.to_nat (j - ng)) else a i j.

(** ** generation.py:1706-1834, for a rank whose section of a tile of n cells has w cells on a side and subtile indices (row, col) in the layout
    (l0, l1) = (rows, columns); the code mirrors the column index with layout[0] and the row index with layout[1] (lines 1758-1765).  [a0] is
    the content of the arrays before (zeros).  None when local_gnomonic_ed raises. *)
Definition init_dgrid (radius : R) (n w : nat) (l0 l1 row col ng t : Z) (a0 : Z -> Z -> R * R) : option (Z -> Z -> R * R) :=
  let west := (col =? 0)%Z in let east := (col =? l1 - 1)%Z in let south := (row =? 0)%Z in let north := (row =? l0 - 1)%Z in
  let gi := (col * Z.of_nat w)%Z in
  let gj := (row * Z.of_nat w)%Z in
  let ew_gi := ((l0 - col - 1) * Z.of_nat w)%Z in
  let ns_gj := ((l1 - row - 1) * Z.of_nat w)%Z in
  match local_gnomonic_ed n (w + 1) (w + 1) west east south north gi gj,
        local_gnomonic_ed n (w + 1) (w + 1) east west south north ew_gi gj,
        local_gnomonic_ed n (w + 1) (w + 1) west east north south gi ns_gj,
        local_gnomonic_ed n (w + 1) (w + 1) east west north south ew_gi ns_gj with
  | Some g, Some g_ew, Some g_ns, Some g_diag =>
      let v g := assign_view ng g a0 (w + 1) (w + 1) in
      Some (mirror_R radius t (Z.of_nat n + 1) (Z.of_nat n + 1) (Z.of_nat w + 1) (Z.of_nat w + 1) (ng + gi) (ng + gj) ng (Z.of_nat w + 1 + 2 * ng)
              (v g) (v g_ew) (v g_ns) (v g_diag))
  | _, _, _, _ => None
  end%Z.

(** ** generation.py:1836-1843: shift the longitudes by pi / 18, keep them non-negative, flush small values *)
Definition flush (x : R) : R := if Rlt_dec (Rabs x) (1 / 10 ^ 10) then 0 else x.
Definition shift_lon (p : R * R) : R * R :=
  let lon := fst p - PI / 18 in
  let lon := if Rlt_dec lon 0 then lon + 2 * PI else lon in
  (flush lon, flush (snd p)).
