(** Model of the sphere geometry of ndsl/grid/gnomonic.py and of ndsl/grid/stretch_transformation.py, over the real numbers.

    Simplifications, for the whole file: one point instead of arrays of points (all the functions act pointwise); exact real
    arithmetic instead of floating point, so there is no rounding and no signed zero; [PI] is the number pi and not its
    double.  A value that numpy would report as NaN is [None] where the code looks at it, and is excluded by hypothesis
    elsewhere. *)
Require Import Reals.
Open Scope R_scope.

(** A point of space: the last dimension (of length 3) of the arrays in gnomonic.py *)
Definition vec := (R * R * R)%type.

(** ** Vector arithmetic of numpy on the last dimension: +, -, * by a scalar, sum(p * q), cross (gnomonic.py:314-321 spells it out) *)
Definition vadd (p q : vec) : vec := let '(a, b, c) := p in let '(x, y, z) := q in (a + x, b + y, c + z).
Definition vsub (p q : vec) : vec := let '(a, b, c) := p in let '(x, y, z) := q in (a - x, b - y, c - z).
Definition vscale (k : R) (p : vec) : vec := let '(a, b, c) := p in (k * a, k * b, k * c).
Definition dot (p q : vec) : R := let '(a, b, c) := p in let '(x, y, z) := q in a * x + b * y + c * z.
Definition cross (p q : vec) : vec :=
  let '(a, b, c) := p in let '(x, y, z) := q in (b * z - c * y, c * x - a * z, a * y - b * x).

(** ** numpy.arctan2: the angle in (-pi, pi] (0 for the origin) *)
Definition atan2 (y x : R) : R :=
  match total_order_T 0 x with
  | inleft (left _) => atan (y / x)
  | inleft (right _) =>
    match total_order_T 0 y with
    | inleft (left _) => PI / 2
    | inleft (right _) => 0
    | inright _ => - (PI / 2)
    end
  | inright _ => if Rle_dec 0 y then atan (y / x) + PI else atan (y / x) - PI
  end.

(** ** gnomonic.py:167-177 normalize_vector and normalize_xyz (the same map; the first multiplies by the inverse) *)
Definition normalize (v : vec) : vec := vscale (1 / sqrt (dot v v)) v.

(** ** gnomonic.py:187-188 xyz_midpoint of two points; 156-164 of the four corners of a cell *)
Definition midpoint (p q : vec) : vec := normalize (vadd p q).
Definition center (p q r s : vec) : vec := normalize (vadd (vadd (vadd p q) r) s).

(** ** gnomonic.py:198-215 lon_lat_to_xyz and 243-248 _latlon2xyz *)
Definition lon_lat_to_xyz (lon lat : R) : vec := normalize (cos lat * cos lon, cos lat * sin lon, sin lat).

(** ** gnomonic.py:218-240 xyz_to_lon_lat, 251-263 _xyz2latlon and 266-290 _cart_to_latlon.
    The [while] loop of the first two is one conditional step here: lemma [wrap_once] (SphereProofs.v) shows that its
    condition is false after that step. *)
Definition wrap (lon : R) : R := if Rlt_dec lon 0 then lon + 2 * PI else lon.
Definition xyz_to_lon_lat (v : vec) : R * R :=
  let '(x, y, z) := normalize v in
  let lon := if Rlt_dec (Rabs x + Rabs y) (1 / 10 ^ 10) then 0 else atan2 y x in
  (wrap lon, asin z).

(** ** gnomonic.py:180-184 lon_lat_midpoint *)
Definition lon_lat_midpoint (lon1 lon2 lat1 lat2 : R) : R * R :=
  xyz_to_lon_lat (midpoint (lon_lat_to_xyz lon1 lat1) (lon_lat_to_xyz lon2 lat2)).

(** ** gnomonic.py:293-311 _mirror_latlon; [mirror] is [pp] of line 303 *)
Definition mirror (p1 p2 p0 : vec) : vec :=
  let nb := normalize (cross p1 p2) in
  vsub p0 (vscale (2 * dot p0 nb) nb).
Definition mirror_latlon (lon1 lat1 lon2 lat2 lon0 lat0 : R) : R * R :=
  xyz_to_lon_lat (mirror (lon_lat_to_xyz lon1 lat1) (lon_lat_to_xyz lon2 lat2) (lon_lat_to_xyz lon0 lat0)).

(** ** gnomonic.py:328-339 _great_circle_beta_lon_lat, 364-371 great_circle_distance_lon_lat and great_circle_distance_xyz *)
Definition great_circle_beta (lon1 lon2 lat1 lat2 : R) : R :=
  asin (sqrt (sin ((lat1 - lat2) / 2) ^ 2 + cos lat1 * cos lat2 * sin ((lon1 - lon2) / 2) ^ 2)) * 2.
Definition great_circle_distance (lon1 lon2 lat1 lat2 radius : R) : R := radius * great_circle_beta lon1 lon2 lat1 lat2.
Definition great_circle_distance_xyz (p1 p2 : vec) (radius : R) : R :=
  let '(lon1, lat1) := xyz_to_lon_lat p1 in
  let '(lon2, lat2) := xyz_to_lon_lat p2 in
  great_circle_distance lon1 lon2 lat1 lat2 radius.

(** ** gnomonic.py:678-682 the quotient under arccos; None = NaN (0/0) *)
Definition spherical_cos (p_center p2 p3 : vec) : option R :=
  let p := cross p_center p2 in
  let q := cross p_center p3 in
  let d := sqrt (dot p p * dot q q) in
  if Req_EM_T d 0 then None else Some (dot p q / d).

(** ** gnomonic.py:664-688 spherical_angle: a NaN angle becomes 0 (in exact arithmetic the quotient is never outside [-1, 1],
    so NaN only comes from 0/0) *)
Definition spherical_angle (p_center p2 p3 : vec) : R :=
  match spherical_cos p_center p2 p3 with Some c => acos c | None => 0 end.

(** ** gnomonic.py:592-609 get_rectangle_area *)
Definition rectangle_area (p1 p2 p3 p4 : vec) (radius : R) : R :=
  let total := spherical_angle p2 p3 p1 in
  let total := total + spherical_angle p3 p2 p4 in
  let total := total + spherical_angle p4 p3 p1 in
  let total := total + spherical_angle p1 p4 p2 in
  (total - 2 * PI) * radius ^ 2.

(** ** gnomonic.py:612-621 get_triangle_area *)
Definition triangle_area (p1 p2 p3 : vec) (radius : R) : R :=
  let total := spherical_angle p1 p2 p3 in
  let total := total + spherical_angle p2 p3 p1 in
  let total := total + spherical_angle p3 p1 p2 in
  (total - PI) * radius ^ 2.

(** ** gnomonic.py:702-710 get_unit_vector_direction *)
Definition unit_vector_direction (lon1 lat1 lon2 lat2 : R) : vec :=
  let xyz1 := lon_lat_to_xyz lon1 lat1 in
  let xyz2 := lon_lat_to_xyz lon2 lat2 in
  normalize (cross (midpoint xyz1 xyz2) (cross xyz2 xyz1)).

(** ** gnomonic.py:713-732 get_lonlat_vect *)
Definition lon_vect (lon lat : R) : vec := (- sin lon, cos lon, 0).
Definition lat_vect (lon lat : R) : vec := (- sin lat * cos lon, - sin lat * sin lon, cos lat).

(** ** stretch_transformation.py:54-92 direct_transform; angles of the target already in radians (deg2rad of lines 54 and 56) *)
Definition lon_range (lon : R) : R :=
  let lon := if Rlt_dec lon 0 then lon + 2 * PI else lon in
  if Rle_dec (2 * PI) lon then lon - 2 * PI else lon.
Definition stretched (stretch_factor lat : R) : R :=
  let c2p1 := 1 + stretch_factor ^ 2 in
  let c2m1 := 1 - stretch_factor ^ 2 in
  if Rlt_dec (1 / 10 ^ 7) (Rabs c2m1) then asin ((c2m1 + c2p1 * sin lat) / (c2p1 + c2m1 * sin lat)) else lat.
(** numpy.sign *)
Definition rsign (x : R) : R := if Rlt_dec x 0 then -1 else if Rlt_dec 0 x then 1 else 0.
Definition direct_transform (lon lat stretch_factor lon_p lat_p : R) : R * R :=
  let lon := lon_range (lon + 190 * PI / 180) in
  let lat_t := stretched stretch_factor lat in
  let sin_o := - (sin lat_p * sin lat_t + cos lat_p * cos lat_t * cos lon) in
  if Rlt_dec (1 - Rabs sin_o) (1 / 10 ^ 7) then (lon_range 0, Rabs (PI / 2) * rsign sin_o)
  else (lon_range (lon_p + atan2 (- cos lat_t * sin lon) (- sin lat_t * cos lat_p + cos lat_t * sin lat_p * cos lon)),
        asin sin_o).

(** ** grid/mirror.py:215-269 _rot_3d with convert=True; None = AssertionError *)
Definition spherical_to_cartesian (rhg : bool) (p : vec) : vec :=
  let '(lon, lat, r) := p in
  (r * cos lon * cos lat, r * sin lon * cos lat, if rhg then r * sin lat else - r * sin lat).
Definition cartesian_to_spherical (rhg : bool) (p : vec) : vec :=
  let '(x, y, z) := p in
  let r := sqrt (x * x + y * y + z * z) in
  let lon := if Rlt_dec (Rabs x + Rabs y) (1 / 10 ^ 10) then 0 else atan2 y x in
  (lon, if rhg then asin (z / r) else acos (z / r) - PI / 2, r).
Definition rot_cartesian (axis : nat) (p : vec) (angle : R) : option vec :=
  let c := cos angle in
  let s := sin angle in
  let '(p0, p1, p2) := p in
  match axis with
  | 1%nat => Some (p0, c * p1 + s * p2, - s * p1 + c * p2)
  | 2%nat => Some (c * p0 - s * p2, p1, s * p0 + c * p2)
  | 3%nat => Some (c * p0 + s * p1, - s * p0 + c * p1, p2)
  | _ => None
  end.
Definition rot_spherical (rhg : bool) (axis : nat) (p : vec) (angle : R) : option vec :=
  match rot_cartesian axis (spherical_to_cartesian rhg p) angle with
  | Some q => Some (cartesian_to_spherical rhg q)
  | None => None
  end.
