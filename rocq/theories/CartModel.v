(** Model of the doubly periodic Cartesian grid (grid_type 4) of MetricTerms: ndsl/grid/generation.py 236-281 and 405-423 (the
    constructor, the part that concerns the coordinates), 1669-1702 (_init_cartesian), 1924-2017, 2094-2116, 2137-2145, 2191-2199
    (lengths and areas).

    Quantities are those of AllocModel.v; an element is a real number or None = NaN.  Rounding is left out, and with it the casts to the
    model's precision (quantity_cast_to_model_float).  The slices of a rank are those of DecompModel.v. *)
From Coq Require Import Reals Lra QArith.
From Verif Require Import Base Dict PartModel DecompModel HaloModel ViewModel GridModel AllocModel.
Open Scope Z_scope.

(** 95-97, 248-255 the data dimensions that MetricTerms adds to the factory *)
Definition LON_OR_LAT : string := "lon_or_lat".
Definition metric_dims : list (string * Z) := [(LON_OR_LAT, 2); ("tile"%string, 6); ("xyz_direction"%string, 3)].
(** allocator.py 41-60; None = ValueError: one of the names is known already *)
Definition add_data_dimensions (s : sizer) (l : list (string * Z)) : option sizer :=
  if existsb (fun x => match get (data_dims s) (fst x) with Some _ => true | None => false end) l then None
  else Some (mkSizer (nx s) (ny s) (nz s) (n_halo s) (fold_left (fun d x => put d (fst x) (snd x)) l (data_dims s)) (fortran s)).

Section Cartesian.
  Variable rnd : Q -> Q.
  Variable Float : dtype.
  Variable b : string.                 (* the factory's backend *)
  Variables (l : layout) (ratio : Q) (rank : Z).
  Variables (deglat dx_const dy_const : R).
  Variable float64 : dtype.

  Local Notation qty := (quantity (option R)).
  Local Notation nan := (@None R).
  Local Notation all := (Slice None None None).

  (* quantity_factory.zeros(dims, units, dtype=float64, allow_mismatch_float_precision=True) *)
  Definition zeros64 (s : sizer) (ds : list sdim) (u : string) : option qty :=
    zeros (Some 0%R) Float s b ds u float64 true.
  (* q[idx] = v *)
  Definition put_at (q : qty) (idx : list entry) (v : arr (option R)) : option qty :=
    do sel <- resolve (shape (data q)) idx; setitem q sel v.
  Definition number (x : option R) : arr (option R) := Arr [] (fun _ => x) float64.

  (* 240 self._halo = N_HALO_DEFAULT, whatever the factory's halo is *)
  Definition N_HALO_DEFAULT : Z := 3.
  (* 1679-1691, one axis: the part [isg, ieg) of the tile and the local indices [isl, iel) it goes to *)
  Definition spans (sl : Z * Z) (np : Z) : Z * Z * (Z * Z) :=
    let isd := fst sl - N_HALO_DEFAULT in
    let ied := snd sl + N_HALO_DEFAULT in
    let isg := Z.max isd 0 in
    let ieg := Z.min ied np in
    let isl := isg - isd in
    let iel := isl + ieg - isg in
    (isg, ieg, (isl, iel)).
  (* 1693-1696 lon_frac, lat_frac *)
  Definition frac (np g : Z) : R := (IZR g / IZR (np - 1) - / 2)%R.
  Definition domain_rad : R := (PI / 16)%R.
  Definition lat_rad : R := (deglat * PI / 180)%R.
  Definition lon_rad : R := 0%R.

  (* 262-266 *)
  Definition grid_dims : list sdim := [H AI true; H AJ true; Data LON_OR_LAT].
  (* 1669-1702: _grid_64 and _agrid_64.  The index 0 or 1 of the last axis is a selection of one address, so the values, which numpy
     takes as (n, 1) and (1, n), have a third axis of one point here.  None = an exception *)
  Definition init_cartesian (grid agrid : qty) (npx npy : Z) : option (qty * qty) :=
    do g1 <- put_at grid [all; all; all] (number nan);
    do sl <- subtile_slice rnd l ratio rank (map to_dim (dims grid)) [npx; npy] false;
    match sl with
    | [slice_x; slice_y] =>
        let '(isg, ieg, (isl, iel)) := spans slice_x npx in
        let '(jsg, jeg, (jsl, jel)) := spans slice_y npy in
        let lon := Arr [Z.max 0 (ieg - isg); 1; 1]
          (fun p => Some (lon_rad + frac npx (isg + nth 0 p 0)%Z * domain_rad)%R) float64 in
        let lat := Arr [1; Z.max 0 (jeg - jsg); 1]
          (fun p => Some (lat_rad + frac npy (jsg + nth 1 p 0)%Z * domain_rad)%R) float64 in
        do g2 <- put_at g1 [Slice (Some isl) (Some iel) None; Slice (Some jsl) (Some jel) None; Int 0] lon;
        do g3 <- put_at g2 [Slice (Some isl) (Some iel) None; Slice (Some jsl) (Some jel) None; Int 1] lat;
        do a1 <- put_at agrid [all; all; Int 0] (number (Some lon_rad));
        do a2 <- put_at a1 [all; all; Int 1] (number (Some lat_rad));
        Some (g3, a2)
    | _ => None
    end.
  (* 248-281, 423: MetricTerms(..., grid_type=4): the factory's sizer afterwards, the corners and the centres *)
  Definition new_terms (s : sizer) : option (sizer * qty * qty) :=
    do s <- add_data_dimensions s metric_dims;
    do grid <- zeros64 s grid_dims "radians";
    match global_extent l (map to_dim (dims grid)) (extent grid) with
    | [npx; npy; _] =>
        do agrid <- zeros64 s [H AI false; H AJ false; Data LON_OR_LAT] "radians";
        do r <- init_cartesian grid agrid npx npy;
        Some (s, fst r, snd r)
    | _ => None
    end.

  (* the lengths and areas *)
  Inductive metric := dx | dy | dx_agrid | dy_agrid | dx_center | dy_center | area | area_c.
  Definition metric_place (m : metric) : list sdim :=
    match m with
    | dx => [H AI false; H AJ true]            (* 1926 *)
    | dy => [H AI true; H AJ false]            (* 1934 *)
    | dx_agrid | dy_agrid => [H AI false; H AJ false]  (* 1999, 2007 *)
    | dx_center => [H AI true; H AJ false]     (* 2096 *)
    | dy_center => [H AI false; H AJ true]     (* 2104 *)
    | area => [H AI false; H AJ false]         (* 2139 *)
    | area_c => [H AI true; H AJ true]         (* 2193 *)
    end.
  Definition metric_unit (m : metric) : string := match m with area | area_c => "m^2" | _ => "m" end.
  Definition metric_value (m : metric) : R :=
    match m with
    | dx | dx_agrid | dx_center => dx_const    (* 1931, 2004, 2101 *)
    | dy | dy_agrid | dy_center => dy_const    (* 1939, 2012, 2109 *)
    | area | area_c => (dx_const * dy_const)%R (* 2144, 2198 *)
    end.
  Definition metric_term (s : sizer) (m : metric) : option qty :=
    do q <- zeros64 s (metric_place m) (metric_unit m);
    put_at q [all; all] (number (Some (metric_value m))).
End Cartesian.

(** ** specification *)
(** [n] corners evenly spaced over an angle of pi / 16 around [middle]: the coordinate of corner [g] *)
Definition even_corner (n : Z) (middle : R) (g : Z) : R := (middle - PI / 32 + IZR g * (PI / 16 / IZR (n - 1)))%R.
(** A length is kept halfway between the two points it joins, an area in the middle of the four points around it.  Of a term: whether these points lie on the corner lines along x and y,
    and along which axes they differ *)
Definition joins (m : metric) : (bool * bool) * (bool * bool) :=
  match m with
  | dx => ((true, true), (true, false)) | dy => ((true, true), (false, true))                   (* neighbouring corners *)
  | dx_agrid => ((true, false), (true, false)) | dy_agrid => ((false, true), (false, true))     (* midpoints of opposite edges *)
  | dx_center => ((false, false), (true, false)) | dy_center => ((false, false), (false, true)) (* neighbouring centres *)
  | area => ((true, true), (true, true)) | area_c => ((false, false), (true, true))
  end.
Definition halfway (e : (bool * bool) * (bool * bool)) : list sdim := [H AI (xorb (fst (fst e)) (fst (snd e))); H AJ (xorb (snd (fst e)) (snd (snd e)))].
