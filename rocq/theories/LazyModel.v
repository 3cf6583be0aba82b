(** Model of the lazily computed terms of MetricTerms: ndsl/grid/generation.py 222-447 (what exists at the start), 519-1670 (the
    properties) and 1874-3456 (the methods that compute them).

    Every rank runs the same methods on its own MetricTerms object.  A value is a quantity: its dimensions, its units, whether it
    has the model's float type or 64 bits, and its data.  The numerical work between two uses of attributes is left to an arbitrary
    function [comp], one per name, output and rank, of the attributes used (halo width, partitioner, rank and constants belong to
    the rank); rounding to the model's float type is [round]; what a halo update or a reduction brings to a rank is the arbitrary
    function [net] of what all ranks hand in.
    Simplified: the object of a returned quantity is made when it is assigned; changes that a user makes to the data of a quantity
    after reading it, the methods `..._for_testing` and the slices (which parts of an array are set) are left out. *)
From Coq Require Export String.
From Verif Require Export Base.
Open Scope string_scope.

(** the collective operations: communicator.py 390-403 halo_update, 442-469 vector_halo_update, Comm.allreduce *)
Inductive call := Halo | Reduce (max : bool).

(** a rank's program: it ends with a result, raises, or hands data to a collective operation and goes on with what it brings *)
Inductive prog (V A : Type) :=
| Ret (a : A)
| Fail
| Xch (c : call) (data : list V) (k : list V -> prog V A).
Arguments Ret {V A} _.
Arguments Fail {V A}.
Arguments Xch {V A} _ _ _.

Fixpoint pbind {V A B} (p : prog V A) (f : A -> prog V B) : prog V B :=
  match p with
  | Ret a => f a
  | Fail => Fail
  | Xch c d k => Xch c d (fun v => pbind (k v) f)
  end.

(** the dimension names of constants.py:41-53 and generation.py:95-97 *)
Inductive dimn := I | II | J | JI | KI | LL | XYZ.

Record value (V : Type) := Value { dims : list dimn; units : string; wide : bool; data : V }.
Arguments Value {V} _ _ _ _.
Arguments dims {V} _.
Arguments units {V} _.
Arguments wide {V} _.
Arguments data {V} _.

(** a Python object: its identity and its content *)
Record obj (V : Type) := Obj { oid : nat; what : value V }.
Arguments Obj {V} _ _.
Arguments oid {V} _.
Arguments what {V} _.

(** the attributes of a MetricTerms object; None = unset or None *)
Record st (V : Type) := St { attr : string -> option (obj V); next : nat }.
Arguments St {V} _ _.
Arguments attr {V} _ _.
Arguments next {V} _.

Definition M (V A : Type) := st V -> prog V (A * st V).
Definition mret {V A} (a : A) : M V A := fun s => Ret (a, s).
Definition mbind {V A B} (m : M V A) (f : A -> M V B) : M V B := fun s => pbind (m s) (fun p => f (fst p) (snd p)).
Notation "x <- a ;; b" := (mbind a (fun x => b)) (at level 62, a at next level, right associativity).
Notation "a ;; b" := (mbind a (fun _ => b)) (at level 62, right associativity).

Definition mfail {V A} : M V A := fun _ => Fail.
(** reading an attribute, None included *)
Definition get {V} (a : string) : M V (option (obj V)) := fun s => Ret (attr s a, s).
(** using an attribute: None[...] raises *)
Definition use {V} (a : string) : M V V :=
  o <- get a ;; match o with Some o => mret (data (what o)) | None => mfail end.
(** self._a = a new quantity *)
Definition put {V} (a : string) (v : value V) : M V unit :=
  fun s => Ret (tt, St (fun b => if String.eqb b a then Some (Obj (next s) v) else attr s b) (S (next s))).
(** several assignments, one after the other *)
Fixpoint puts {V} (l : list (string * value V)) : M V unit :=
  match l with [] => mret tt | (a, v) :: l => put a v ;; puts l end.
(** self._a, self._b = ...: unpacking raises when the numbers differ *)
Definition unpack {V} (names : list string) (vs : list (value V)) : M V unit :=
  if (length names =? length vs)%nat then puts (combine names vs) else mfail.
Definition xch {V} (c : call) (d : list V) : M V (list V) := fun s => Xch c d (fun v => Ret (v, s)).
(** if self._a is None: ... *)
Definition ensure {V} (a : string) (fill : M V unit) : M V unit :=
  o <- get a ;; match o with None => fill | Some _ => mret tt end.
(** the body of a property: if self._a is None: ...; return self._a *)
Definition lazy {V} (a : string) (fill : M V unit) : M V (option (obj V)) := ensure a fill ;; get a.
(** the data of a quantity that a property returns; None[...] raises *)
Definition dat {V} (m : M V (option (obj V))) : M V V :=
  o <- m ;; match o with Some o => mret (data (what o)) | None => mfail end.
(** Quantity(data=..., dims=..., ...): a new object around the given content, not kept *)
Definition wrap {V} (v : value V) : M V (option (obj V)) := fun s => Ret (Some (Obj (next s) v), St (attr s) (S (next s))).

Definition digit (i : nat) : string := nth i ["0"; "1"; "2"; "3"; "4"; "5"; "6"; "7"; "8"; "9"] "".

(** the public names *)
Inductive term :=
| dx | dy | dxa | dya | dxc | dyc | ec1 | ec2 | ew1 | ew2 | es1 | es2 | ee1 | ee2
| cos_sg (i : nat) | sin_sg (i : nat)   (* the digits 1..9 are written i+1, i < 9 *)
| cosa | sina | cosa_u | cosa_v | cosa_s | sina_u | sina_v | rsin_u | rsin_v | rsina | rsin2 | l2c_v | l2c_u
| divg_u | divg_v | del6_u | del6_v | vlon | vlat | z11 | z12 | z21 | z22 | a11 | a12 | a21 | a22
| edge_w | edge_e | edge_s | edge_n | edge_vect_w_1d | edge_vect_w | edge_vect_e_1d | edge_vect_e | edge_vect_s | edge_vect_n
| da_min | da_max | da_min_c | da_max_c | area | area64 | area_c
| rarea | rarea_c | rdx | rdy | rdxa | rdya | rdxc | rdyc
| grid | agrid | lon | lat | lon_agrid | lat_agrid | ak | bk.

Section Terms.
  Context {V : Type}.
  (* grid_type = 4 (the doubly periodic plane) or grid_type < 3 (the cube) *)
  Variable cartesian : bool.
  (* numerical work: name, which of its results, the attributes used *)
  Variable comp : string -> nat -> list V -> V.
  Variable round : V -> V.

  Definition compn (name : string) (n : nat) (args : list V) : list V := map (fun i => comp name i args) (seq 0 n).
  Definition at_ (l : list V) (i : nat) : V := nth i l (comp "" 0 []).

  (* quantity_factory.zeros(dims, units, dtype=np.float64); q[...] = d *)
  Definition q64 (ds : list dimn) (u : string) (d : V) : value V := Value ds u true d.
  (* quantity_factory.zeros(dims, units, [dtype=Float]); q[...] = d *)
  Definition qF (ds : list dimn) (u : string) (d : V) : value V := Value ds u false (round d).
  (* 79-85 quantity_cast_to_model_float *)
  Definition cast (v : value V) : value V := Value (dims v) (units v) false (round (data v)).

  (* 1529-1532, 1534-1541: cached properties; an array, no quantity *)
  Definition dgrid_xyz : M V V :=
    dat (lazy "_dgrid_xyz_64" (g <- use "_grid_64" ;; put "_dgrid_xyz_64" (q64 [] "" (comp "lon_lat_to_xyz" 0 [g])))).
  Definition agrid_xyz : M V V :=
    dat (lazy "_agrid_xyz_64" (g <- use "_agrid_64" ;; put "_agrid_xyz_64" (q64 [] "" (comp "lon_lat_to_xyz" 1 [g])))).

  (* 1874-1922, 1924-1946 _compute_dxdy *)
  Definition compute_dxdy : M V (list (value V)) :=
    p <- (if cartesian then mret (compn "const" 2 [])
          else g <- use "_grid_64" ;;
               v <- xch Halo (compn "great_circle_distance_along_axis" 2 [g]) ;;
               mret (compn "fill_corners_dgrid" 2 v)) ;;
    let dx_64 := q64 [I; JI] "m" (at_ p 0) in
    let dy_64 := q64 [II; J] "m" (at_ p 1) in
    put "_dx_64" dx_64 ;; put "_dy_64" dy_64 ;; mret [cast dx_64; cast dy_64].

  (* 1948-1995, 1997-2017 _compute_dxdy_agrid *)
  Definition compute_dxdy_agrid : M V (list (value V)) :=
    p <- (if cartesian then mret (compn "const" 2 [])
          else g <- use "_grid_64" ;;
               v <- xch Halo (compn "dxdy_agrid" 2 [g]) ;;
               mret (compn "dxdy_agrid_abs" 2 v)) ;;
    mret [cast (q64 [I; J] "m" (at_ p 0)); cast (q64 [I; J] "m" (at_ p 1))].

  (* 2019-2092, 2094-2116 _compute_dxdy_center *)
  Definition compute_dxdy_center : M V (list (value V)) :=
    p <- (if cartesian then mret (compn "const" 2 [])
          else g <- use "_agrid_64" ;; d <- dgrid_xyz ;; a <- agrid_xyz ;;
               v <- xch Halo (compn "dxdy_center" 2 [g; d; a]) ;;
               mret (compn "fill_corners_cgrid" 2 v)) ;;
    let dxc_64 := q64 [II; J] "m" (at_ p 0) in
    let dyc_64 := q64 [I; JI] "m" (at_ p 1) in
    put "_dxc_64" dxc_64 ;; put "_dyc_64" dyc_64 ;; mret [cast dxc_64; cast dyc_64].

  (* 2118-2135, 2137-2145 _compute_area *)
  Definition compute_area : M V (list (value V)) :=
    p <- (if cartesian then mret (compn "const_area" 1 [])
          else g <- use "_grid_64" ;; v <- xch Halo (compn "get_area" 1 [g]) ;; mret v) ;;
    let area_64 := q64 [I; J] "m^2" (at_ p 0) in mret [cast area_64; area_64].

  (* 2147-2189, 2191-2199 _compute_area_c *)
  Definition compute_area_c : M V (list (value V)) :=
    p <- (if cartesian then mret (compn "const_area" 1 [])
          else g <- use "_agrid_64" ;; d <- dgrid_xyz ;; a <- agrid_xyz ;;
               v <- xch Halo (compn "area_c" 1 [g; d; a]) ;; mret (compn "fill_corners_2d" 1 v)) ;;
    mret [cast (q64 [II; JI] "m^2" (at_ p 0))].

  (* 2229-2257, 2259-2279 _calculate_center_vectors *)
  Definition center_vectors : M V (list (value V)) :=
    p <- (if cartesian then mret (compn "axes" 2 []) else d <- dgrid_xyz ;; mret (compn "get_center_vector" 2 [d])) ;;
    let ec1_64 := q64 [I; J; XYZ] "" (at_ p 0) in
    let ec2_64 := q64 [I; J; XYZ] "" (at_ p 1) in
    put "_ec1_64" ec1_64 ;; put "_ec2_64" ec2_64 ;; mret [cast ec1_64; cast ec2_64].

  (* 2281-2308, 2310-2328 _calculate_vectors_west *)
  Definition vectors_west : M V (list (value V)) :=
    p <- (if cartesian then mret (compn "axes" 2 [])
          else d <- dgrid_xyz ;; a <- agrid_xyz ;; mret (compn "calc_unit_vector_west" 2 [d; a])) ;;
    mret [cast (q64 [II; J; XYZ] "" (at_ p 0)); cast (q64 [II; J; XYZ] "" (at_ p 1))].

  (* 2330-2355, 2357-2373 _calculate_vectors_south; the buffers have the default dtype Float *)
  Definition vectors_south : M V (list (value V)) :=
    p <- (if cartesian then mret (compn "axes" 2 [])
          else d <- dgrid_xyz ;; a <- agrid_xyz ;; mret (compn "calc_unit_vector_south" 2 [d; a])) ;;
    mret [cast (qF [I; JI; XYZ] "" (at_ p 0)); cast (qF [I; JI; XYZ] "" (at_ p 1))].

  (* the eleven results of calculate_trig_uv with the dimensions of their buffers (2477-2543 and 2683-2748) *)
  Definition trig_terms (p : list V) : list (string * value V) :=
    let cosa_u := q64 [II; J] "" (at_ p 2) in let cosa_v := q64 [I; JI] "" (at_ p 3) in
    let cosa_s := q64 [I; J] "" (at_ p 4) in let sina_u := q64 [II; J] "" (at_ p 5) in
    let sina_v := q64 [I; JI] "" (at_ p 6) in let rsin_u := q64 [II; J] "" (at_ p 7) in
    let rsin_v := q64 [I; JI] "" (at_ p 8) in let rsina := q64 [II; JI] "" (at_ p 9) in
    let rsin2 := q64 [I; J] "" (at_ p 10) in let cosa := q64 [II; JI] "" (at_ p 0) in
    let sina := q64 [II; JI] "" (at_ p 1) in
    [("_cosa_u", cast cosa_u); ("_cosa_v", cast cosa_v); ("_cosa_s", cast cosa_s); ("_sina_u", cast sina_u);
     ("_sina_u_64", sina_u); ("_sina_v", cast sina_v); ("_sina_v_64", sina_v); ("_rsin_u", cast rsin_u);
     ("_rsin_v", cast rsin_v); ("_rsina", cast rsina); ("_rsin2", cast rsin2); ("_cosa", cast cosa); ("_sina", cast sina)].

  (* 2553-2554, 3228-3229 *)
  Definition ensure_ec : M V unit := ensure "_ec1_64" (v <- center_vectors ;; unpack ["_ec1"; "_ec2"] v).

  (* 2477-2680 _init_cell_trigonometry_cube_sphere, 2682-2788 _cartesian *)
  Definition init_cell_trigonometry : M V unit :=
    cs <- (if cartesian then mret (compn "zeros" 9 [], compn "ones" 9 [], compn "zeros_ones" 11 [])
           else ensure_ec ;;
                d <- dgrid_xyz ;; a <- agrid_xyz ;; e1 <- use "_ec1_64" ;; e2 <- use "_ec2_64" ;;
                let cs := compn "calculate_supergrid_cos_sin" 2 [d; a; e1; e2] in
                mret (compn "supergrid_corner_fix.cos" 9 cs, compn "supergrid_corner_fix.sin" 9 cs,
                      compn "calculate_trig_uv" 11 (d :: cs))) ;;
    let cos_ i := q64 [I; J] "" (at_ (fst (fst cs)) i) in
    let sin_ i := q64 [I; J] "" (at_ (snd (fst cs)) i) in
    puts (map (fun i => ("_cos_sg" ++ digit (S i), cast (cos_ i))) (seq 0 9)) ;;
    puts (map (fun i => ("_sin_sg" ++ digit (S i), cast (sin_ i))) (seq 0 9)) ;;
    put "_sin_sg5_64" (sin_ 4%nat) ;;
    puts (trig_terms (snd cs)).

  (* 2923-2944, 2946-2965; the buffers have dtype Float *)
  Definition latlon_momentum_correction : M V (list (value V)) :=
    p <- (if cartesian then mret (compn "nan" 2 []) else g <- use "_grid_64" ;; mret (compn "calculate_l2c_vu" 2 [g])) ;;
    mret [cast (qF [II; J] "" (at_ p 0)); cast (qF [I; JI] "" (at_ p 1))].

  (* 2967-2992, 2994-3013 _calculate_xy_unit_vectors *)
  Definition xy_unit_vectors : M V (list (value V)) :=
    p <- (if cartesian then mret (compn "nan" 2 []) else d <- dgrid_xyz ;; mret (compn "calculate_xy_unit_vectors" 2 [d])) ;;
    mret [cast (q64 [II; JI; XYZ] "" (at_ p 0)); cast (q64 [II; JI; XYZ] "" (at_ p 1))].

  (* the property of one supergrid angle: 711-983 *)
  Definition read_sg (name : string) (i : nat) : M V (option (obj V)) :=
    lazy (name ++ digit (S i)) init_cell_trigonometry.

  (* 3015-3086 _calculate_divg_del6 *)
  Definition divg_del6 : M V (list (value V)) :=
    s1 <- dat (read_sg "_sin_sg" 0) ;; s2 <- dat (read_sg "_sin_sg" 1) ;; s3 <- dat (read_sg "_sin_sg" 2) ;;
    s4 <- dat (read_sg "_sin_sg" 3) ;; s5 <- dat (read_sg "_sin_sg" 4) ;;
    ensure "_sina_u_64" init_cell_trigonometry ;;
    ensure "_dx_64" (v <- compute_dxdy ;; unpack ["_dx"; "_dy"] v) ;;
    ensure "_dxc_64" (v <- compute_dxdy_center ;; unpack ["_dx_center"; "_dy_center"] v) ;;
    su <- use "_sina_u_64" ;; sv <- use "_sina_v_64" ;; x <- use "_dx_64" ;; y <- use "_dy_64" ;;
    xc <- use "_dxc_64" ;; yc <- use "_dyc_64" ;;
    let p := compn "calculate_divg_del6" 4 [s1; s2; s3; s4; s5; su; sv; x; y; xc; yc] in
    q <- (if cartesian then mret p
          else v <- xch Halo [at_ p 1; at_ p 0] ;; w <- xch Halo [at_ p 3; at_ p 2] ;;
               mret [comp "abs" 0 [at_ v 1]; comp "abs" 0 [at_ v 0]; comp "abs" 0 [at_ w 1]; comp "abs" 0 [at_ w 0]]) ;;
    mret [cast (q64 [I; JI] "" (at_ q 2)); cast (q64 [II; J] "" (at_ q 3));
          cast (q64 [I; JI] "" (at_ q 0)); cast (q64 [II; J] "" (at_ q 1))].

  (* 3154-3177, 3179-3200 _calculate_unit_vectors_lonlat *)
  Definition unit_vectors_lonlat : M V (list (value V)) :=
    p <- (if cartesian then mret (compn "nan" 2 []) else g <- use "_agrid_64" ;; mret (compn "unit_vector_lonlat" 2 [g])) ;;
    let vlon_64 := q64 [I; J; XYZ] "" (at_ p 0) in
    let vlat_64 := q64 [I; J; XYZ] "" (at_ p 1) in
    put "_vlon_64" vlon_64 ;; put "_vlat_64" vlat_64 ;; mret [cast vlon_64; cast vlat_64].

  (* 3202-3256 _calculate_grid_z *)
  Definition grid_z : M V (list (value V)) :=
    ensure_ec ;;
    ensure "_vlon_64" (v <- unit_vectors_lonlat ;; unpack ["_vlon"; "_vlat"] v) ;;
    e1 <- use "_ec1_64" ;; e2 <- use "_ec2_64" ;; vlon <- use "_vlon_64" ;; vlat <- use "_vlat_64" ;;
    let p := compn "calculate_grid_z" 4 [e1; e2; vlon; vlat] in
    let z i := q64 [I; J] "" (at_ p i) in
    puts [("_z11_64", z 0%nat); ("_z12_64", z 1%nat); ("_z21_64", z 2%nat); ("_z22_64", z 3%nat)] ;;
    mret (map (fun i => cast (z i)) (seq 0 4)).

  (* 3258-3307 _calculate_grid_a *)
  Definition grid_a : M V (list (value V)) :=
    ensure "_z11_64" (v <- grid_z ;; unpack ["_z11"; "_z12"; "_z21"; "_z22"] v) ;;
    ensure "_sin_sg5_64" init_cell_trigonometry ;;
    a <- use "_z11_64" ;; b <- use "_z12_64" ;; c <- use "_z21_64" ;; d <- use "_z22_64" ;; s <- use "_sin_sg5_64" ;;
    let p := compn "calculate_grid_a" 4 [a; b; c; d; s] in
    mret (map (fun i => cast (q64 [I; J] "" (at_ p i))) (seq 0 4)).

  (* 519-525 grid, 535-541 agrid *)
  Definition read_grid : M V (option (obj V)) :=
    lazy "_grid" (g <- use "_grid_64" ;; put "_grid" (cast (q64 [II; JI; LL] "radians" g))).
  Definition read_agrid : M V (option (obj V)) :=
    lazy "_agrid" (g <- use "_agrid_64" ;; put "_agrid" (cast (q64 [I; J; LL] "radians" g))).
  (* 548-594 lon, lat, lon_agrid, lat_agrid: a new quantity around a view of the grid's data, each time *)
  Definition component (m : M V (option (obj V))) (i : nat) : M V (option (obj V)) :=
    o <- m ;;
    match o with
    | Some o => wrap (Value (firstn 2 (dims (what o))) (units (what o)) (wide (what o)) (comp "component" i [data (what o)]))
    | None => mfail
    end.

  (* 3309-3352 _calculate_edge_factors: the 64-bit buffers themselves are returned *)
  Definition edge_factors : M V (list (value V)) :=
    g <- dat read_grid ;; a <- use "_agrid_64" ;;
    let p := compn "edge_factors" 4 [g; a] in
    mret [q64 [I; JI] "" (at_ p 0); q64 [I; JI] "" (at_ p 1); q64 [II] "" (at_ p 2); q64 [II] "" (at_ p 3)].

  (* 3354-3409 _calculate_edge_a2c_vect_factors *)
  Definition edge_a2c_vect_factors : M V (list (value V)) :=
    g <- dat read_grid ;; a <- use "_agrid_64" ;;
    let p := compn "efactor_a2c_v" 4 [g; a] in
    mret [cast (q64 [J] "" (at_ p 0)); cast (q64 [J] "" (at_ p 1)); cast (q64 [I] "" (at_ p 2)); cast (q64 [I] "" (at_ p 3))].
  Definition read_vect (a : string) : M V (option (obj V)) :=
    lazy a (v <- edge_a2c_vect_factors ;; unpack ["_edge_vect_w"; "_edge_vect_e"; "_edge_vect_s"; "_edge_vect_n"] v).

  (* 3411-3441 _calculate_2d_edge_a2c_vect_factors *)
  Definition edge_2d_vect_factors : M V (list (value V)) :=
    l <- dat (component read_grid 0) ;; e <- dat (read_vect "_edge_vect_e") ;; w <- dat (read_vect "_edge_vect_w") ;;
    mret [cast (q64 [I; J] "" (comp "repeat" 0 [l; e])); cast (q64 [I; J] "" (comp "repeat" 0 [l; w]))].

  (* 1508-1526 area, area64, area_c *)
  Definition read_area (a : string) : M V (option (obj V)) := lazy a (v <- compute_area ;; unpack ["_area"; "_area64"] v).
  Definition read_area_c : M V (option (obj V)) := lazy "_area_c" (v <- compute_area_c ;; unpack ["_area_c"] v).

  (* 3443-3456 _reduce_global_area_minmaxes; a float is a value without dimensions *)
  Definition reduce_global_area_minmaxes : M V unit :=
    a <- dat (read_area "_area") ;; c <- dat read_area_c ;;
    v0 <- xch (Reduce false) [comp "min" 0 [a]] ;; put "_da_min" (q64 [] "" (at_ v0 0)) ;;
    v1 <- xch (Reduce true) [comp "max" 0 [a]] ;; put "_da_max" (q64 [] "" (at_ v1 0)) ;;
    v2 <- xch (Reduce false) [comp "min" 0 [c]] ;; put "_da_min_c" (q64 [] "" (at_ v2 0)) ;;
    v3 <- xch (Reduce true) [comp "max" 0 [c]] ;; put "_da_max_c" (q64 [] "" (at_ v3 0)).

  Definition read_dx (a : string) : M V (option (obj V)) := lazy a (v <- compute_dxdy ;; unpack ["_dx"; "_dy"] v).
  Definition read_dxa (a : string) : M V (option (obj V)) :=
    lazy a (v <- compute_dxdy_agrid ;; unpack ["_dx_agrid"; "_dy_agrid"] v).
  Definition read_dxc (a : string) : M V (option (obj V)) :=
    lazy a (v <- compute_dxdy_center ;; unpack ["_dx_center"; "_dy_center"] v).
  Definition read_ec (a : string) : M V (option (obj V)) := lazy a (v <- center_vectors ;; unpack ["_ec1"; "_ec2"] v).
  Definition read_ew (a : string) : M V (option (obj V)) := lazy a (v <- vectors_west ;; unpack ["_ew1"; "_ew2"] v).
  Definition read_es (a : string) : M V (option (obj V)) := lazy a (v <- vectors_south ;; unpack ["_es1"; "_es2"] v).
  Definition read_ee (a : string) : M V (option (obj V)) := lazy a (v <- xy_unit_vectors ;; unpack ["_ee1"; "_ee2"] v).
  Definition read_trig (a : string) : M V (option (obj V)) := lazy a init_cell_trigonometry.
  Definition read_l2c (a : string) : M V (option (obj V)) :=
    lazy a (v <- latlon_momentum_correction ;; unpack ["_l2c_v"; "_l2c_u"] v).
  Definition read_divg (a : string) : M V (option (obj V)) :=
    lazy a (v <- divg_del6 ;; unpack ["_del6_u"; "_del6_v"; "_divg_u"; "_divg_v"] v).
  Definition read_v (a : string) : M V (option (obj V)) := lazy a (v <- unit_vectors_lonlat ;; unpack ["_vlon"; "_vlat"] v).
  Definition read_z (a : string) : M V (option (obj V)) := lazy a (v <- grid_z ;; unpack ["_z11"; "_z12"; "_z21"; "_z22"] v).
  Definition read_a (a : string) : M V (option (obj V)) := lazy a (v <- grid_a ;; unpack ["_a11"; "_a12"; "_a21"; "_a22"] v).
  Definition read_edge (a : string) : M V (option (obj V)) :=
    lazy a (v <- edge_factors ;; unpack ["_edge_w"; "_edge_e"; "_edge_s"; "_edge_n"] v).
  Definition read_2d (a : string) : M V (option (obj V)) :=
    lazy a (v <- edge_2d_vect_factors ;; unpack ["_edge_vect_e_2d"; "_edge_vect_w_2d"] v).
  Definition read_da (a : string) : M V (option (obj V)) := lazy a reduce_global_area_minmaxes.
  (* 1543-1670 rarea, ..., rdyc: cached properties *)
  Definition reciprocal (a u : string) (m : M V (option (obj V))) : M V (option (obj V)) :=
    lazy a (o <- m ;;
            match o with
            | Some o => put a (Value (dims (what o)) u (wide (what o)) (comp "reciprocal" 0 [data (what o)]))
            | None => mfail
            end).

  (* the properties of MetricTerms, 519-1670 *)
  Definition read (t : term) : M V (option (obj V)) :=
    match t with
    | dx => read_dx "_dx" | dy => read_dx "_dy"
    | dxa => read_dxa "_dx_agrid" | dya => read_dxa "_dy_agrid"
    | dxc => read_dxc "_dx_center" | dyc => read_dxc "_dy_center"
    | ec1 => read_ec "_ec1" | ec2 => read_ec "_ec2"
    | ew1 => read_ew "_ew1" | ew2 => read_ew "_ew2"
    | es1 => read_es "_es1" | es2 => read_es "_es2"
    | ee1 => read_ee "_ee1" | ee2 => read_ee "_ee2"
    | cos_sg i => if (i <? 9)%nat then read_sg "_cos_sg" i else mfail
    | sin_sg i => if (i <? 9)%nat then read_sg "_sin_sg" i else mfail
    | cosa => read_trig "_cosa" | sina => read_trig "_sina"
    | cosa_u => read_trig "_cosa_u" | cosa_v => read_trig "_cosa_v" | cosa_s => read_trig "_cosa_s"
    | sina_u => read_trig "_sina_u" | sina_v => read_trig "_sina_v"
    | rsin_u => read_trig "_rsin_u" | rsin_v => read_trig "_rsin_v"
    | rsina => read_trig "_rsina" | rsin2 => read_trig "_rsin2"
    | l2c_v => read_l2c "_l2c_v" | l2c_u => read_l2c "_l2c_u"
    | divg_u => read_divg "_divg_u" | divg_v => read_divg "_divg_v"
    | del6_u => read_divg "_del6_u" | del6_v => read_divg "_del6_v"
    | vlon => read_v "_vlon" | vlat => read_v "_vlat"
    | z11 => read_z "_z11" | z12 => read_z "_z12" | z21 => read_z "_z21" | z22 => read_z "_z22"
    | a11 => read_a "_a11" | a12 => read_a "_a12" | a21 => read_a "_a21" | a22 => read_a "_a22"
    | edge_w => read_edge "_edge_w" | edge_e => read_edge "_edge_e"
    | edge_s => read_edge "_edge_s" | edge_n => read_edge "_edge_n"
    | edge_vect_w_1d => read_vect "_edge_vect_w" | edge_vect_w => read_2d "_edge_vect_w_2d"
    | edge_vect_e_1d => read_vect "_edge_vect_e" | edge_vect_e => read_2d "_edge_vect_e_2d"
    | edge_vect_s => read_vect "_edge_vect_s" | edge_vect_n => read_vect "_edge_vect_n"
    | da_min => read_da "_da_min" | da_max => read_da "_da_max"
    | da_min_c => read_da "_da_min_c" | da_max_c => read_da "_da_max_c"
    | area => read_area "_area" | area64 => read_area "_area64" | area_c => read_area_c
    | rarea => reciprocal "rarea" "m^-2" (read_area "_area") | rarea_c => reciprocal "rarea_c" "m^-2" read_area_c
    | rdx => reciprocal "rdx" "m^-1" (read_dx "_dx") | rdy => reciprocal "rdy" "m^-1" (read_dx "_dy")
    | rdxa => reciprocal "rdxa" "m^-1" (read_dxa "_dx_agrid") | rdya => reciprocal "rdya" "m^-1" (read_dxa "_dy_agrid")
    | rdxc => reciprocal "rdxc" "m^-1" (read_dxc "_dx_center") | rdyc => reciprocal "rdyc" "m^-1" (read_dxc "_dy_center")
    | grid => read_grid | agrid => read_agrid
    | lon => component read_grid 0 | lat => component read_grid 1
    | lon_agrid => component read_agrid 0 | lat_agrid => component read_agrid 1
    | ak => get "_ak" | bk => get "_bk"
    end.

  (* a user reads terms one after the other *)
  Fixpoint reads (ts : list term) : M V (list (option (obj V))) :=
    match ts with [] => mret [] | t :: ts => o <- read t ;; l <- reads ts ;; mret (o :: l) end.

  (* 222-402: after the constructor (and from_external, 450-483) the grids and the vertical coefficients are there, all else is None.
     [init] gives their data. *)
  Definition fresh (init : string -> V) : st V :=
    St (fun a => if String.eqb a "_grid_64" then Some (Obj 0 (q64 [II; JI; LL] "radians" (init a)))
                 else if String.eqb a "_agrid_64" then Some (Obj 1 (q64 [I; J; LL] "radians" (init a)))
                 else if String.eqb a "_ak" then Some (Obj 2 (qF [KI] "Pa" (init a)))
                 else if String.eqb a "_bk" then Some (Obj 3 (qF [KI] "" (init a)))
                 else None) 4.
End Terms.

(** All ranks together.  [runs net p n out]: the programs [p] of the ranks all finish, with results [out], after [n] collective
    operations.  A collective operation needs all ranks to have reached one of the same kind: halo messages carry the number of the
    update as their tag (communicator.py 617-619), so the k-th update of a rank meets the k-th update of its neighbours. *)
Inductive runs {V Rank A : Type} (net : call -> (Rank -> list V) -> Rank -> list V) : (Rank -> prog V A) -> nat -> (Rank -> A) -> Prop :=
| Done p out : (forall r, p r = Ret (out r)) -> runs net p 0 out
| Step p c d k n out : (forall r, p r = Xch c (d r) (k r)) -> runs net (fun r => k r (net c d r)) n out -> runs net p (S n) out.

(** what a user's reads give: every rank [r] makes its object and reads the terms [ts r] *)
Definition session {V Rank : Type} (cartesian : bool) (comp : Rank -> string -> nat -> list V -> V) (round : V -> V)
    (init : Rank -> string -> V) (ts : Rank -> list term) (r : Rank) : prog V (list (option (obj V))) :=
  pbind (reads cartesian (comp r) round (ts r) (fresh round (init r))) (fun p => Ret (fst p)).
