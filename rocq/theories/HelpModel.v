(** Model of the grid containers: DampingCoefficients, HorizontalGridData, VerticalGridData, ContravariantGridData, AngleGridData,
    GridData and DriverGridData of ndsl/grid/helper.py, made from a MetricTerms object (LazyModel.v).

    An object of a data class is the list of its fields.  Simplified: a quantity made anew (the components of a vector) has the
    dimensions, units and data of the code, its identity is left out; [comp "split"] takes the component out of the data. *)
From Verif Require Export LazyModel.

(** the fields of a data class *)
Definition fields (V : Type) := list (string * option (obj V)).

Section Containers.
  Context {V : Type}.
  Variable cartesian : bool.
  Variable comp : string -> nat -> list V -> V.
  Variable round : V -> V.

  (* cls(name=metric_terms.term, ...): the terms are read in the order written *)
  Definition make (l : list (string * term)) : M V (fields V) :=
    os <- reads cartesian comp round (map snd l) ;; mret (combine (map fst l) os).

  (* 35-44 *)
  Definition damping : list (string * term) :=
    [("divg_u", divg_u); ("divg_v", divg_v); ("del6_u", del6_u); ("del6_v", del6_v); ("da_min", da_min); ("da_min_c", da_min_c)].
  (* 88-123 *)
  Definition horizontal : list (string * term) :=
    [("lon", lon); ("lat", lat); ("lon_agrid", lon_agrid); ("lat_agrid", lat_agrid); ("area", area); ("area_64", area64);
     ("rarea", rarea); ("rarea_c", rarea_c); ("dx", dx); ("dy", dy); ("dxc", dxc); ("dyc", dyc); ("dxa", dxa); ("dya", dya);
     ("rdx", rdx); ("rdy", rdy); ("rdxc", rdxc); ("rdyc", rdyc); ("rdxa", rdxa); ("rdya", rdya); ("ee1", ee1); ("ee2", ee2);
     ("es1", es1); ("ew2", ew2); ("a11", a11); ("a12", a12); ("a21", a21); ("a22", a22);
     ("edge_w", edge_w); ("edge_e", edge_e); ("edge_s", edge_s); ("edge_n", edge_n)].
  (* 147-152 *)
  Definition vertical : list (string * term) := [("ak", ak); ("bk", bk)].
  (* 257-270 *)
  Definition contravariant : list (string * term) :=
    [("cosa", cosa); ("cosa_u", cosa_u); ("cosa_v", cosa_v); ("cosa_s", cosa_s); ("sina_u", sina_u); ("sina_v", sina_v);
     ("rsina", rsina); ("rsin_u", rsin_u); ("rsin_v", rsin_v); ("rsin2", rsin2)].
  (* 300-321 *)
  Definition angle : list (string * term) :=
    [("sin_sg1", sin_sg 0); ("sin_sg2", sin_sg 1); ("sin_sg3", sin_sg 2); ("sin_sg4", sin_sg 3); ("sin_sg5", sin_sg 4);
     ("sin_sg6", sin_sg 5); ("sin_sg7", sin_sg 6); ("sin_sg8", sin_sg 7); ("sin_sg9", sin_sg 8);
     ("cos_sg1", cos_sg 0); ("cos_sg2", cos_sg 1); ("cos_sg3", cos_sg 2); ("cos_sg4", cos_sg 3); ("cos_sg5", cos_sg 4);
     ("cos_sg6", cos_sg 5); ("cos_sg7", cos_sg 6); ("cos_sg8", cos_sg 7); ("cos_sg9", cos_sg 8)].

  (* 324-347 GridData.__init__, without fc and fc_agrid *)
  Record grid_data := GridData { _horizontal_data : fields V; _vertical_data : fields V; _contravariant_data : fields V; _angle_data : fields V }.
  (* 349-355 *)
  Definition new_grid_data : M V grid_data :=
    h <- make horizontal ;; v <- make vertical ;; c <- make contravariant ;; a <- make angle ;; mret (GridData h v c a).

  (* an attribute of an object; None = AttributeError, or the attribute is None *)
  Fixpoint getattr (f : fields V) (a : string) : option (obj V) :=
    match f with [] => None | (b, o) :: f => if String.eqb a b then o else getattr f a end.

  (* 357-706: the part of the grid that a property of GridData reads, and the field it returns *)
  Inductive part := Hor | Ver | Con | Ang.
  Definition properties : list (string * (part * string)) :=
    [("lon", (Hor, "lon")); ("lat", (Hor, "lat")); ("lon_agrid", (Hor, "lon_agrid")); ("lat_agrid", (Hor, "lat_agrid"));
     ("area", (Hor, "area")); ("area_64", (Hor, "area_64")); ("rarea", (Hor, "rarea")); ("rarea_c", (Hor, "rarea_c"));
     ("dx", (Hor, "dx")); ("dy", (Hor, "dy")); ("dxc", (Hor, "dxc")); ("dyc", (Hor, "dyc")); ("dxa", (Hor, "dxa")); ("dya", (Hor, "dya"));
     ("rdx", (Hor, "rdx")); ("rdy", (Hor, "rdy")); ("rdxc", (Hor, "rdxc")); ("rdyc", (Hor, "rdyc")); ("rdxa", (Hor, "rdxa")); ("rdya", (Hor, "rdya"));
     ("ee1", (Hor, "ee1")); ("ee2", (Hor, "ee2")); ("es1", (Hor, "es1")); ("ew2", (Hor, "ew2"));
     ("a11", (Hor, "a11")); ("a12", (Hor, "a12")); ("a21", (Hor, "a21")); ("a22", (Hor, "a22"));
     ("edge_w", (Hor, "edge_w")); ("edge_e", (Hor, "edge_e")); ("edge_s", (Hor, "edge_s")); ("edge_n", (Hor, "edge_n"));
     ("ak", (Ver, "ak")); ("bk", (Ver, "bk"));
     ("cosa", (Con, "cosa")); ("cosa_u", (Con, "cosa_u")); ("cosa_v", (Con, "cosa_v")); ("cosa_s", (Con, "cosa_s"));
     ("sina_u", (Con, "sina_u")); ("sina_v", (Con, "sina_v")); ("rsina", (Con, "rsina")); ("rsin_u", (Con, "rsin_u"));
     ("rsin_v", (Con, "rsin_v")); ("rsin2", (Con, "rsin2"));
     ("sin_sg1", (Ang, "sin_sg1")); ("sin_sg2", (Ang, "sin_sg2")); ("sin_sg3", (Ang, "sin_sg3")); ("sin_sg4", (Ang, "sin_sg4"));
     ("sin_sg5", (Ang, "sin_sg5")); ("sin_sg6", (Ang, "sin_sg6")); ("sin_sg7", (Ang, "sin_sg7")); ("sin_sg8", (Ang, "sin_sg8"));
     ("sin_sg9", (Ang, "sin_sg9"));
     ("cos_sg1", (Ang, "cos_sg1")); ("cos_sg2", (Ang, "cos_sg2")); ("cos_sg3", (Ang, "cos_sg3")); ("cos_sg4", (Ang, "cos_sg4"));
     ("cos_sg5", (Ang, "cos_sg5")); ("cos_sg6", (Ang, "cos_sg6")); ("cos_sg7", (Ang, "cos_sg7")); ("cos_sg8", (Ang, "cos_sg8"));
     ("cos_sg9", (Ang, "cos_sg9"))].
  Fixpoint assoc {A} (l : list (string * A)) (a : string) : option A :=
    match l with [] => None | (b, x) :: l => if String.eqb a b then Some x else assoc l a end.
  Definition part_data (g : grid_data) (p : part) : fields V :=
    match p with Hor => _horizontal_data g | Ver => _vertical_data g | Con => _contravariant_data g | Ang => _angle_data g end.
  Definition property (g : grid_data) (a : string) : option (obj V) :=
    match assoc properties a with Some (p, b) => getattr (part_data g p) b | None => None end.

  (* 810-832 split_quantity_along_last_dim for a quantity with three components (quantity.shape[-1] = 3, generation.py: XYZ) *)
  Definition split (o : obj V) : list (value V) :=
    map (fun i => Value (removelast (dims (what o))) (units (what o)) (wide (what o)) (comp "split" i [data (what o)])) (seq 0 3).

  (* 764-807 new_from_grid_variables, the quantities given; 750-762 new_from_metric_terms.  Content only. *)
  Definition driver_terms : list (string * term) :=
    [("vlon", vlon); ("vlat", vlon); ("edge_vect_n", edge_vect_n); ("edge_vect_s", edge_vect_s);
     ("edge_vect_e", edge_vect_e); ("edge_vect_w", edge_vect_w); ("es1", es1); ("ew2", ew2)].
  Definition three (names : list string) (args : fields V) (a : string) : list (string * value V) :=
    match getattr args a with Some o => combine names (split o) | None => [] end.
  Definition one (args : fields V) (a : string) : list (string * value V) :=
    match getattr args a with Some o => [(a, what o)] | None => [] end.
  Definition new_from_grid_variables (args : fields V) : list (string * value V) :=
    (three ["vlon1"; "vlon2"; "vlon3"] args "vlon" ++ three ["vlat1"; "vlat2"; "vlat3"] args "vlat" ++
     three ["es1_1"; "es1_2"; "es1_3"] args "es1" ++ three ["ew2_1"; "ew2_2"; "ew2_3"] args "ew2" ++
     one args "edge_vect_w" ++ one args "edge_vect_e" ++ one args "edge_vect_s" ++ one args "edge_vect_n")%list.
  Definition new_driver_grid_data : M V (list (string * value V)) :=
    args <- make driver_terms ;; mret (new_from_grid_variables args).
End Containers.
Arguments GridData {V} _ _ _ _.
Arguments grid_data V : clear implicits.

(** every rank reads [ts] and then makes a container *)
Definition after {V Rank A : Type} (cartesian : bool) (comp : Rank -> string -> nat -> list V -> V) (round : V -> V)
    (init : Rank -> string -> V) (ts : list term) (build : Rank -> M V A) (r : Rank) : prog V A :=
  pbind (reads cartesian (comp r) round ts (fresh round (init r))) (fun p => pbind (build r (snd p)) (fun q => Ret (fst q))).
