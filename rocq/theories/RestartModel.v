(** Model of ndsl/restart/_legacy_restart.py: get_rank_suffix (99-111), map_keys (132-139), _get_restart_standard_names (169-177)
    and the renaming and selection in load_partial_state_from_restart_file (149-166); and of the table of names in
    ndsl/restart/_properties.py:14-452.

    A property is its standard name and its restart name.  Simplified: dims and units are left out; a variable gets a
    "units" attribute from its property (_apply_restart_metadata, 119-129), or may carry one in the file. *)
From Verif Require Import Base Dict.
Local Open Scope string_scope.

(** 169-177: restart name -> standard name; a later property replaces an earlier one with the same restart name *)
Definition standard_names (props : dict string) : dict string :=
  fold_left (fun d p => put d (snd p) (fst p)) props [].

Section Load.
  Context {V : Type}.
  (** 132-139.  The variables whose names are not keys of the table are taken in the order of the file: the code takes them in
      the order of a set, which does not matter as they have different names. *)
  Definition map_keys (old : dict V) (names : dict string) : dict V :=
    let first := fold_left (fun d kn => match get old (fst kn) with Some v => put d (snd kn) v | None => d end) names [] in
    fold_left (fun d kv => match get names (fst kv) with Some _ => d | None => put d (fst kv) (snd kv) end) old first.

  Variable has_units : V -> bool.      (* the variable has a units attribute in the file *)
  (** 149-166: keep what has metadata and is asked for *)
  Definition load (props : dict string) (only_names : option (list string)) (old : dict V) : dict V :=
    filter (fun kv =>
        ((fst kv =? "time") || has_units (snd kv) || match get props (fst kv) with Some _ => true | None => false end) &&
        match only_names with None => true | Some l => existsb (fun n => fst kv =? n) l end)
      (map_keys old (standard_names props)).
End Load.

(** get_rank_suffix, 99-111 with get_tile_index, ndsl/comm/partitioner.py:36-43: the tile number and, if there is more than one
    rank per tile, the number in the tile.  None = ValueError. *)
Definition rank_suffix (rank total : Z) : option (Z * option Z) :=
  if (total mod 6 =? 0)%Z then
    let per_tile := (total / 6)%Z in
    Some ((rank / per_tile + 1)%Z, if (total >? 6)%Z then Some (rank mod per_tile)%Z else None)
  else None.

(** ndsl/restart/_properties.py: standard name, restart name *)
Definition RESTART_PROPERTIES : dict string :=
  [("accumulated_x_courant_number", "cx");
   ("accumulated_x_mass_flux", "mfx");
   ("accumulated_y_courant_number", "cy");
   ("accumulated_y_mass_flux", "mfy");
   ("air_temperature", "T");
   ("air_temperature_after_physics", "gt0");
   ("air_temperature_at_2m", "t2m");
   ("area_of_grid_cell", "area");
   ("atmosphere_hybrid_a_coordinate", "ak");
   ("atmosphere_hybrid_b_coordinate", "bk");
   ("canopy_water", "canopy");
   ("clear_sky_downward_longwave_flux_at_surface", "sfcflw");
   ("clear_sky_downward_shortwave_flux_at_surface", "sfcfsw");
   ("clear_sky_upward_longwave_flux_at_surface", "sfcflw");
   ("clear_sky_upward_longwave_flux_at_top_of_atmosphere", "topflw");
   ("clear_sky_upward_shortwave_flux_at_surface", "sfcfsw");
   ("clear_sky_upward_shortwave_flux_at_top_of_atmosphere", "topfsw");
   ("convective_cloud_bottom_pressure", "cvb");
   ("convective_cloud_fraction", "cv");
   ("convective_cloud_top_pressure", "cvt");
   ("deep_soil_temperature", "tg3");
   ("dissipation_estimate_from_heat_source", "diss_est");
   ("eastward_wind", "ua");
   ("eastward_wind_after_physics", "gu0");
   ("eastward_wind_at_surface", "u_srf");
   ("fh_parameter", "ffhh");
   ("fm_at_10m", "f10m");
   ("fm_parameter", "ffmm");
   ("fractional_coverage_with_strong_cosz_dependency", "facsf");
   ("fractional_coverage_with_weak_cosz_dependency", "facwf");
   ("friction_velocity", "uustar");
   ("ice_fraction_over_open_water", "fice");
   ("interface_pressure", "pe");
   ("interface_pressure_raised_to_power_of_kappa", "pk");
   ("land_sea_mask", "slmsk");
   ("latent_heat_flux", "dqsfci");
   ("latitude", "xlat");
   ("layer_mean_pressure_raised_to_power_of_kappa", "pkz");
   ("liquid_soil_moisture", "slc");
   ("logarithm_of_interface_pressure", "peln");
   ("longitude", "xlon");
   ("maximum_fractional_coverage_of_green_vegetation", "shdmax");
   ("maximum_snow_albedo_in_fraction", "snoalb");
   ("mean_cos_zenith_angle", "coszen");
   ("mean_near_infrared_albedo_with_strong_cosz_dependency", "alnsf");
   ("mean_near_infrared_albedo_with_weak_cosz_dependency", "alnwf");
   ("mean_visible_albedo_with_strong_cosz_dependency", "alvsf");
   ("mean_visible_albedo_with_weak_cosz_dependency", "alvwf");
   ("minimum_fractional_coverage_of_green_vegetation", "shdmin");
   ("northward_wind", "va");
   ("northward_wind_after_physics", "gv0");
   ("northward_wind_at_surface", "v_srf");
   ("pressure_thickness_of_atmospheric_layer", "delp");
   ("sea_ice_thickness", "hice");
   ("sensible_heat_flux", "dtsfci");
   ("snow_cover_in_fraction", "sncovr");
   ("snow_depth_water_equivalent", "snwdph");
   ("snow_rain_flag", "srflag");
   ("soil_temperature", "stc");
   ("soil_type", "stype");
   ("specific_humidity_at_2m", "q2m");
   ("surface_geopotential", "phis");
   ("surface_pressure", "ps");
   ("surface_roughness", "zorl");
   ("surface_slope_type", "slope");
   ("surface_temperature", "tsea");
   ("surface_temperature_over_ice_fraction", "tisfc");
   ("total_condensate_mixing_ratio", "q_con");
   ("total_precipitation", "tprcp");
   ("total_sky_downward_longwave_flux_at_surface", "sfcflw");
   ("total_sky_downward_shortwave_flux_at_surface", "sfcfsw");
   ("total_sky_downward_shortwave_flux_at_top_of_atmosphere", "topfsw");
   ("total_sky_upward_longwave_flux_at_surface", "sfcflw");
   ("total_sky_upward_longwave_flux_at_top_of_atmosphere", "topflw");
   ("total_sky_upward_shortwave_flux_at_surface", "sfcfsw");
   ("total_sky_upward_shortwave_flux_at_top_of_atmosphere", "topfsw");
   ("total_soil_moisture", "smc");
   ("vegetation_fraction", "vfrac");
   ("vegetation_type", "vtype");
   ("vertical_pressure_velocity", "omga");
   ("vertical_thickness_of_atmospheric_layer", "DZ");
   ("vertical_wind", "W");
   ("water_equivalent_of_accumulated_snow_depth", "sheleg");
   ("x_wind", "u");
   ("x_wind_on_c_grid", "uc");
   ("y_wind", "v");
   ("y_wind_on_c_grid", "vc")].

(** ** Specification *)
(** the properties that claim a restart name *)
Definition claimants (props : dict string) (r : string) : list string :=
  map fst (filter (fun p => snd p =? r) props).
