{
 "claims": [
  {
   "property": "C01",
   "status": "proved",
   "theorems": [
    "C01_tile_neighbours_mutual"
   ],
   "note": "All layouts, ranks, directions."
  },
  {
   "property": "C02",
   "status": "proved",
   "theorems": [
    "C02_cube_edge_neighbours_mutual",
    "C02_cube_neighbours_are_geometric",
    "C02_geometric_neighbour_unique"
   ],
   "note": "All square layouts; also matched to the gluing of a cube in 3-space."
  },
  {
   "property": "C03",
   "status": "proved",
   "theorems": [
    "C03_corner_missing_iff_tile_corner",
    "C03_corner_neighbours_mutual",
    "C03_corner_walks_agree"
   ],
   "note": ""
  },
  {
   "property": "C04",
   "status": "proved",
   "theorems": [
    "C04_cube_neighbours_distinct",
    "C04_tile_neighbours_distinct",
    "C04_tile_small_layout_ambiguous"
   ],
   "note": ""
  },
  {
   "property": "C05",
   "status": "proved",
   "theorems": [
    "C05_subtiles_partition_tile",
    "C05_subtiles_partition_cube"
   ],
   "note": "Any rounding exact on integers/half-integers up to 2^52; layouts and extents up to 2^52."
  },
  {
   "property": "C06",
   "status": "proved",
   "theorems": [
    "C06_overlap_is_the_interface_line",
    "C06_overlapping_slices_cover"
   ],
   "note": ""
  },
  {
   "property": "C07",
   "status": "proved",
   "theorems": [
    "C07_even_tiles_accepted",
    "C07_odd_cells_on_even_ranks_rejected",
    "C07_edge_sizes_equal_interior_sizes_equal"
   ],
   "note": ""
  },
  {
   "property": "C08",
   "status": "partial",
   "theorems": [
    "C08_rank_metadata_reconstructs_tile_partial",
    "C08_uneven_tile_metadata_refuted"
   ],
   "note": "Holds for evenly divided tiles; refuted for uneven accepted decompositions (global_extent ignores the partitioner's edge/interior ratio)."
  },
  {
   "property": "C09",
   "status": "proved",
   "theorems": [
    "C09_gather_undoes_scatter",
    "C09_each_rank_gets_its_region",
    "C09_scatter_accepts_even_tiles"
   ],
   "note": ""
  },
  {
   "property": "C10",
   "status": "proved",
   "theorems": [
    "C10_received_points_are_halo_points",
    "C10_received_regions_disjoint",
    "C10_received_regions_cover_halo",
    "C10_region_depth",
    "C10_sent_points_are_owned",
    "C10_deep_halo_refuted",
    "C10_error_iff_no_room"
   ],
   "note": "C10_deep_halo_refuted shows the depth restriction in the ownership claim is needed: with more halo than owned points the sent region reaches into the halo and no error is raised."
  },
  {
   "property": "C11",
   "status": "proved",
   "theorems": [
    "C11_buffer_sizes_match_on_tile",
    "C11_buffer_sizes_match_on_cube",
    "C11_mixed_staggering_refuted"
   ],
   "note": "Sizes agree for every pair on the tile (any staggering) and the cube (equal staggering); a scalar staggered along one axis only is accepted on the cube and then mismatches (refuted case shown)."
  },
  {
   "property": "C12",
   "status": "proved",
   "theorems": [
    "C12_tile_halo_update"
   ],
   "note": "End to end over all event interleavings: builds, never stuck, result is the periodic field near the compute domain and unchanged elsewhere."
  },
  {
   "property": "C13",
   "status": "proved",
   "theorems": [
    "C13_cube_halo_update"
   ],
   "note": "As C12 for the cube; values given by folding the face plane around cube edges in 3-space."
  },
  {
   "property": "C14",
   "status": "proved",
   "theorems": [
    "C14_rotations_compose",
    "C14_rotation_round_trip",
    "C14_components_turn_with_the_grid"
   ],
   "note": "Fields with both an x and a y dimension."
  },
  {
   "property": "C15",
   "status": "partial",
   "theorems": [
    "C15_launch",
    "C15_pack_scalar_partial",
    "C15_pack_vector_partial",
    "C15_unpack_scalar_partial",
    "C15_unpack_vector_partial",
    "C15_dtype_refuted",
    "C15_offset_refuted",
    "C15_axes_refuted"
   ],
   "note": "Proved for every shape, strides, slices, rotation, number of fields and order of the threads' stores, for float32/float64 fields whose element offsets fit 32 bits. False for other dtypes (the error is built but not raised, nothing is packed), for offsets beyond 2^31, and for vector components with different horizontal dimension order. The index lists are those of a cache miss (C16); CUDA execution itself is not modelled beyond arbitrary store order."
  },
  {
   "property": "C16",
   "status": "partial",
   "theorems": [
    "C16_same_key_partial",
    "C16_served_partial",
    "C16_dims_refuted",
    "C16_rotate_refuted",
    "C16_fields_partial"
   ],
   "note": "False as stated: the key omits the dimension names and the rotate flag. Proved for requests that agree on both, over any sequence of requests."
  },
  {
   "property": "C17",
   "status": "partial",
   "theorems": [
    "C17_cube_partial",
    "C17_source_unique",
    "C17_tile",
    "C17_vertical_first_refuted",
    "C17_small_tile_refused"
   ],
   "note": "Cube of n x n ranks per tile with symmetric cuts: every synchronized point gets the value held on the one other rank's south/west edge at the same place of the sphere (unique), with the sign of the tangent directions; all else unchanged. Periodic tiles >= 3x3 in full. False when a vertical dimension comes first: the reversal is then applied to it. Messages are matched in order; device memory and timers not modelled."
  },
  {
   "property": "C18",
   "status": "partial",
   "theorems": [
    "C18_updater_tags_distinct_partial",
    "C18_interface_tags_refuted"
   ],
   "note": "Distinct for scalar/vector updaters; interface synchronisation always uses tag 1."
  },
  {
   "property": "C19",
   "status": "proved",
   "theorems": [
    "C19_received_is_prefix_of_sent",
    "C19_receive_delivers_next",
    "C19_deferred_receive"
   ],
   "note": "Any interleaving of sends, receives, deferred receives and array writes by any ranks."
  },
  {
   "property": "C20",
   "status": "partial",
   "theorems": [
    "C20_never_sent_partial",
    "C20_drained_refuted"
   ],
   "note": "Holds when nothing was ever sent on the key; fails (IndexError instead of ConcurrencyError) once everything sent was received. State is unchanged in both cases (C19_receive_delivers_next)."
  },
  {
   "property": "C21",
   "status": "partial",
   "theorems": [
    "C21_bcast_gives_root_value",
    "C21_bcast_succeeds",
    "C21_scatter_gives_pieces",
    "C21_gather_partial",
    "C21_stale_gather_refuted",
    "C21_bcast_alias_refuted"
   ],
   "note": "Broadcast and scatter proved for all interleavings; gather delivers the latest contributions, which may be stale (refuted), and broadcast shares the object (refuted for contents)."
  },
  {
   "property": "C22",
   "status": "proved",
   "theorems": [
    "C22_start_wait_alternate",
    "C22_all_histories",
    "C22_second_exchange_refuted",
    "C22_after_failed_start_refuted"
   ],
   "note": "Data content of an exchange is C12/C13; the two refuted cases are what the quantifier excludes."
  },
  {
   "property": "C23",
   "status": "proved",
   "theorems": [
    "C23_buffers_not_shared",
    "C23_double_wait_refuted"
   ],
   "note": "Holds as quantified; without the proviso (HaloUpdateRequest.wait called twice) it is refuted by C23_double_wait_refuted."
  },
  {
   "property": "C24",
   "status": "partial",
   "theorems": [
    "C24_replay_equals_recording_partial",
    "C24_wait_order_refuted",
    "C24_gather_refuted"
   ],
   "note": "Proved for waits in posting order and gathers on the root, at every prefix; refuted for other wait orders and for gathers on non-root ranks."
  },
  {
   "property": "C25",
   "status": "partial",
   "theorems": [
    "C25_view_partial",
    "C25_corner_view_partial",
    "C25_contiguous_slices",
    "C25_newaxis_refuted",
    "C25_before_storage_refuted",
    "C25_reversed_refuted",
    "C25_too_many_indices"
   ],
   "note": "Proved for integers and forward slices staying within the storage, all views; refuted for None entries, entries before the storage start, and [::-1]."
  },
  {
   "property": "C26",
   "status": "partial",
   "theorems": [
    "C26_transpose_keeps_dimensions",
    "C26_round_trip_partial",
    "C26_halo_depth_refuted",
    "C26_refused"
   ],
   "note": "Everything but the halo depth round-trips; transpose resets n_halo to 0."
  },
  {
   "property": "C27",
   "status": "proved",
   "theorems": [
    "C27_room_for_halo",
    "C27_sent_from_domain"
   ],
   "note": "All ranks, layouts, sizes; horizontal extents proved equal to those of the partitioner. Data dimension sizes are assumed non-negative."
  },
  {
   "property": "C28",
   "status": "partial",
   "theorems": [
    "C28_origin_domain_partial",
    "C28_restrict_vertical",
    "C28_restrictions_compose",
    "C28_restricted_shape_refuted",
    "C28_data_dimension_refuted"
   ],
   "note": "Proved for spatial dimensions of an unrestricted grid; false after restrict_vertical (shape lacks k_start) and for data dimensions before spatial ones (halo added to wrong dimension or IndexError)."
  },
  {
   "property": "C29",
   "status": "partial",
   "theorems": [
    "C29_one_compiler_partial",
    "C29_single_code_path",
    "C29_rectangular_refuted"
   ],
   "note": "Exact: holds for 1x1, square, and two-row or two-column layouts; fails for every other rectangular layout (right edge compiled by nobody)."
  },
  {
   "property": "C30",
   "status": "proved",
   "theorems": [
    "C30_equivalent_rank"
   ],
   "note": "All square layouts (others are rejected by check_communicator)."
  },
  {
   "property": "C31",
   "status": "proved",
   "theorems": [
    "C31_handshake",
    "C31_single_tile_refuted"
   ],
   "note": "Rendezvous semantics, all interleavings. Python passes a float destination rank to MPI; its acceptance is outside the model."
  },
  {
   "property": "C32",
   "status": "partial",
   "theorems": [
    "C32_equality_partial",
    "C32_refuted"
   ],
   "note": "Exact characterisation of equality; the property as stated is refuted because bytes(bool) hashes only the number of set flags."
  },
  {
   "property": "C33",
   "status": "proved",
   "theorems": [
    "C33_timer_accounting"
   ],
   "note": "All histories, clock readings and rounding behaviours."
  },
  {
   "property": "C34",
   "status": "partial",
   "theorems": [
    "C34_thresholds_partial",
    "C34_spread_within",
    "C34_merge",
    "C34_shorter_last_trial_refuted",
    "C34_relative_refuted"
   ],
   "note": "Exact value of every threshold for all trial histories; merge laws; fewer than two trials raises. False: calls missing from the last trial get no thresholds; relative thresholds can reject a calibration trial (exact arithmetic, no NaN)."
  },
  {
   "property": "C35",
   "status": "proved",
   "theorems": [
    "C35_clip"
   ],
   "note": "Arrays with as many axes as the reference and at least its length on each."
  },
  {
   "property": "C36",
   "status": "proved",
   "theorems": [
    "C36_flatten",
    "C36_targets",
    "C36_deep",
    "C36_deep_refuted"
   ],
   "note": "Two-level namelists (the quantifier); any depth with distinct names; the refuted case shows repeated names at greater depth."
  },
  {
   "property": "C37",
   "status": "partial",
   "theorems": [
    "C37_contents",
    "C37_every_state_once_partial",
    "C37_cleanup_refuted"
   ],
   "note": "Exact content of the files after every history. Full claim holds unless a cleanup falls inside a chunk that is continued; that case loses states (refuted)."
  },
  {
   "property": "C38",
   "status": "partial",
   "theorems": [
    "C38_cells_partial",
    "C38_chunks",
    "C38_uneven_refuted",
    "C38_series_partial",
    "C38_timeless_refuted",
    "C38_failed_store_refuted"
   ],
   "note": "Every cell written exactly once by its owner, any order of writes, for evenly divided tiles; no shared chunks; time series match the accepted states. False for uneven decompositions, for states without time, and after a store that raises half-way."
  },
  {
   "property": "C39",
   "status": "proved",
   "theorems": [
    "C39_solves"
   ],
   "note": "Exact arithmetic in any field, leading minors non-zero; rounding not represented."
  },
  {
   "property": "C40",
   "status": "proved",
   "theorems": [
    "C40_extremum"
   ],
   "note": "Any strict weak order (NaN excluded)."
  },
  {
   "property": "C41",
   "status": "partial",
   "theorems": [
    "C41_agree_agrid",
    "C41_agree_bgrid_partial",
    "C41_agree_dgrid_partial",
    "C41_agrid_array",
    "C41_bgrid_array_x",
    "C41_bgrid_array_y_partial",
    "C41_agrid_vector",
    "C41_dgrid_array_partial",
    "C41_cgrid_array_partial",
    "C41_copy_corners",
    "C41_bgrid_stencil",
    "C41_dgrid_stencil",
    "C41_cells_mult",
    "C41_bgrid_y_refuted",
    "C41_dgrid_refuted",
    "C41_cgrid_refuted",
    "C41_wide_halo_refuted"
   ],
   "note": "both implementations proved equal to a geometric specification (quarter turn about the cube corner, vectors turned back) and to each other; refuted: B grid direction j at the north-east corner, D/C grid arrays for other than three halo points, stencils for more than three"
  },
  {
   "property": "C42",
   "status": "partial",
   "theorems": [
    "C42_interleaved_partial",
    "C42_each_body_partial",
    "C42_chain_partial",
    "C42_stale_guard_refuted",
    "C42_stale_code_refuted",
    "C42_push_refuted"
   ],
   "note": "Proved for every pair of ranges with positive steps, nested maps, and rows of loops merged one by one into the first, when the merged body uses its symbol only to index memory. False otherwise: conditions (so guards of earlier merges) and tasklet code keep the old symbol; a tasklet before a map is moved inside and runs once per iteration."
  },
  {
   "property": "C43",
   "status": "partial",
   "theorems": [
    "C43_same_memory_partial",
    "C43_push_partial",
    "C43_swap_partial",
    "C43_write_after_read_refuted",
    "C43_write_after_write_refuted",
    "C43_lower_dimension_refuted",
    "C43_range_refuted",
    "C43_push_refuted",
    "C43_swap_refuted"
   ],
   "note": "Proved for every memory and every meaning of the tasklets when shared data are accessed at single points along the axis and what the second loop writes is used by the first at the same points. False without: the check ignores write-after-read, write-after-write, data without the axis and the end of ranges; moving tasklets and exchanging loops is unchecked. Conditions on data and dace's own code generation are not modelled."
  },
  {
   "property": "C44",
   "status": "partial",
   "theorems": [
    "C44_exact",
    "C44_own_arguments_partial",
    "C44_unhashable_safe",
    "C44_own_arguments_refuted",
    "C44_changed_argument",
    "C44_given"
   ],
   "note": "exact characterisation of when the cached marshalled arguments are reused; refuted as stated: keyword values trading names, -1/-2 hash collision, another view of the same memory, State buffers swapped"
  },
  {
   "property": "C45",
   "status": "partial",
   "theorems": [
    "C45_first_access_wins",
    "C45_own_data_partial",
    "C45_own_data_refuted",
    "C45_extend_original_refuted"
   ],
   "note": "As stated false: views are cached per name on the class, and extend_3D_quantity_factory changes the factory it is given. Exact behaviour proved for every history, and the claim under the hypothesis that no earlier access of that name gave another view."
  },
  {
   "property": "C46",
   "status": "proved",
   "theorems": [
    "C46_pairing",
    "C46_odd",
    "C46_odd_refuted"
   ],
   "note": "Even sizes proved, odd sizes shown not to be an involution."
  },
  {
   "property": "C47",
   "status": "proved",
   "theorems": [
    "C47_blocks",
    "C47_calls",
    "C47_empty_refuted"
   ],
   "note": "npz >= 1; npz = 0 raises."
  },
  {
   "property": "C48",
   "status": "partial",
   "theorems": [
    "C48_equal_partial",
    "C48_legacy_tolerance",
    "C48_multi_tolerance",
    "C48_nan_fails",
    "C48_legacy_bool",
    "C48_thresholds_exact",
    "C48_absolute_own",
    "C48_bool_refuted",
    "C48_equal_refuted",
    "C48_own_tolerance_refuted"
   ],
   "note": "tolerances exact in exact arithmetic; refuted as stated: boolean success inverted, equal infinities fail, class-level tolerances leak to later comparisons and cannot be tightened"
  },
  {
   "property": "C49",
   "status": "partial",
   "theorems": [
    "C49_saves_partial",
    "C49_tracks",
    "C49_saves_refuted",
    "C49_call_numbers_partial",
    "C49_steps"
   ],
   "note": "every call saved under its own name for programs without recursion and exceptions; call counting proved for every program; refuted for recursion and retry after an exception"
  },
  {
   "property": "C50",
   "status": "proved",
   "theorems": [
    "C50_periodic"
   ],
   "note": "Same halo width on all sides, domain non-empty and at least as large as the halo."
  },
  {
   "property": "C51",
   "status": "proved",
   "theorems": [
    "C51_override_undone",
    "C51_override_in_force",
    "C51_add_all_or_nothing"
   ],
   "note": "Any program (nested overrides, table changes, exceptions) inside the override; the override dictionary is assumed not to be itself the table of some sizer."
  },
  {
   "property": "C52",
   "status": "partial",
   "theorems": [
    "C52_copy_partial",
    "C52_move_partial",
    "C52_none_optional_partial",
    "C52_unchanged_refuted",
    "C52_collision_refuted",
    "C52_move_none_refuted"
   ],
   "note": "As stated false: a raise midway leaves earlier fields updated, the table of optional fields is flat by name, and update_move_memory accepts None for required fields. Proved: exactly the mentioned fields may change, and to what the map says; None only for optional fields when names are unique."
  },
  {
   "property": "C53",
   "status": "partial",
   "theorems": [
    "C53_compilation_partial",
    "C53_communicator_refuted",
    "C53_dace_refuted",
    "C53_dace_partial",
    "C53_defaults",
    "C53_device_sync",
    "C53_dace_alone"
   ],
   "note": "Holds for CompilationConfig without communicator; refuted with one, and for DaceConfig (code path and compile flag are lost)."
  },
  {
   "property": "C54",
   "status": "partial",
   "theorems": [
    "C54_own_name_partial",
    "C54_table_partial",
    "C54_own_name_refuted",
    "C54_rank_files",
    "C54_nothing_else",
    "C54_time"
   ],
   "note": "each property of the table loads the variable of its own restart name where no later entry shadows it; nine flux properties are shadowed (refutation); rank file names are injective"
  },
  {
   "property": "C55",
   "status": "partial",
   "theorems": [
    "C55_swap_buffer_partial",
    "C55_smaller_accepted_refuted"
   ],
   "note": "The comparison is lexicographic and ignores the origin."
  },
  {
   "property": "C56",
   "status": "partial",
   "theorems": [
    "C56_hits_partial",
    "C56_second_report_refuted"
   ],
   "note": "Every report except a repeated full report, which double counts the total timer (refuted)."
  },
  {
   "property": "C57",
   "status": "partial",
   "theorems": [
    "C57_halo_nan_partial",
    "C57_zero_refuted"
   ],
   "note": "Proved for widths >= 1; width 0 turns the whole grid into NaN (refuted)."
  },
  {
   "property": "C58",
   "status": "partial",
   "theorems": [
    "C58_isometry_partial",
    "C58_lon_lat_rotation_partial",
    "C58_poles_refuted",
    "C58_sense_partial"
   ],
   "note": "Exact real arithmetic. On vectors the claim holds for all rotations and axes; on longitude/latitude/radius for points whose conversion back is not in the special case at the poles, where the longitude is lost."
  },
  {
   "property": "C59",
   "status": "partial",
   "theorems": [
    "C59_validated_partial",
    "C59_ks_refuted"
   ],
   "note": "Validation proved as an equivalence; ks is the last pure-pressure level except for km = 91, where it is hard-coded to 0 (refuted)."
  },
  {
   "property": "C60",
   "status": "proved",
   "theorems": [
    "C60_vector_halo_update_on_cube",
    "C60_vector_halo_update_on_tile"
   ],
   "note": "CPU transformer. Components share origin and dimension order (the code documents this); staggering exchanged by a quarter turn on the cube. MPI as reliable in-order point-to-point messages; buffers, streams and float storage not modelled."
  },
  {
   "property": "C61",
   "status": "proved",
   "theorems": [
    "C61_axis_offsets"
   ],
   "note": "axis_offsets for each horizontal axis."
  },
  {
   "property": "C62",
   "status": "partial",
   "theorems": [
    "C62_scatter_state_by_name_partial",
    "C62_gather_state_by_name_partial",
    "C62_gather_state_undoes_scatter_state",
    "C62_scatter_keeps_time_refuted",
    "C62_gather_state_order_refuted"
   ],
   "note": "Scatter proved by name for every receiving state except the time already there (removed when the sent state has none: refuted). Gather proved when the dictionaries of all ranks hold the quantities in the same order (refuted otherwise). Round trip proved from empty receiving states."
  },
  {
   "property": "C63",
   "status": "partial",
   "theorems": [
    "C63_refine_keeps_results_partial",
    "C63_refine_constant_index_partial",
    "C63_two_loops_refuted",
    "C63_repeated_map_refuted",
    "C63_two_maps_refused"
   ],
   "note": "Proved for temporaries which every iteration (or, for a constant index, the program) writes before it reads, one axis of one temporary at a time. The pass does not check this: refuted for two for loops and for a repeated map."
  },
  {
   "property": "C64",
   "status": "partial",
   "theorems": [
    "C64_report_by_name_partial",
    "C64_sypd",
    "C64_other_root_fails",
    "C64_report_by_name_refuted",
    "C64_root_refuted",
    "C64_sypd_missing"
   ],
   "note": "Proved for root 0 and ranks recording the same timers equally often, together with the SYPD figure; refuted for ranks with different timers and for every other root."
  },
  {
   "property": "C65",
   "status": "partial",
   "theorems": [
    "C65_differences_partial",
    "C65_nothing_compared",
    "C65_quantities_refuted",
    "C65_symmetric_refuted",
    "C65_call_partial"
   ],
   "note": "Proved for arguments that wrap an array in `data`; for quantities and numpy arrays it is proved that nothing is compared, which refutes the property."
  },
  {
   "property": "C66",
   "status": "partial",
   "theorems": [
    "C66_field_origins",
    "C66_calls_partial",
    "C66_first_call_refuses",
    "C66_build_mode_refuted",
    "C66_extra_argument_refuted"
   ],
   "note": "Binding of arguments and origins proved for all call sequences; refuted in Build mode and for calls with too many arguments after the first."
  },
  {
   "property": "C67",
   "status": "partial",
   "theorems": [
    "C67_snapshots_partial",
    "C67_names_refuted",
    "C67_shape_refuted"
   ],
   "note": "Proved for variables of constant shape none of which is another one's name followed by _savepoints; refuted otherwise."
  },
  {
   "property": "C68",
   "status": "partial",
   "theorems": [
    "C68_validation_partial",
    "C68_after_failure_refuted"
   ],
   "note": "Proved for calls not preceded by a failed one in the history; refuted after a failure."
  },
  {
   "property": "C69",
   "status": "partial",
   "theorems": [
    "C69_edges_partial",
    "C69_indices",
    "C69_rectangular_refuted",
    "C69_uneven_refuted",
    "C69_tall_refuted"
   ],
   "note": "Proved on square layouts dividing the tile; refuted on rectangular and on uneven ones."
  },
  {
   "property": "C70",
   "status": "partial",
   "theorems": [
    "C70_xyz_round_trip_partial",
    "C70_lon_lat_round_trip_partial",
    "C70_everywhere_close",
    "C70_poles_refuted"
   ],
   "note": "Exact real arithmetic. Both round trips hold outside the special case at the poles, where the longitude is lost; there the point returned is still close."
  },
  {
   "property": "C71",
   "status": "partial",
   "theorems": [
    "C71_distance_is_angle",
    "C71_metric",
    "C71_midpoint_partial",
    "C71_distance_xyz_partial",
    "C71_antipodal_midpoint_refuted"
   ],
   "note": "Exact real arithmetic. The distance claims hold everywhere; the midpoint claim holds for points that are not antipodal and whose midpoint is not within 1e-10 of a pole."
  },
  {
   "property": "C72",
   "status": "partial",
   "theorems": [
    "C72_angle",
    "C72_angle_scale",
    "C72_triangle_order",
    "C72_triangle_bounds",
    "C72_triangle_additive",
    "C72_octant",
    "C72_rectangle_order",
    "C72_rectangle_triangles",
    "C72_less_than_pi_refuted",
    "C72_degenerate_cells",
    "C72_positive_refuted",
    "C72_rectangle_surface"
   ],
   "note": "Exact real arithmetic. Order independence, additivity and bounds are proved; positivity fails for degenerate cells. That the area is the surface integral is proved for every rectangle of a tangent plane (C72_rectangle_surface; all cells of the grid are such, C88), for other figures it is characterised by additivity and the octant."
  },
  {
   "property": "C73",
   "status": "partial",
   "theorems": [
    "C73_rotation_partial",
    "C73_stretch",
    "C73_centre",
    "C73_distances_partial",
    "C73_poles_refuted"
   ],
   "note": "Exact real arithmetic. The claims hold for points whose image is not within the 1e-7 special case at the poles, where points are merged."
  },
  {
   "property": "C74",
   "status": "proved",
   "theorems": [
    "C74_direction",
    "C74_frame",
    "C74_derivatives"
   ],
   "note": "Exact real arithmetic."
  },
  {
   "property": "C75",
   "status": "partial",
   "theorems": [
    "C75_mirror_partial",
    "C75_involution",
    "C75_pole_refuted"
   ],
   "note": "Exact real arithmetic. On vectors for all points; on longitudes and latitudes for images at least 1e-10 away from a pole, nearer the longitude is lost (C75_pole_refuted)."
  },
  {
   "property": "C76",
   "status": "partial",
   "theorems": [
    "C76_section",
    "C76_layout_independent",
    "C76_global",
    "C76_symmetry",
    "C76_square_only",
    "C76_layout_refuted"
   ],
   "note": "Exact real arithmetic. Proved for every square section of a tile; for other layouts the code raises (C76_layout_refuted)."
  },
  {
   "property": "C77",
   "status": "partial",
   "theorems": [
    "C77_layout_independent",
    "C77_reference_symmetric",
    "C77_reference_partial",
    "C77_bitwise_refuted"
   ],
   "note": "layout independence and the shape of the result hold for every number type; equal magnitudes at mirrored corners need a commutative, associative sum and are refuted for binary64"
  },
  {
   "property": "C78",
   "status": "partial",
   "theorems": [
    "C78_reference",
    "C78_seams_partial",
    "C78_not_forced",
    "C78_layout_refuted"
   ],
   "note": "proved for tiles 0, 1, 3 and 4 and for the ranks of tile 2 that meet the middle column; tile 5 is not forced and tile 2 depends on the layout"
  },
  {
   "property": "C79",
   "status": "proved",
   "theorems": [
    "C79_points",
    "C79_tiles_meet",
    "C79_no_duplicates",
    "C79_shifted"
   ],
   "note": "exact arithmetic (Coq reals); square layouts, since the code mirrors the column with layout[0] and the row with layout[1]; rounding is left out"
  },
  {
   "property": "C80",
   "status": "partial",
   "theorems": [
    "C80_corner_factors",
    "C80_corner_balance",
    "C80_corner_layout",
    "C80_cell_factors_partial",
    "C80_odd_refused",
    "C80_halo_middle_refuted",
    "C80_halo_far_refuted"
   ],
   "note": "Exact values of all four edges for all layouts and ranks. Agreement of halo entries with the owner is refuted for efactor_a2c_v; the exact halo values are part of C80_cell_factors_partial. Rounding is not modelled."
  },
  {
   "property": "C81",
   "status": "proved",
   "theorems": [
    "C81_west",
    "C81_south",
    "C81_centre",
    "C81_corner",
    "C81_one_direction",
    "C81_flat_refuted",
    "C81_middle"
   ],
   "note": "Exact real arithmetic. Where a direction exists (clear_direction: unit vectors, two different neighbours on the side of the point). The refuted theorem concerns the flat grids, which the statement leaves out."
  },
  {
   "property": "C82",
   "status": "proved",
   "theorems": [
    "C82_matrix",
    "C82_second_order",
    "C82_fourth_order",
    "C82_layout",
    "C82_cartesian"
   ],
   "note": "Over the real numbers. The hypotheses on i_start, i_end, j_start, j_end are those of C61."
  },
  {
   "property": "C83",
   "status": "partial",
   "theorems": [
    "C83_periodic",
    "C83_inside",
    "C83_last_row_kept",
    "C83_interface_refuted"
   ],
   "note": "Missing: the outermost interface row, for which the statement is false (C83_interface_refuted)."
  },
  {
   "property": "C84",
   "status": "proved",
   "theorems": [
    "C84_cosine",
    "C84_sine",
    "C84_supergrid"
   ],
   "note": "Over the real numbers, grid_type < 3, halo 3."
  },
  {
   "property": "C85",
   "status": "partial",
   "theorems": [
    "C85_cosines",
    "C85_sines_partial",
    "C85_corners",
    "C85_lines_partial",
    "C85_divergence",
    "C85_north_west_refuted"
   ],
   "note": "All but the north-west corner from the second cell on, where the statement is false; a mean of exactly 0 on a tile's edge is not kept away from 0 and its inverse is not a number, so 1/sine has no meaning there. Over the real numbers."
  },
  {
   "property": "C86",
   "status": "partial",
   "theorems": [
    "C86_three",
    "C86_more",
    "C86_more_refused",
    "C86_two",
    "C86_two_full",
    "C86_two_singleton",
    "C86_one",
    "C86_one_row",
    "C86_one_full",
    "C86_three_refused",
    "C86_dict",
    "C86_dict_refused",
    "C86_reshape",
    "C86_lost_refuted",
    "C86_dummy_refuted",
    "C86_start_refuted",
    "C86_dict_refuted",
    "C86_reshape_refuted"
   ],
   "note": "All branches are proved for data that fit and for the dummies and axes they support; the statement as a whole is refuted by the cases (a)-(f) of the finding. Refusal of data that do not fit is proved for three axes of at least two indices."
  },
  {
   "property": "C87",
   "status": "partial",
   "theorems": [
    "C87_three",
    "C87_two",
    "C87_one",
    "C87_dummy",
    "C87_dummy_one_refused",
    "C87_default",
    "C87_compute",
    "C87_dummy_start_refuted"
   ],
   "note": "The round trip holds where declared; the last sentence (columns with dummy axes) is refuted by C87_dummy_one_refused, and fields of I and K by C87_dummy_start_refuted unless jstart = kstart (C87_dummy). kaxis, index variables and names_4d are not modelled."
  },
  {
   "property": "C88",
   "status": "proved",
   "theorems": [
    "C88_surface_element",
    "C88_cell",
    "C88_layout",
    "C88_total",
    "C88_kept"
   ],
   "note": "exact real arithmetic; kept = the corner's values are not flushed to 0, which C88_kept shows for every corner whose longitude is not within about 1e-10 of 10 degrees, up to 1e9 cells"
  },
  {
   "property": "C89",
   "status": "proved",
   "theorems": [
    "C89_dx",
    "C89_dy",
    "C89_row",
    "C89_column",
    "C89_edge",
    "C89_layout"
   ],
   "note": "exact real arithmetic; corners not flushed to 0 (C88_kept)"
  },
  {
   "property": "C90",
   "status": "partial",
   "theorems": [
    "C90_area_c",
    "C90_two_sides_i",
    "C90_two_sides_j",
    "C90_corner_refuted"
   ],
   "note": "Every element for every rank, edges and inside as stated; the rule for corners of the tiles is refuted."
  },
  {
   "property": "C91",
   "status": "proved",
   "theorems": [
    "C91_dxc",
    "C91_dyc",
    "C91_angle",
    "C91_edge_angle"
   ],
   "note": "Every element of both arrays before the halo update. The reading of the edge values as angles excludes points within 1e-10 of a pole, as in C71."
  },
  {
   "property": "C92",
   "status": "partial",
   "theorems": [
    "C92_windows",
    "C92_cells",
    "C92_corners_partial",
    "C92_corners_refuted"
   ],
   "note": "Areas of cells as stated; of the corners all but two are covered, and the claim for all is refuted."
  },
  {
   "property": "C93",
   "status": "partial",
   "theorems": [
    "C93_order",
    "C93_determined",
    "C93_same_object",
    "C93_again",
    "C93_order_refuted",
    "C93_alone_refuted"
   ],
   "note": "As stated when all ranks read the same terms in the same order; refuted for different orders on different ranks."
  },
  {
   "property": "C94",
   "status": "partial",
   "theorems": [
    "C94_dims",
    "C94_units",
    "C94_precision",
    "C94_declared_refuted"
   ],
   "note": "Holds for all terms but those listed; refuted for those."
  },
  {
   "property": "C95",
   "status": "partial",
   "theorems": [
    "C95_grid_data",
    "C95_damping",
    "C95_driver",
    "C95_driver_refuted"
   ],
   "note": "Proved for GridData and DampingCoefficients; refuted for vlat1, vlat2, vlat3 of DriverGridData, which hold components of vlon."
  },
  {
   "property": "C96",
   "status": "partial",
   "theorems": [
    "C96_reads_partial",
    "C96_set_first_partial",
    "C96_accepted_partial",
    "C96_accepted_refuted",
    "C96_ptop_refuted",
    "C96_stale_refuted"
   ],
   "note": "Proved for all coefficients and reads in any order, and when ak and bk are set before the first read; monotonicity, ptop and assignments after a read are refuted."
  },
  {
   "property": "C97",
   "status": "partial",
   "theorems": [
    "C97_compute_array_partial",
    "C97_array_partial",
    "C97_full_partial",
    "C97_zeros_ones",
    "C97_precision_refused",
    "C97_misfit_refused_partial",
    "C97_halo_spec_partial",
    "C97_shape_refuted",
    "C97_scalar_refuted",
    "C97_halo_spec_refuted"
   ],
   "note": "Proved for every list of at least one dimension; refusal of other shapes holds only up to broadcasting, and the halo specification only for the configured precision: the rest is refuted."
  },
  {
   "property": "C98",
   "status": "partial",
   "theorems": [
    "C98_field_partial",
    "C98_whole_partial",
    "C98_defaults",
    "C98_state_partial",
    "C98_halo_refuted",
    "C98_write_refuted",
    "C98_time_needed"
   ],
   "note": "Proved for the field of every quantity, for the whole array when origin, extent and halo are given again, and for states without halo; refuted for states with a halo."
  },
  {
   "property": "C99",
   "status": "partial",
   "theorems": [
    "C99_values_partial",
    "C99_saves_partial",
    "C99_loads_partial",
    "C99_ranks_partial",
    "C99_none_refuted",
    "C99_none_target_refuted",
    "C99_nested_refuted",
    "C99_postfix_refuted"
   ],
   "note": "Proved for states with at most one level of nesting and for the quantities present on both sides; None, deeper nesting and postfixes are refuted."
  },
  {
   "property": "C100",
   "status": "partial",
   "theorems": [
    "C100_zeros_ones",
    "C100_full_partial",
    "C100_make_local_partial",
    "C100_locals_partial",
    "C100_sort_refused",
    "C100_as_state_partial",
    "C100_full_refuted",
    "C100_local_halo_refuted",
    "C100_as_state_refuted"
   ],
   "note": "Proved for all classes and factories: zeros and ones in full, full on the compute domain, locals but for their n_halo, make_as_state when it succeeds; the rest is refuted."
  },
  {
   "property": "C101",
   "status": "partial",
   "theorems": [
    "C101_count_partial",
    "C101_direct_partial",
    "C101_super_required",
    "C101_later_unchecked",
    "C101_first_partial",
    "C101_check_partial",
    "C101_read_partial",
    "C101_twice_refuted",
    "C101_later_refuted",
    "C101_cycle_refuted",
    "C101_read_refuted"
   ],
   "note": "Proved for all classes and programs: count of orchestrations, direct subclasses, the check of the first runtime, the guard when orchestrated; the rest is refuted."
  },
  {
   "property": "C102",
   "status": "partial",
   "theorems": [
    "C102_computed",
    "C102_sign",
    "C102_given_partial",
    "C102_agrid_refuted"
   ],
   "note": "Proved for computed values at both places and given values at the corners; given values at the centres are refuted."
  },
  {
   "property": "C103",
   "status": "partial",
   "theorems": [
    "C103_compute_domain_partial",
    "C103_halo_partial",
    "C103_layouts_agree_partial",
    "C103_centres_partial",
    "C103_factory_once",
    "C103_metric",
    "C103_even_corner",
    "C103_halo_refuted",
    "C103_centres_refuted",
    "C103_spacing_refuted",
    "C103_halo_size_refuted"
   ],
   "note": "Proved for three halo points and all layouts: the corners of the compute domain and of the halo but for its last line; centres, spacing and other halo sizes are refuted."
  },
  {
   "property": "C104",
   "status": "partial",
   "theorems": [
    "C104_region_partial",
    "C104_externals",
    "C104_refused",
    "C104_restricted_partial",
    "C104_varied_partial",
    "C104_lengths_refused",
    "C104_order_refuted",
    "C104_twice_refuted",
    "C104_user_refuted"
   ],
   "note": "Proved for the order I, J, K, cells or interfaces; other orders, repeated dimensions and user externals with the factory's names in get_stencils_with_varied_bounds are refuted."
  },
  {
   "property": "C105",
   "status": "partial",
   "theorems": [
    "C105_per_element_partial",
    "C105_new_partial",
    "C105_into_partial",
    "C105_extremum_partial",
    "C105_extremum_refused",
    "C105_shape_refused",
    "C105_halo_refuted",
    "C105_view_refuted",
    "C105_precision_refuted",
    "C105_order_refuted",
    "C105_shape_refuted"
   ],
   "note": "Proved for sums and products, quantities in the model's precision and one memory order; halo points, views of outputs, MAX and MIN of arrays, precision and memory order are refuted."
  },
  {
   "property": "C106",
   "status": "partial",
   "theorems": [
    "C106_directories",
    "C106_loaded_partial",
    "C106_share_partial",
    "C106_missing",
    "C106_build_modes",
    "C106_build_and_run_partial",
    "C106_layout_refuted",
    "C106_levels_refuted",
    "C106_sizes_unknown_refuted",
    "C106_file"
   ],
   "note": "Proved: name, code path, backend, and the share for square layouts and equal levels; a build followed by a run always fits. Other layouts, levels and configurations without sizes are refuted."
  },
  {
   "property": "C107",
   "status": "partial",
   "theorems": [
    "C107_double_partial",
    "C107_draws_partial",
    "C107_untouched",
    "C107_never_up_partial",
    "C107_single_partial",
    "C107_float32_refuted",
    "C107_sign_refuted"
   ],
   "note": "Proved for float64: a number is unchanged or the next one towards zero, and which draws move it; all that is to stay stays. Noise upwards and any noise on float32 are refuted. Uses Flocq (Core), whose lemmas rest on the standard library's axioms of the reals only."
  },
  {
   "property": "C108",
   "status": "partial",
   "theorems": [
    "C108_method_partial",
    "C108_call_partial",
    "C108_one_configuration_partial",
    "C108_nothing",
    "C108_flags",
    "C108_flags_stay",
    "C108_kept",
    "C108_second_configuration_refuted",
    "C108_nested_refuted",
    "C108_alias_refuted",
    "C108_copy_refuted",
    "C108_flags_shared_refuted",
    "C108_flags_lost_refuted"
   ],
   "note": "Proved for all histories: what a call runs, on which object and with which configuration (the first one); no stale entries of the cache are ever hit. Later configurations, aliases, copies and flags per object are refuted."
  },
  {
   "property": "C109",
   "status": "partial",
   "theorems": [
    "C109_segments",
    "C109_mask_partial",
    "C109_drawn",
    "C109_left_out_partial",
    "C109_update_partial",
    "C109_on_the_antimeridian_refuted",
    "C109_signed_longitudes_refuted",
    "C109_update_refuted",
    "C109_update_raises_refuted",
    "C109_all_nan_refuted",
    "C109_seventh_tile_refuted",
    "C109_returned"
   ],
   "note": "The segmentation is proved in full for all sizes and patterns. The mask is proved for cells narrower than 90 degrees with longitudes in [0, 360) and no corner on the antimeridian, and refuted beyond; update for an unchanged pattern of NaN, and refuted beyond."
  },
  {
   "property": "C110",
   "status": "partial",
   "theorems": [
    "C110_round_trip_partial",
    "C110_loaded_partial",
    "C110_missing_partial",
    "C110_tracer_partial",
    "C110_merge_partial",
    "C110_merge_first_partial",
    "C110_collapse_partial",
    "C110_files",
    "C110_collapse_refuted",
    "C110_collapsed_rank_refuted",
    "C110_collapsed_beside_refuted",
    "C110_missing_refuted",
    "C110_later_ranks_refuted",
    "C110_last_rank_refuted",
    "C110_broadcast_refuted",
    "C110_single_value_refuted",
    "C110_merge_profile_refuted",
    "C110_data_name_refuted",
    "C110_data_name_loaded_refuted",
    "C110_stretched"
   ],
   "note": "Proved: regular data (every rank with the same number of savepoints, variables and shapes) is converted, and every rank and call loads exactly what was serialized, nothing else; for any conversion that was made: single variables, missing variables (first call), trimmed tracers, merged blocks, ragged variables (one savepoint); each rank has its own file. Missing (false): ragged variables with several savepoints or beside others or for later ranks, missing variables with several savepoints, variables and calls of ranks other than the first and last, broadcast single values, 1e40 of single values, profiles under --merge, --data_name with several ranks."
  },
  {
   "property": "C111",
   "status": "partial",
   "theorems": [
    "C111_sequential_partial",
    "C111_parallel_partial",
    "C111_absent_rank",
    "C111_thresholds_partial",
    "C111_no_entry",
    "C111_several_entries",
    "C111_same_each_call",
    "C111_communicator_partial",
    "C111_cube_only",
    "C111_skipped_refuted",
    "C111_global_refuted",
    "C111_parallel_global_refuted",
    "C111_global_ignored_refuted",
    "C111_other_entry_refuted",
    "C111_communicator_refuted"
   ],
   "note": "Proved: without skip_test, passed exactly when all declared outputs were compared and agreed (both test functions); the thresholds of the one entry that applies, per field; no entry, several entries; the same thresholds at every call; communicators for square layouts. Missing (false): skip_test is reported as passed; all_other_near_zero by variable name, on parallel tests, beside a list; entries with unknown backend names; layouts that are not square."
  },
  {
   "property": "C112",
   "status": "partial",
   "theorems": [
    "C112_sequential",
    "C112_calls_in_order",
    "C112_total_partial",
    "C112_parallel",
    "C112_processes",
    "C112_communicators_partial",
    "C112_communicators_refuted",
    "C112_no_class_refuted",
    "C112_which_rank_refuted",
    "C112_which_savepoint_refuted"
   ],
   "note": "Proved: a collection that succeeds has exactly the selected cases, each once, calls in order (one and several processes); all processes have the same sequence; it succeeds when every wanted name has a class and a file; communicators agree for square layouts. Missing (false): data without a class, --which_rank in parallel runs, --which_savepoint out of range, layouts that are not square."
  },
  {
   "property": "C113",
   "status": "partial",
   "theorems": [
    "C113_inputs_partial",
    "C113_outputs_partial",
    "C113_calls_partial",
    "C113_windows_partial",
    "C113_stale_refuted",
    "C113_stale_window_refuted",
    "C113_array_index_refuted",
    "C113_shared_refuted"
   ],
   "note": "Proved: the inputs and outputs of a call with a new object for distinct serial names; every call of a sequence is as with a new object when the named inputs keep their values. Missing (false): named values that change from call to call, named arrays, shared serial names."
  },
  {
   "property": "C114",
   "status": "partial",
   "theorems": [
    "C114_loads_partial",
    "C114_outputs_partial",
    "C114_round_trip_partial",
    "C114_deep_halo_refuted",
    "C114_broadcast_refuted",
    "C114_name_refuted",
    "C114_twice_refuted",
    "C114_refused"
   ],
   "note": "Proved: loading, writing and the round trip for distinct standard names, arrays of the expected shape and storages with enough halo points. Missing (false): more halo points than stored, arrays of other shapes, outputs without a name, outputs taken twice."
  },
  {
   "property": "C115",
   "status": "partial",
   "theorems": [
    "C115_checks_partial",
    "C115_delp_partial",
    "C115_tracers_partial",
    "C115_ranges",
    "C115_never_checks",
    "C115_nan_refuted",
    "C115_cpu_refuted"
   ],
   "note": "Proved for passes that look for names, when the arrays are in GPU memory: exactly the right checks, in the right place, order of all other nodes kept; delp and tracers as instances. Missing (false): passes for all names check nothing (C115_never_checks, for all programs), arrays on the CPU lose dependencies."
  },
  {
   "property": "C116",
   "status": "partial",
   "theorems": [
    "C116_memory_partial",
    "C116_shown_partial",
    "C116_hidden_refuted",
    "C116_condition_refuted",
    "C116_timing_partial",
    "C116_benchmark_partial",
    "C116_benchmark_refuted",
    "C116_needs_w",
    "C116_symbolic_refuted",
    "C116_empty_memlet_refuted",
    "C116_label_refuted"
   ],
   "note": "The sums and lists, the storages shown and the timings with a given bandwidth are proved for all programs; the claims about unreferenced storage in the report, arrays used by conditions, symbolic sizes, empty memlets and the benchmark are false."
  },
  {
   "property": "C117",
   "status": "partial",
   "theorems": [
    "C117_same_runs",
    "C117_inner_partial",
    "C117_top",
    "C117_single_refuted",
    "C117_loop_refuted"
   ],
   "note": "Same runs: proved for all graphs. Labels at the start and the end: proved for the topmost program, and for called ones without a state that has neither a way in nor a way out; false for called programs with a single state."
  },
  {
   "property": "C118",
   "status": "partial",
   "theorems": [
    "C118_clean_partial",
    "C118_rest",
    "C118_count",
    "C118_twice",
    "C118_else_refuted",
    "C118_swap",
    "C118_swap_refuted"
   ],
   "note": "Proved for root, while, for, map and if scopes; refuted for else and elif scopes. The swap is proved for a scope with a single child and refuted for two."
  },
  {
   "property": "C119",
   "status": "partial",
   "theorems": [
    "C119_user_partial",
    "C119_raises",
    "C119_all_refuted",
    "C119_cover",
    "C119_below_partial",
    "C119_above_partial",
    "C119_cover_refuted",
    "C119_order_refuted",
    "C119_both",
    "C119_robust",
    "C119_grid_dims",
    "C119_plot_dims_partial",
    "C119_plot_order_refuted",
    "C119_nan"
   ],
   "note": "Full for inferred limits without any given one, robust limits and grid dimensions; the user's values are kept unless all three are given (refuted); covering and order refuted with one given limit."
  },
  {
   "property": "C120",
   "status": "partial",
   "theorems": [
    "C120_copied",
    "C120_pyFV3_partial",
    "C120_package_refuted",
    "C120_proper",
    "C120_same_partial",
    "C120_named",
    "C120_unchanged",
    "C120_extra_refuted"
   ],
   "note": "What is copied and which names are reported is proved in full; sameness holds in one direction only (refuted for additional temporaries in the second), and the package test is one for substrings (refuted for the package pyFV3 alone)."
  },
  {
   "property": "C121",
   "status": "partial",
   "theorems": [
    "C121_made",
    "C121_gt4py",
    "C121_strategy",
    "C121_equal_partial",
    "C121_equal_refuted",
    "C121_path",
    "C121_layout",
    "C121_merges",
    "C121_places",
    "C121_strides_partial",
    "C121_data_dims_partial",
    "C121_data_dims_refuted",
    "C121_shrunk"
   ],
   "note": "Names, parts, paths, merges and places in memory are proved in full; equality with other strings is refuted; the order of strides is proved for three dimensions and for IJK, refuted for KJI with data dimensions."
  },
  {
   "property": "C122",
   "status": "partial",
   "theorems": [
    "C122_max",
    "C122_min",
    "C122_refused",
    "C122_count",
    "C122_plane_partial",
    "C122_plane_quantity_partial",
    "C122_min_plane_partial",
    "C122_horizontal_refuted",
    "C122_zero_axes_refuted",
    "C122_mixed_refuted"
   ],
   "note": "max, min, count_nonzero and their errors are proved in full; the reductions over planes are proved for the first two axes and refuted for horizontal planes of quantities with another order of axes."
  },
  {
   "property": "C123",
   "status": "partial",
   "theorems": [
    "C123_copy",
    "C123_set_value",
    "C123_set_value_2D",
    "C123_select",
    "C123_select_level",
    "C123_adjust",
    "C123_divide",
    "C123_average_partial",
    "C123_sign_partial",
    "C123_dim",
    "C123_average_refuted",
    "C123_sign_refuted",
    "C123_inverse_refuted"
   ],
   "note": "The stencils, select_k and dim are proved in full; average without overflow and sign for b other than zero, both refuted otherwise."
  },
  {
   "property": "C124",
   "status": "partial",
   "theorems": [
    "C124_current",
    "C124_runs_partial",
    "C124_interface_refuted",
    "C124_check_partial",
    "C124_check_refuted",
    "C124_refused"
   ],
   "note": "The exchanged quantities are proved for all programs; interface and check_for_attribute only for one kind of state, refuted for the other."
  },
  {
   "property": "C125",
   "status": "partial",
   "theorems": [
    "C125_series_partial",
    "C125_accepted",
    "C125_constants_refuted",
    "C125_calendar_refuted",
    "C125_exists_refuted"
   ],
   "note": "Stores in any order of names, and constants in one order, are proved; other orders of constants and the refusal on all ranks are refuted."
  },
  {
   "property": "C126",
   "status": "partial",
   "theorems": [
    "C126_separate",
    "C126_own_partial",
    "C126_minimal_partial",
    "C126_single_refuted",
    "C126_variable_refuted",
    "C126_layout_refuted"
   ],
   "note": "Proved for more than one rank, without the environment variable, and with minimal caching if compiled with min(n,3) x min(n,3) ranks; refuted otherwise."
  },
  {
   "property": "C127",
   "status": "partial",
   "theorems": [
    "C127_fits_partial",
    "C127_accepted",
    "C127_unrecognized",
    "C127_rank_refuted",
    "C127_rows_refuted"
   ],
   "note": "The sizes fit if the rank is given; the default rank is wrong for uneven subtiles (refuted)."
  },
  {
   "property": "C128",
   "status": "partial",
   "theorems": [
    "C128_failures_listed",
    "C128_worst",
    "C128_reported_partial",
    "C128_rows",
    "C128_order",
    "C128_counts",
    "C128_exceptions",
    "C128_zero_refuted",
    "C128_single_refuted",
    "C128_changing_refuted",
    "C128_columns"
   ],
   "note": "Lists, worst, order and counts are proved in full for floats; that a report is always made is refuted for threshold 0, one element, no elements."
  },
  {
   "property": "C129",
   "status": "partial",
   "theorems": [
    "C129_paths",
    "C129_values_partial",
    "C129_time",
    "C129_nothing_else",
    "C129_tracers",
    "C129_files",
    "C129_missing",
    "C129_tiles",
    "C129_own_tile",
    "C129_no_files_refuted",
    "C129_iterator_refuted",
    "C129_dims_refuted",
    "C129_others_partial"
   ],
   "note": "Values proved for names given as a collection or not at all, for properties with a restart name of their own and files without a variable called like the property; the ValueError, the common failure, iterators and short variables are refuted."
  },
  {
   "property": "C130",
   "status": "partial",
   "theorems": [
    "C130_value",
    "C130_rotation_partial",
    "C130_bounded",
    "C130_reversed",
    "C130_great_circle_partial",
    "C130_arrays",
    "C130_no_halo_refuted"
   ],
   "note": "Exact unless the midpoint of the edge is within 1e-10 of a pole, where it is within 2e-10; a halo of width 0 is refuted."
  },
  {
   "property": "C131",
   "status": "partial",
   "theorems": [
    "C131_ends",
    "C131_one_result",
    "C131_order",
    "C131_callbacks",
    "C131_again",
    "C131_neighbours_partial",
    "C131_maps",
    "C131_undo_refuted",
    "C131_eager_refuted",
    "C131_inner_refuted",
    "C131_nesting",
    "C131_points"
   ],
   "note": "Termination, order, nesting, callbacks, number of maps and idempotence in full; neighbours at the root only; undoing and eager are refuted."
  },
  {
   "property": "C132",
   "status": "partial",
   "theorems": [
    "C132_scalar",
    "C132_scalar_refused",
    "C132_vector",
    "C132_vector_refused",
    "C132_updater_partial",
    "C132_receives_refuted",
    "C132_no_y_refuted",
    "C132_dropped_refuted",
    "C132_zero_refuted",
    "C132_errors"
   ],
   "note": "In full for halo_update; vector_halo_update refuses everything else but may have posted receives; updaters made from specifications are refuted for several mismatches."
  },
  {
   "property": "C133",
   "status": "partial",
   "theorems": [
    "C133_others",
    "C133_exchanged",
    "C133_exchanged_vector",
    "C133_synchronized",
    "C133_refused",
    "C133_updater",
    "C133_updater_vector",
    "C133_posted_refuted",
    "C133_eight_refuted"
   ],
   "note": "The three operations in full; updaters made from specifications raise before any send for the right number of quantities, but after posting receives."
  },
  {
   "property": "C134",
   "status": "partial",
   "theorems": [
    "C134_scatter_tiles",
    "C134_gather_tiles",
    "C134_round_trip",
    "C134_region",
    "C134_accepts",
    "C134_refused",
    "C134_extent_refuted"
   ],
   "note": "All but the last clause: what is refused is a storage with fewer than six tiles, not a compute domain."
  },
  {
   "property": "C135",
   "status": "partial",
   "theorems": [
    "C135_last_partial",
    "C135_untouched",
    "C135_interrupted",
    "C135_accepts_partial",
    "C135_directory",
    "C135_directory_refuted",
    "C135_time_refuted",
    "C135_lost_refuted"
   ],
   "note": "Everything for calls that return. Not every state is accepted (no directory, time), and a call that raises may remove the file of the entry it raised for."
  },
  {
   "property": "C136",
   "status": "partial",
   "theorems": [
    "C136_values",
    "C136_order",
    "C136_ignored",
    "C136_unknown_refuted"
   ],
   "note": "All but the last clause, which is false of the code."
  },
  {
   "property": "C137",
   "status": "partial",
   "theorems": [
    "C137_second",
    "C137_state",
    "C137_fourth_partial",
    "C137_one_rank",
    "C137_missing",
    "C137_checked_partial",
    "C137_arguments_refuted",
    "C137_checked_refuted",
    "C137_order_refuted"
   ],
   "note": "Order 4 on several ranks only for arguments that are the state's u and v; of the refusals only dictionaries with v and without u."
  },
  {
   "property": "C138",
   "status": "proved",
   "theorems": [
    "C138_edges"
   ],
   "note": "Sizes up to 2^52, storage up to 32767 points per axis, the offset the code uses for an edge that is not there."
  },
  {
   "property": "C139",
   "status": "partial",
   "theorems": [
    "C139_exact",
    "C139_axes",
    "C139_k",
    "C139_merge_partial",
    "C139_order_refuted",
    "C139_dynamic"
   ],
   "note": "Exactness, agreement along K and the dynamic check are proved as stated. Safety of merging is false if only one order is checked (C139_order_refuted: b[k] = a[k-1] followed by a[k] = 7) and proved if both orders are accepted and the loops write different data (bodies as in C42)."
  },
  {
   "property": "C140",
   "status": "partial",
   "theorems": [
    "C140_orchestrated",
    "C140_folder",
    "C140_ranks",
    "C140_not_orchestrated",
    "C140_refused",
    "C140_forced",
    "C140_kept_partial",
    "C140_default_refuted",
    "C140_taken_refuted"
   ],
   "note": "Proved at the moment the DaceConfig is made, and for all later histories in which every other orchestrated DaceConfig has the same code path, no StencilConfig of an orchestrated backend makes its own DaceConfig (or the code path is FV3_A) and no CompilationConfig with a communicator is in Run mode. False of other histories: C140_default_refuted (StencilConfig(compilation_config=...) after DaceConfig(communicator): programs of rank 0 on a 2 by 2 layout are built in .gt_cache_FV3_A and loading them fails) and C140_taken_refuted (CompilationConfig in Run mode, then a stencil)."
  },
  {
   "property": "C141",
   "status": "partial",
   "theorems": [
    "C141_order",
    "C141_stops",
    "C141_verbose_partial",
    "C141_same",
    "C141_given",
    "C141_folder_refuted"
   ],
   "note": "Proved as stated without verbose. With verbose proved if the reports can be written; otherwise the run raises after the first pass, with the tree changed (C141_folder_refuted): neither run nor its caller makes the directory."
  },
  {
   "property": "C142",
   "status": "partial",
   "theorems": [
    "C142_made",
    "C142_no_quantity",
    "C142_read_partial",
    "C142_returned",
    "C142_as_state",
    "C142_nested_refuted",
    "C142_optional_refuted"
   ],
   "note": "Proved for every Local whose immediate holder is a LocalState. A Local in a nested class that is only a State is accepted and not guarded (C142_nested_refuted), and a field declared Quantity | None is accepted in a LocalState as a plain Quantity (C142_optional_refuted)."
  },
  {
   "property": "C143",
   "status": "partial",
   "theorems": [
    "C143_compared",
    "C143_points_partial",
    "C143_leading",
    "C143_names",
    "C143_dimensions",
    "C143_same",
    "C143_rows_refuted",
    "C143_further_refuted",
    "C143_flat_refuted"
   ],
   "note": "Which three-dimensional variables are compared is exact as stated, up to rows and columns being judged apart: whether a halo is cut off depends on the columns alone (C143_rows_refuted: 12x18 against 12x12 with halo 3 is accepted and nothing is cut). A fourth dimension is not looked at (C143_further_refuted); variables with fewer than three dimensions raise and end the whole comparison (C143_flat_refuted)."
  }
 ]
}
