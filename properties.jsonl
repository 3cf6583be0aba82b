{"id": "C01", "title": "Tile neighbours are mutual", "statement": "On a single doubly periodic tile, if rank r is told that its west (east, north, south, or any diagonal) neighbour is s, then s is told that its opposite neighbour is r, s is a valid rank, and the ranks r and s are adjacent on the periodic layout grid in exactly that direction; no data rotation is ever requested.", "quantifier": "every layout (ny, nx) with positive entries, every rank, all eight boundary directions", "why_tests_cant": "Layouts and ranks are unbounded; tests sample a handful of small layouts.", "anchors": ["ndsl/comm/partitioner.py:TilePartitioner._left_edge/_right_edge/_top_edge/_bottom_edge/_get_corner", "ndsl/comm/partitioner.py:TilePartitioner.boundary"]}
{"id": "C02", "title": "Cubed-sphere neighbours are mutual, with inverse rotations", "statement": "On the cubed sphere, if rank r is told that an edge neighbour is s with data rotated n times, then s lists r as one of its edge neighbours with (4-n) mod 4 rotations, s is a valid rank, and the two sides agree on which of their edges touch.", "quantifier": "every square per-tile layout of size n>=1, every one of the 6 n^2 ranks, all four edges", "why_tests_cant": "There are infinitely many layouts, and the tile-parity and wrap-around cases interact with the position inside the tile.", "anchors": ["ndsl/comm/partitioner.py:CubedSpherePartitioner._left_edge/_right_edge/_top_edge/_bottom_edge", "ndsl/comm/partitioner.py:CubedSpherePartitioner._cached_boundary"]}
{"id": "C03", "title": "Cubed-sphere corner neighbours exist exactly off the cube corners and are mutual", "statement": "A diagonal neighbour is reported for a rank if and only if that corner of its subtile is not one of the tile's four corners; when it is reported, the rank is valid, the two possible edge-to-edge walks reach the same rank with the same total rotation, and the reported rank lists the first rank as one of its own diagonal neighbours with the inverse rotation.", "quantifier": "every square layout, every rank, all four diagonals", "why_tests_cant": "Diagonals compose two edge crossings with different rotations; only a proof covers all positions and layouts.", "anchors": ["ndsl/comm/partitioner.py:CubedSpherePartitioner._top_left_corner/_top_right_corner/_bottom_left_corner/_bottom_right_corner/_get_corner"]}
{"id": "C04", "title": "Halo messages to distinct directions go to distinct ranks", "statement": "On the cubed sphere a rank's reported neighbours are all different ranks and never the rank itself; on a periodic tile this holds exactly when both layout dimensions are at least 3 (the condition the communicator enforces). Hence messages keyed only by destination rank are never ambiguous.", "quantifier": "every accepted layout and every rank", "why_tests_cant": "Grouping of halo messages by destination rank relies on it for every process count.", "anchors": ["ndsl/comm/partitioner.py:Partitioner.boundary", "ndsl/comm/communicator.py:TileCommunicator", "ndsl/halo/updater.py:HaloUpdater.from_scalar_specifications"]}
{"id": "C05", "title": "Subtile compute regions partition the tile", "statement": "Without overlap, the slices given to the ranks of a tile are non-empty-bounded, lie inside the tile, and every tile point along every combination of dimensions belongs to exactly one rank, whatever edge/interior ratio is requested, whenever the decomposition is accepted.", "quantifier": "every tile extent, layout, staggering (cell centred or interface), edge/interior ratio and every rounding behaviour of the ratio computation", "why_tests_cant": "Floating point ratio search makes the sizes input dependent; the claim is about all accepted inputs.", "anchors": ["ndsl/comm/partitioner.py:TilePartitioner.subtile_slice", "ndsl/comm/partitioner.py:_subtile_extents_from_tile_metadata", "ndsl/comm/partitioner.py:_rank_slice_from_tile_metadata_cached"]}
{"id": "C06", "title": "Overlapping subtiles share exactly the interface line", "statement": "With overlap, adjacent ranks' slices along a staggered dimension share exactly one index, along a cell-centred dimension none, every rank's slice length is its cell count plus one for staggered dimensions, and the union is the whole tile.", "quantifier": "every accepted decomposition, every pair of ranks", "why_tests_cant": "Universal over sizes, layouts and ratios.", "anchors": ["ndsl/comm/partitioner.py:TilePartitioner.subtile_slice", "ndsl/comm/partitioner.py:TilePartitioner.subtile_extent", "ndsl/comm/partitioner.py:_rank_slice_from_tile_metadata_cached"]}
{"id": "C07", "title": "An accepted decomposition exists whenever the extent divides evenly", "statement": "If the tile extent is a multiple of the layout and the ratio is one, the decomposition is accepted and every rank gets exactly extent/layout cells; an odd extent on an even layout is always rejected; ranks at the two tile edges always get equal sizes and all interior ranks get equal sizes.", "quantifier": "every extent, layout and ratio", "why_tests_cant": "Acceptance/rejection is a predicate over all integer pairs.", "anchors": ["ndsl/comm/partitioner.py:_subtile_extents_from_tile_metadata", "ndsl/comm/partitioner.py:_valid_edge_tile_sizes"]}
{"id": "C08", "title": "Rank metadata reconstructs the tile metadata", "statement": "The global extent computed from one rank's own extent equals the extent of the tile the rank was cut from.", "quantifier": "every tile extent, layout, staggering, rank and edge/interior ratio", "why_tests_cant": "Universal; believed to hold only for uniform decompositions.", "anchors": ["ndsl/comm/partitioner.py:TilePartitioner.global_extent", "ndsl/comm/partitioner.py:tile_extent_from_rank_metadata", "ndsl/comm/partitioner.py:extent_from_metadata"]}
{"id": "C09", "title": "Scatter then gather returns the original tile", "statement": "Scattering a tile-wide field from the root to all ranks and gathering it back gives the root exactly the field it started with, and each rank holds exactly its own region in between.", "quantifier": "every field content, dimension order with one x and one y dimension, layout, and every decomposition that scatter accepts (scatter raises unless all ranks get the same shape)", "why_tests_cant": "Round trip over all data and all layouts.", "anchors": ["ndsl/comm/communicator.py:Communicator.scatter", "ndsl/comm/communicator.py:Communicator.gather", "ndsl/comm/partitioner.py:TilePartitioner.subtile_slice"]}
{"id": "C10", "title": "Halo regions sent are owned data, regions received are halo", "statement": "For every boundary direction, halo depth and staggering, the region a rank sends lies inside its compute domain (and excludes the shared interface line) provided the subtile has at least that many points of its own, the region it receives lies outside its compute domain but inside the array, regions received for different directions are disjoint and together make up the whole halo ring, and the depth is the requested number of points; when the array has no room for the region an error is raised instead.", "quantifier": "every origin, extent, array shape, staggering, halo depth and boundary direction; for the ownership claim, halo depth at most the number of the subtile's own points", "why_tests_cant": "All geometry parameters are unbounded.", "anchors": ["ndsl/comm/_boundary_utils.py:get_boundary_slice", "ndsl/comm/boundary.py:SimpleBoundary"]}
{"id": "C11", "title": "Sent and received halo buffers always have the same size", "statement": "The number of values rank r packs for neighbour s, after rotation, equals the number of values s expects from r, for cell-centred and interface variables.", "quantifier": "every number of fields, halo depth, cut of the faces into pieces at least that wide, and every neighbour pair: on the periodic tile every staggering; on the cubed sphere fields staggered alike in x and y (a field staggered along one axis only must travel as half of a vector pair)", "why_tests_cant": "A mismatch only shows for particular direction/rotation/staggering combinations.", "anchors": ["ndsl/halo/data_transformer.py:HaloExchangeSpec", "ndsl/comm/boundary.py:Boundary", "ndsl/halo/rotate.py"]}
{"id": "C12", "title": "Scalar halo update fills every halo point with the geometrically correct value", "statement": "After a halo update of n points on a periodic tile, every halo point (edges and corners) within n points of every rank's compute domain holds the value of the global field at the corresponding periodic position, and nothing else in any rank's array changes.", "quantifier": "every global field, every layout accepted, every subtile size >= n, every halo depth, every interleaving of message completion", "why_tests_cant": "End to end claim over all data, sizes, ranks and message orders.", "anchors": ["ndsl/comm/communicator.py:Communicator.halo_update", "ndsl/halo/updater.py:HaloUpdater", "ndsl/halo/data_transformer.py:HaloDataTransformerCPU", "ndsl/comm/partitioner.py"]}
{"id": "C13", "title": "Cubed-sphere halo update follows the cube gluing", "statement": "After a cubed-sphere halo update, each edge halo point holds the value of the neighbouring tile's point that is adjacent across the shared edge under the cube's gluing (reflect through the edge and swap axes where tile parity demands), for all ranks including interior subtiles.", "quantifier": "every global field on six tiles, every square layout, every subtile size and halo depth", "why_tests_cant": "End-to-end composition of neighbour topology, slices and rotations over unbounded sizes.", "anchors": ["ndsl/comm/communicator.py:CubedSphereCommunicator", "ndsl/halo/updater.py:HaloUpdater", "ndsl/halo/rotate.py", "ndsl/comm/partitioner.py:CubedSpherePartitioner"]}
{"id": "C14", "title": "Vector halo rotation preserves the vector", "statement": "Rotating a vector field n quarter turns for a neighbour and back 4-n turns gives the original components; rotation acts as the geometric rotation group (composition adds turns modulo 4), and the component/sign change matches the grid rotation.", "quantifier": "every pair of component arrays having both horizontal dimensions and all integer rotation counts, including negative ones", "why_tests_cant": "Group law over all arrays and all integers.", "anchors": ["ndsl/halo/rotate.py:rotate_scalar_data", "ndsl/halo/rotate.py:rotate_vector_data"]}
{"id": "C15", "title": "GPU packing equals CPU packing", "statement": "The index-list based GPU pack produces exactly the same message bytes as the slice-and-rotate CPU pack, and GPU unpack restores exactly the same array contents, for scalars and vectors and all rotations; the launch configuration covers every element once.", "quantifier": "every array shape and memory order, slice, rotation and number of fields", "why_tests_cant": "Index arithmetic over unbounded shapes; GPU path is not exercised in CI.", "anchors": ["ndsl/halo/cuda_kernels.py", "ndsl/halo/data_transformer.py:HaloDataTransformerGPU", "ndsl/halo/data_transformer.py:_build_flatten_indices"]}
{"id": "C16", "title": "GPU index cache never serves indices of a different exchange", "statement": "Two exchanges that share a cached index list have identical index lists.", "quantifier": "every pair of exchange specifications", "why_tests_cant": "A cache key collision needs specific pairs of specs.", "anchors": ["ndsl/halo/data_transformer.py:HaloDataTransformerGPU._flatten_indices"]}
{"id": "C17", "title": "Interface synchronisation makes shared edges agree", "statement": "After synchronizing vector interfaces, the north edge of x-wind and east edge of y-wind on each rank hold the value of the neighbour's shared edge, with the sign and orientation of the rotation, and nothing else changes.", "quantifier": "every layout, subtile size and field, for the cubed sphere", "why_tests_cant": "Needs all tile parities and rank positions.", "anchors": ["ndsl/halo/updater.py:VectorInterfaceHaloUpdater", "ndsl/comm/communicator.py:Communicator.start_synchronize_vector_interfaces"]}
{"id": "C18", "title": "Concurrent halo exchanges never share a message tag", "statement": "Any two halo updates created from the same communicator that can be in flight at the same time use different message tags, so their messages cannot be mixed.", "quantifier": "every sequence of creations of scalar, vector and interface updates on a communicator", "why_tests_cant": "Requires all histories of updater creation.", "anchors": ["ndsl/comm/communicator.py:Communicator._get_halo_tag", "ndsl/halo/updater.py:VectorInterfaceHaloUpdater"]}
{"id": "C19", "title": "Simulated point-to-point messages are delivered in order, unmodified, exactly once", "statement": "In the single-process simulated communicator, for each (source, destination, tag) the values received are exactly a prefix of the values sent, in the order sent, each once, unaffected by later changes to the sender's buffer and by traffic on other keys.", "quantifier": "every interleaving of sends and receives by any number of ranks", "why_tests_cant": "Histories and interleavings are unbounded.", "anchors": ["ndsl/comm/local_comm.py:LocalComm.Isend/Irecv/_put_send_recv/_get_send_recv"]}
{"id": "C20", "title": "Receiving before anything was sent is reported as a concurrency error", "statement": "In the simulated communicator, completing a receive for which no message is available raises ConcurrencyError and leaves the communicator unchanged.", "quantifier": "every history of sends and receives", "why_tests_cant": "Depends on whether the queue was ever used before, i.e. on history.", "anchors": ["ndsl/comm/local_comm.py:LocalComm._get_send_recv"]}
{"id": "C21", "title": "Simulated collectives deliver the root's data", "statement": "In the simulated communicator a broadcast gives every rank the root's value, a scatter gives rank i the i-th piece of the root's buffer, a gather gives the root every rank's contribution in rank order, repeatedly.", "quantifier": "every number of ranks, contents and sequence of collectives executed in rank order", "why_tests_cant": "History dependence: buffers persist between calls.", "anchors": ["ndsl/comm/local_comm.py:LocalComm.bcast/Scatter/Gather"]}
{"id": "C22", "title": "Halo updater is used in strict start/wait alternation", "statement": "A halo updater accepts exactly the call sequences in which starts and waits alternate; a second start before a wait raises, a wait without start has no effect on data, and each started exchange's received data is written to the quantities exactly once.", "quantifier": "every sequence of start/wait calls, interleaved with any computation, in which the quantities given to start can be packed and force_finalize_on_wait is not used (all other histories are characterised separately)", "why_tests_cant": "All call histories.", "anchors": ["ndsl/halo/updater.py:HaloUpdater.start/wait/force_finalize_on_wait"]}
{"id": "C23", "title": "Pooled message buffers are never shared by two live users", "statement": "A buffer obtained from the pool has exactly the requested shape and dtype, is never handed out again until it is returned, and returned buffers are reused only for the same allocator, shape and dtype.", "quantifier": "every sequence of acquire/release operations by transformers, buffer contexts and interface requests, with any shapes, in which no interface request is waited for twice", "why_tests_cant": "Unbounded histories of a global cache.", "anchors": ["ndsl/buffer.py:Buffer.pop_from_cache", "ndsl/buffer.py:Buffer.push_to_cache", "ndsl/buffer.py:send_buffer/recv_buffer"]}
{"id": "C24", "title": "A recorded communication replays identically", "statement": "Replaying a rank's recorded communication with the same program returns, at each receive, broadcast, scatter or gather, the same data that was received when recording.", "quantifier": "every program (sequence of communication calls, including deferred waits in any order)", "why_tests_cant": "All programs, including those that wait out of order or gather to the root.", "anchors": ["ndsl/comm/caching_comm.py:CachingCommWriter", "ndsl/comm/caching_comm.py:CachingCommReader"]}
{"id": "C25", "title": "Indexing a quantity's view addresses the compute domain", "statement": "Reading or writing q.view[...] (and the corner-relative views) with any integer or slice index touches exactly the element of the full array that is origin (or the corner's reference point) plus the index; contiguous slices of the view equal the slices of the compute domain.", "quantifier": "every shape, origin, extent, and index tuple (negative, None, partial)", "why_tests_cant": "Index arithmetic with negative indices over all shapes.", "anchors": ["ndsl/quantity/bounds.py:BoundaryArrayView", "ndsl/quantity/bounds.py:BoundedArrayView"]}
{"id": "C26", "title": "Transposing a quantity moves data with its metadata", "statement": "Transposing a quantity to a new dimension order and back gives the same dims, origin, extent, data and halo depth, and each element keeps its per-dimension index.", "quantifier": "every number of dimensions, permutation or dimension-group target, and contents", "why_tests_cant": "All permutations and shapes.", "anchors": ["ndsl/quantity/quantity.py:Quantity.transpose", "ndsl/quantity/quantity.py:_transpose_sequence/_collapse_dims"]}
{"id": "C27", "title": "Grid sizing always leaves room for the halo", "statement": "Arrays allocated from a subtile grid sizer have origin + extent (+ halo) within the shape for every dimension, so that any halo update of at most n_halo points finds all its regions inside the array.", "quantifier": "every tile size, layout, halo depth, staggering and backend padding", "why_tests_cant": "All sizes and layouts.", "anchors": ["ndsl/initialization/subtile_grid_sizer.py:SubtileGridSizer", "ndsl/comm/_boundary_utils.py:get_boundary_slice"]}
{"id": "C28", "title": "Stencil compute domains stay within allocated storage", "statement": "For any dimensions and halo requested from the grid indexing, origin and domain are non-negative, origin+domain fits into the storage shape given for the same dims, interface dimensions get exactly one more point, and restricting the vertical range composes additively and never leaves the original range.", "quantifier": "every domain size, halo count, dims tuple and sequence of vertical restrictions", "why_tests_cant": "All sizes and compositions.", "anchors": ["ndsl/dsl/stencil.py:GridIndexing.get_origin_domain/get_shape/restrict_vertical"]}
{"id": "C29", "title": "Each generated code path is compiled by exactly one rank", "statement": "With distributed compilation, for every layout accepted every one of the code paths that occurs (corner, edge, centre of a tile) is compiled by exactly one rank, so every rank finds its compiled code.", "quantifier": "every layout and rank", "why_tests_cant": "All layouts; a missed path deadlocks or crashes only at that scale.", "anchors": ["ndsl/dsl/dace/dace_config.py:_determine_compiling_ranks", "ndsl/dsl/caches/cache_location.py:identify_code_path"]}
{"id": "C30", "title": "Run mode picks the compiled stencil of an equivalent rank", "statement": "In run mode, every rank of an n x n layout loads code compiled on the 3x3 (2x2, 1x1) layout by a rank touching exactly the same tile edges.", "quantifier": "every square layout and every rank", "why_tests_cant": "All layouts.", "anchors": ["ndsl/dsl/stencil_config.py:CompilationConfig.determine_compiling_equivalent"]}
{"id": "C31", "title": "Minimal caching handshake never deadlocks", "statement": "With minimal caching, each non-compiling rank waits for exactly one message, and that message is sent by the compiling rank it depends on; every sent message has a waiting receiver.", "quantifier": "every cubed-sphere layout, every number of stencils compiled one after the other, any interleaving of the ranks, sends that may block until received (a single tile, even of a multiple of six ranks, deadlocks: see the refutation)", "why_tests_cant": "All process counts.", "anchors": ["ndsl/comm/decomposition.py:determine_rank_is_compiling/block_waiting_for_compilation/unblock_waiting_tiles"]}
{"id": "C32", "title": "Stencil configurations compare equal only when they are equal", "statement": "Two stencil configurations that compare equal (and hash equal) agree in every option that changes compilation.", "quantifier": "every pair of configurations", "why_tests_cant": "Needs a pair of colliding configurations among all pairs.", "anchors": ["ndsl/dsl/stencil_config.py:StencilConfig.__eq__/_compute_hash"]}
{"id": "C33", "title": "Timers account for every completed start/stop pair", "statement": "For any call history, hits[name] is the number of successful stops of name since the last reset, times[name] the sum of their elapsed intervals, a double start or an unmatched stop raises, and a disabled timer changes nothing.", "quantifier": "every sequence of start/stop/reset/enable/disable/clock calls and every clock reading", "why_tests_cant": "Unbounded histories.", "anchors": ["ndsl/performance/timer.py:Timer", "ndsl/performance/timer.py:NullTimer"]}
{"id": "C34", "title": "Calibrated thresholds accept every calibration trial", "statement": "Thresholds produced from calibration trials are such that the spread of the recorded trials is within threshold for every call of every savepoint, merging thresholds is commutative, associative and never tightens either, and fewer than two trials is an error.", "quantifier": "every number of trials, savepoints, calls per trial and data", "why_tests_cant": "All trial histories.", "anchors": ["ndsl/checkpointer/thresholds.py:SavepointThresholds/ThresholdCalibrationCheckpointer"]}
{"id": "C35", "title": "Clipping to reference data removes exactly the halo", "statement": "Clipping an array with symmetric halos and at most one trailing buffer point to a reference shape returns exactly the centred block of the reference's shape.", "quantifier": "every array and reference length per axis", "why_tests_cant": "All lengths, parity cases.", "anchors": ["ndsl/checkpointer/validation.py:_clip_pace_array_to_target"]}
{"id": "C36", "title": "Flattening a namelist keeps every setting", "statement": "Flattening a namelist gives each setting its value, or raises when the same key occurs twice; the result does not depend on the order of the groups.", "quantifier": "every two-level namelist", "why_tests_cant": "All key collisions and orders.", "anchors": ["ndsl/utils.py:flatten_nml_to_dict"]}
{"id": "C37", "title": "A NetCDF monitor persists every stored state once, in order", "statement": "After any sequence of stores followed by cleanup, the files contain every stored state exactly once, in order.", "quantifier": "every number of stores, chunk size and placement of cleanup calls", "why_tests_cant": "All histories, including cleanup in the middle of a chunk.", "anchors": ["ndsl/monitor/netcdf_monitor.py:NetCDFMonitor.store/cleanup", "ndsl/monitor/netcdf_monitor.py:_ChunkedNetCDFWriter"]}
{"id": "C38", "title": "A Zarr monitor writes each global cell exactly once per time", "statement": "When all ranks store a state, every cell of the global array at that time index is written exactly once with the owning rank's value, and earlier times are unchanged.", "quantifier": "every layout, tile size, staggering and number of stores, in any rank order", "why_tests_cant": "All decompositions and interleavings.", "anchors": ["ndsl/monitor/zarr_monitor.py:_ZarrVariableWriter.append", "ndsl/monitor/zarr_monitor.py:ZarrMonitor.store"]}
{"id": "C39", "title": "Tridiagonal solve solves the system", "statement": "The tridiagonal solver returns x with a_k x_{k-1} + b_k x_k + c_k x_{k+1} = d_k for every level, whenever no pivot vanishes; the masked version leaves masked-out columns untouched.", "quantifier": "every column height and every coefficient in any field (exact arithmetic)", "why_tests_cant": "All heights and coefficients.", "anchors": ["ndsl/stencils/tridiag.py:tridiag_solve/masked_tridiag_solve"]}
{"id": "C40", "title": "Column extremum returns the extremum and its first index", "statement": "Column max/min over [start, end] returns a value attained at the returned index, no element of the range is beyond it, and the index is the first such; elements outside the range do not matter.", "quantifier": "every column, range", "why_tests_cant": "All columns.", "anchors": ["ndsl/stencils/column_operations.py:column_max/column_min"]}
{"id": "C41", "title": "The two corner-fill implementations agree", "statement": "The array-based corner fill and the stencil-based corner fill produce identical corner halos for each grid staggering, direction and corner, and do not change any other point.", "quantifier": "every domain size and field contents", "why_tests_cant": "All positions, contents and sizes.", "anchors": ["ndsl/stencils/corners.py:fill_corners_2d_agrid/fill_corners_2d_bgrid/FillCornersBGrid/CopyCorners/fill_corners_dgrid/fill_corners_dgrid_defn"]}
{"id": "C42", "title": "Merged loops execute the original iterations", "statement": "Merging two loops of different ranges with over-computation guards executes each original body for exactly its original iterations, in order.", "quantifier": "every pair of ranges (start, stop, step)", "why_tests_cant": "All integer ranges and steps.", "anchors": ["ndsl/dsl/dace/stree/optimizations/axis_merge.py:InsertOvercomputationGuard", "ndsl/dsl/dace/stree/optimizations/axis_merge.py:CartesianAxisMerge"]}
{"id": "C43", "title": "Loop merging preserves results", "statement": "When the data-dependency check accepts two consecutive loops, running the merged loop gives the same memory as running the loops one after the other.", "quantifier": "every pair of loop bodies with the declared read/write accesses, every memory", "why_tests_cant": "All programs and memories.", "anchors": ["ndsl/dsl/dace/stree/optimizations/memlet_helpers.py:no_data_dependencies_on_cartesian_axis", "ndsl/dsl/dace/stree/optimizations/axis_merge.py:CartesianAxisMerge"]}
{"id": "C44", "title": "A compiled program call never uses another call's arguments", "statement": "Calling an orchestrated function with given arguments runs the compiled program on those arguments, not on arguments marshalled for an earlier call.", "quantifier": "every pair of consecutive calls", "why_tests_cant": "Needs two calls whose argument hashes coincide.", "anchors": ["ndsl/dsl/dace/dace_executable.py:hash_expected_dsl_args", "ndsl/dsl/dace/orchestration.py:_call_sdfg"]}
{"id": "C45", "title": "Field bundles give access to their own data", "statement": "Accessing a named field of a bundle returns a view of that bundle's quantity at the mapped index, irrespective of other bundles created or accessed before.", "quantifier": "every sequence of bundle creations and accesses", "why_tests_cant": "History dependent (shared state).", "anchors": ["ndsl/quantity/field_bundle.py:FieldBundle.__getattr__", "ndsl/quantity/field_bundle.py:FieldBundle.extend_3D_quantity_factory"]}
{"id": "C46", "title": "Rank pairing for comparison is an involution", "statement": "Pairwise rank comparison pairs each rank with a distinct partner that is paired back with it.", "quantifier": "every even communicator size and rank (odd sizes documented)", "why_tests_cant": "All sizes.", "anchors": ["ndsl/dsl/stencil.py:get_pair_rank"]}
{"id": "C47", "title": "Splitting columns into runs covers each level once", "statement": "The vertical run-length split covers every level exactly once with consecutive blocks on which all column parameters are constant, and adjacent blocks differ.", "quantifier": "every set of column parameter vectors and every positive number of levels (no levels raises an IndexError)", "why_tests_cant": "All columns.", "anchors": ["ndsl/dsl/gt4py_utils.py:get_kstarts/k_split_run"]}
{"id": "C48", "title": "Comparison metrics pass iff values agree", "statement": "The comparison metric succeeds for equal data and fails when data differ beyond tolerance, for floats and booleans, and its tolerance is that requested for this comparison.", "quantifier": "every pair of arrays and sequence of comparisons", "why_tests_cant": "All values and histories (class-level state).", "anchors": ["ndsl/testing/comparison.py:MultiModalFloatMetric/LegacyMetric"]}
{"id": "C49", "title": "Debug dumps are never overwritten", "statement": "Every instrumented call leaves its own In and Out file; no later call overwrites an earlier dump.", "quantifier": "every nesting and sequence of instrumented calls", "why_tests_cant": "All call trees.", "anchors": ["ndsl/debug/debugger.py:Debugger.save_as_dataset", "ndsl/debug/tooling.py:instrument"]}
{"id": "C50", "title": "Periodic single-rank exchange wraps the domain", "statement": "The single-rank mock exchange sets each halo point to the periodic image in the compute domain and leaves the compute domain unchanged.", "quantifier": "every domain size >= halo and contents", "why_tests_cant": "All sizes.", "anchors": ["ndsl/stencils/c2l_ord.py:mock_exchange"]}
{"id": "C51", "title": "State dimension overrides are always undone", "statement": "Allocating a state with temporary data dimensions leaves the factory's dimension table as it was, also on error; adding data dimensions is all-or-nothing.", "quantifier": "every table, override set and failure point", "why_tests_cant": "All failure points.", "anchors": ["ndsl/quantity/state.py:State._FactorySwapDimensionsDefinitions", "ndsl/initialization/allocator.py:QuantityFactory.add_data_dimensions"]}
{"id": "C52", "title": "Partial state updates are all-or-nothing with None handled consistently", "statement": "A state update that raises leaves the state unchanged; a field set to None is only accepted for fields declared optional.", "quantifier": "every state layout and update", "why_tests_cant": "All failure points and nested names.", "anchors": ["ndsl/quantity/state.py:State.update_copy_memory/update_move_memory"]}
{"id": "C53", "title": "Configuration dictionaries round-trip", "statement": "Writing a configuration to a dictionary and reading it back gives an equal configuration.", "quantifier": "every configuration", "why_tests_cant": "All option combinations.", "anchors": ["ndsl/dsl/stencil_config.py:CompilationConfig.as_dict/from_dict", "ndsl/dsl/dace/dace_config.py:DaceConfig.as_dict/from_dict"]}
{"id": "C54", "title": "Restart variables load under their own names", "statement": "Each named restart property is read into the state under its own standard name; no two properties claim the same stored variable.", "quantifier": "every property in the table, every stored dataset", "why_tests_cant": "Collision in a table of names.", "anchors": ["ndsl/restart/_legacy_restart.py:_get_restart_standard_names/map_keys", "ndsl/restart/_properties.py"]}
{"id": "C55", "title": "Buffer swap checks every dimension", "statement": "Replacing a quantity's storage by a user buffer is rejected unless the buffer can hold the compute domain in every dimension.", "quantifier": "every shape and extent", "why_tests_cant": "All shape pairs.", "anchors": ["ndsl/quantity/quantity.py:Quantity.swap_buffer"]}
{"id": "C56", "title": "Performance totals equal the sum over steps", "statement": "Reported hit counts equal the number of timed events over all collected steps, for every operation name, whichever steps it occurred in.", "quantifier": "every sequence of timed events and collections", "why_tests_cant": "All histories.", "anchors": ["ndsl/performance/collector.py:PerformanceCollector", "ndsl/performance/report.py:gather_hit_counts"]}
{"id": "C57", "title": "Masking the halo with NaN leaves the compute domain intact", "statement": "Setting the halo of a grid to NaN changes exactly the points within the halo width of an edge.", "quantifier": "every grid size and halo width, including zero", "why_tests_cant": "All widths.", "anchors": ["ndsl/grid/mirror.py:set_halo_nan"]}
{"id": "C58", "title": "Grid rotations are isometries", "statement": "Rotating grid coordinates about an axis preserves radius and angles between points, and rotating back restores them.", "quantifier": "every point, axis and angle (real arithmetic)", "why_tests_cant": "Continuum of inputs.", "anchors": ["ndsl/grid/mirror.py:_rot_3d"]}
{"id": "C59", "title": "Vertical coordinate input is validated", "statement": "Coefficients are accepted only if there are km+1 of each, the derived mid-level coordinate is non-decreasing and some level is pure pressure; the returned ks is the last pure-pressure level.", "quantifier": "every coefficient list and level count", "why_tests_cant": "All coefficient lists.", "anchors": ["ndsl/grid/eta.py:set_hybrid_pressure_coefficients"]}
{"id": "C60", "title": "Vector halo update delivers the neighbour's vector in the rank's own axes", "statement": "After vector_halo_update on every rank, the x and y halos of every rank hold the components, along the rank's own axes continued around the tile edge, of the vector that the neighbouring rank holds at the adjacent place: components exchanged and negated exactly where the tiles' axes are turned against each other, and component staggering respected. Points beyond a cube vertex, the compute domain and everything outside the halo keep their data; no rank hangs or raises. On a periodic tile each component is continued periodically, without sign changes.", "quantifier": "every vector field, number of fields, square layout on the cube (3 x 3 or larger rectangular layout on the tile), symmetric subtile sizes, halo depth, A/B/C/D staggering, interleaving of ranks and messages", "why_tests_cant": "Composition of topology, slices, rotation of data, exchange of components, signs and packing order over unbounded sizes and schedules; wrong signs on two of the four kinds of edges cancel in common test fields.", "anchors": ["ndsl/comm/communicator.py:Communicator.vector_halo_update", "ndsl/halo/updater.py:HaloUpdater.from_vector_specifications", "ndsl/halo/data_transformer.py:HaloDataTransformerCPU", "ndsl/halo/rotate.py:rotate_vector_data"]}
{"id": "C61", "title": "Tile edges seen by a stencil do not depend on where it runs", "statement": "The axis offsets given to a stencil denote fixed storage points: local_is/local_ie (js/je) are the first and last compute points of the rank, i_start/i_end (j_start/j_end) the same points on ranks at that tile edge and points outside every array elsewhere, whatever origin and domain the stencil is run on.", "quantifier": "every grid, every stencil origin and domain, every position of the rank, arrays of at most 32767 points per axis", "why_tests_cant": "Tests compile a few stencils on a few domains; regions at tile edges silently apply at wrong points otherwise.", "anchors": ["ndsl/dsl/stencil.py:GridIndexing.axis_offsets"]}
{"id": "C62", "title": "States are scattered and gathered variable by variable, by name", "statement": "scatter_state gives every rank, under each name of the root's state, exactly the region of that quantity which belongs to the rank, and the root's time, and changes nothing else in the receiving state. gather_state puts together, under each name, the quantities of that name of all ranks. Gathering what was scattered gives back the state.", "quantifier": "every state (names, dimensions, staggering, sizes, values), layout, receiving state, order of the dictionaries", "why_tests_cant": "Depends on matching of collectives between ranks and on dictionary order; tests build the states of all ranks the same way and with few variables.", "anchors": ["ndsl/comm/communicator.py:Communicator.scatter_state", "ndsl/comm/communicator.py:Communicator.gather_state"]}
{"id": "C63", "title": "Refining transients keeps the results", "statement": "When CartesianRefineTransients reduces an axis of a temporary array to one element and rewrites its accesses, every array that is not temporary ends with the values it would have had without the pass.", "quantifier": "every schedule tree (nesting of maps, for loops and conditions), tasklets, sizes, initial values", "why_tests_cant": "A wrong reduction shows only for programs whose temporaries carry values between iterations or loops; the number of such programs is unbounded, and the tests of the pass look at shapes.", "anchors": ["ndsl/dsl/dace/stree/optimizations/refine_transients.py:CartesianRefineTransients", "ndsl/dsl/dace/stree/optimizations/refine_transients.py:CollectTransientRangeAccess", "ndsl/dsl/dace/stree/optimizations/refine_transients.py:RebuildMemletsFromContainers"]}
{"id": "C64", "title": "The performance report credits each timer with what every rank recorded for it", "statement": "The dictionary gather_timing_data returns on the root holds, for every timer name some rank recorded, one list per rank in rank order with the values that rank recorded under that name, in the order of the steps; it holds no other name; and the simulated-years-per-day figure is the simulated time of all recorded main loop steps divided by the time they took.", "quantifier": "for all numbers of ranks, all per-step timer dictionaries of each rank, all roots, all time steps", "why_tests_cant": "The tests gather on one rank or with the same timers on all ranks; the gathers of different ranks are matched by position in the sorted list of names, which only shows when ranks time different things.", "anchors": ["ndsl/performance/report.py:61-69", "ndsl/performance/report.py:72-99", "ndsl/performance/report.py:119-132"]}
{"id": "C65", "title": "The rank comparison tool stops exactly when the two ranks differ", "statement": "With a comm given, a stencil call raises, before or after running, exactly when some array argument of this rank differs from the argument of the same name on its pair rank, and reports under each name the number of differing entries.", "quantifier": "for all argument dictionaries of the two ranks with the same names, kinds and sizes; all entries including NaN", "why_tests_cant": "No test runs the tool, which needs two MPI ranks; and that it stays silent on any given run says nothing about whether it compares anything.", "anchors": ["ndsl/dsl/stencil.py:241-255", "ndsl/dsl/stencil.py:436-443", "ndsl/dsl/stencil.py:613-631"]}
{"id": "C66", "title": "A frozen stencil runs with its arguments under their own names, and only when it should", "statement": "A call of a stencil object that Python accepts runs the stencil exactly once with each argument under its own name, at an origin that for every field lists the common origin along the field's own axes followed by zeros for its data dimensions (or the origin given for that field), on the first call and on every later one; a call with too many arguments is refused; and a stencil made in Build mode does not run when called.", "quantifier": "for all stencil signatures, all sequences of calls with any mix of positional and keyword arguments, all run modes, all field dimensionalities and origins", "why_tests_cant": "Tests call a stencil once or twice with correct arguments; the second code path (after the first successful call) and the Build mode are not called with wrong arguments or observed to run nothing.", "anchors": ["ndsl/dsl/stencil.py:412-417", "ndsl/dsl/stencil.py:419-475", "ndsl/dsl/stencil.py:493-532"]}
{"id": "C67", "title": "Snapshots keep every recorded value, in order, unaffected by later changes", "statement": "The dataset of a SnapshotCheckpointer holds, for every variable ever passed to it, the values the array had at each call that passed it, in the order of the calls, and in `<variable>_savepoints` the names of those savepoints; overwriting the arrays afterwards changes nothing.", "quantifier": "for all sequences of checkpointer calls interleaved with writes to the arrays, all savepoint and variable names", "why_tests_cant": "Tests record a few fixed variables; that names never interfere and that no later write shows through is a statement about all histories.", "anchors": ["ndsl/checkpointer/snapshots.py:10-23", "ndsl/checkpointer/snapshots.py:26-53", "ndsl/checkpointer/snapshots.py:66-69"]}
{"id": "C68", "title": "Validation compares the i-th call at a savepoint with the i-th reference", "statement": "Within a trial, a call of the ValidationCheckpointer at a savepoint raises exactly when there is no reference or threshold for it or some array is not accepted against the reference data of its place among the calls at this savepoint since the start of the trial.", "quantifier": "for all sequences of trials and calls at any savepoints with any variables, all reference data and thresholds", "why_tests_cant": "Tests make one or two calls; which reference a call is compared with after some calls have failed or after several trials depends on the whole history.", "anchors": ["ndsl/checkpointer/validation.py:87-98", "ndsl/checkpointer/validation.py:100-144"]}
{"id": "C69", "title": "The grid of the translate tests agrees with the partitioner", "statement": "For every layout and tile size the Grid built for a rank lies on exactly those tile edges on which the partitioner puts the rank, the compute domains of the ranks of a tile cover each cell once, and converting indices to global ones and back changes nothing.", "quantifier": "for all tile sizes, layouts and ranks", "why_tests_cant": "The translate tests run on a square layout dividing the tile; the class is never compared with the partitioner.", "anchors": ["ndsl/stencils/testing/grid.py:55-85", "ndsl/stencils/testing/grid.py:107-158", "ndsl/stencils/testing/grid.py:194-226"]}
{"id": "C70", "title": "Longitude/latitude and cartesian coordinates convert into each other", "statement": "lon_lat_to_xyz gives the unit vector in the direction of a longitude and latitude; xyz_to_lon_lat gives the longitude in [0, 2 pi) and the latitude of a vector of any length; each conversion undoes the other.", "quantifier": "every longitude, latitude and non-zero vector (exact real arithmetic)", "why_tests_cant": "Continuum of inputs; the tests use a few points and none near the poles, where the code switches to another branch.", "anchors": ["ndsl/grid/gnomonic.py:lon_lat_to_xyz", "ndsl/grid/gnomonic.py:xyz_to_lon_lat"]}
{"id": "C71", "title": "Great circle distances form a metric and midpoints are halfway", "statement": "great_circle_distance_lon_lat is the radius times the angle between the two directions; it is symmetric, between 0 and pi r, zero only between equal points, and satisfies the triangle inequality. lon_lat_midpoint returns the point of the great circle arc at half the distance from both ends.", "quantifier": "every pair/triple of points and every radius (exact real arithmetic)", "why_tests_cant": "Continuum of inputs.", "anchors": ["ndsl/grid/gnomonic.py:great_circle_distance_lon_lat", "ndsl/grid/gnomonic.py:great_circle_distance_xyz", "ndsl/grid/gnomonic.py:lon_lat_midpoint"]}
{"id": "C72", "title": "Spherical angles and areas", "statement": "spherical_angle is the angle at a point between the great circles to two others; get_triangle_area and get_rectangle_area give the area enclosed: independent of where the list of corners starts and of its direction, additive when a triangle is divided, positive, and equal to the known area of the octant.", "quantifier": "every triple/quadruple of points and every radius (exact real arithmetic)", "why_tests_cant": "Continuum of inputs; areas are compared with stored values of one grid only.", "anchors": ["ndsl/grid/gnomonic.py:spherical_angle", "ndsl/grid/gnomonic.py:get_triangle_area", "ndsl/grid/gnomonic.py:get_rectangle_area"]}
{"id": "C73", "title": "The stretch transformation rotates the sphere and contracts towards the target", "statement": "direct_transform contracts the sphere towards the south pole by the stretch factor and then rotates the south pole to the target point; the rotation preserves distances, and no two points are merged.", "quantifier": "every point, target and positive stretch factor (exact real arithmetic)", "why_tests_cant": "Continuum of inputs; tests compare one target and factor with stored values.", "anchors": ["ndsl/grid/stretch_transformation.py:direct_transform"]}
{"id": "C74", "title": "Unit vectors of the grid", "statement": "get_unit_vector_direction gives the unit tangent, at the midpoint of two points, in the direction from the first to the second; get_lonlat_vect gives the eastward and northward unit vectors, which with the radial vector form a right-handed orthonormal frame.", "quantifier": "every pair of distinct non-antipodal points; every longitude and latitude (exact real arithmetic)", "why_tests_cant": "Continuum of inputs.", "anchors": ["ndsl/grid/gnomonic.py:get_unit_vector_direction", "ndsl/grid/gnomonic.py:get_lonlat_vect"]}
{"id": "C75", "title": "Mirroring a point in a great circle", "statement": "mirror_latlon returns the reflection of a point in the plane of the great circle through two others: distances to points of that circle are kept, and mirroring twice gives the point back.", "quantifier": "every pair of points with different directions and every mirrored point (exact real arithmetic)", "why_tests_cant": "Continuum of inputs.", "anchors": ["ndsl/grid/gnomonic.py:mirror_latlon", "ndsl/grid/gnomonic.py:_mirror_xyz"]}
{"id": "C76", "title": "The gnomonic grid does not depend on the layout", "statement": "Every rank computes for its section of a tile the same corner longitudes and latitudes that any other rank or layout, or a single rank holding the whole tile, computes for the same global corner; they are the gnomonic equal-edge points of the cube, symmetric about the middle lines of the tile.", "quantifier": "every tile size, section, position and edge flags (exact real arithmetic)", "why_tests_cant": "All resolutions and layouts; each rank takes different branches for its edges and rebuilds the edges it does not own.", "anchors": ["ndsl/grid/gnomonic.py:local_gnomonic_ed", "ndsl/grid/global_setup.py:gnomonic_grid", "ndsl/grid/generation.py:_init_dgrid"]}
{"id": "C77", "title": "Mirroring gives every rank the same symmetric reference tile, in exact sums", "statement": "mirror_grid replaces the longitude and latitude of every corner of the first tile by the mean magnitude over the four corners mirrored in the tile's two middle lines, with the corner's own sign, and by zero on a middle line. The result at a corner therefore does not depend on which rank or layout computes it, it is antisymmetric under both mirrors (latitudes in y, longitudes in x), and corners that mirror each other get bitwise the same magnitudes.", "quantifier": "all tile sizes, all ranks that hold a section of the tile, all longitude and latitude arrays, all number types with a sum, absolute value and copysign", "why_tests_cant": "tests compare one resolution against stored values within a tolerance; whether the four ranks that hold mirrored corners agree to the last bit depends on the order of a sum for every input", "anchors": ["ndsl/grid/mirror.py:9-107", "ndsl/grid/global_setup.py:92-164"]}
{"id": "C78", "title": "Prime-meridian, date-line and pole values are forced on every tile", "statement": "After rotating the reference tile to tiles 1 to 5, mirror_grid stores the exact values on the seams: longitude 0 or pi on the middle line of the polar tiles and pi on the middle line of tile 3, latitude plus or minus pi/2 at the poles. What is stored at a corner depends only on its place on the tile, not on which rank computes it.", "quantifier": "all odd and even corner counts, all ranks of all layouts, all rotations and all input arrays", "why_tests_cant": "on a rotation computed in floating point the seam values are already close to the forced ones, so comparisons within a tolerance pass whether or not the forcing happens; layouts where the forcing is skipped are not run", "anchors": ["ndsl/grid/mirror.py:108-212", "ndsl/grid/global_setup.py:165-280"]}
{"id": "C79", "title": "The six tiles that the ranks generate fit together into one grid of the sphere", "statement": "The corners that the ranks compute for the six tiles (their section of the gnomonic tile, mirrored, averaged, rotated, forced) are the corners of one cube projected to the sphere: ranks of any tiles and layouts that hold the same corner of the cube - as on the edges and at the vertices where tiles meet - compute the same longitude and latitude, and different corners get different points. The orientation of the tiles on the cube is the one the communicator's partitioner uses.", "quantifier": "all tile sizes up to 10^12 cells, all square layouts that divide the tile, all ranks, all six tiles, all corners, all radii from 10^6", "why_tests_cant": "the grid is tested at one resolution and layout against stored values; that the rotations of all six tiles agree with the partitioner's idea of which edges meet is a statement about every resolution", "anchors": ["ndsl/grid/generation.py:1706-1843", "ndsl/grid/mirror.py:9-212", "ndsl/grid/gnomonic.py:31-240", "ndsl/comm/partitioner.py:395-700"]}
{"id": "C80", "title": "Tile-edge interpolation factors are the distance weights of their place in the tile, on any layout", "statement": "edge_factors and efactor_a2c_v give, for a corner (or a cell) on a tile edge, the weight d2/(d1+d2) (or d1/(d1+d2)) of the two great-circle distances to the neighbouring crossings of the edge. The weight lies in [0, 1], depends only on the place in the tile and not on the layout or on the rank that computes it, is the same in the halo of a neighbouring rank as on the rank that owns the cell, and entries off the tile edge hold 1e8.", "quantifier": "all tile sizes, layouts, ranks, edges and positions; all geometries (midpoint, distance)", "why_tests_cant": "Tests compare with saved values for one resolution and layout (1x1 or 2x2, C12); the slices and the split at the middle of the tile change with rank position, layout and size.", "anchors": ["ndsl/grid/geometry.py:588-698", "ndsl/grid/geometry.py:701-869"]}
{"id": "C81", "title": "The unit vectors of the grid point along the grid lines, are tangent to the sphere and do not depend on the layout", "statement": "For the gnomonic grids, the pairs of vectors that the grid keeps for cell centres, western edges, southern edges and corners of the cells are unit vectors, tangent to the sphere, that point along the great circle through the two neighbouring points in x (first vector) or y (second vector), in the direction of increasing index. At the edge of a tile the neighbour beyond the edge is replaced by the point itself, so the direction is that of the grid line inside the tile; in the halo beyond a corner of the tile the vectors hold the filler value. On every rank of every layout the vector of a place in the tile is the same.", "quantifier": "all grids (cells and corners of a tile with three halo points), all layouts with at least three cells per rank, all ranks, all places", "why_tests_cant": "unit tests compare the arrays of one resolution and layout with stored values; tangency, direction and equality for all layouts are claims about every grid and rank", "anchors": ["ndsl/grid/geometry.py:15", "ndsl/grid/geometry.py:64", "ndsl/grid/geometry.py:107", "ndsl/grid/geometry.py:266", "ndsl/grid/geometry.py:892"]}
{"id": "C82", "title": "Winds on the cubed grid convert to eastward and northward components", "statement": "For a cell whose two unit directions are tangent to the sphere at the cell centre and form a right-handed pair, the metric terms a11, a12, a21, a22 applied to twice the covariant components of a wind give its eastward and northward components, and z11..z22 go back. CubedToLatLon of order 2 gives the eastward and northward wind whenever the length-weighted edge averages are the covariant components; order 4 does so exactly for winds that vary as cubics across the cell, away from the tile edges. Cells at the edge of the tile get the second order formula and all others the fourth order formula, whatever the layout.", "quantifier": "all cell positions, directions, tangent winds, edge lengths, layouts, ranks and cells", "why_tests_cant": "The matrix entries mix four products and a sine; a sign or transposition error only shows on non-orthogonal cells, and the choice of formula at tile edges depends on layout and rank.", "anchors": ["ndsl/grid/geometry.py:572-585", "ndsl/grid/geometry.py:872-889", "ndsl/stencils/c2l_ord.py:62-152", "ndsl/grid/generation.py:1280-1320"]}
{"id": "C83", "title": "On one rank the wind exchange is periodic", "statement": "mock_exchange leaves the compute domain unchanged and fills every halo point, corners included, with the value at its periodic image in the compute domain, when the halo is no wider than the domain. For a wind on interfaces this would have to hold for the outermost interface row too; it does not.", "quantifier": "all arrays, domain positions, domain sizes and halo widths up to the domain size", "why_tests_cant": "Eight slice assignments overwrite each other's targets in sequence; the result has to be followed for every halo width and domain size.", "anchors": ["ndsl/stencils/c2l_ord.py:27-58", "ndsl/stencils/c2l_ord.py:267-272"]}
{"id": "C84", "title": "The nine angles of a cell are the angles of its sides, the same on every layout", "statement": "For a cubed-sphere grid, cos_sg and sin_sg hold for each cell nine cosines and sines of the angle between the x and the y direction: at the middles of the four sides, at the centre and at the four corners. Each cosine is the scalar product of the unit vectors that lead along x and along y at that point (changed by less than 1e-15 when it is close to 1), each sine is not negative and sin^2 + cos^2 = 1. A rank holds the values of the tile, whatever the layout. Beyond a corner of the tile, where there are no cells, all values are set to 1e8 and 1e-8, except on the two rows of sides that look onto the tile's extensions: they carry the values that the neighbour on the other side of the same line has, in the order of the distance from the corner.", "quantifier": "for all corner and centre points, all cells and points of the supergrid, all layouts, all ranks of at least 3 by 3 cells", "why_tests_cant": "the repository tests the metric terms against saved reference data on a few layouts; nothing compares the four corners with each other or the angles with their geometric meaning", "anchors": ["ndsl/grid/geometry.py:148-235", "ndsl/grid/geometry.py:415-496", "ndsl/grid/generation.py:2545-2592", "ndsl/grid/gnomonic.py:691-699"]}
{"id": "C85", "title": "Sines and cosines between cells are means of the adjoining sides; continuing an edge beyond a corner gives one answer", "statement": "cosa_u, sina_u (cosa_v, sina_v) are at every edge between two cells the mean of the values of the two sides that meet there, cosa and sina at a corner the mean of the two cells south-west and north-east of it; rsin_u, rsin_v, rsin2, rsina are 1/sine^2, not more than 1e8, but 1/sine on the edges of the tile for rsin_u and rsin_v and 1e8 there for rsina; on the edges of a tile sines smaller than 1e-8 are replaced by 1e-8 with their sign. All this does not depend on the layout. Beyond a corner of the tile the line between the two neighbours is met twice, as continuation of the western or eastern edge (in sina_u, rsin_u) and of the southern or northern edge (in sina_v, rsin_v): both have the same values at the same distance from the corner. divg_u, del6_u (divg_v, del6_v) are the sine times the ratio of the lengths of the edge and of the line across it, also on the edges of the tile.", "quantifier": "for all corner and centre points, all layouts, all ranks of at least 3 by 3 cells, all lengths dx, dy, dxc, dyc", "why_tests_cant": "the tests compare with reference data of one resolution, with tolerances, and the corners of the halo are masked there", "anchors": ["ndsl/grid/geometry.py:311-412", "ndsl/grid/geometry.py:499-569", "ndsl/grid/generation.py:2568-2592", "ndsl/grid/generation.py:3015-3070"]}
{"id": "C86", "title": "A storage made from an array holds the array at its start and zeros elsewhere", "statement": "gt4py_utils.make_storage_data returns a storage of the shape asked for whose elements are those of the given array moved by start, and zero everywhere else: data of three or more axes as they are; data of two axes in the first two axes (read-only), repeated along the given axis (not read-only), or with one index along a dummy axis; data of one axis along the given axis, repeated over the other two when not read-only. aligned_index and dimensions are those of the axes kept. Data that do not fit are refused. make_storage_dict gives each name the array of its index along the last axis; reshape repeats a field of two axes along the third.", "quantifier": "all arrays, shapes, starts, origins, axes, dummies, numbers of axes", "why_tests_cant": "the combinations of rank, axis, dummy, read_only and start are many and each takes another path; an offset or axis wrong by one shows only for shapes whose sizes differ", "anchors": ["ndsl/dsl/gt4py_utils.py:53-381", "ndsl/dsl/gt4py_utils.py:480-493"]}
{"id": "C87", "title": "What a translate test loads and leaves unchanged it writes back unchanged", "statement": "TranslateFortranData2Py.make_storage_data loads an array at (istart, jstart, kstart) and slice_output, with the window of the array's size at that place, returns the same values without axes of length 1: for arrays of three axes, of two (default or with one dummy axis), and of one axis of levels. With the defaults of the grid an array of the whole domain comes back from the default window, and an array of the compute domain, possibly with interfaces, starts at its first cell. This holds for every array a test may declare, including columns with dummy axes.", "quantifier": "all arrays, shapes, starts, windows, maxshape, dummy axes, read_only", "why_tests_cant": "translate tests only run on the variables of their reference data; a misplaced input is compared with an equally misplaced output and passes", "anchors": ["ndsl/stencils/testing/translate.py:131-182", "ndsl/stencils/testing/translate.py:187-202", "ndsl/stencils/testing/translate.py:264-313", "ndsl/stencils/testing/grid.py:274-293", "ndsl/stencils/testing/grid.py:430-442"]}
{"id": "C88", "title": "The areas of the cells are areas on the sphere and fill it", "statement": "In exact arithmetic the area that MetricTerms computes for a cell is the surface integral over the part of the sphere between its four corners (the corners of the stretched cube at the cell's global indices), and is positive; it depends on the global cell only, not on the layout; and over all ranks of the six tiles the areas add up to 4 pi r^2. (For cells none of whose corners has a longitude or latitude so small, below 1e-10 after the shift by 10 degrees, that the code replaces it by 0.)", "quantifier": "all radii >= 1e6, tile sizes up to 1e12, square layouts, ranks, tiles, cells", "why_tests_cant": "the sum over the sphere and the integral are statements about all resolutions and layouts; a test compares one resolution with stored numbers", "anchors": ["ndsl/grid/gnomonic.py:374-386", "ndsl/grid/gnomonic.py:590-609", "ndsl/grid/generation.py:1706-1843", "ndsl/grid/generation.py:2118-2135"]}
{"id": "C89", "title": "dx and dy are great-circle lengths, equal along the tile edges", "statement": "In exact arithmetic dx and dy of MetricTerms on the compute domain are the radius times the angle between neighbouring corners of the stretched cube, and positive; they depend on the global side only, not on the layout; along a row or column of a tile they add up to the great-circle distance between its ends; and along the edges of a tile they are all 2 asin(1/sqrt 3) r / n, so the values that two tiles hold for a shared side agree. (For sides whose corners are not flushed to 0, as in C88.)", "quantifier": "all radii >= 1e6, tile sizes up to 1e12, square layouts, ranks, tiles, sides", "why_tests_cant": "agreement across tile edges and additivity are statements for every resolution and layout; the comment in the code leaves open whether dx and dy mirror across the boundary", "anchors": ["ndsl/grid/gnomonic.py:342-365", "ndsl/grid/generation.py:1874-1922"]}
{"id": "C90", "title": "Areas of the C-grid cells around the corners", "statement": "area_c at a corner is the area between the four cell centres around it; on an edge of the tile it is twice the part inside the tile, and at a corner of the tile three times the part inside the tile (docstring of set_c_grid_tile_border_area). Points outside the rank are 0 before the halo update.", "quantifier": "every rank size, every position of the rank on the tile, every corner and centre position, every radius (exact real arithmetic)", "why_tests_cant": "Continuum of positions, and the arrays are compared with stored values produced by the same rule; at the corners the later assignments hide the earlier ones.", "anchors": ["ndsl/grid/generation.py:_compute_area_c_cube_sphere", "ndsl/grid/gnomonic.py:set_corner_area_to_triangle_area", "ndsl/grid/gnomonic.py:set_c_grid_tile_border_area"]}
{"id": "C91", "title": "Lengths between cell centres (dxc, dyc)", "statement": "dxc and dyc are the great circle distances between the centres of the two cells that share a side; on the edges of the tile they are twice the distance from the middle of the side to the centre of the cell inside, along the whole edge of the rank; at the first and last index the neighbouring value is repeated.", "quantifier": "every rank size, every position of the rank on the tile, every corner and centre position (on the edges of the tile not within 1e-10 of a pole, where longitudes are set to 0), every radius (exact real arithmetic)", "why_tests_cant": "Continuum of positions; arrays are compared with stored values for one grid and a few layouts.", "anchors": ["ndsl/grid/generation.py:_compute_dxdy_center_cube_sphere", "ndsl/grid/gnomonic.py:set_tile_border_dxc", "ndsl/grid/gnomonic.py:set_tile_border_dyc", "ndsl/grid/gnomonic.py:great_circle_distance_along_axis"]}
{"id": "C92", "title": "Least and greatest areas of the whole grid", "statement": "da_min and da_max are the least and the greatest area over all cells of all ranks, da_min_c and da_max_c the least and the greatest C-grid area over all corners, the same for every layout.", "quantifier": "every layout, every rank size, every area", "why_tests_cant": "Unbounded layouts and sizes; on an unstretched grid symmetry hides corners that are left out.", "anchors": ["ndsl/grid/generation.py:_reduce_global_area_minmaxes"]}
{"id": "C93", "title": "Metric terms do not depend on the order in which they are read", "statement": "The terms of MetricTerms are computed when they are first read. Whatever terms are read, in whatever order and however often, each has the dimensions, units, type and data it would have had if nothing else had been read before; a term read again is the same object (lon, lat, lon_agrid and lat_agrid are new views with the same content), and reading it again communicates nothing. Ranks may read the terms in different orders.", "quantifier": "every list of reads of the 92 terms, both kinds of grid, every number of ranks, every grid, every rounding, every numerical function and every effect of a halo update or reduction", "why_tests_cant": "There are 92 terms and hence 92! orders of first reads; tests read the terms in the one order of a savepoint or of GridData.", "anchors": ["ndsl/grid/generation.py:MetricTerms", "ndsl/grid/generation.py:_init_cell_trigonometry", "ndsl/grid/generation.py:_calculate_divg_del6", "ndsl/grid/generation.py:_calculate_grid_a"]}
{"id": "C94", "title": "Dimensions, units and precision of the metric terms", "statement": "Every term of MetricTerms has the dimensions and the units that GridDefinitions declares for its name, and, unless its name says 64, the model's float type, whatever was read before.", "quantifier": "every term, after every list of reads, both kinds of grid, every number of ranks, all data", "why_tests_cant": "Comparisons with savepoints look at data only, and are run with 64-bit floats, where a missing cast does not show.", "anchors": ["ndsl/grid/generation.py:GridDefinitions", "ndsl/grid/generation.py:quantity_cast_to_model_float", "ndsl/grid/generation.py:_calculate_edge_factors", "ndsl/grid/generation.py:_calculate_vectors_west_cube_sphere"]}
{"id": "C95", "title": "Grid containers hold the terms they name", "statement": "Every property of GridData, every field of DampingCoefficients and every field of DriverGridData built from a MetricTerms object holds exactly the metric term (or the component of the metric vector) its name says, whatever terms were read before.", "quantifier": "every property of the three containers, after every list of reads, both kinds of grid, every number of ranks, all data", "why_tests_cant": "About ninety names are forwarded by hand in three layers; a test on one grid compares arrays, several of which agree on symmetric or doubly periodic grids, so a crossed name can pass.", "anchors": ["ndsl/grid/helper.py:GridData", "ndsl/grid/helper.py:DampingCoefficients", "ndsl/grid/helper.py:DriverGridData.new_from_metric_terms", "ndsl/grid/helper.py:split_quantity_along_last_dim"]}
{"id": "C96", "title": "Vertical grid: pressures follow from ak and bk", "statement": "For validated coefficients the interface pressures of a VerticalGridData are ak + bk * 1000 hPa and grow downwards, the layer thicknesses are their differences, positive, and add up to the whole column, the layer pressures lie between those of the interfaces, and ptop is the pressure of the first interface; all of them follow the current ak and bk, in whatever order they are read.", "quantifier": "every number of layers, all coefficients, every sequence of reads and assignments", "why_tests_cant": "The values are cached at the first read, so the result depends on the order of accesses; tests use the few shipped coefficient tables, which are monotone.", "anchors": ["ndsl/grid/helper.py:VerticalGridData", "ndsl/grid/helper.py:GridData.ptop", "ndsl/grid/helper.py:GridData.ks", "ndsl/grid/eta.py:set_hybrid_pressure_coefficients"]}
{"id": "C97", "title": "Quantities made by a factory hold exactly what was given", "statement": "A quantity made by QuantityFactory.from_compute_array has the given array in its compute domain and zeros around it, one made by from_array is the given array, and full, zeros and ones hold the value everywhere; dimensions, units, element type, halo width and backend are those asked for; an array of another shape or another float precision is refused; the factory gives a halo specification for every quantity it can make.", "quantifier": "every grid size and halo width, every list of known dimensions, every array", "why_tests_cant": "The result depends on the alignment of two shapes and on numpy broadcasting; tests use a handful of shapes, all of the right size.", "anchors": ["ndsl/initialization/allocator.py:QuantityFactory.from_array", "ndsl/initialization/allocator.py:QuantityFactory.from_compute_array", "ndsl/initialization/allocator.py:QuantityFactory.full", "ndsl/initialization/allocator.py:QuantityFactory.get_quantity_halo_spec", "ndsl/quantity/quantity.py:Quantity.__init__"]}
{"id": "C98", "title": "Quantities and states survive xarray and NetCDF", "statement": "A quantity turned into an xarray.DataArray and read back with Quantity.from_data_array has the same values in its compute domain, dimensions, units, element type and backend; a state written with write_state and read with read_state consists of the same quantities, with the same compute domains and halos.", "quantifier": "every quantity, every state dictionary", "why_tests_cant": "Round trips have to hold for every position of the compute domain in the array; no test of the project writes and reads a state.", "anchors": ["ndsl/io.py:write_state", "ndsl/io.py:read_state", "ndsl/quantity/quantity.py:Quantity.from_data_array", "ndsl/quantity/quantity.py:Quantity.field_as_xarray", "ndsl/quantity/quantity.py:Quantity.data_as_xarray"]}
{"id": "C99", "title": "A State saved with to_netcdf is restored by update_from_netcdf", "statement": "For every State class and state, to_netcdf writes a file from which update_from_netcdf, on another state of the class, restores every quantity, optional ones that were None included; ranks and postfixes have files of their own.", "quantifier": "every class of nested states, every state, every rank", "why_tests_cant": "The one test saves a state with one nested state and all quantities present; classes are arbitrary trees, and None and deeper nesting take other paths.", "anchors": ["ndsl/quantity/state.py:State.to_xarray", "ndsl/quantity/state.py:State.to_netcdf", "ndsl/quantity/state.py:State.update_from_netcdf", "ndsl/quantity/state.py:State._netcdf_name"]}
{"id": "C100", "title": "Allocating a State gives each declared quantity its dims, units, dtype and value", "statement": "State.zeros, ones and full give every quantity that the class and its nested states declare, and no other, its declared dims, units and dtype on the domain of the factory with the data dimensions given in the call, every element being the value; LocalState.make_locals and NDSLRuntime.make_local do so for locals, whose memory is the wrong value 123456789, with the halo of the factory; make_as_state gives plain quantities and leaves the class as it was.", "quantifier": "every class (any nesting), every factory, all data dimensions, any content of fresh memory", "why_tests_cant": "Fresh memory is often zero in tests, and a change of the field types of the class shows up only in a later, unrelated allocation.", "anchors": ["ndsl/quantity/state.py:State._init", "ndsl/quantity/state.py:State.full", "ndsl/quantity/state.py:LocalState.make_locals", "ndsl/quantity/state.py:LocalState.make_as_state", "ndsl/dsl/ndsl_runtime.py:NDSLRuntime.make_local", "ndsl/quantity/local.py:Local"]}
{"id": "C101", "title": "A runtime is orchestrated once, when complete, and its quantities and locals are guarded", "statement": "Creating an object of a class derived from NDSLRuntime orchestrates its __call__ exactly once, after all its attributes are set, or raises if super().__init__ was not called; a warning is given for each attribute, of the object or of a runtime that it holds, that is a Quantity and not a Local; a Local may be read by its own object only, on every backend.", "quantifier": "every class with any chain of parents, every nesting of runtimes, every sequence of creations, every recursion limit", "why_tests_cant": "The guards depend on a module global that the first runtime of the process sets, on the depth of the inheritance and on the backend; each test sees one combination.", "anchors": ["ndsl/dsl/ndsl_runtime.py:NDSLRuntime", "ndsl/dsl/dace/orchestration.py:orchestrate"]}
{"id": "C102", "title": "The Coriolis parameter is 2 omega sin(latitude) at the points it names", "statement": "GridData.fC and fC_agrid are, at every corner and every cell centre including the halo, 2 * OMEGA * sin of the latitude there, with the dims, origin, extent and halo of the latitudes, in whatever order and however often they are read; values given by the user are returned for the points they were given for.", "quantifier": "all latitude fields, all given data, every sequence of reads", "why_tests_cant": "A test on one grid does not see that values for cell centres are labelled as corner values, since the arrays have the same shape.", "anchors": ["ndsl/grid/helper.py:GridData.__init__", "ndsl/grid/helper.py:GridData._fC_from_data", "ndsl/grid/helper.py:GridData._fC_from_lat", "ndsl/grid/helper.py:GridData.fC", "ndsl/grid/helper.py:GridData.fC_agrid"]}
{"id": "C103", "title": "A Cartesian grid has the same coordinates on every layout", "statement": "With grid_type=4 the cell corners of the tile are evenly spaced over an angle of pi/16 around (0, deglat); every rank holds, wherever a point of its array is a corner of the tile, the coordinates of that corner, and NaN elsewhere, so that the same corner has the same coordinates on all ranks and layouts; the cell centres lie between the corners, and the lengths and areas are constant and agree with each other and with the coordinates.", "quantifier": "all layouts, ranks, tile sizes, halo sizes and constants, all points of the arrays", "why_tests_cant": "The tests build one tile on one rank; the halo of an inner edge, other layouts and other halo sizes do not occur.", "anchors": ["ndsl/grid/generation.py:MetricTerms._init_cartesian", "ndsl/grid/generation.py:MetricTerms.__init__", "ndsl/grid/generation.py:MetricTerms._compute_dxdy_cartesian", "ndsl/grid/generation.py:MetricTerms._compute_area_cartesian"]}
{"id": "C104", "title": "Stencils made by a factory run where the dimensions say, with externals of the same place", "statement": "StencilFactory.from_dims_halo for three dimensions and halo sizes gives a stencil that computes exactly the compute domain along these dimensions plus that many halo points on each side; its externals local_is, local_ie, local_js, local_je are the rank's first and last cells, i_start, i_end, j_start, j_end the tile's edge where the rank has it and out of reach elsewhere, k_start and k_end the levels computed; the externals given by the user are the stencil's. get_stencils_with_varied_bounds gives one such stencil for each origin and domain, in order. Other numbers of dimensions, data dimensions, and lists of different lengths are refused, and a vertically restricted factory computes exactly the levels it is restricted to.", "quantifier": "all ranks, compute domains, halo sizes, dimensions, origins, domains and user externals", "why_tests_cant": "The tests use square compute domains, the order I, J, K and externals with other names; order, precedence and inner ranks do not matter there.", "anchors": ["ndsl/dsl/stencil.py:StencilFactory.from_dims_halo", "ndsl/dsl/stencil.py:StencilFactory.from_origin_domain", "ndsl/dsl/stencil.py:StencilFactory.restrict_vertical", "ndsl/dsl/stencil.py:get_stencils_with_varied_bounds", "ndsl/dsl/stencil.py:GridIndexing.axis_offsets"]}
{"id": "C105", "title": "A reduction over all ranks combines the elements of the same index and keeps the metadata", "statement": "Communicator.all_reduce gives every rank a quantity whose every element, halo included, is the ranks' elements of that index combined with the operator, with the metadata of the input; into an output quantity it does the same and leaves it usable (its view is its compute domain, its metadata describe its data); outputs of another shape are refused. all_reduce_per_element and all_reduce_per_element_in_place change the elements only.", "quantifier": "all numbers of ranks, shapes, memory orders, dtypes, compute domains, values and the operators SUM, PROD, MAX, MIN", "why_tests_cant": "The tests sum identical quantities without halo, in one memory order and precision, on every rank.", "anchors": ["ndsl/comm/communicator.py:Communicator.all_reduce", "ndsl/comm/communicator.py:Communicator.all_reduce_per_element", "ndsl/comm/communicator.py:Communicator.all_reduce_per_element_in_place", "ndsl/quantity/metadata.py:QuantityMetadata.duplicate_metadata", "ndsl/comm/mpi.py:MPIComm.allreduce"]}
{"id": "C106", "title": "A compiled program is loaded only where it fits", "statement": "In run mode (and after a build) a rank loads the program of its name and code path that was built last, and only if that was built by the same backend for the same share of the tile and number of levels; otherwise it stops with an error. After a build by the compiling ranks, every rank of the run finds its program, whatever was in the caches before.", "quantifier": "all histories of builds, programs, code paths, layouts, resolutions and backends", "why_tests_cant": "The tests build and load in one process with one configuration; stale caches from other layouts and resolutions do not occur.", "anchors": ["ndsl/dsl/dace/build.py:get_sdfg_path", "ndsl/dsl/dace/build.py:write_build_info", "ndsl/dsl/caches/cache_location.py:get_cache_fullpath", "ndsl/dsl/caches/codepath.py:FV3CodePath", "ndsl/dsl/dace/orchestration.py:_build_sdfg"]}
{"id": "C107", "title": "The noise of the threshold tests is of roundoff size and of either sign", "statement": "perturb() multiplies every number below 1e30 of the float64 and float32 arrays of a dictionary in place by noise of the size of the roundoff of the array's precision, up or down: after the call every such number is the same or a neighbour in its own precision, larger and smaller ones are both possible, and both precisions are changed. Fill values, NaN, infinities, arrays of other dtypes and whatever is not an array stay what they were, as do names and lengths.", "quantifier": "all dictionaries of arrays, all numbers of binary64 and binary32 including subnormal ones, all draws of the generator between -1e-16 and 1e-16", "why_tests_cant": "The draws are random, the effect depends on rounding at each of the 2^64 numbers, and a test that sees no change cannot tell an unlucky draw from an impossible one.", "anchors": ["ndsl/testing/perturbation.py:perturb", "ndsl/stencils/testing/test_translate.py:_get_thresholds"]}
{"id": "C108", "title": "Orchestrating a method changes that method of that object only", "statement": "After orchestrate(obj=o, config=c, method_to_orchestrate=m), calling m on o runs m's function on o as a program with configuration c; the latest call of orchestrate counts. Other objects, other methods and copies of o are not affected, arguments are compile-time only where they were named or annotated as quantities or states, and a configuration that does not orchestrate changes nothing. This holds for any number of objects that come and go, whatever addresses Python gives them.", "quantifier": "all histories of creating, copying, releasing and orchestrating objects, all class hierarchies with single inheritance, all reuse of addresses", "why_tests_cant": "The cache is keyed by id(), which Python uses again after an object is gone; whether a stale entry can be hit depends on the history of the process and the allocator.", "anchors": ["ndsl/dsl/dace/orchestration.py:orchestrate", "ndsl/dsl/dace/orchestration.py:_LazyComputepathMethod"]}
{"id": "C109", "title": "pcolormesh_cube draws every cell with a value exactly once, and no cell around the back of the map", "statement": "For latitudes and longitudes at the corners and values at the cells of six tiles, of any size and with any pattern of NaN, _pcolormesh_cube_all_handles draws rectangular pieces of the tiles, each with its own corners and its own values, such that each cell whose value is not NaN and whose corners stay together when the longitudes are centred on the map is drawn exactly once, and no other cell is drawn. _segment_plot_inputs ends for every pattern of NaN. UpdateablePColormesh.update shows what a new plot of the new values would show.", "quantifier": "all sizes of tiles, all corners and values, all patterns of NaN, all central longitudes", "why_tests_cant": "The recursion that cuts the array into pieces depends on the pattern of NaN, of which there are exponentially many; tests look at a few of them, and at pictures. The errors at the antimeridian need a corner exactly on it, and those of update a change of the pattern.", "anchors": ["ndsl/viz/fv3/_plot_cube.py:264-433", "ndsl/viz/fv3/_masking.py:4-117"]}
{"id": "C110", "title": "Serialized reference data comes back from the NetCDF files as it was serialized", "statement": "After converting serialized data of the Fortran model with serialbox_to_netcdf, DataLoader.load and SavepointCase.ds_in give, for each savepoint name, rank and call, exactly the variables that this rank serialized at that occurrence of the savepoint, with the same shapes and values (0 in place of 1e40; a single value by itself; the helper variable 'rank' left out). A rank or call that was not serialized raises. With --merge the blocks of a rank are put together to its columns in the order of the savepoints. A variable whose size differs between ranks is put together in the order of ranks; a variable a rank does not have is NaN there.", "quantifier": "for all namelists, numbers of ranks and savepoints, all variables with any shapes and values, all data names, with and without --merge", "why_tests_cant": "Tests of translated code compare with whatever these files hold: a wrong value, rank or call in the conversion looks like an error of the model (or hides one). There is no test of the converter at all, and the number of combinations of shapes, ranks, missing variables and savepoints is unbounded.", "anchors": ["ndsl/stencils/testing/serialbox_to_netcdf.py:46-262", "ndsl/stencils/testing/savepoint.py:11-41", "ndsl/stencils/testing/savepoint.py:78-92"]}
{"id": "C111", "title": "A translate test passes exactly when every declared output agrees with its reference under the configured thresholds", "statement": "A translate test (sequential or parallel) is reported as passed exactly when it compared every variable the test declares as output with the reference of that rank and call, there was at least one, and every one agreed under the thresholds in force: those that the one entry of the overrides file for this test, backend and platform gives, and for what that entry leaves out the test's own (on a GPU at least the GPU minimum). A field named in ignore_near_zero_errors uses its own value, all other output fields all_other_near_zero. Entries for other backends, platforms and tests change nothing; two entries that apply are an error. The thresholds are the same at every call. A rank without data is skipped, not passed. The parallel test gets a communicator for the number of processes it runs on.", "quantifier": "for all tests, overrides files, backends, platforms, thresholds, data, ranks, calls, numbers of processes, both metrics and any computation", "why_tests_cant": "This is the code that decides whether tests pass; it has no tests itself. A flaw that lets a wrong variable through shows up nowhere, and the combinations of override entries, fields, calls and metrics are unbounded.", "anchors": ["ndsl/stencils/testing/test_translate.py:35-100", "ndsl/stencils/testing/test_translate.py:147-313", "ndsl/stencils/testing/test_translate.py:316-459", "ndsl/testing/README.md:58-118", "ndsl/config/backend.py:126-133"]}
{"id": "C112", "title": "A run of the translate tests makes exactly one case of every selected test, rank and call", "statement": "Collecting the translate tests makes exactly one case for every selected test, rank and call and no other: the tests whose input file NAME-In.nc is in the data path, or those --which_modules names, without those of --skip_modules; every call in the file, or the one of --which_savepoint; every rank of the topology and layout, or the one of --which_rank. Tests of a parallel class are run with several processes, all others with one. The calls of a test on a rank follow each other in order. With several processes every process runs the same tests and calls in the same order, in whatever order it goes through its sets, and the test gets the communicator of the namelist's layout.", "quantifier": "for all data directories, test classes, options, layouts, topologies, numbers of processes and iteration orders of Python's sets", "why_tests_cant": "A test that is silently not collected looks like a passing run. Orders of sets differ from process to process with the hash seed, so a difference between processes (a deadlock) shows up only now and then.", "anchors": ["ndsl/stencils/testing/conftest.py:148-220", "ndsl/stencils/testing/conftest.py:240-393", "ndsl/stencils/testing/conftest.py:448-455", "ndsl/testing/README.md:14-28"]}
{"id": "C113", "title": "At every call, a translate test passes the declared inputs and compares the declared windows", "statement": "At every call of a savepoint, the code under test is given exactly the declared variables: each parameter as serialized at this call, and each data variable as the array serialized under its serial name at this call, its vertical axis (kaxis) moved to the third place, index variables counted from zero, stored at the declared start: a number, or the value that the named input has at this call, or else where the shape of the array says. Each declared output comes back under its serial name, cut at the declared window of this call, index variables counted from one, its vertical axis moved back.", "quantifier": "for all descriptions of variables, all parameters, all sequences of calls with any inputs and results, all arrays, shapes and storages", "why_tests_cant": "The descriptions of the variables are overwritten by every call, so what a call does depends on those before it; the repository's tests of the translate classes make one call.", "anchors": ["ndsl/stencils/testing/translate.py:184-323", "ndsl/stencils/testing/conftest.py:320-341"]}
{"id": "C114", "title": "A parallel test of the grid gets its inputs in the compute domain and returns what it leaves unchanged as serialized", "statement": "A parallel test of the grid (ParallelTranslateGrid) gets each declared input under its standard name: an array as a Quantity of its own dimensions (the vertical one last where kaxis says so), with the serialized values in the compute domain and the declared number of halo points around it, and zeros elsewhere; a number as it is. Each declared output comes back under its own name, with the values of the compute domain and the declared number of halo points, its dimensions in the serialized order. What the test leaves unchanged comes back as it was serialized.", "quantifier": "for all grid sizes, halos, paddings, data dimensions, declarations (dims, names, n_halo as one number or two, kaxis) and arrays; outputs for all values of the state", "why_tests_cant": "The repository has no test of these classes; a wrong window gives arrays of a wrong place, which differ from the reference only where the data vary, and index arithmetic goes wrong only for particular sizes.", "anchors": ["ndsl/stencils/testing/parallel_translate.py:102-122", "ndsl/stencils/testing/parallel_translate.py:163-223", "ndsl/initialization/subtile_grid_sizer.py:129-168", "ndsl/initialization/allocator.py:176-213"]}
{"id": "C115", "title": "Debug passes check every array they are for, after it is written, and leave the rest of the program as it is", "statement": "A debug pass on an orchestrated program (NaN check, negative delp, negative tracers, trace, progress) inserts one check for every array that a top-level map writes and that the pass is for (by the names it looks for and excludes; any name if it looks for none; not dynamic writes where it skips those). The check comes after the array is written and before everything that comes after that write, and covers the written range or the range asked for. Nothing else changes: of two nodes of the program one comes before the other with the checks exactly when it does without them.", "quantifier": "for all program graphs, arrays, storages, names, ranges and memlets", "why_tests_cant": "The repository has no tests of these passes. A check that is missing looks like a clean run, and a lost dependency only changes results when the code generator happens to order the nodes differently.", "anchors": ["ndsl/dsl/dace/sdfg_debug_passes.py:14-321"]}
{"id": "C116", "title": "Memory and timing analyses of orchestrated programs account for every array and every outer kernel", "statement": "memory_static_analysis of an orchestrated program lists, for each storage, every array of the program and every transient array of its nested programs exactly once; referenced plus unreferenced bytes are the bytes of all of them, an array is referenced if the program uses it, and the report shows every storage that holds memory. kernel_theoretical_timing gives, under each kernel's label, the time its bytes take at the given bandwidth (the largest if several kernels share a label), for every kernel that is in no other one; without a given bandwidth the timings agree with the benchmark that was measured.", "quantifier": "For all programs (any nesting, arrays, maps, labels), all storages, bandwidths and measured times.", "why_tests_cant": "No test calls the analyses; the programs are trees of any depth and the sums run over all of them. The benchmark runs only on real hardware, so a wrong factor is never seen.", "anchors": ["ndsl/dsl/dace/utils.py:39-167", "ndsl/dsl/dace/utils.py:212-314"]}
{"id": "C117", "title": "Labels surround an orchestrated program and change nothing it does", "statement": "set_label puts a label for entering in front of an orchestrated program (behind its first state for the topmost one) and a label for leaving behind it: every run passes the first label at its start and the second one at its end, the labels are reached at no other time, and the runs of the program between its own states (with the conditions and assignments on the way) are those it had before. Compiled programs are left as they are.", "quantifier": "For all state graphs (any number of states, loops, several ends), both kinds of programs, all names.", "why_tests_cant": "No test calls set_label. The loop changes the graph it runs over, and the claim is about all runs of all graphs.", "anchors": ["ndsl/dsl/dace/labeler.py:34-68", "ndsl/dsl/dace/orchestration.py:573-589"]}
{"id": "C118", "title": "Cleaning a schedule tree removes the state boundaries and nothing else; a swap loses nothing", "statement": "After CleanUpScheduleTree().visit(tree) no scope of the tree has a StateBoundaryNode among its children, all other nodes are there in the same order, the reported number is the number of removed nodes, and a second pass changes nothing. swap_node_position_in_tree(top, child) puts child in the place of top and top below child, with no node lost and every child knowing its parent.", "quantifier": "for all trees, all scopes and nesting depths, all positions of boundaries, and all ways in which == compares nodes of the same class", "why_tests_cant": "The tests have four trees with a single scope and a single boundary; that the removal by value never takes another node, that nested scopes are reached and which kinds of scopes are left out are statements about all trees. The swap has no test of its own.", "anchors": ["ndsl/dsl/dace/stree/optimizations/clean_tree.py:8-66", "ndsl/dsl/dace/stree/optimizations/tree_common_op.py:6-53"]}
{"id": "C119", "title": "Limits and colours of a plot are the user's or fit the data; dimensions are aligned by name", "statement": "infer_cmap_params(data, vmin, vmax, cmap, robust) returns every value the user gives and infers the others: all data lie between the limits, the smaller limit comes first, the limits are symmetric about 0 with the colours RdBu_r if the data have both signs and are those of the data with viridis otherwise; robust limits lie within the others. _align_grid_var_dims and _align_plot_var_dims return the same values under the same names of dimensions, in a determined order, and raise exactly if a needed dimension is missing.", "quantifier": "for all data (with NaN), all combinations of given and inferred values, both values of robust; all arrays, names and orders of dimensions, all orders in which a set is listed", "why_tests_cant": "No test calls these helpers; which of the sixteen combinations of arguments raise, and that the limits contain every value, are statements about all inputs.", "anchors": ["ndsl/viz/fv3/_plot_helpers.py:6-58", "ndsl/viz/fv3/_plot_helpers.py:61-125", "ndsl/viz/fv3/_plot_helpers.py:153-177"]}
{"id": "C120", "title": "Copies of temporaries hold the quantities of an object; two copies are the same if they hold the same", "statement": "copy_temporaries(obj, max_depth) holds exactly the Quantity attributes of obj and of the pyFV3 objects within it, at most max_depth steps down, under their names; assert_same_temporaries(a, b) passes exactly if a and b hold the same names with close values, and otherwise its message names exactly the ones that differ.", "quantifier": "for all graphs of objects (also cyclic ones), all names and modules of attributes, all depths, all pairs of dictionaries, and every comparison of arrays", "why_tests_cant": "No test uses these functions; which attributes are found and which differences go unnoticed depends on all names, modules and depths.", "anchors": ["ndsl/stencils/testing/temporaries.py:8-23", "ndsl/stencils/testing/temporaries.py:26-47"]}
{"id": "C121", "title": "Backends are what their names say, and refined transients are laid out in the order of the loops", "statement": "Backend(s) can be made exactly for the listed names that GT4Py can run, and the parts of s are its strategy, framework, device and loop order; two backends are equal exactly if their names are, and comparing with anything else gives False; backends with one GT4Py name differ in strategy only; names for paths are different and have no colon. Orchestration merges maps from the outermost loop to the innermost, and a refined transient keeps every element at its own place in memory, the axis of the innermost loop varying fastest.", "quantifier": "for all strings, all registrations of GT4Py, all shapes with any number of data dimensions, all axes and loop orders", "why_tests_cant": "The tests build the thirteen names and one wrong one; injectivity of addresses and the order of strides concern all shapes, and no test looks at strides with data dimensions.", "anchors": ["ndsl/config/backend.py:7-55", "ndsl/config/backend.py:83-199", "ndsl/dsl/dace/orchestration.py:200-235", "ndsl/dsl/dace/stree/optimizations/refine_transients.py:58-76"]}
{"id": "C122", "title": "Maxima, minima and counts of xumpy are those of the array or of the compute domain", "statement": "xumpy.max, min and count_nonzero of an array are about all its elements, of a Quantity about its compute domain only, whatever the halo holds: for every place of the result they give the greatest, least number or the number of nonzero elements with these coordinates on the axes that stay, NaN if a NaN is among them; they raise exactly if an axis is missing or repeated or a result has no elements. max_on_horizontal_plane and min_on_horizontal_plane put the extremes of every horizontal plane in the output, and a quantity as output keeps its halo.", "quantifier": "for all shapes, values with NaN and infinities, origins and extents, axis arguments (none, numbers, tuples, negative)", "why_tests_cant": "The tests compare one random array without NaN with numpy; no test reduces a Quantity with a halo, uses negative, repeated or missing axes, or a Quantity whose vertical axis is first.", "anchors": ["ndsl/xumpy/minmax.py:15-106", "ndsl/xumpy/count_nonzero.py:10-42", "ndsl/quantity/quantity.py:272-274", "ndsl/quantity/quantity.py:353-355", "ndsl/quantity/bounds.py:133-166"]}
{"id": "C123", "title": "Basic stencils change the domain and nothing else, and select, average, sign and dim give what they say", "statement": "copy, set_value, adjustmentfactor_stencil, adjust_divide_stencil, average_in, set_value_2D and set_IJ_mask_value set every point (column) of the domain and leave the others. select_k puts in out_field, for each column, the value of in_field at the level whose number in k_mask is k_select (the last one if there are several) and keeps columns without one. average_in gives a number between the two, sign(a, b) has the size of a and the sign of b, dim(a, b) is zero exactly if a <= b and the rounded difference otherwise.", "quantifier": "for all domains, fields, masks and selections, and all floating-point numbers of any binary precision and range (single and double among them), with signed zeros, infinities and NaN", "why_tests_cant": "The tests run four of the stencils on constant fields without halo; select_k, average_in, sign and dim are not tested, and the claims about rounding concern all floating-point numbers.", "anchors": ["ndsl/stencils/basic_operations.py:15-148"]}
{"id": "C124", "title": "A wrapped halo updater exchanges what its names stand for at the time of the call", "statement": "However a program mixes assignments to the attributes (entries) of the state with calls of start, wait, update and interface, each start and update hands to the halo updater the quantities that the x and y names stand for at that moment, in the order of the names, update waits at once, and interface synchronizes the current pair. A program runs through if the names are known whenever an exchange starts. check_for_attribute says whether the state has the attribute.", "quantifier": "for all states (dataclass or dictionary), lists of names, and sequences of assignments and calls", "why_tests_cant": "There is no test of the class; the orchestrated model relies on rebinding of attributes between calls, for every sequence of calls.", "anchors": ["ndsl/dsl/dace/wrapped_halo_exchange.py:18-83"]}
{"id": "C125", "title": "The ranks storing in a Zarr monitor meet in the same calls and each value goes in the array of its name", "statement": "When all ranks make the same sequence of store and store_constant calls on a ZarrMonitor, with the same names in whatever order each rank's dictionary has them, every rank gets through, every broadcast and barrier is matched, and each value of each rank is written at its time index in the array of its name and nowhere else; rank 0 alone writes the times. Rank 0 accepts such a sequence if the states have the same names, no array is made twice and the times have one calendar. A call that one rank refuses is refused by all.", "quantifier": "for all sequences of calls, dictionaries and orders of their entries, existing arrays in the store, and any number of ranks (each compared with rank 0)", "why_tests_cant": "The tests use a LocalComm that plays the ranks one after the other with the same dictionary order; orders of entries, interleavings of calls and refusals on rank 0 alone are not covered.", "anchors": ["ndsl/monitor/zarr_monitor.py:55-119", "ndsl/monitor/zarr_monitor.py:154-233", "ndsl/monitor/zarr_monitor.py:276-374"]}
{"id": "C126", "title": "A rank in Run mode finds the compiled stencils of itself or of an equivalent rank", "statement": "Ranks compile stencils in different directories. After a job that builds, a job in Run mode with the same layout finds in the directory of each rank what that rank compiled; with minimal caching each rank finds what a rank at the same edges of its tile compiled, whatever the number of ranks.", "quantifier": "for all layouts, numbers of tiles, orders in which the ranks finish, earlier contents of the disk and ranks", "why_tests_cant": "Tests run on one rank or a mocked communicator with fixed layouts; directories are shared between separate jobs.", "anchors": ["ndsl/dsl/__init__.py:43-48", "ndsl/comm/decomposition.py:56-96", "ndsl/dsl/stencil_config.py:53-60"]}
{"id": "C127", "title": "Sizers made from a namelist fit the subtiles of the partitioner", "statement": "SubtileGridSizer.from_namelist reads either format of namelist; the compute domain of every quantity it sizes, cell-centred or staggered, is the rank's part of the array over the whole tile as the partitioner cuts it, so that scattered fields fit. Evenly divisible tiles with more cells than halo points are accepted on every rank, namelists of no known format are refused, and for TilePartitioners the rank given does not matter.", "quantifier": "for all namelists, partitioners (layouts and ratios), ranks and lists of spatial dimensions", "why_tests_cant": "Tests use square layouts that divide the tile evenly and the default rank.", "anchors": ["ndsl/initialization/subtile_grid_sizer.py:26-127", "ndsl/comm/partitioner.py:128-142", "ndsl/comm/partitioner.py:202-235"]}
{"id": "C128", "title": "Reports of comparisons list the failed points with their errors and name the worst", "statement": "If a comparison fails, LegacyMetric.report lists every failed point once with its values and errors, counts them and names the one with the greatest error as the worst; MultiModalFloatMetric.report has one row for each point that is not NaN on both sides, sorted as asked with the worst first, whose marks say which of the three comparisons passed, and its head counts failures, changing columns and changing points. A report is made for every comparison.", "quantifier": "for all arrays of floating-point numbers (NaN and infinities included), thresholds, roundings, ways of sorting and orders of equal distances", "why_tests_cant": "Tests compare a few values; the report of a failure is text that is looked at by a person only when a test fails, for any array.", "anchors": ["ndsl/testing/comparison.py:116-181", "ndsl/testing/comparison.py:257-276", "ndsl/testing/comparison.py:328-435"]}
{"id": "C129", "title": "open_restart gives every rank its part of the newest variable, and fails alike on all ranks", "statement": "open_restart gives every rank, for every property asked for, its part of the variable with the property's restart name in the last of the tile's files that holds one (core, surface winds, tracers, surface, physics), with the property's units and with its dimensions in the place of the last ones; the time is that of the coupler file; nothing is loaded that was not asked for or has no units; tracer properties add to the standard ones and replace none; a rank depends on the files of its own tile and on the coupler file only; the files of the surface and of the physics may be missing; a directory without restart files is reported by a ValueError, on every rank.", "quantifier": "for all disks, directories, labels, tiles and ranks, all tables of properties and all names asked for, as a collection or as an iterator", "why_tests_cant": "The tests open one fixture directory per case on a rank per tile; they cannot cover every distribution of variables over files, and a rank that waits forever for a root that raised is not something a test on one process sees.", "anchors": ["ndsl/restart/_legacy_restart.py:23-72", "ndsl/restart/_legacy_restart.py:85-96", "ndsl/restart/_legacy_restart.py:114-129", "ndsl/restart/_legacy_restart.py:142-166"]}
{"id": "C130", "title": "The momentum correction factors are the axial angular momentum of a unit wind along the edges", "statement": "l2c_v and l2c_u are, for every edge of the compute domain, the eastward component of the unit vector along the edge at its midpoint times the distance of the midpoint from the axis, i.e. the component along the edge of a rotation of unit angular velocity about the axis, which is the cosine between the axis and the normal of the edge's great circle. They lie between -1 and 1, change sign with the direction of the edge, are the same for all edges of one great circle in the same sense, do not depend on the layout, and are 0 in the halo.", "quantifier": "for all edges with ends neither equal nor antipodal, all grids, sizes, offsets and widths of the halo, in exact arithmetic", "why_tests_cant": "The translate tests compare one resolution with serialized Fortran output; the meaning of the factors, their sign, and agreement between tiles and layouts concern all grids.", "anchors": ["ndsl/grid/geometry.py:238-263", "ndsl/grid/generation.py:2923-2944", "ndsl/grid/gnomonic.py:702-732"]}
{"id": "C131", "title": "Merging the loops of a whole program moves nothing past anything and ends", "statement": "The CartesianAxisMerge transformation, applied to any schedule tree, comes to an end; in the tree it leaves every tasklet, callback and other working node occurs exactly once, in the order of the program and inside the same for loops and conditions in the same nesting; callbacks and nodes that are no tasklets are under as many maps as before, and in the same maps over other axes; every node runs at the same indices of the axis as before, unless it was put under one more map; there are not more maps than before; no two neighbouring maps over the axis that could be merged are left; applied again it changes nothing; changes that led to no merge are undone; and with eager=False it does not over-compute.", "quantifier": "for all schedule trees and every decision which maps may be merged", "why_tests_cant": "The tests transform a handful of small programs and count the maps; that nothing is lost, duplicated or reordered, and that the loop of passes ends, concerns every nesting of maps, loops, conditions and tasklets.", "anchors": ["ndsl/dsl/dace/stree/optimizations/axis_merge.py:56-99", "ndsl/dsl/dace/stree/optimizations/axis_merge.py:169-249", "ndsl/dsl/dace/stree/optimizations/axis_merge.py:324-467", "ndsl/dsl/dace/stree/optimizations/tree_common_op.py:6-34"]}
{"id": "C132", "title": "A halo update exchanges all the given quantities with every neighbour or is refused before any message", "statement": "halo_update and vector_halo_update of a list of quantities post exactly one receive from and one send to each neighbour, the message holding every quantity once, in order (for vectors x and y alternating), if the list is not empty, the number of halo points is not zero, all quantities have one dtype and x and y are of the same number; otherwise an exception (RuntimeError for no quantities, ValueError for no halo points, NotImplementedError for different dtypes) is raised before any message is posted. The same holds of updaters made from specifications, which exchange as many quantities as they have specifications.", "quantifier": "for all lists of quantities and specifications, numbers of halo points, dtypes and sets of neighbours", "why_tests_cant": "The tests exchange one or two quantities of one dtype and never lists of different length or a mix of specifications; what then happens depends on where among the ranks, specifications and messages the mismatch is found.", "anchors": ["ndsl/comm/communicator.py:405-440", "ndsl/comm/communicator.py:471-529", "ndsl/comm/communicator.py:582-615", "ndsl/halo/updater.py:96-211", "ndsl/halo/updater.py:222-275", "ndsl/halo/data_transformer.py:192-289", "ndsl/halo/data_transformer.py:418-462"]}
{"id": "C133", "title": "A periodic tile is exchanged only where every direction has a rank of its own", "statement": "On a TileCommunicator of ny by nx ranks, start_halo_update, start_vector_halo_update and start_synchronize_vector_interfaces are carried out if ny and nx are at least 3, with one message to and one from each of the eight ranks around, which are different and none the rank itself, and otherwise raise NotImplementedError before any message. Updaters made from specifications cannot exchange wrong data on a smaller layout either: their start raises before any message. On a communicator with more ranks than the layout, each group of ny * nx ranks is a tile of its own.", "quantifier": "every layout, rank, list of quantities or specifications and number of halo points", "why_tests_cant": "All layouts and ranks; what goes wrong on a small layout needs a run with MPI on each of them.", "anchors": ["ndsl/comm/communicator.py:TileCommunicator.start_halo_update", "ndsl/comm/communicator.py:TileCommunicator.start_vector_halo_update", "ndsl/comm/communicator.py:TileCommunicator.start_synchronize_vector_interfaces", "ndsl/comm/communicator.py:Communicator.get_scalar_halo_updater", "ndsl/comm/communicator.py:Communicator.get_vector_halo_updater", "ndsl/comm/partitioner.py:TilePartitioner.boundary"]}
{"id": "C134", "title": "Scattering and gathering the globe is scattering and gathering each of the six tiles", "statement": "On a CubedSphereCommunicator, scatter gives rank t * T + r (T ranks per tile) the region of tile t that scatter on that tile alone gives rank r, and is refused if that is refused; gather writes tile t of the global quantity as gather on that tile alone, and nothing else. The gathered quantity has the tile as first dimension and extent 6 there, and gathering what was scattered gives back the quantity with its extent. A quantity whose first dimension is not the tile, or that does not have six tiles in its compute domain, is refused.", "quantifier": "every layout, edge ratio, rounding of divisions, list of dimensions, extent, contents and rank", "why_tests_cant": "All layouts, dimensions and sizes; runs on six or more ranks with MPI.", "anchors": ["ndsl/comm/communicator.py:Communicator.scatter", "ndsl/comm/communicator.py:Communicator.gather", "ndsl/comm/communicator.py:CubedSphereCommunicator._get_gather_recv_quantity", "ndsl/comm/communicator.py:CubedSphereCommunicator._get_scatter_recv_quantity", "ndsl/comm/partitioner.py:CubedSpherePartitioner.subtile_slice", "ndsl/comm/partitioner.py:CubedSpherePartitioner.global_extent", "ndsl/quantity/bounds.py:BoundedArrayView._get_compute_index"]}
{"id": "C135", "title": "A constant stored by a NetCDFMonitor is in its file, with the value stored last", "statement": "NetCDFMonitor.store_constant writes each entry of the state, on the root rank, to the file constants_<name>.nc in the directory given to the monitor, under the variable <name>. After any number of calls each file has the value stored last; other variables of a file that was there are kept, and no other file is changed, in particular none written by store. Any state that store accepts is accepted. A call that raises leaves the constants stored before it in place.", "quantifier": "every content of the file system, every sequence of states, every name, dimensions and value, any outcome of writing a file", "why_tests_cant": "All histories of calls and contents of the directory; needs MPI, xarray and netCDF4, and a failing write cannot be provoked.", "anchors": ["ndsl/monitor/netcdf_monitor.py:NetCDFMonitor.store_constant", "ndsl/comm/communicator.py:Communicator.gather_state"]}
{"id": "C136", "title": "Selecting by dimension names does not depend on the order of the dimensions", "statement": "q.sel(name=entry, ...), and the same on a corner or interior view, gives along each named dimension the points the view gives for that entry and the whole compute domain along the others; dimensions given by a number are dropped, the others keep the order of the quantity. Two quantities that differ only in the order of their dimensions give the same values for the same names. A name that is not a dimension of the quantity is refused.", "quantifier": "every list of dimensions with origin, extent and storage, every view, every set of integers and slices that stay inside the storage and step forward, every content", "why_tests_cant": "All orders of dimensions, views, halos and slices.", "anchors": ["ndsl/quantity/quantity.py:Quantity.sel", "ndsl/quantity/bounds.py:BoundaryArrayView.sel"]}
{"id": "C137", "title": "CubedToLatLon exchanges the halos of the winds it converts", "statement": "A CubedToLatLon of order 2 writes ua and va from the u and v it is called with and nothing else. One of order 4 first brings the halos of u and v up to date, with the other ranks or on one rank from the opposite side, and then writes ua and va from them; no other array changes. An order other than 2 and 4, and on several ranks a state without u or without v, is refused when the object is made.", "quantifier": "every order, number of ranks, state, memory and arguments; any stencils and any exchange", "why_tests_cant": "All states and arguments; the exchange needs MPI and the stencils a compiler, and a test that passes the state's own winds cannot see whose halos are exchanged.", "anchors": ["ndsl/stencils/c2l_ord.py:CubedToLatLon", "ndsl/dsl/dace/wrapped_halo_exchange.py:WrappedHaloUpdater"]}
{"id": "C138", "title": "Edge regions of stencils are the edges of the tile", "statement": "Let the sizers of a tile have been made on all its ranks, and a rank's grid indexing from its own sizer and the communicator. Whatever window of its storage a stencil runs on (storage of at most 32767 points), i_start and j_start select, among the rank's cells and their halo, exactly the first column and row of cells of the tile, i_end and j_end exactly the last, and nothing on ranks that do not hold them.", "quantifier": "every layout, tile size, ratio, halo width, rank of a tile or of the cube, axis, stencil window", "why_tests_cant": "The flags, the block sizes, the refusal of blocks narrower than the halo and the offsets live in four classes; a test runs one layout, and a region on the wrong rank only changes values near a tile's edge.", "anchors": ["ndsl/dsl/stencil.py:GridIndexing.from_sizer_and_communicator", "ndsl/dsl/stencil.py:GridIndexing.axis_offsets", "ndsl/initialization/subtile_grid_sizer.py:SubtileGridSizer.from_tile_params"]}
{"id": "C139", "title": "The data-dependency check of two loops is exact and safe", "statement": "no_data_dependencies accepts two loops if and only if nothing that the first writes is read by the second, however deep in the loops; restricted to K it decides as the check along K. Loops that it accepts can be merged along any axis without a change of the results. has_dynamic_memlets is true exactly if some tasklet of the two loops has a dynamic memlet.", "quantifier": "every pair of schedule trees, every axis, every computation of the tasklets, every memory", "why_tests_cant": "A wrong acceptance shows only when two merged loops use the same array in a certain order; the trees are produced by a compiler from any user code.", "anchors": ["ndsl/dsl/dace/stree/optimizations/memlet_helpers.py:no_data_dependencies", "ndsl/dsl/dace/stree/optimizations/memlet_helpers.py:has_dynamic_memlets"]}
{"id": "C140", "title": "Programs are built in the folder where the ranks of their code path look for them", "statement": "Once a DaceConfig for an orchestrated backend is made, every program that the process builds under it goes into root/.gt_cache_<code path>/dacecache/<name>, the folder that get_sdfg_path reads for every rank of that code path, whatever stencils and other configurations the process makes in between; ranks share a folder exactly if they share the code path. In Run mode the configuration is refused exactly if the directory of the code path is missing, and a refusal or a backend without orchestration changes no setting.", "quantifier": "every communicator, layout, backend, mode and file system, and every history of configurations and stencils made afterwards", "why_tests_cant": "The settings are global to the process and changed by four different constructors; a wrong folder shows only for certain orders of them, and only when a later run, or another rank, looks for the program.", "anchors": ["ndsl/dsl/dace/build.py:set_distributed_caches", "ndsl/dsl/caches/cache_location.py:get_cache_fullpath", "ndsl/dsl/stencil_config.py:StencilConfig.__init__", "ndsl/dsl/stencil.py:FrozenStencil.__init__"]}
{"id": "C141", "title": "A pipeline runs its passes in order, and reports on them change nothing", "statement": "StreePipeline.run applies every pass once, in the order given, each to the tree as the one before has left it, and stops at the first that raises. With verbose the result is the same; in addition there is for every pass a report in the cache directory, under the number and name of the pass, with the tree as that pass has left it, and no other file is touched. Passes that are given are used, an empty list too.", "quantifier": "every list of passes with any names, every tree, every file system", "why_tests_cant": "Passes are arbitrary transformations and reports of different passes may overwrite each other for certain names and numbers; a test tries a few passes.", "anchors": ["ndsl/dsl/dace/stree/pipeline.py:StreePipeline.run", "ndsl/dsl/dace/stree/pipeline.py:CPUPipeline.__init__", "ndsl/dsl/dace/stree/pipeline.py:GPUPipeline.__init__"]}
{"id": "C142", "title": "The Locals of a LocalState can be read only while the runtime that made it is at work", "statement": "A LocalState can be made only while a method of an NDSLRuntime is running, and holds Locals only. Each of its Locals, however deep in nested states, can be read exactly while the runtime that was innermost when it was made is somewhere on the call stack; any other read raises. Made with make_as_state, everything in it is a Quantity that can be read from everywhere.", "quantifier": "every call stack when the state is made and when it is read, every tree of nested classes, every path", "why_tests_cant": "The guard inspects the Python call stack; which frames are there depends on the whole program around the state, and a test has a few fixed ones.", "anchors": ["ndsl/quantity/state.py:LocalState.__post_init__", "ndsl/quantity/state.py:LocalState.__getattribute__", "ndsl/quantity/state.py:LocalState._check_only_locals", "ndsl/internal/python_extensions.py:find_first_NDSLRuntime_caller", "ndsl/internal/python_extensions.py:find_all_NDSLRuntime_callers"]}
{"id": "C143", "title": "Best-guess comparison of two files compares the same points", "statement": "For each variable of A, best_guess_diff takes the variable of B with the same name, or else the one that the mapping names; without either it is skipped. Two variables are compared exactly if their shapes agree, up to a halo that one of them has around columns and rows; then every point is compared with the same point of the compute domain, and all other variables are skipped. Of five dimensions the first savepoint and rank are used.", "quantifier": "every pair of files, every name mapping, every halo width, every shape", "why_tests_cant": "Shapes, halos and names of the two files are arbitrary; a comparison of shifted points still gives numbers.", "anchors": ["ndsl/stencils/testing/best_guess_diff.py:main"]}
