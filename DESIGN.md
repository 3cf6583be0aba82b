# Formal model of NDSL — design

Target: NOAA-GFDL/NDSL at the pinned commit in `/repo`.  The code is read as text only; nothing is
executed.  The model is written in Coq 8.16.1 under `rocq/theories` (logical name `Verif`).

## Conventions

* One topic per group of files: `XModel.v` (definitions only, each citing file and lines of `/repo/ndsl`),
  `XSpec.v` when the specification needs definitions of its own (never using model helpers),
  `XProofs.v` (lemmas), `XProps.v` (only the property theorems, `Print Assumptions`, and the examples that
  show that the hypotheses are satisfiable).
* Integers are unbounded (`Z`, `nat`), as in Python.  Exceptions are values (`option`, `result`).
* numpy arrays are total functions from integer index tuples to values together with an explicit shape when
  the shape matters.  Every access the theorems talk about is proved to be inside the shape.
* Floating point: only where it influences control flow; then the float result is an arbitrary oracle
  (universally quantified function), so the theorem holds for every rounding behaviour.  Numerical kernels
  (tridiagonal solver) are modelled over an arbitrary field: rounding is outside the model.  Spherical geometry is
  modelled over the real numbers of the standard library (exact arithmetic); operations without a value (a quotient
  by zero, an arc cosine outside [-1, 1]) are `None` or an explicit NaN case.
* Suffixes: `_partial` = part of the English claim; `_refuted` = the claim is false of the code, with a witness.

## Plan per property

| id | modelled | how proved |
|----|----------|-----------|
| C01 | `TilePartitioner` edges and corners on `Z` | div/mod arithmetic, closed form in (row, col) |
| C02, C03 | `CubedSpherePartitioner` edges/corners, rank transforms | closed form in (tile,row,col); case split on 6 tiles |
| C04 | boundaries of both partitioners | from closed forms |
| C05-C07 | `_subtile_extents_from_tile_metadata`, `_rank_slice…`; ratio rounding as oracle | induction over the slice loop |
| C08 | `extent_from_metadata` | algebra; refuted for non-uniform decompositions |
| C09 | scatter/gather over function arrays | from C05 |
| C10, C11 | `get_boundary_slice`, `HaloExchangeSpec` | case analysis + lia |
| C12, C13 | updater start/wait with message map, CPU pack/unpack | composition of C01-C03, C10, C14 |
| C14 | `rotate.py` | index algebra |
| C15, C16 | index lists, CUDA kernels as per-thread stores in any order, index cache | permutation invariance of disjoint stores; cache key collision witness |
| C17, C18 | `VectorInterfaceHaloUpdater`, tag counters | C02 + index algebra; tag collision witness |
| C19-C21 | `LocalComm` as a state machine | trace induction |
| C22 | `HaloUpdater` life cycle as state machine | trace induction |
| C23 | `BUFFER_CACHE` as state machine | invariant by induction |
| C24 | `CachingComm` writer/reader as state machines over programs | simulation; witnesses for the failing programs |
| C25 | `bounds.py` index arithmetic | case analysis |
| C26 | `transpose` | permutation lists |
| C27, C28 | `SubtileGridSizer`, `GridIndexing` | lia |
| C29-C31 | compile-rank decision functions | closed form |
| C32 | `_compute_hash` input byte strings | witness; exact characterisation |
| C33 | `Timer` | trace induction against an event-log specification |
| C34, C35 | thresholds, clipping | order algebra over Q |
| C36 | `flatten_nml_to_dict` | list induction |
| C37, C38 | monitors | trace induction; C05 |
| C39, C40 | Thomas algorithm over a field; column scans | induction over levels |
| C41, C50 | corner tables and loops; mock exchange | index algebra |
| C42, C43 | loop merge guards, dependency check over a small loop language | induction, commutation |
| C44 | argument hash reuse | witness + sufficient condition |
| C45 | class-level view cache | trace induction; witness |
| C46, C47 | `get_pair_rank`, `get_kstarts` | lia / list induction |
| C48 | comparison metrics | case analysis; witnesses |
| C49 | debugger file naming | trace induction over call trees; witness for recursion |
| C51, C52 | state/factory dimension tables | list induction |
| C53 | dictionary forms | case analysis; witness |
| C54 | name tables | computation on the finite table |
| C55-C57 | shape comparison, hit totals, NaN halo | lia / induction / witness |
| C58 | rotation matrices over a ring; longitude/latitude version over R | ring + sin²+cos²; C70; witness at the pole |
| C59 | eta validation | list induction over Q |
| C60 | `vector_halo_update` end to end: vector pack/unpack, `rotate_vector_data` | C13's net with two components; sign and component exchange by case on the quarter turn |
| C61 | `axis_offsets` | case analysis |
| C62 | `scatter_state`, `gather_state`: dictionaries and matched collectives | fold over names with `Decomp*`'s scatter/gather; round trip by C09 per name; witnesses for lost time and differing order |
| C63 | `refine_transients.py`: collection of maps and ranges, reduction, rewriting of memlets | projection of the transient's elements; invariant: an element not overwritten through its image keeps its value; witnesses for values carried between loops |
| C64 | per-rank sorted key lists, successive Gathers matched by position, mean and SYPD over Q (RanksModel) | sorted lists with the same members are equal, induction over the successive gathers; witnesses for differing timers and for a root other than 0 |
| C65 | kinds of arguments by what their attribute `data` is, sorted items, matched exchanges (TwinModel) | sorted names of both ranks are the same list, induction over it; the test isinstance(x.data, np.ndarray) fails for every numpy array, hence nothing is exchanged |
| C66 | Python's binding of arguments, the two paths of __call__ and its `checked` flag, lookup of __call__ on the class, field origins (FrozenModel) | induction over the sequence of calls with the binding as invariant; witnesses for Build mode and for an extra argument |
| C67 | a heap of arrays overwritten between calls, the two default dictionaries, assembly of the dataset (SnapModel) | invariant relating both dictionaries to the history by induction over operations, then over the variables; witnesses for colliding names and for a change of shape |
| C68 | call counters per savepoint, acceptance of an array as an oracle (SnapModel) | counter = number of calls since the trial began, by induction while nothing failed; witness for calls after a failure |
| C69 | widths, indices, conversions and edges of Grid over the partitioner model (TgridModel) | division with remainder; witnesses for a rectangular and an uneven layout |
| C70 | conversions, normalisation and the 1e-10 special case, over R | trigonometric identities; uniqueness of an angle from its sine and cosine; witness at the pole |
| C71 | haversine formula, midpoint, dot product distance over R | haversine = arc cosine of the dot product; spherical triangle inequality from the Gram determinant; witness for antipodes |
| C72 | angle by cross products with the NaN/zero case, spherical excess | angles between tangent vectors; additivity of plane angles; witnesses for degenerate cells |
| C73 | the scalar formulas for one point over R | the formulas are those of an orthogonal matrix; stereographic distance of the latitude map; witness near the pole |
| C74 | cross products and normalisation over R | double cross product; derivatives of the position |
| C75 | reflection formula over R | vector algebra |
| C76 | both functions, array update by array update, over R | closed form of every corner, proved for the local and for the global function; uniqueness of the arc tangent |
| C77 | `mirror_grid` on the first tile as written (loop order, `put` into the rank's arrays, the two zeroed middle lines), over any number type; reference = signed mean of the four mirrored corners of the whole tile | loop invariant over the product of the two index ranges; mirrored parts of a whole-tile array; binary64 witness with stdlib SpecFloat |
| C78 | the rotation and forcing loop of `mirror_grid` row by row, including the loop variable `i` that is read after the loop that set it has ended; the rotation is any function | row-by-row loop invariant; comparison of the stored value with the one for the global corner |
| C79 | `_init_dgrid` for one rank: four calls of `local_gnomonic_ed`, views of the arrays, `mirror_grid` with the real rotations, over the real numbers; the cube is the one of PartSpec.v that C02 and C03 use | the four sections are parts of the closed form of C76; the averages leave it unchanged; each rotation is a signed permutation of the axes; the forced values equal the rotated ones; uniqueness of longitude and latitude of a direction; max-norm argument for distinctness |
| C80 | EdgeModel: edge_factors, efactor_a2c_v and their helpers on numpy-like arrays with slices; points, midpoint and distance arbitrary; a rank's arrays are windows of the tile's | closed forms of the slices, one lemma per edge reused through the code's flips and transposes; the split index by cases (all, some, none selected) |
| C81 | the four functions and `_fill_halo_corners`, array by array, over R; the ranks hold windows of the tile's arrays | (a x b) x p is orthogonal to p, lies in the plane of a and b, and its product with b - a is (1 - a.b)(a + b).p > 0; index arithmetic of the flags and fill regions for every layout; such a vector is unique |
| C82 | WindModel.v: unit_vector_lonlat, calculate_grid_z, calculate_grid_a, the sine at the cell centre, c2l_ord2 and ord4_transform over the reals | the frame (east, north, up) is orthonormal, so the determinant of z is the sine between the directions and 2a is its inverse; polynomial identities for the weights; index arithmetic for the layout |
| C83 | WindModel.v: mock_exchange as eight slice assignments in sequence | case analysis over the nine blocks, each assignment decided by linear arithmetic; witness for the last interface row |
| C84 | TrigModel: raw_cos, snap, sine, adjust, calculate_supergrid_cos_sin, corner_fix, cell_trigonometry on windows of a tile | spherical_cos is the product of the unit tangents (Lagrange identity); every step at a corner changes only its own 3x3 block and reads only cells outside the blocks, so the four commute; indices of a rank are translated to the tile |
| C85 | TrigModel: calculate_trig_uv (views that are changed in place included), calculate_divg_del6 | the corners as calculate_trig_uv sees them (seen) from C84's lemmas; edges of the tile are translated from flags; for three corners and the first cell of the fourth the two means have the same two terms |
| C86 | arrays as a shape and a value for each index list; numpy zeros, slice assignment with clipping and broadcasting, repeat, tile, moveaxis, reshape, squeeze; every branch of make_storage_data | lemma on assignment of data that fit, for every number of axes; then each branch |
| C87 | use_shape with the loop that reuses the name axis, the call of make_storage_data, slices of the output and squeeze | composition of the theorems of C86 with a lemma that the window of the data returns them |
| C88 | get_area, _compute_area_cube_sphere on the corners of init_dgrid and shift_lon, over the reals | surface element from the partial derivatives of the central projection; closed form of the rectangle formula G(x,y)+G(x',y')-G(x,y')-G(x',y), fundamental theorem of calculus (Coquelicot) and mean value theorem; telescoping sum |
| C89 | great_circle_distance_along_axis, _compute_dxdy_cube_sphere (before the halo update) on the corners of init_dgrid and shift_lon | the angle between two points of a row is a difference of arc tangents; telescoping; on an edge the arc tangent is the equal-angle coordinate |
| C90 | CgridModel.v: slices, views and flips of the arrays as in the code, over the reals | value of every element of the array after all assignments, reflection in the plane of an edge keeps areas (CgridProps.v); the documented rule for corners compared with the result on the cube with one cell per tile |
| C91 | CgridModel.v: the assignments to slices, rows and columns, and the views handed to the edge functions | value of every element after all assignments (CgridProps2.v), with C71 for the angles |
| C92 | CgridModel.v: the window [3:-4, 3:-4], the reduction on each rank and the reduction over the ranks | induction over the elements and the ranks; which corners of the cube are lower left corners of a cell, by the edges of the six tiles (MinmaxProps.v) |
| C93 | LazyModel.v: attributes, properties and the methods that fill them as programs with collective operations, the numerical work as arbitrary functions | an invariant (exactly the attributes of some groups are set, each to a fixed value) kept by every property; determinism of the runs (LazyProofs*.v, LazyProps.v) |
| C94 | LazyModel.v: the metadata of every quantity as allocated and cast; the table of GridDefinitions (LazyProps.v) | the metadata of the value that the invariant of C93 gives each attribute |
| C95 | HelpModel.v: the containers as lists of fields filled by reads of LazyModel.v; the table of the properties | the invariant of C93 over the reads that fill each container; the two tables of names composed, name by name |
| C96 | VertModel.v: the object with its three caches, a program is a list of reads and assignments; validation from ColumnModel.v over the real numbers | invariant of the caches over the list of operations; logarithmic mean by 1 + x < exp x; telescoping sum |
| C97 | AllocModel.v: arrays as functions on index tuples, numpy slice assignment with broadcasting, the constructor and the factory; sizes from GridModel.v, the view from ViewModel.v | induction over the axes; positions inside the domain are located exactly, outside not at all |
| C98 | AllocModel.v: DataArrays, the two conversions, from_data_array with its defaults, Datasets with one size per dimension, write_state and read_state | the field of the quantity read is the array itself; induction over the variables of the state |
| C99 | SaveModel.v: the recursive saving, the tree of Datasets, the recursive loading into a memory map; update_copy_memory from StateModel.v | by name at each level: the entry of the memory map is the field of the quantity; then C52 |
| C100 | MakeModel.v: a class as the tree of its fields, states as trees of the quantities of AllocModel.v, the swap of field types in make_as_state as a change of the class | mutual induction over the class; the views and assignments of AllocProofs.v for each field |
| C101 | RunModel.v: classes as chains of __init__ bodies wrapped as in __init_subclass__, a heap of objects, the global top level, types with the per-object classes of orchestrate | mutual induction over classes and bodies: a frame lemma, counting of calls, exactness of the check by induction over the recursion limit, a type invariant for the guard |
| C102 | CoriModel.v: GridData as its latitudes and the two caches, over the quantities of AllocModel.v with real elements | invariant of the caches over the list of reads; sine bounds of the standard library |
| C103 | CartModel.v: constructor and _init_cartesian over the arrays of AllocModel.v, slices from DecompModel.v, elements are real numbers or NaN | numpy assignments to parts of an array, even decompositions, linear arithmetic over R |
| C104 | StenModel.v: the factory's functions over GridModel.v and Dict.v; a stencil is its function, origin, domain and externals | case analysis on the dimensions, updates of dictionaries, linear arithmetic |
| C105 | RedModel.v: arrays with a memory order, quantities with metadata and a view of their own; mpi4py's object and buffer reductions as documented | row-major positions of indices, induction over the ranks |
| C106 | LoadModel.v: the caches as a dictionary of directories over the configurations of CompileModel.v | induction over the builds, injectivity of directory names, C29 for the compiling ranks, rational arithmetic |
| C107 | PertModel.v: IEEE rounding to nearest even by Flocq over the reals; draws as arguments | gap below a floating-point number, midpoint lemmas of Flocq, symmetry in the sign, induction over arrays and dictionaries |
| C108 | OrchModel.v: classes, objects with addresses and a life, functions with annotations, bound callables and their cache; a call is the nest of programs it goes through | invariants over histories: entries of the cache keep their objects alive, live objects have different addresses; for one object the cache, its attributes and its class follow from its part of the history |
| C109 | PlotModel: the recursion of _segment_plot_inputs on arrays (with fuel), the mask of the antimeridian and the centring of longitudes over the real numbers, all tiles, the handles and their update | A recursion on windows (places in the whole array) that the model mirrors; by induction on the fuel its windows have each good cell once. The mask by cases on the distance to the eastern edge of the map. Left: corners on the antimeridian itself, longitudes outside [0, 360), cells wider than 90 degrees, new values with another pattern of NaN |
| C110 | the whole conversion of one savepoint name with arrays of any shape over any element type; xarray's assignment with broadcasting; the dataset's common dimension 'rank'; loading | round trip by computing each stage on regular data; the others by inverting a conversion that was made (what is kept per rank, the shape check, assignment); positions in the collapsed array by induction over ranks |
| C111 | override matching and application, the GPU minimum, both test functions with the loop over variables (failing and passing lists, subtests), missing data, skip and xfail; layout guessed from the number of processes; thresholds, data, metrics and computation abstract | loop invariant: the failing list is empty exactly while all variables so far agreed; thresholds by cases of the entry with get-after-put lemmas; repeated application is idempotent up to lookups |
| C112 | option strings split at commas, file names, class names, sets with any iteration order, sorting, ranks, calls, the nested loops that make the cases, both communicators | split and join are inverse; sorting a permutation gives the same list; membership, absence of repetition and order of the cases by induction over ranks and names |
| C113 | descriptions as state, lookup of names in the inputs, serial names, starts, vertical axis, index variables, window, sequence of calls | inputs differ from those of the call only at serial names already done, which hold arrays; a description with its names replaced is a fixed point of the next update when the names keep their values; induction over variables and calls |
| C114 | tables of extents and shapes, `_serialize_slice`, numpy slice assignment and slicing, transposing with kaxis, both loops over declarations | a quantity is described by functions of the dimension name; slices and transposes keep such a description; induction over declarations with distinct standard names |
| C115 | state graphs with map exits, access nodes, memlets; the filters; moving of edges and insertion of a check; the five passes | order = transitive closure of the edges; one insertion keeps the order of old nodes (projection of new nodes to the checked one); induction over the insertions |
| C116 | programs as trees of arrays, access nodes, conditions, maps and nested programs; the loop over arrays_recursive, _is_ref by identity of programs, the report's filter, the loop over the outer maps | induction over the tree (paths of nested programs differ from that of the program), the loop adds to each storage exactly the lines of the specification; maxima by induction over the maps; the benchmark's factor by field |
| C117 | state graphs with conditions on edges, add_state_before / add_state_after, the loop with its variable that is rebound | runs up to labels are the same after each added state (induction over runs); invariant of the loop: which states have no way in or out |
| C118 | trees of boundaries, leaves and scopes; list.remove by an oracle for ==; the swap on a memory of children and parents | induction over trees; the first boundary of a list is the one that is removed; case analysis over the cells changed by the swap |
| C119 | rational numbers and NaN; np.percentile as interpolation in the sorted list; arrays as functions of positions by name; the order of a set is an oracle | cases over the given values, minimum and maximum by induction, monotone interpolation |
| C120 | objects as numbers with attributes; nested dictionaries; np.allclose is an oracle that may raise | paths through objects and through dictionaries correspond, by induction on the depth; induction over nested dictionaries |
| C121 | names, parsing and equality of backends with an oracle for GT4Py; strides from a layout as DaCe computes them | cases over the table; mixed-radix addresses by induction over the layout; the layout is a permutation |
| C122 | numpy reductions over marked axes, fields of quantities, assignment with broadcasting | elements over a place by induction over the marks; the fold gives the greatest of a list; windows of quantities |
| C123 | stencils as maps of fields over a domain, FORWARD as a fold over levels, numbers as Flocq binary floats | induction over levels; monotone rounding and exactness of doubling; gradual underflow for dim |
| C124 | state as a table of names, calls as events sent to the updater, programs as lists of calls | induction over the program against the last value given to each name |
| C125 | each rank's calls as a list of broadcasts, barriers and writes; MPI pairs collective calls in order | each writer's operations go beside those of rank 0; induction over sorted items and calls with equal tables of writers |
| C126 | directory names as strings with padded decimal numbers, the disk as who wrote in each directory last | padding is injective (the number can be read back); the fold over ranks keeps each rank's directory; equivalent ranks from C30 |
| C127 | namelists as dictionaries of numbers, pairs and groups, on top of the sizers of GridModel.v and the slices of DecompModel.v | the slices of staggered dimensions from those of the cells; vertical dimensions are not cut; even tiles by C07 |
| C128 | arrays as lists over the floats of MetricModel.v, reports before formatting, np.argsort as a parameter | invariant of the loop that keeps the worst; sorted lists under rev and flat_map; counts by permutations |
| C129 | OpenModel.v: paths, the choice of files, renaming of dimensions, metadata, selection by a collection or an iterator, merging of files, the coupler file, and the outcome on the root and the other ranks; on RestartModel.v | induction over the files for the last one that holds a variable; injectivity of paths by cancelling strings and decimal numbers; non-interference by extensionality of the disk |
| C130 | AxialModel.v: the factor of an edge on SphereModel.v, and the arrays with numpy's slices and shapes | the unit vector is along the chord (C74) and the midpoint along the sum (C70), so their cross product is the unit normal; Cauchy-Schwarz near the poles; slices by linear arithmetic |
| C131 | PassModel.v: a step on a list of siblings, the loop over siblings and the passes, with fuel; which maps can be merged is arbitrary | the nodes with what is around them are computed compositionally and kept by each move; the number of maps, then of nodes, bounds a pass; maps weighted with the loops around them bound the passes |
| C132 | AskModel.v: specifications grouped by rank, the checks in their order, receives, packing, sends | the grouping of distinct ranks is the product of ranks and specifications; the first refusal of a list is none iff no element is refused |
| C133 | CrowdModel.v: the checks of the layout in front of the updates of AskModel.v, the neighbours of PartModel.v; separate specification: the rank so many rows and columns away, periodically | the neighbours of PartProofs.v are the eight offsets; on a small layout a rank occurs twice and its transformer has more specifications than there are quantities |
| C134 | GlobeModel.v: blocks of all ranks and the loop of the gather over all ranks on the slices of DecompModel.v; the specification is scatter and gather of one tile (C09), applied to the parts t of the global field | the slice of rank t*T+r is that of r with t in front; the loop over 6T ranks is split into six loops, each of which changes one tile only; the round trip by C09 on each tile |
| C135 | ConstModel.v: the file system as directories and datasets by path, store_constant on it; the specification reads variables of files and looks up the latest entry in the list of everything given | induction over the entries and the calls; the path determines the name |
| C136 | SelModel.v: the tuple of entries in the order of the dimensions, on the views of ViewModel.v, with numpy dropping the axes of integers; the specification is per dimension: the points wanted along it, and the value of the field at coordinates given by dimension | the addresses along each axis by C25; position along the kept axes by induction over the axes; the order by permutation |
| C137 | C2lModel.v: arrays are places in a memory, the state has places under names (WrapModel.v); stencils and exchange are arbitrary functions; the specification lists the places that change with their values | the updater's events on the memory, place by place |

## Trusted base

1. Coq 8.16.1's kernel (including `vm_compute`, used in examples, in refutation witnesses and in a few finite
   case checks) and its standard library.
2. `Print Assumptions` is printed under every property theorem.  The theorems that speak about real numbers depend
   on axioms of the standard library's `Reals`, and on no others:
   * `C58_lon_lat_rotation_partial`, `C58_poles_refuted`, every theorem of C70, C71, C72, C73, C75 and C76 and of later
     properties on longitudes, latitudes and distances (files `Sphere*`, `Gnom*`, `Tiles*`, `Edge*`, `Unit*`, `Wind*`, `Trig*`, `Area*`, `Len*`, `Cgrid*`, `Vert*`, `MinmaxProps`, `Cori*`, `Cart*`, `Pert*`, `Plot*`), and the theorems of C123 (`Ops*`) about floating-point numbers (C123_adjust, _divide, _average_partial, _dim and the three refutations on doubles):
     `ClassicalDedekindReals.sig_not_dec`, `ClassicalDedekindReals.sig_forall_dec`,
     `FunctionalExtensionality.functional_extensionality_dep`, `Classical_Prop.classic`;
   * `C71_antipodal_midpoint_refuted`, `C74_*`, `C75_involution`: the same without `Classical_Prop.classic`.

   Every other theorem answers *Closed under the global context*.  (Tools that list everything loaded
   also show the `ssrunder` parameters of ssreflect and the sealed definitions of the standard library's
   `Rdefinitions.RbaseSymbolsImpl` and `RinvImpl`; the former are used by no theorem, the latter are definitions behind
   an opaque signature, not axioms, and `Print Assumptions` does not report them.)  The libraries
   used besides the standard one are Coquelicot (`Area*`) and Flocq (Core in `Pert*`, BinarySingleNaN in `Ops*`), as lemmas and definitions; neither brings an axiom of its own.  The
   development adds no axiom, no section-less `Variable`, no `Admitted`, no functor and no module type, and
   switches off no kernel check.
3. The correspondence between the definitions and the Python text.  Every definition of a model file cites the
   lines it models and says where it is simplified.  The table below says what is in and what is out.
4. The specifications: `PartSpec.v` (torus and cube geometry in 3-space), `DecompSpec.v`, `HaloSpec.v`,
   `HaloNetSpec.v`, `LocalSpec.v`, and the sections marked "specification" in the model files.

Hypotheses that stand for the environment, always universally quantified:

* rounding of `edge_interior_ratio` arithmetic (`DecompModel.v`): any function that is exact on integers and
  half-integers up to 2^52 (`float_like`); IEEE doubles are such a function;
* clock readings and float addition/subtraction of the timers: arbitrary operations;
* the meaning of tasklets (`MergeModel.v`): any function of the memory they declare to read;
* negation of array values (`neg`): any function;
* MPI: reliable, in-order point-to-point messages; `LocalComm` is modelled itself.

### What is modelled

| files | code (`/repo/ndsl`) | left out or simplified |
|-------|--------------------|------------------------|
| `Part*` | `comm/partitioner.py`: edges, corners, rank transforms, boundaries | `lru_cache`, `copy` (the functions are pure) |
| `Decomp*` | `comm/partitioner.py`: subtile slices, extents, `global_extent`; data movement of `scatter`/`gather` | metadata other than dims, origin, extent; buffers |
| `Halo*` | `comm/_boundary_utils.py`, `comm/boundary.py`, `halo/rotate.py`, `halo/data_transformer.py` (CPU), `halo/updater.py` start/wait as message passing | memory layout of buffers (`Pool*` has their identity), float storage, streams |
| `Vec*` | vector part of the same: `from_vector_specifications`, vector pack/unpack, `vector_halo_update` | as above |
| `Sync*` | `halo/updater.py` `VectorInterfaceHaloUpdater` | device memory, timers |
| `Gpu*` | `halo/data_transformer.py` (GPU), `halo/cuda_kernels.py`, index cache | CUDA execution beyond arbitrary order of stores |
| `Updater*` | `HaloUpdater` life cycle, message tags | contents (in `Halo*`) |
| `Pool*` | `buffer.py`, users of the pool | array contents |
| `Local*` | `comm/local_comm.py` | timing of copies |
| `Cache*` | `comm/caching_comm.py` | pickling, file system |
| `View*`, `Quant*` | `quantity/bounds.py`, `quantity/quantity.py` transpose, halo_spec check, swap_buffer; Python slices and numpy basic indexing | attributes, units, devices |
| `State*`, `Bundle*`, `Factory*` | `quantity/state.py` updates, `quantity/field_bundle.py`, data dimension tables of factories | memory maps, NetCDF form of states |
| `Grid*` | `initialization/subtile_grid_sizer.py`, `GridIndexing` in `dsl/stencil.py` | namelist reading |
| `Compile*` | who compiles: `dsl/dace/dace_config.py`, `dsl/caches/*`, `dsl/stencil_config.py`, `comm/decomposition.py` | environment variables, file system, DaCe itself |
| `Args*` | argument marshalling cache of orchestrated programs | `hash` of floats, DaCe marshalling |
| `Merge*` | `dsl/dace/stree/optimizations/axis_merge.py`, `memlet_helpers.py` | code generation, symbolic ranges, repetition of passes |
| `Corner*` | `stencils/corners.py` | GT4Py execution of the stencils |
| `Column*` | `stencils/tridiag.py`, `stencils/column_operations.py`, `get_kstarts`, `grid/eta.py` | rounding |
| `Slice*` | `checkpointer/validation.py` clipping, `c2l_ord.py` mock exchange, `mirror.py` halo NaN | the numerical kernels |
| `Thresh*` | `checkpointer/thresholds.py`, acceptance test | rounding, NaN |
| `Timer*`, `Perf*` | `performance/timer.py`, `collector.py`, `report.py` (local rank) | JSON, git, gathering of other ranks |
| `Netcdf*`, `Zarr*` | `monitor/*` | file formats, encoding of time |
| `Util*` | `utils.py`, `get_pair_rank`, `_rot_3d` of `grid/mirror.py` | float trigonometry |
| `Debug*` | `debug/*` | dataset contents |
| `Restart*` | `restart/_legacy_restart.py`, `_properties.py` | NetCDF reading |
| `Metric*` | `testing/comparison.py` | reports, overflow, signed zeros |
| `Dist*` | `comm/communicator.py` `scatter_state`, `gather_state` | units, dtypes, `transfer_type`; shapes compared where MPI compares sizes |
| `Refine*` | `dsl/dace/stree/optimizations/refine_transients.py` | symbolic ranges beyond symbol + constant, strides, several axes at once |
| Ranks* | performance/report.py 61-99, 119-132 on all ranks together | hit counts (Perf*), JSON file, rounding |
| Twin* | dsl/stencil.py compare_ranks 241-255, _convert_quantities_to_storage 613-631 and the calls 430-443 | arrays of different shapes, MPI |
| Frozen* | dsl/stencil.py FrozenStencil 398-475, 493-532 | gt4py itself and its shape checks, warnings, debugger |
| Snap* | checkpointer/snapshots.py, call counting of checkpointer/validation.py 64-144 | NetCDF file, GPU transfer, the comparison itself (Thresh*) |
| Snap* (validation) | checkpointer/validation.py 64-144: counters | comparison and clipping (Thresh*, Util*), reading the file |
| Tgrid* | stencils/testing/grid.py 55-158, 194-226 | fields, slice dictionaries |
| SphereModel, SphereProofs, SphereProps* | grid/gnomonic.py 156-371, 592-732 (points, distances, angles, areas, unit vectors, mirror), grid/stretch_transformation.py 12-92, the spherical part of grid/mirror.py 215-269 | rounding; array shapes and axes (functions of one point); NaN is modelled where an arc cosine or a quotient has no value |
| GnomModel, GnomProofs, GnomProps | grid/gnomonic.py 22-153 (local_gnomonic_ed), grid/global_setup.py 15-90 | rounding; halo; the stretched and grid_type variants |
| Mirror* | mirror.py 9-212; global_setup.py 92-280 | numbers are an abstract type with the operations the code applies; rotation is an oracle here (see Tiles*); halo corners of the arrays are left alone as in the code |
| Tiles* | generation.py 1706-1843 (`_init_dgrid` up to the stretch and the shift of the longitudes) | exact arithmetic; halo corners (filled by the halo update) not modelled |
| Edge* | grid/geometry.py 588-869 with partitioner slices from DecompModel | rounding; NaN for 0/0; grid_type >= 3 (arrays of 1e8); halo width other than 3; layouts that are not square for efactor_a2c_v |
| Unit*.v | grid/geometry.py get_center_vector, calc_unit_vector_west, calc_unit_vector_south, calculate_xy_unit_vectors, _fill_halo_corners | rounding; NaN of a zero vector; the copies into quantities in generation.py |
| Wind* | geometry.py calculate_grid_z, calculate_grid_a, unit_vector_lonlat, the centre sine of calculate_supergrid_cos_sin; stencils/c2l_ord.py | rounding, precision casts, the halo exchange between ranks (C01-C07), the compile step of the stencils |
| `Trig*` | grid/geometry.py: calculate_supergrid_cos_sin, calculate_trig_uv, supergrid_corner_fix, calculate_divg_del6; gnomonic.py: spherical_cos | grid_type >= 3, halo widths other than 3 (line 222 raises), rounding, NaN for coinciding points; the halo exchange of divg and del6 afterwards and the change of sign there |
| Stor*.v | dsl/gt4py_utils.py 53-381, 480-493; stencils/testing/translate.py 131-182, 187-202, 264-313 (arrays); stencils/testing/grid.py 274-293, 430-442 | devices, element types, memory layout, negative axes; gt4py.storage.from_array is assumed to need one entry of aligned_index and dimensions for each axis; names_4d, kaxis and index variables of translate.py |
| Area* | gnomonic.py get_area, great_circle_distance_along_axis; generation.py _compute_area_cube_sphere, _compute_dxdy_cube_sphere | halo update, cast, rounding; corners flushed to 0 |
| Len* | see Area* | halo update, absolute value and corner fill of dx, dy; cast, rounding |
| `Cgrid*.v`, `MinmaxProps.v` | gnomonic.py 342-386, 389-512, 547-588; generation.py 2019-2071, 2147-2180, 3443-3454 (without the float casts) | the halo updates, the changes of sign and the corner fills that follow; rounding |
| `Lazy*.v` | generation.py 92-214, 222-447 (attributes at the start), 519-1670, 1874-3456 (which attributes are used and set, halo updates and reductions, casts) | the numerical work (arbitrary functions); changes made by a user to the data of a term; the methods for tests; from_external's other arguments |
| HelpModel.v, HelpProps.v | ndsl/grid/helper.py 22-122, 147-152, 239-355, 357-706 (without fC), 750-832 | fC, fC_agrid; from_restart; the fallback for raw arrays in new_from_grid_variables; identity of the split quantities |
| VertModel.v, VertProps.v | ndsl/grid/helper.py 126-152, 177-236, 536-594 | rounding; from_restart; broadcasting of arrays of size 1 |
| AllocModel.v, AllocProofs.v, AllocProps.v, XarProps.v | ndsl/initialization/allocator.py 61-242, ndsl/quantity/quantity.py 31-184, 201-208, 256-274, 327-355, 495-505, 521-537, ndsl/io.py 22-77 | memory layout and devices; whether memory is shared; conversion of values to another element type; NetCDF encoding; the reading of the time |
| SaveModel.v, SaveProofs.v, SaveProps.v | ndsl/quantity/state.py 501-597 | metadata without dims; fields named like a dimension; NetCDF encoding; xarray beyond refusing Datasets as variables (when sizes agree is arbitrary) |
| MakeModel.v, MakeProps.v | ndsl/quantity/state.py 57-120, 160-271, 335-346, 613-719; ndsl/quantity/local.py; ndsl/dsl/ndsl_runtime.py 105-129 | init=False fields; copy_memory, move_memory and the update of states (StateModel.v has the latter) |
| RunModel.v, RunProps.v | ndsl/dsl/ndsl_runtime.py 15-103; ndsl/dsl/dace/orchestration.py 637-713 | multiple inheritance; annotations and arguments of orchestrated calls; warnings given before a RecursionError; stack frames other than the self of the caller |
| CoriModel.v, CoriProps.v | ndsl/grid/helper.py 326-347, 377-407 | rounding |
| CartModel.v, CartProps.v | ndsl/grid/generation.py 236-281, 405-423, 1669-1702, 1924-2017 and 2094-2199 (the Cartesian variants) | rounding, the casts to the model's precision, the trigonometric terms and unit vectors of the Cartesian grid |
| StenModel.v, StenProps.v | ndsl/dsl/stencil.py 792-857, 1000-1076, 1086-1115 | configuration, timing, CompareToNumpyStencil, an origin for each field |
| RedModel.v, RedProps.v | ndsl/comm/communicator.py 101-152, ndsl/comm/mpi.py 82-93, ndsl/quantity/metadata.py 51-58 | mpi4py itself (what is assumed of it is in the header of RedModel.v), logical, bitwise and location operators, broadcasting, GPU arrays, arrays that are not contiguous |
| LoadModel.v, LoadProps.v | ndsl/dsl/dace/build.py 26-48, 56-114, ndsl/dsl/caches/cache_location.py 51-59, ndsl/dsl/caches/codepath.py 15-33 | the text of build_info.txt, rounding of the quotients, the programs themselves |
| PertModel.v, PertProps.v | ndsl/testing/perturbation.py 6-19 | the generator itself (its draws are arguments, within the stated range), signed zeros |
| OrchModel.v, OrchProofs.v, OrchProps.v | ndsl/dsl/dace/orchestration.py 535-713 | parsing, building and running programs, multiple inheritance, attributes set by the user, names of classes |
| Plot*.v | viz/fv3/_plot_cube.py 264-433 (pcolormesh_cube, handles, UpdateablePColormesh, _segment_plot_inputs, center_longitudes), viz/fv3/_masking.py | matplotlib and cartopy, colours, rounding of longitudes and of fractions of NaN, plot_cube |
| Conv*.v | `serialbox_to_netcdf.py` 46-262, `savepoint.py` 24-41, 78-92: reading, files per rank, merging, filling, collapsing, tracers, dataset, loading | serialbox, directories and the namelist's text, element types (NaN for integers), `exists`, `dataset_to_dict`'s scalars |
| `Verd*.v` | `test_translate.py` 35-100, 147-313, 316-459: overrides, verdicts, layout of the communicator | reports, saved NetCDF files, sampled thresholds, extra_data_load, other input or output files of a test, compilation; int(x ** 0.5) taken as the exact integer root; pytest beyond the outcome |
| `Case*.v` | `conftest.py` 148-220, 240-393, 448-455: names, ranks, cases, communicator | parsing of numbers, grids and test objects, pytest's parametrization, dot files |
| `Info*.v` | `translate.py` 184-323: `update_info`, `collect_start_indices`, `make_storage_data_input_vars`, `slice_output` | tracer dictionaries, dummy axes, devices, the storages and slices themselves (functions; see `Stor*.v`), what an exception leaves behind |
| `Gst*.v` | `parallel_translate.py` 102-122, 163-223: `outputs_from_state`, `_serialize_slice`, `state_from_inputs` of `ParallelTranslateGrid` | units, element types, devices, negative `kaxis`; the other parallel classes |
| `Trap*.v` | `sdfg_debug_passes.py` 14-321 | DaCe itself (graphs and code generation), symbolic ranges, the printed text |
| `Memo*.v` | `dsl/dace/utils.py` 39-167, 212-314 | DaCe itself, the text of the reports, the runs of the benchmark (its median is a parameter), rounding |
| `Label*.v` | `dsl/dace/labeler.py` 34-68 | DaCe itself (its two operations on graphs are modelled after their documentation), the library node |
| Clean*.v | clean_tree.py 8-66, tree_common_op.py 6-33, 47-53 | the log, DaCe's validation of the tree before the swap and its generic visit (children visited and kept), detect_cycle |
| Hue*.v | _plot_helpers.py 6-36, 39-125, 153-177 | _get_var_label, empty data, infinities and rounding |
| Temp*.v | temporaries.py 8-47 | printing; exceptions of attributes other than AttributeError; that deepcopy shares nothing |
| Back*.v | backend.py 7-55, 83-136, 165-189, orchestration.py 200-235, refine_transients.py 58-76 | is_fortran_aligned, lower() and upper() of the parts (the names are in the right case) |
| Xum*.v | minmax.py 15-106, count_nonzero.py 10-42, quantity.py 272-274 and 353-355, bounds.py 133-166 for [:] | cupy arrays, element types of the results, alloc.py |
| Ops*.v | basic_operations.py 15-148 | mixed element types, NaN payloads, GridIndexing (C15, C16) |
| Wrap*.v | wrapped_halo_exchange.py 18-83 | the HaloUpdater itself (C01-C12, C33), methods and class attributes of dataclasses, dace_inhibitor |
| Fleet*.v | zarr_monitor.py 55-119, 154-233, 276-374 | resizing, units, order of dimensions and places of ranks (C38), GPU arrays, encoding of times in seconds |
| Stash*.v | dsl/__init__.py 43-48, decomposition.py 56-96 | what GT4Py keeps in a directory and how it looks stencils up; the orchestrated directories (C106) |
| Sizer*.v | subtile_grid_sizer.py 81-127 | values of namelists other than numbers, pairs and groups |
| Tell*.v | comparison.py 116-181, 257-276, 328-435 | booleans, formatting as text, overflow, files, the number of different errors |
| OpenModel.v, OpenProps.v | open_restart end to end but for to_state | scatter_state (C62) is an arbitrary function of rank and data; absolute second parts of os.path.join; dimension names that collide after renaming; to_state |
| AxialModel.v, AxialProps.v | geometry.py calculate_l2c_vu, generation.py _calculate_latlon_momentum_correction_cube_sphere | rounding, casts |
| PassModel.v, PassProofs.v, PassProps.v | axis_merge.py except what a merge does to memory (MergeModel.v) and _push_ifelse_down (never called); tree_common_op.swap_node_position_in_tree | parents, symbols, detect_cycle, list.remove by equality |
| AskModel.v, AskProps.v | communicator.py start_halo_update, start_vector_halo_update, get_*_halo_updater; updater.py from_*_specifications and start; the checks of data_transformer.py | numpy modules, contents of the buffers (HaloModel.v) |
| Crowd*.v | communicator.py 582-615, 621-630, 686-762 | contents of the messages (C12, C17, C60), python -O, which drops the check of the number of quantities |
| Globe*.v | communicator.py 162-219, 262-306, 828-868; partitioner.py 607-673; bounds.py 147-166 (one integer index) | buffers and devices, metadata other than dimensions and extent (C62), numpy's broadcasting of axes of one entry |
| Const*.v | netcdf_monitor.py 174-205 | gathering (C62, C134), attributes, variables named like a dimension, paths / and ., several processes |
| Sel*.v | quantity.py 229-242, bounds.py 60-71 | zero-dimensional quantities, sharing of memory, entries outside the storage (C25) |
| C2l*.v | c2l_ord.py 154-284 | the stencils (C82), mock_exchange (C83), the exchange (C01-C12), halo specifications |
| C138 | RimModel.v: from_sizer_and_communicator over the sizer and offsets of GridModel.v and the flags of PartModel.v; the specification turns a storage index into a cell of the tile and asks which index is selected | cut points of an axis: every block is wider than the halo, so no halo reaches the far edge cell of a neighbour |
| C139 | DepModel.v: both checks over the schedule trees, traces and memories of MergeModel.v; the specification speaks of the tasklets within a tree | induction over trees and lists of memlets; safety through C43_same_memory_partial, whose provisos hold if the check accepts both orders and the loops write different data. The statement is false for one order (write after read) |
| C140 | FolderModel.v: the three settings (root, directory, build folder) and what DaceConfig, CompilationConfig, StencilConfig and FrozenStencil do to them; the specification writes the folder of a code path out | invariant over histories of constructors that leave the folder alone; the general statement is false: a StencilConfig without a DaceConfig makes its own, without communicator, and moves the folder |
| C141 | PipeModel.v: run over arbitrary passes, trees and files; the specification is the chain of trees after each pass | induction over the passes; names of reports are injective in the number. The statement is false where reports cannot be written (no directory) |
| C142 | GuardModel.v: call stacks as lists of frames, classes as trees of fields, making and reading along paths; the specification speaks of positions of frames on the stack | induction over stacks and over paths. The statement is false for Locals held by a nested State and for optional Quantities |
| C143 | BestModel.v: names, shapes and the parts of the two variables that are subtracted; the specification states sizes and indices by arithmetic | case analysis over sizes. The statement is false for rows that differ in another way than columns, for a fourth dimension and for two-dimensional variables |
| Rim*.v | stencil.py 673-689, 792-835 | local_is .. local_je (C61), k_start and k_end, how gt4py reads the regions |
| Dep*.v | memlet_helpers.py 55-91, 133-149 | the messages; which memlets DaCe marks as dynamic; the callers (none in the repository) |
| Folder*.v | dsl/dace/build.py 117-163, dsl/caches/cache_location.py 51-59, decomposition.py 61-96, stencil_config.py 178-203, stencil.py 317-330 | log messages; DaCe's cache modes other than its default "name" |
| Pipe*.v | pipeline.py 9-71 | __hash__ and __repr__; log messages; what visit returns (dropped by the code) |
| Guard*.v | internal/python_extensions.py 6-43, quantity/state.py 602-719, 721-752 | warnings; what the fields contain (C100); variables called self that are not the object of a method |
| Best*.v | stencils/testing/best_guess_diff.py 41-157 | the subtraction, distances in units of the last place, messages, the file written, arguments of the command line |

Not modelled: GT4Py and DaCe (compilation, execution), the rest of `grid/*` (grid generation numerics), the rest of `viz`,
`logging`, `namelist`, `testing` beyond the metrics, `mpi4py` and device runtimes, and the command line tools.

### Findings: where the code disagrees with the English claim

Each is a theorem with a witness, named in `MANIFEST.json`.

* C08: `global_extent` multiplies the rank extent by the layout, wrong for uneven decompositions the partitioner accepts.
* C10: a halo deeper than the subtile is accepted; halo points that nobody owns are sent.
* C11: a scalar staggered along one horizontal axis only is accepted on the cube; the message is shorter than the
  buffer of the receiver.
* C15: on the GPU, dtypes other than float32/float64 raise nothing and pack nothing; offsets beyond 2^31 wrap;
  vector components with different order of the horizontal dimensions are mixed up.
* C16: the cache key of the index lists omits the dimension names and the rotate flag.
* C17: with the vertical dimension first, the reversal of the edge is applied to the vertical axis.
* C18: every interface synchronization uses tag 1.
* C20: a receive after everything sent was received raises IndexError, not ConcurrencyError.
* C21: a local gather may return stale contributions; broadcast shares the object with the root.
* C22, C23: a second wait on a request returns the buffer twice; a failed start leaves receives posted.
* C24: replay differs when waits are not in posting order, and for gathers on non-root ranks.
* C25: `None` entries, entries before the start of the storage and `[::-1]` address other points than numpy would.
* C26: `transpose` resets `n_halo`.
* C28: `restrict_vertical` and data dimensions before spatial ones give wrong shapes.
* C29: rectangular layouts with three or more rows and columns have a right edge nobody compiles.
* C31: the compile handshake does not work for a single tile.
* C32: the hash of flags depends on their number only.
* C34: calls absent from the last trial get no thresholds; the relative threshold can reject a calibration trial.
* C36: repeated names below the second level are silently overwritten.
* C37: a cleanup inside a chunk that is continued loses the earlier states of the chunk.
* C38: uneven decompositions, states without time and stores that raise half-way corrupt the Zarr output.
* C41: B grid, direction j, north-east corner; D and C grid arrays assume three halo points.
* C42, C43: loop merging keeps old symbols in conditions and tasklet code, runs pushed tasklets once per iteration, and
  its dependency check ignores write-after-read, write-after-write, lower-dimensional data and range ends.
* C44: marshalled arguments are reused for other arguments with the same hash.
* C45: field bundle views are cached per class; `extend_3D_quantity_factory` changes its argument.
* C46: odd sizes are not paired up.   C47: `npz = 0` raises.
* C48: boolean comparison is inverted; equal infinities fail; overrides leak to later comparisons.
* C49: recursion and retry after an exception overwrite files.
* C52: a failing update leaves a half-updated state; None accepted for required fields; optional table flat by name.
* C53: configurations do not survive their dictionary form (communicator, DaceConfig).
* C54: nine flux names are shadowed by later entries.
* C55: `swap_buffer`'s shape test is lexicographic and ignores the origin.
* C56: a second full report counts the total timer again.   C57: halo width 0 fills everything with NaN.
* C59: for km = 91 `ks` is 0.
* C62: `scatter_state` removes the receiving state's time when the sent state has none; `gather_state` mixes variables when the ranks' dictionaries are ordered differently.
* C63: a temporary written in one for loop and read in the next is reduced (only maps are counted), and so is one which a single map writes and reads in different runs: wrong results.
* C64: C64: gather_timing_data matches the ranks' gathers by position in each rank's own sorted key list. Ranks that time different things are credited with each other's times under the wrong name, silently when the counts agree (C64_report_by_name_refuted). Its `root` argument only decides who allocates the buffer, the gather itself always goes to rank 0, so any other root fails (C64_other_root_fails, C64_root_refuted).
* C65: C65: compare_ranks tests `isinstance(maybe_array.data, np.ndarray)`. By then every quantity has been replaced by its numpy array, whose attribute `data` is a memoryview, so the test is false and nothing is ever exchanged or compared: the tool lets every call through (C65_nothing_compared, C65_quantities_refuted). For objects it would compare, an entry that is NaN on one rank only is reported by the other rank only (C65_symmetric_refuted).
* C66: C66: in Build mode FrozenStencil sets a do-nothing `__call__` on the instance, which Python ignores because it looks special methods up on the class: the stencil runs (C66_build_mode_refuted). After the first successful call positional arguments are paired with names by zip, so a call with too many arguments, refused at first, is then accepted and the extra ones dropped (C66_extra_argument_refuted).
* C67: C67: a variable named `x_savepoints` replaces the savepoint list of variable `x` in the dataset (C67_names_refuted); a variable that changes shape between calls makes the whole dataset, and so the file written by cleanup, impossible, losing all other variables (C67_shape_refuted).
* C68: C68: the call counter of a savepoint is advanced only when all comparisons pass. After a failed call that the program survives, every later call at the savepoint is compared with the previous reference: right values fail and wrong ones pass (C68_after_failure_refuted).
* C69: C69: Grid divides npx by layout[0] and npy by layout[1] while the partitioner's layout is (y, x), so on rectangular layouts the edges are wrong (the left of two ranks claims the east edge) and compute domains lie outside the tile (C69_rectangular_refuted). On layouts that do not divide the tile no rank is on the east edge (C69_uneven_refuted; the code says so in a comment).
* C70: within 1e-10 of a pole `xyz_to_lon_lat` forgets the longitude and returns 0 (`C70_poles_refuted`); the point moves by less than 1e-9 of the radius (`C70_everywhere_close`).
* C71: the midpoint of two antipodal points is a division 0/0 in the code (`C71_antipodal_midpoint_refuted`); the dot-product distance is only right for unit vectors (`C71_distance_xyz_partial`).
* C72: the docstring of `spherical_angle` says the value is always below pi, but pi is returned for points on one great circle (`C72_less_than_pi_refuted`); a triangle with two equal corners has area -pi r^2 rather than 0, because an undefined angle is replaced by 0 (`C72_degenerate_cells`, `C72_positive_refuted`).
* C73: points whose image has |sin lat| within 1e-7 of 1 all get longitude 0: two points more than 4 km apart become one (`C73_poles_refuted`). The docstring says the grid shrinks `by stretch factor in area`, but it is lengths that shrink by that factor (`C73_stretch`).
* C75: a point whose image is within 1e-10 of a pole comes back on the meridian of 0 (`C75_pole_refuted`).
* C76: sections of a tile must be square: a layout with different numbers of ranks in x and y makes no grid (`C76_square_only`, `C76_layout_refuted`); the partitioner accepts such layouts.
* C77: the four magnitudes are added in the order of the corner being computed, so on two ranks (or at two corners) that mirror each other the sums differ in the last bit: the symmetry that the averaging is there to enforce does not hold bitwise (`C77_bitwise_refuted`: four magnitudes one to three units in the last place above one half, in binary64). It holds when the sum is commutative and associative.
* C78: the south polar tile (5) is never forced: the branches read `i` after its loop has ended and compare `npx // 2` with `(npx - 1) / 2` the wrong way round (`C78_not_forced`); on tile 2 the branches for ranks away from the middle column are dead and the pole's latitude is only set on ranks with equal column and row offsets, so the stored values depend on the layout (`C78_layout_refuted`).
* C80: efactor_a2c_v: halo entries depend on the layout. The rank whose cells end at the middle of the tile treats the first cell above the middle as below it (im2 = len(selection) - nhalo when all indices are selected), and a rank that starts more than three cells above the middle gets im2 = 0, so its halo cell -1 uses the formula of the lower half. The owners of these cells compute other values (C80_halo_middle_refuted, C80_halo_far_refuted).
* C81: C81: for flat grids (grid_type >= 3) `get_center_vector` gives (1,0,0), (0,1,0) but `calc_unit_vector_west` and `calc_unit_vector_south` give (0,1,0), (0,0,1): they fill components 1 and 2 instead of 0 and 1 (`C81_flat_refuted`). MetricTerms uses other methods for grid_type 4 and refuses 3, so only direct callers see it.
* C82: the docstrings of a12 and a21 (generation.py 1290-1310) give 0.5*z21/sin_sg5 and 0.5*z12/sin_sg5; the code computes -0.5*z12/sin_sg5 and -0.5*z21/sin_sg5, which is what C82_matrix needs. Also (not formalised): the check of the state in CubedToLatLon.__init__ (`not check(u) and check(v)`) lets a state through that has u but no v, or neither; order 2 computes one row of halo but exchanges nothing first.
* C83: CubedToLatLon.__call__ hands `u[:, :-1, :]` and `v[:-1, :, :]` to mock_exchange with the bounds of the cells. Row jec + 1, the last row of the wind's own compute domain, is overwritten with row jsc although u and v are documented as inputs, and the outermost halo row jed + 1 is never filled (C83_interface_refuted); the halo exchange between ranks fills it.
* C84: Beyond the north-west corner line 222 of geometry.py reads rows n-2, n-1, n of the tile instead of n+2, n+1, n (the other three corners and supergrid_corner_fix read the cells beyond); calculate_trig_uv runs before supergrid_corner_fix repairs it, see C85. cosa_s is a view of cos_sg and fills its corners, too.
* C85: False at the north-west corner from the second cell on (C85_north_west_refuted): sina_v[0:2, n] uses sides of the tile's own cells n-1 and n-2 because of line 222, while sina_u and the other corners use the cells beyond. A sine of exactly 0 on a tile's edge stays 0 (tiny_number * sign(0)), and rsin_u divides by it.
* C86: C86: (a) data with a single index along an axis whose start lies outside the shape are dropped without an error, the storage is zero (C86_lost_refuted); longer data are refused. (b) Data of two axes start at the first two entries of start and data of one axis at the third, whatever axis they lie along (C86_start_refuted). (c) With a dummy axis, another axis and read_only=False the storage has not the shape asked for (C86_dummy_refuted). (d) Data of four axes with the default origin of three entries always raise (C86_more_refused). (e) make_storage_dict without a shape always raises (C86_dict_refused), and an entry with one index along an axis loses it by squeeze (C86_dict_refuted). (f) reshape of one axis to three (commented K -> IJK) puts the levels along I (C86_reshape_refuted).
* C87: C87: a field of I and K declared with dummy_axes=[1] has its levels placed at jstart, but they are read back from kstart (C87_dummy_start_refuted); an array of one axis with any dummy axis is always refused, since its buffer is sized by the dummy axis (C87_dummy_one_refused). In translate.py the loop over dummy_axes overwrites the parameter axis, which is what makes the two-axis case work when not read-only.
* C90: at the corners of a tile area_c is not three times the part of one tile, as the docstring of set_c_grid_tile_border_area says; it is twice the quadrilateral along one edge that also uses a centre of the neighbouring tile (the lower edge, else the right, the upper, the left). On the cube with one cell per tile this gives 4 asin(1/sqrt 3) = 2.46 instead of pi/2 = 1.57 (`C90_corner_refuted`). The corner triangles set by set_corner_area_to_triangle_area never reach the result (`C90_area_c`), which answers the TODO at the call.
* C92: the reductions of area_c use the window of the cells, so the last row and column of corners of a rank are left to its neighbours. The lower and left edges of the six tiles cover all corners but two corners of the cube (`C92_corners_partial`); an extreme area there is missed (`C92_corners_refuted`).
* C93: the terms may not be read in different orders on different ranks: properties communicate, and one rank's k-th halo update meets its neighbour's k-th one whatever it is for. With two ranks, one reading dx then dxc and the other dxc then dx, dx comes out with halo values of dxc (`C93_order_refuted`); a term read on some ranks only never returns (`C93_alone_refuted`). Nothing in the documentation of MetricTerms says that reading a property is a collective operation.
* C94: GridDefinitions and MetricTerms disagree: ew1 and ew2 are declared on the cell corners and allocated on the west faces (i interfaces, j centres); the unit vectors ec, ew, es are declared in m and have no units; the reciprocals are declared in 1/m, 1/m^2 and returned in m^-1, m^-2; ak and bk are declared in m and are in Pa and without units. edge_w, edge_e, edge_s and edge_n are never cast and stay 64-bit when the model's float has 32 bits (`C94_declared_refuted`). stencils/testing/grid.py builds its quantities from GridDefinitions, so there ew2 has other dimensions than in the model.
* C95: `DriverGridData.new_from_metric_terms` passes `vlat=metric_terms.vlon`, so vlat1, vlat2, vlat3 are the components of the unit vector to the east (`C95_driver` states what they are, `C95_driver_refuted` that they are not those of vlat).
* C96: the validation in eta.py looks at averages of neighbouring interfaces only: ak = 100, 300, 200, 400 Pa with bk = 0 is accepted and dp_ref of the second layer is -100 Pa (`C96_accepted_refuted`; only p[k] <= p[k+2] follows, `C96_accepted_partial`). ptop raises for accepted coefficients whose first bk is not 0 (`C96_ptop_refuted`). Setting ak or bk after a read leaves the cached dp_ref, p and p_interface as they were (`C96_stale_refuted`). Reading `GridData.ks` raises AttributeError, VerticalGridData has no such field, and so does setting `GridData.ptop`.
* C97: an array whose axes are 1 or missing is accepted and repeated over the domain instead of refused (`C97_shape_refuted`). A factory makes quantities without dimensions, but not from an array: `[:]` raises on an array without axes (`C97_scalar_refuted`). get_quantity_halo_spec raises for a float precision other than the configured one, since it allocates without allow_mismatch_float_precision, so quantities made with that flag have no specification from the factory (`C97_halo_spec_refuted`).
* C98: write_state writes the arrays with halo, and read_state reads them without origin, extent or halo width: the halo becomes part of the compute domain (`C98_halo_refuted`). A state whose quantities have different halos cannot be written, and one with a quantity of another float precision is written but cannot be read (`C98_write_refuted`). `quantity.attrs[...] = x` changes a temporary dictionary and is lost (not modelled).
* C99: a quantity that was None when the state was saved keeps the values it had before loading (`C99_none_refuted`), and one that is None in the state loaded into makes loading raise after some quantities were changed (`C99_none_target_refuted`). A state within a state within a state cannot be saved at all: a Dataset is not a variable of a Dataset (`C99_nested_refuted`). The file of rank 1 with postfix "1" is that of rank 11 without postfix (`C99_postfix_refuted`).
* C100: State.full is empty followed by an assignment to the compute domains, so the halo holds whatever the memory held (`C100_full_refuted`; `C100_full_partial` for the compute domain). make_local and State._init do not pass the number of halo points to Local, so every Local has n_halo 0 although its memory has the halo of the factory, and its halo_spec(1) raises (`C100_local_halo_refuted`). make_as_state restores the field types only on success: after a KeyError for a missing data dimension the class is left with Quantity fields, and both make_locals and make_as_state raise TypeError from then on (`C100_as_state_refuted`).
* C101: every class of the chain wraps __init__ and so calls __post_init__: an object is orchestrated as often as its class is levels below NDSLRuntime (`C101_count_partial`), once only for direct subclasses (`C101_direct_partial`); with two levels the first time is before the attributes of the derived class are set, and the second wraps the already patched __call__ (`C101_twice_refuted`). _TOP_LEVEL is set by the first runtime of the process, even if its creation fails, and never reset: no later model is checked for quantities (`C101_later_unchecked`, `C101_later_refuted`). A runtime that keeps a reference to its owner makes the check recurse without end: creating the owner raises RecursionError (`C101_cycle_refuted`). Another object of the same class may read a Local on backends without orchestration and not with it (`C101_read_refuted`, `C101_read_partial`). The warning names the class of the top level and not that of the object that holds the quantity.
* C102: the constructor of GridData labels fc_agrid with the dims, origin and extent of the corner latitudes: values given for the cell centres come back as a quantity on the interface dimensions with one row and one column too many (`C102_agrid_refuted`).
* C103: the slice of a rank is taken without the line it shares with the next rank, so the last line and column of the halo are NaN even where they lie on the tile (`C103_halo_refuted`; everything else in the halo is right, `C103_halo_partial`). The centres are all at (0, deglat), not in their cells (`C103_centres_refuted`), and dx, dy have nothing to do with the coordinates: with the defaults and 12 cells the corners are 100 km apart and dy is 1 km (`C103_spacing_refuted`). The code uses three halo points whatever the factory has: with four, every rank gets the coordinates of the next corner (`C103_halo_size_refuted`). A factory cannot be used for a second MetricTerms (`C103_factory_once`).
* C104: the dimensions are used by position: J, I, K is accepted and computes another region on a rank that is not square (`C104_order_refuted`), and so is I, I, K (`C104_twice_refuted`). An external i_start of the user's wins in from_dims_halo and loses in get_stencils_with_varied_bounds (`C104_user_refuted`).
* C105: a new quantity has zero halo points whatever the input has (`C105_halo_refuted`). An output's origin and extent become those of the input but its view stays where it was (`C105_view_refuted`), and its metadata name the input's dtype (`C105_precision_refuted`). MAX and MIN raise for arrays of more than one element, since the objects themselves are compared (`C105_extremum_refused`). all_reduce_per_element works on the memories: with quantities in different memory orders the elements of different indices are combined (`C105_order_refuted`), and any output with as many elements is accepted (`C105_shape_refuted`).
* C106: only resolution[0] / layout[0] is compared, the columns of the tile over the rows of ranks: a program built for 2 by 2 ranks is loaded on 2 by 3 (`C106_layout_refuted`), the number of levels is not looked at (`C106_levels_refuted`), and without tile_nx, which has the default 0, nothing is (`C106_sizes_unknown_refuted`).
* C107: 1 + u rounds to 1 or to 1 - 2^-53 for every |u| <= 1e-16, so no number is ever raised (`C107_never_up_partial`, `C107_sign_refuted`), and a float32 number times such a factor rounds back to itself: float32 arrays are never changed, whatever is drawn (`C107_single_partial`, `C107_float32_refuted`), so that _get_thresholds compares identical trials for float32 inputs.
* C108: the cache keeps the first configuration: a second orchestrate of a method with another one is ignored without a message (`C108_second_configuration_refuted`), for __call__ it makes a program around the first program (`C108_nested_refuted`) whose named arguments never reach the function (`C108_flags_lost_refuted`), and a second name of the same function gets the first name's configuration (`C108_alias_refuted`). copy.copy of an orchestrated object runs on the original (`C108_copy_refuted`); compile-time arguments are set on the class's function and so for all objects (`C108_flags_shared_refuted`); orchestrated objects are never freed (`C108_kept`).
* C109: A corner exactly on the antimeridian counts as west of it in _mask_antimeridian_quads (<=) and as east of it in center_longitudes (<), so the cell from 179 to 180 degrees of a map centred on 0 is kept and drawn across the whole map (C109_on_the_antimeridian_refuted). Longitudes from -180 to 180 are not brought to [0, 360), and cells across 180 degrees are drawn across a map centred on 90 (C109_signed_longitudes_refuted). UpdateablePColormesh.update hands the new segments to the old handles in order: with another pattern of NaN values appear on the wrong cells (C109_update_refuted) or it raises (C109_update_raises_refuted). pcolormesh_cube raises IndexError if all values are NaN (C109_all_nan_refuted). From the seventh tile on nothing is masked, and with fewer than six tiles the mask raises (C109_seventh_tile_refuted).
* C110: two savepoints of a variable whose size differs between ranks cannot be converted (the position advances within the loop over savepoints); with one savepoint its values are under rank 0 only and rank 1 cannot be loaded, and any other variable beside it makes the dataset impossible; a variable that a rank lacks stops the conversion when there are two savepoints; variables that only later ranks have, and later calls that the last rank lacks, are silently left out; a single value in a later call is spread over the array of the first; 1e40 of a single value stays; with `--merge` a vertical profile with as many levels as a block has columns is reshaped into a horizontal field; with `--data_name` every rank reads the same file.
* C111: `skip_test` in an entry makes the test *pass* without comparing anything (`return`, no pytest.skip). `all_other_near_zero` is stored under the names of `out_vars` but looked up by serialized name, so variables with another serialname do not get it; on a parallel test it raises AttributeError (no `out_vars`); beside a list of fields or alone it is silently ignored. An entry of the test with a backend name that is not known raises even if it is for another platform. The communicator's layout is guessed: 6 processes for a tile of 2 x 3 make a cubed sphere, 36 for 6 x 6 raise, 2 processes make a tile partitioner of one rank.
* C112: one input file of a savepoint without a test class ends the collection, so no test is run; `--which_rank` does not restrict a parallel run; `--which_savepoint` beyond the calls of a test makes a case that can only fail; the test builds its own communicator from the number of processes, so 24 processes for tiles of 1 x 4 silently get one for tiles of 2 x 2 (collection and grid use 1 x 4).
* C113: a start or window named by an input is replaced by its value at the first call and never looked up again, so later calls use the first call's number; when the named input is an array of one number, the first call works and the second raises (array looked up as a key); of two variables with one serial name the second gets the array after the first's axis move and subtraction.
* C114: with `n_halo` larger than the storage's halo the slice wraps around and the output is one row from the other end, without an error; an input of another shape is repeated over the window where numpy can; outputs need the entry `name`, inputs do not; `outputs_from_state` turns the state's quantity in place, so taking outputs twice permutes the dimensions.
* C115: `all([... for varname in whitelist])` is true for an empty whitelist, so the NaN check, the trace and the progress report never insert anything, in any program; when an array is not in GPU memory `_check_node` moves the outgoing edges to a copy of the node and then returns, so no check is inserted and the readers lose their dependency on the writer.
* C116: refuted as stated. (1) Storage with only unreferenced memory of nested programs is left out of the report. (2) An array read only by a condition or an assignment between states counts as unreferenced. (3) The benchmark's bytes are multiplied by 8 instead of 2 (one read and one write; itemsize is in bytes already), so the timings are a quarter of what was measured. (4) Symbolic sizes raise at line 312 though 295-310 handle them, and so do edges with an empty memlet. (5) Without a given bandwidth a program needs an array named __g_self__w. (6) The printed labels for a given and a computed bandwidth are swapped.
* C117: refuted as stated. (1) A called program with one state gets a label for entering but none for leaving: the variable state is rebound to the new label, so the test for ways out is made on the wrong state. (2) A program whose first state is the target of a jump back gets no label for entering.
* C118: elif and else scopes (and every scope without a method of its own) keep their boundaries, though the pass is to "Remove `StateBoundary` nodes from children of ScheduleTreeScopes"; a swap of a scope that has more than one child loses the others (its callers check that there is one).
* C119: if the user gives vmin, vmax and cmap, infer_cmap_params raises ValueError, though the docstring promises the "user value if supplied"; with one limit given, the inferred one may cut the data off (data -1..20, vmin=-10: vmax=10) or lie on the wrong side (data 0..1, vmin=5: vmax=1); _align_plot_var_dims orders two or more remaining dimensions as a set lists them, which for strings changes from run to run.
* C120: assert_same_temporaries(a, b) passes although b holds more temporaries than a, and raises KeyError if a holds more; `in ("pyFV3")` tests for a part of a word, so objects of packages called py, V3, F, ... are copied as well.
* C121: comparing a Backend with a string that is no backend name, or with None, raises (ValueError, NotImplementedError) instead of giving False; with data dimensions the strides of refined transients are wrong for the loop orders KJI and KIJ: _reduce_cartesian_axis_size_to_1 adds the number of data dimensions to a list of dimensions as if it were a list of ranks, so for KJI with one data dimension the axis I of the innermost loop gets the largest stride (values stay right, every element has its own place).
* C122: max_on_horizontal_plane takes the first two axes without looking at dims, so for a Quantity with the vertical axis first the values are not those of horizontal planes and no error is raised; a field of two axes cannot be reduced into a Quantity without axes ([:] of an array of rank 0 raises); an array reduced into a Quantity overwrites its halo, a Quantity into a Quantity does not; min_on_horizontal_plane is defined but not exported by xumpy/__init__.py.
* C123: sign(a, +0.0) is -|a| (the test is b > 0), where Fortran's SIGN and the sign of b give +|a|; average_in overflows to infinity for large equal numbers, since the sum is formed first; adjust_divide_stencil does not undo adjustmentfactor_stencil when the product overflows; select_k leaves the old value of out_field for a level outside the domain without an error.
* C124: interface uses attributes only, so that a dictionary which start and update accept raises AttributeError there (C124_interface_refuted); check_for_attribute of a dataclass raises AttributeError for a missing attribute and otherwise returns the value of the attribute, which may be false, in place of True (C124_check_refuted).
* C125: store sorts the names but store_constant takes them in the order of the dictionary, so that ranks whose dictionaries differ in order write constants in each other's arrays without an error (C125_constants_refuted); a time of another calendar, or a name already in the store (a constant, or an array left from mode "a"), raises on rank 0 alone while the other ranks wait in a collective call for ever (C125_calendar_refuted, C125_exists_refuted).
* C126: a job of one rank compiles in .gt_cache_000000 and looks in .gt_cache in Run mode, which raises (C126_single_refuted); GT_CACHE_DIR_NAME is used for compiling and ignored for running (C126_variable_refuted); with minimal caching the numbers 0 to 8 of the ranks read are those of a 3 x 3 layout, so that a job compiled and run with 4 x 4 or more ranks per tile reads directories of ranks at other edges (C126_layout_refuted).
* C127: from_namelist (and from_tile_params) take tile_rank = 0 by default and say that it does not matter for a TilePartitioner: with an edge/interior ratio other than one the ranks have subtiles of different sizes and the sizes of rank 0 are wrong for the others (C127_rank_refuted); a key ny_tile next to nx_tile is ignored, the tile is taken to be square (C127_rows_refuted).
* C128: with the threshold 0 equal values fail and the report raises UnboundLocalError (C128_zero_refuted); the report of a failed comparison of one element raises, since it is squeezed to no dimensions (C128_single_refuted); the failures given as a part of the changing points are those of all points, so that there can be 2 of 1 (C128_changing_refuted); an array without elements passes and its report divides by zero, an unknown --sort_report raises UnboundLocalError since the RuntimeError is made and not raised (C128_exceptions). By reading: the reports of booleans raise, and the verdict (one_line_report) is dropped from the report of MultiModalFloatMetric.
* C129: the ValueError "no restart files found" cannot be raised, since the three required names are always listed: a missing file is a FileNotFoundError on the root of the tile, and its other ranks wait in scatter_state (C129_no_files_refuted); only_names is an Iterable, but an iterator loses names, since `in` consumes it (C129_iterator_refuted); a variable with fewer dimensions than its property gets the first names of the property, not the last (C129_dims_refuted).
* C130: without a halo calculate_l2c_vu raises, since nhalo:-nhalo is empty (C130_no_halo_refuted); within 1e-10 of a pole the factor is off by up to 2e-10 (C130_value).
* C131: changes that led to no merge are only undone when no merge happened anywhere in the pass: a tasklet stays pushed into a map that merged with nothing and runs once per point of it (C131_undo_refuted); eager=False has no effect (C131_eager_refuted); mergeable maps below a map that is followed by something else are left (C131_inner_refuted).
* C132: a wrong number of quantities is noticed after the receives were posted (C132_receives_refuted); a vector updater without specifications for y is accepted and silently exchanges nothing (C132_no_y_refuted), and of lists of different length the rest is dropped (C132_dropped_refuted); zero halo points are only noticed in the first specification, and of vectors only if zero in both components (C132_zero_refuted).
* C133: get_scalar_halo_updater and get_vector_halo_updater do not check the layout. The updater is stopped only by the comparison of the numbers of quantities and specifications (under `__debug__`), after the receives are posted (`C133_posted_refuted`), and not at all if it is given as many quantities as directions lead to the rank (`C133_eight_refuted`).
* C134: the extent along the tile dimension is never looked at. A single index is only shifted by the origin, so a quantity with one tile in its compute domain is scattered with five tiles from outside it if its storage has them (`C134_extent_refuted`), and tiles after the sixth are ignored.
* C135: store_constant does not make the directory, which store does when it writes its first chunk: before that every call raises (`C135_directory`, `C135_directory_refuted`). A state with its time, which store wants, raises at that entry after the constants before it were written (`C135_time_refuted`). The old file is removed before the new one is written, so a failed write loses the constant stored before (`C135_lost_refuted`).
* C136: a name that is not a dimension of the quantity is silently ignored: q.sel(x_interface=0) on a cell-centred quantity gives the whole compute domain (`C136_unknown_refuted`; `C136_ignored` in general).
* C137: on several ranks order 4 exchanges the winds of the state given when the object was made, not the arguments: called with other arrays it computes from stale halos and changes arrays it was not given (`C137_arguments_refuted`). The check of the state lets one with neither u nor v, or without v, pass, and the first call raises (`C137_checked_refuted`). Every order but 2 is taken for 4 (`C137_order_refuted`).
* C139: no_data_dependencies compares the writes of the first loop with the reads of the second only. b[k] = a[k-1] followed by a[k] = 7 is accepted, and merged along K it gives another result (`C139_order_refuted`).
* C140: a StencilConfig without a DaceConfig makes its own, without communicator, and with an orchestrated backend that moves the process-wide build folder to .gt_cache_FV3_A: programs built afterwards under the rank's own DaceConfig are not found when they are loaded (`C140_default_refuted`). A CompilationConfig in Run mode moves the directory too, and the next DaCe stencil the folder (`C140_taken_refuted`).
* C141: a verbose run of a pipeline raises after its first pass if the cache directory is not there; nothing in the pipeline or its caller makes it (`C141_folder_refuted`).
* C142: the guard of a LocalState is only on the attributes it holds itself: Locals in a nested State are accepted and can be read from everywhere (`C142_nested_refuted`). _check_only_locals compares with Quantity alone, so that `Quantity | None` passes (`C142_optional_refuted`).
* C143: best_guess_diff decides from the columns alone whether a halo is cut off, although it judges rows too: 12 by 18 against 12 by 12 with a halo of 3 is accepted with different shapes (`C143_rows_refuted`). A fourth dimension is not looked at (`C143_further_refuted`); two-dimensional variables raise (`C143_flat_refuted`).

### Testing the theorems

`seeded/LOG.jsonl` has one line per wrong program tried: an edit of one definition of the model like a realistic bug, the
claim it breaks and the theorems that stopped proving.
