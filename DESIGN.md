# Formal model of Viscid in Rocq (Coq 8.16.1): design

## Approach

Each area of the code gets up to four files under `rocq/theories/`:

* `<Area>Model.v`  - executable Gallina definitions, one per function or loop of the code, each with a
  comment `(* viscid/<file>:<lines> *)` and, where something is simplified, a `SIMPLIFICATION:` note.
* `<Area>Spec.v`   - (when useful) the small independent specification the property is stated against.
* `<Area>Proofs.v` - lemmas.
* `<Area>Props.v`  - only property theorems (`exact lemma`), non-vacuity `Example`s and `Print Assumptions`.

Python exceptions are values (`option` or an explicit `result`), loops are structural recursion, folds, or
recursion on explicit fuel whose exhaustion is an explicit value excluded by the statement. Floating point
numbers are modelled by exact numbers: `Z`/`Q` where the code only compares and adds, and the standard library's
`R` where the code divides, takes roots or uses trigonometry. Rounding is therefore outside the model.

Where the faithful model violates the English property a theorem named `..._refuted` exhibits the
counterexample, and a theorem states what does hold (suffix `_partial` if less than the full property).

## Plan per property

| id | what is modelled | how it is proved |
|----|------------------|------------------|
| C01 | `make_fwd_slice` branch by branch on `Z`; Python slice semantics (`slice.indices`) as separate spec | closed form for selected indices, arithmetic with div/mod; n-d by induction over axes; refutations by witness |
| C02 | the chunk functions on lists / index ranges | partition lemmas by induction, sizes by div/mod arithmetic |
| C03 | interleaved chunk split + re-assembly by strided assignment; task pool with arbitrary completion order | index arithmetic, induction over the schedule |
| C04 | `wrnenc`/`wrndec` as list transducers on codes and characters (`Z`) with the run flush logic and 72 char records with checksum | simulation of encoder state by decoder, induction over codes |
| C05 | quantizer of `wrn2`/`rdn2` over `R` with `exp`/`ln`; digit split i1/i2 over `Z` | error bound from monotonicity of exp, digits by div/mod |
| C06 | the four dicts of `Bucket` as association lists, all methods | state invariant by induction over operations + refinement to a handle map |
| C07 | node graph with arbitrary parent lists, `_parent_bfs` with visited set | termination measure and level-order characterisation (nearest = minimal distance) |
| C08 | `DatasetTemporal` child list insertion, binary/nearest lookup | sortedness and permutation invariants, argmin lemma |
| C09 | `std_sel2index`, `sel2values` on `Q` arrays | argmin and filter characterisations |
| C10 | selection grammar of `fill_nd_sel_list` | case analysis and induction over the selection list |
| C11, C12 | `_c_interp_trilin`, `closest_preceeding_ind`, `closest_ind` over `R`/`Q` and arrays as functions | convexity, affine exactness, start-index independence by monotonicity |
| C13 | integrator formulas over `R^3`, `_ts_ctrl` | algebra, norm bounds by convexity, fuel bound for the retry loop |
| C14 | `_py_streamline` main loop with abstract integrator and end tests | loop invariant; refutation for the time and length accounting |
| C15 | flag words as `N`, bit masks | finite case analysis on relevant bits lifted to all words |
| C16 | corner tests, `find_roots_face`, face tables | convexity of trilinear interpolation; quadratic roots; refutation of the XY face table |
| C17 | incremental cluster merging on lists | invariant: clusters = connected components of the processed prefix |
| C18 | `activate_patch`, `discover_neighbors` | search completeness; symmetry by induction over the double loop |
| C19-C21 | the matrix / quaternion formulas over `R` | `ring`/`nsatz`, trigonometric identities |
| C22, C23 | lookup table, elementary matrices, the two caches | groupoid law from orthogonality + cache invariant; refutation of the sign in the dipole round trip |
| C24, C38 | stencils on index functions | algebra, commuting differences |
| C25 | per-line loop with offsets | per-line equality, refutation for `mag` |
| C26, C27 | string transducers on `list ascii` | induction over text; refutation for commas in strings |
| C28 | heap of linked nodes + map + dict | refinement to an association list |
| C29 | future state machine with an interleaving step relation | invariants over all schedules; refutation of `wait` with duplicates |
| C30 | integer unit conversion with 64 bit bounds | div/mod arithmetic |
| C31, C32 | line concatenation with offsets; slice of sorted file names | list induction; refutation of the order |
| C33-C35 | coordinate arithmetic, point enumeration, seeds over `R` | algebra, induction on shape |
| C36 | patchwise reductions | fold lemmas; refutation for mean, ptp, argmax |
| C41, C42 | `Node.time`, `Node.find_attr` on the node graph of C07 | same breadth-first characterisation |
| C43 | the module global of `calc_streamlines` as a state machine over calls | induction over the history; refutation |
| C37, C39, C40 | arrays as functions on index lists, axis permutations | list permutation lemmas, composition with C01 |
| C44, C45 | the interpolation kernels of C11 on a patch list with the active patch as state; neighbour tables as bounded arrays; the skeleton test | invariant over the history of lookups; refutation for tables that are too short |
| C46 | `_make_slice` with its node and cell branches, reduced axes and coordinates | list lemmas per axis, induction over axes; refutations by witness |
| C47 | the staggered averages and differences on index functions | algebra per component, exactness on linear data |
| C48, C49 | difference quotients around a point; tangents of a polyline | algebra; refutation at the ends |
| C50, C51 | matrix to quaternion, axis and angle; `a2b_rot` over `R` | branch by branch algebra, `nsatz`; refutation for antiparallel directions |
| C52 | the matrices of C22 for SM and MAG | matrix algebra on the unit dipole |
| C53-C55 | sphere seeds: endpoints, mesh vertices, value order; seed generators as objects with state | index arithmetic, induction over calls; refutations |
| C56 | `_classify_nulls` on the three eigenvalues | case analysis on signs, eigenvalues as roots of the cubic |
| C57, C58 | merged topology blocks, bisection with explicit fuel | invariant: corners enclose all topologies; refutation for lost crossings |
| C59 | covariance of samples, sorted eigenvectors as a specified oracle | Rayleigh quotient bounds, orthogonality |
| C60-C62 | angle conversions over `R` with `atan2`; map fields as arrays with coordinates; great circles | trigonometric identities, permutation lemmas, arc length |
| C63, C64 | the dipole formula per component; field line coordinates | algebra, derivative lemmas of the standard library for the divergence |
| C65, C66 | broadcasting on index lists, wrapping of results, reductions and coordinates | lemmas on broadcast indices for each layout; refutations by witness |
| C67 | trapezoid sums along an axis | induction over places; equality with the Riemann integral of the piecewise linear function |
| C68 | `np.choose` with broadcasting, second attempt, spherical masks | broadcast lemmas of C65; square roots |
| C69 | the files as dictionaries, names as strings, layouts guessed from shapes | permutations of the names; reversed axes; string lemmas for the data items |
| C70 | both implementations of each operation over arrays with broadcasting, and the choice of the backend | pointwise lemmas for arrays of one shape; C37, C65 and C66 for layouts, operators and reductions; real arithmetic |
| C71 | the bucket of C06 with file objects (handle, contents, counts of references) and a disk given anew at each load or reload | invariant relating the cache to the list of open files with what they refer to; induction over the history, inner inductions over the references |
| C72 | patches as lower and upper corners, parsed selections, floats with infinities for the extent, sliced patches as axes, size and values | the boolean tests are equivalent to a place in common; filters keep order; the tolerance of one patch (C09) for points of a range |
| C73 | lines of the global file as words, blocks as lists of nodes, dump files as lists of 32 bit words; the simulation and what it writes are a separate specification | inductions over lines, variables and species; places in nested lists; division with remainder for block and cell |
| C74 | the file as a tree of grids with times, topologies, geometries and attributes; the loaded tree of datasets and grids; what a file describes is a relation of its own | induction over the depth of the tree; stable insertion of steps; exceptions and truth values of empty datasets as results |
| C75 | a file as a list of bytes, floats decoded by any function; the run and what Athena writes are a separate specification; groups of files as lists with run and number | places in nested lists, arithmetic of bytes, nodes from centres over the rationals, stable sorting |
| C76 | the loops of the flux function as recursions over the index with rational values, the choice of the plane from the sizes of the axes, beta over the reals | walks on the grid with their flux as specification; induction over rows and walks; ring identities for quadratic functions; case analysis of the sizes |
| C77 | arrays as a shape and a function of the indices, numpy indexing with integers, slices, new axes and index arrays, broadcasting, reshape; where the component goes among the items | an inductive relation between places of the result and elements as specification; induction over it; assignment as a fold of updates with an injective source |
| C78 | the two nested loops as a machine with one step per test of a loop condition; fields, points, tracing and curating as parameters; the choice of files and weights on lists of times; curators as functions on lists of points | the configuration at every step in closed form and induction over steps; counting lemma for ordered lists of times; refutations by the closed form |
| C79 | fields as axes, source data with order, layout and reflection, and a cache; views share the source; atleast_3d as inserting axes into arrays; centring, adjusting and renaming of coordinates | equality of values at places through the index maps of inserted axes; an invariant of cache and view over all histories; refutations on concrete fields |
| C80 | paraboloid and normal over the reals; edges over the rationals on one column with masked values; the indices of the angle over the integers | derivatives from the standard library; first and last place by induction; Cauchy-Schwarz for the angle |
| C81 | tables as labels and columns, joined and split; entries of any type with equality; drop_duplicates and selection by rows | deduplication of repeated blocks and of the columns of a mesh by induction; selecting the rows of one time gives its block back |
| C82 | the decision as a function of the setting, what the grid and its parents know and the log file; turning of axes and values; derivation of fields by fuelled recursion over stored names; grid2 nodes, argmin for planes, three stable sorts and splitting of file names | case analysis with linear arithmetic; index reversal; induction over fuel with a sign for each expression; first minimum; stability of insertion sort makes equal keys contiguous |
| C83 | the gradient of C24 for each component, products summed over the axes, inner part of a when the boundaries are left out | the gradient of a component of the extended field is the gradient of the component; formula of C24; linear fields by its lemma |
| C84 | linspace, np.interp as the search for the first segment that ends at or after the parameter, ceil of the number of points | induction over the segments; scaling of the parameter to the number of the point; uniqueness of the segment up to its ends |
| C85 | the table of names as state threaded through the files read; selections as lists of items and where each element comes from; moments; axes; the grouping of C82 | invariant of the table (the list of each kind followed by any number of copies of the potentials); induction over the items; sums over particles about a shifted origin |
| C86 | a table as a list of rows, strided columns, C order of the flat array; the writer (nested loops over the cells) is a separate specification; the time by characters | mixed radix place of a cell in the nested lists; places of the cells along one axis; induction over characters |
| C87 | hierarchies as trees, the searches as lists of (place, patterns left, path), the loop with fuel; what matches is an inductive relation | the loop is the flat map of a recursive listing, which is the relation; text of the location by induction over its parts |
| C88 | rationals with rounding half to even; the loop over the units; the conversion to doubles of an integer; text as lists of characters | rounding is monotone and within a half; induction over units, digits and characters |
| C89 | texts as lists of characters; splitting at commas and colons, stripping, int(), float() and complex() of digits | a grammar with its printer and its meaning; parsing what was printed gives the meaning, by induction over digits, words, list and text |
| C90 | a field with its cached arrays of nodes and centres; the write into them; the kernel of C13 | the field after the write is still one on which the search works; the nearest node is then found exactly |
| C91 | texts as lists of characters; the two regular expressions on the parts between colons; zfill, join and the cut at ten characters | the text of a date and a clock, and the clock in ISO 8601, are written down independently; induction over digits |
| C92 | axes as lists of rationals; shapes of nodes and cells; the guesses from shapes; the fields of C37 | error of an even axis by induction over the nodes; the shape determines the guess, then the loading theorem of C37 |
| C93 | files as lists of bytes; headers, the search for fields, reading at a place of the template | a file is the encoding of its fields; the header is decoded at the start of each, by induction over the fields all are found; Fortran order by induction over the axes |
| C94 | lines as lists of characters; the reader as an automaton over lines; numbers as in C89 | the log is the print of its sections; each line is recognized from its first characters, induction over rows and sections |
| C95 | reader classes as trees with name, priority and test; stable sort; texts as lists of characters | induction over the tree: the list of classes is in the order of precedence; filter and sort commute |
| C96 | the lines as prepared (C31), starts found from the connections, finer rows (C84), new connections, segments | induction over the lines: starts are the offsets, slices are the lines, connections of the new counts give the pieces |
| C97 | the search for constant directions as a recursion on the index, on rows of points and on the pieces of lines (C96) | induction on the index for lists of any length, case analysis for three coordinates |
| C98 | patches as lists of values, operand for each patch, the branch for reductions, arrays with the patch index last | induction over the patches, position by position |
| C99 | texts as digits or names, brought to one length, spread over the points, decoded in pairs | case analysis over the notations, spreading commutes with decoding |
| C100 | rows of colour components through the steps of C96, rounding to bytes | lemmas of C96 for the rows, bounds of values between bytes |
| C101 | a whole number of a unit, exact rounding, the conversion of numbers to spans (C88) | a multiple of a thousandth that is not whole is not within the tolerance of a whole number if it is small |
| C102 | variables as characters, the options left after each picture as state, a recursion over the times | induction over the variables and over the times, with the number of pictures so far |

## Trusted base

* Coq's kernel (8.16.1) and its virtual machine for `vm_compute`.
* The axioms printed by `Print Assumptions` under each theorem; only axioms of Coq's standard library appear
  (the classical real number axioms `ClassicalDedekindReals.sig_forall_dec`, `sig_not_dec`,
  `functional_extensionality_dep`, and `Classical_Prop.classic` where trigonometry is used). Files on `Z`, `Q`, `list`
  are closed under the global context.
* The seven names the checker lists for the loaded libraries (`Coq.ssr.ssrunder.Under_rel.*`, from the standard library's
  sealed module used by `ssreflect`, loaded by `lia`/`Zify`) are parameters of a standard library module; no theorem
  here depends on them (`Print Assumptions` does not list them).
* `TrapzIntProps.v` states one theorem with Coquelicot's Riemann integral (`is_RInt`): a reader has to trust that
  definition. Coquelicot adds no axioms; `Print Assumptions` lists only those above.
* The reading of the code: no extraction or execution ties the model to the Python/Cython/Fortran text.

## What is modelled

| files in `rocq/theories/` | code in `/repo/viscid` | not modelled there |
|---|---|---|
| `PySlice`, `FwdSlice*`, `NdIndex` | `sliceutil.py:make_fwd_slice` and Python/numpy basic slicing | fancy indexing |
| `Chunk*` | `parallel.py` chunk functions; split and re-assembly in `cython/streamline.pyx:calc_streamlines` | |
| `Jrrle*` | `readers/_jrrle` run length coding and record layout | floating point quantizer (C05) |
| `Dict`, `Bucket*` | `bucket.py:Bucket` | file I/O of `VFileBucket` |
| `Tree*` | `tree.py:Node` info, attributes, time | |
| `Sel*`, `Temporal*` | `sliceutil.py` standard selections to index, `dataset.py:DatasetTemporal` | parsing of selection text |
| `NdSel*` | `sliceutil.py:fill_nd_sel_list`, `prune_comp_sel` | |
| `Od*` | `compat/ordered_dict_backport.py` | |
| `Fut*`, `ParMap*` | `compat/futures/_base.py`, `thread.py`; `parallel.py:map` | `futures/process.py`, interpreter exit hook |
| `Stream*` | `cython/streamline.pyx`: tracing loop, end classification, topology, global state; `calculator/topology.py` | option handling (`method`, default step sizes), seeds iteration |
| `Cluster*` | `calculator/cluster.py` | float32 rounding of distances |
| `Interp*`, `Amr*` | `cython/cycalc.pyx` interpolation kernels, `cython/cyfield.pyx` coordinate buffers, `cython/cyamr.pyx` patch lookup and neighbours, `amr_grid.py` skeleton reuse test | rounding; preparing a field (centering, layout, dtype); integer fields (the code raises for them) |
| `Json*` | `vjson.py:loads`, `find_all` | the JSON parser itself; `rfind_all` |
| `Eval*` | `calculator/evaluator.py` | what `eval` and numexpr compute; Python's identifier normalisation |
| `Time*` | `npdatetime.py`: `regularize_time`, `round_time`, `most_precise_unit`, `time_sum`, `time_diff`, with numpy's casts | calendar units (M, Y), parsing text and floats, formatting, `linspace_datetime64` |
| `Lines*` | `vutil.py:prepare_lines` | colours as strings, scalars given as a Field, dtype |
| `Glob*` | `vutil.py:slice_globbed_filenames`, and the regular expression that recognises a slice | the file system, turning slice text into a selection, nan/inf as file times |
| `AmrRed*` | amr_field.py 273-305, 338-468 | reductions and operators of multi-patch fields; values exact rationals; no axis argument |
| `Fld*`, `LayoutProps`, `TransProps` | field.py layout detection, loading, wrapping, as_layout, transpose, transpose_crds, swapaxes, hyperslab and loaded slicing | memory order, dtypes, copies, post_reshape_transform_func, negative axis numbers |
| `LazyProps` | field.py `_finalize_slice` hyperslab read against slicing of the loaded array | sources with fewer axes, list sources, selection parsing (C03, C04), wrapping |
| `Extend*` | `calculator/calc.py` `extend_boundaries_ndarr` (641-731) and the coordinate part of `extend_boundaries` (787-804) | C38: invariant over the processed axes (full range on processed axes, interior on the others), inner loops by induction on the layers |
| `Points*` | `coordinate.py` `get_points`, `iter_points`, `as_mesh`, `get_nr_points` (1065-1128); `seed.py` orderings of `Point`, `Plane`, `Volume` | C34: row-major place of an index vector, by splitting the shape at the axis; composed with the interpolation model of C11 |
| `Crd*` | coordinates of one axis: centres, extension, node-to-cell, uniform arguments, slices of cell centred axes (coordinate.py 118-156, 461-509, 595-611, 663-764, 815-846, 1221-1379) | dates, units, sphere axes, selection by coordinate value (see Slice*) |
| `Deriv*` | grad, div, curl with boundary extension and result coordinates (calc.py 210-323, necalc.py 129-248) | rounding, names and layouts of the result, fields that do not have three axes |
| `LineInt*` | integrate_along_lines, project_along_line, jacobian/div/curl_at_point (calc.py 416-501, 503-639), over the reals | rounding, mask_func, the interpolation itself (a function of the point), jacobian_at_ind, eigenvalues |
| `R3.v`, `RotModel.v`, `RotProofs.v`, `EulerProps.v`, `RotProps.v`, `AxisProps.v` | rotation.py over the reals, one matrix, vector or quaternion at a time: e_rot, e_dcm, angle2rot, eul2rot, angle2dcm, eul2dcm, rot2angle, rot2eul, dcm2angle, dcm2eul, quat2rot, quat2dcm, rotmul, rotate, quatmul, quat_rotate, wxyz2rot, wxyz2quat, quat2wxyz, rot2quat, dcm2quat, rot2wxyz, a2b_rot; np.linalg.eigh is an argument with its contract as hypothesis | rounding; stacks (quat2wxyz of a stack divides by the last norm); changes in place to the arguments; check_orthonormality; symbolic helpers; roll given together with new_x |
| `Cotr*` | `viscid/cotr.py`: `Cotr` with its caches (elementary matrices, transforms, dipole direction, angles), `get_transform_matrix`, `transform` of one vector, `dip_tilt`, `dip_gsm`, `get_dipole_moment`, `dipole_moment2cotr` (C22, C23, C52) | date to `t0`/`ut`/IGRF coefficients (parameters), heliocentric systems, rdim=4, `get_rotation_wxyz` |
| `Seed*` | seed.py over the reals: Line, Spline (scipy's curve a parameter, the degree popped from the options), Plane (frame, both transforms, points), Volume, Sphere with end point rules, SphericalCap, Circle, SphericalPatch, `as_mesh` and `arr2mesh` of a sphere | dtypes, `as_uv_coordinates`, plot helpers, topologies, `Line.uv_to_local`, MeshPoints.get_local_shape |
| `Integ*` | cython/integrate.pyx over the reals: all six integrators with return codes, times and speeds, `_ts_ctrl`, the retry loops (fuel, with a proof that it suffices), the method table of streamline.pyx | the index cache (C12), the interpolation (C11; a function of the point here), dt == NULL, rounding |
| `Quant*` | readers/_jrrle.f90 `wrn2` and `rdn2` over the reals: range, levels, signs, header rounding, with the records of `JrrleModel` | single precision, the other header fields, `********` counts |
| `Null*` | `cython/null_tools.pyx`: candidate cells, roots of two bilinear functions on a face, the six faces, the count of roots in three component orders, the list of nulls, the classification by eigenvalues | rounding; the computation of the eigenvalues (they are an argument); the 4-byte/8-byte variants |
| `Ecfc*` | `calculator/ecfc.py`: conversion to leading staggering, means over faces and edges, divergence, boundary layer | rounding; one- and two-dimensional fields before `atleast_3d`; in-place info of the input; names |
| `Sep*` | `calculator/separator.py`: `topology_bitor_clusters` up to `find_clusters` (which is `Cluster*`), `get_sep_pts_bisect`, `_get_sep_pts_bisect`, `_quadrent_limits`, `_quadrent_center`, the default perimeter check | tracing (the topology is a function of the uv point), the map from uv to space, plots, other checks, rounding |
| `Minvar*` | `calculator/minvar_tools.py`: `minvar_series`, `minvar_around`, `_minvar_lmn_directions`, `find_minvar_lmn` on given samples | `np.linalg.eig` (a parameter that returns eigenvectors), the interpolation of the samples, warnings, rounding |
| `MapPts*`, `MapField*`, `Great*` | `mapfield.py`: `cart2sph`, `sph2cart`, `latlon2cart`, `cart2latlon`, `phi2lon`, `theta2lat`, `lat2theta`, `pts2polar_mapfield`; `as_mapfield`, `as_spherefield` and `convert_coordinates` on fields with two axes with their unit conversions, axis flips and transposition; the axis, periodic column and checks of `as_polar_mapfield`; `great_circle` on top of `a2b_rot` | rounding, fields with one or three axes beyond the errors they raise, the slice of a hemisphere, messages |
| `Dip*` | `dipole.py`: `fill_dipole` without mask, `calc_dip` with its broadcasting and dtype, `xyz2lsrlp`, `dipole_map` in both output forms | rounding; moments looked up for a time or coordinate system name (see `Cotr*`); `make_dipole`'s default grid; masks |
| `Arith*`, `Reduce*`, `Trapz*` | operators of Field and VectorField (`_ow`), numpy broadcasting, `wrap` of results, reductions along an axis with keepdims, argsort, trapz, cumtrapz (C65-C67) | in-place operators, `defer_wrapping`, numpy functions called on fields, fudge factors, rounding |
| `Mask*` | dipole.py 102-105, 144-145 (masked fill), 209-259 (`set_in_region`, `make_spherical_mask`): broadcasting of the mask, the second attempt with a component axis, dtype of the factors | masks with another centering than the field, `rsq=`, numexpr, rounding |
| `Save*` | `save_fields` of npz and hdf5 files, their readers (npz `_parse`; xdmf `_parse_attribute`, `_parse_dataitem`, rectilinear geometry): one dictionary of names and arrays, transposed data, xml text of the data items | time, coordinate system and units, compression, hdf5 groups from names with slashes, xml escapes |
| `Vec*` | the choice of a backend, magnitude, dot, cross, project, normalize, project_vector and the binary operators with numexpr and numpy | native magnitude, casts of numbers to the type of the arrays, names |
| `Files*` | load_file, unload_file, reload_file, get_file, unload_all_files, the references between files (ContainerFile), load/unload/reload of VFile | globs, detection and grouping of names, force_reload, clear_cache, series of Fortran files whose parts are in the tree of data sets, references more than one level deep |
| `AmrSlice*` | the extent of a selection (coordinate.py 566-597, sliceutil.py 753-827 without coordinates), choice of patches, assembly of the result (amr_field.py 99-247) | parsing (C10), slicing of one patch (C09, C10), components, arrays and dates in the selection |
| `Vpic*` | the global file, blocks, names and places of variables, reading a variable (vpic.py 250-409, 441-507, 585-600, 676-679) | binary header (546-588), list of times, deferred datasets, aliases of variables (27-248), centering |
| `Xdmf*` | the way through Domain and Grid elements, inheritance of times, collections, errors (readers/xdmf.py 95-254), order of steps (dataset.py 470-484), time of AMR grids (amr_grid.py 178-190) | parsing of DataItem, geometry and attributes (see C69 for files written by Viscid), xinclude, Information elements, AMR grids inside spatial collections |
| `Athena*` | header with guess of the byte order, names of variables, reading a variable, node coordinates (readers/athena_bin.py 83-166, 225-260, 279-345, 380-392), groups of files (readers/athena.py 19-47) | primitive variables, derived fields (athena.py 63-229), ascii tables, regular expressions of file names, truncated files |
| `Psi*` | calc_psi with rev, choice of the plane (calculator/plasma.py 45-103), calc_beta (112-138) | giving the result the dropped axes back (105-107), fields with other axes, rounding |
| `SetSlice*` | reading and assigning through a selection of data in memory (field.py 1087-1110, 1114-1119, 1143-1154, 1244-1273, 1353-1370, 1003-1013), the indexing, assignment, broadcasting and reshape of numpy | parsing of selections (C09, C10), coordinates of the result (C46), h5py data (C39), the layout found for all components (C37), reflected axes |
| `Fluid*` | direction, order of files, range and steps of follow_fluid, the choice and weights of the two files, the two loops with callback, tracing and curating, whose array of points is written (fluidtrace.py 184-268); the three curators (24-127) | tracing itself (C13, C14) is a parameter; times are whole numbers of a unit; reading of files, ancillary fields, fld_slc, stream_opts and the plotting callback; the widening of bounds on axes with one element |
| `View*` | `atleast_3d`, the native and shell views, `as_centered` to nodes, `adjust_crds`, `atmost_nd` | values other than at nodes or cells; face and edge centring; `downsample` |
| `Mpause*` | `paraboloid`, `paraboloid_normal`, `find_mp_edges`, the angle of `get_mp_info` | the fit, cache files, places of largest pressure and electric field |
| `Frame*` | `to_dataframe` of grids and datasets, `from_dataframe` | pandas' joining of different columns; selections; types of columns; centring |
| `Ggcm*` | openggcm.py: decision on turning (222-335), transforms of fields (116-165, 337-368), derived quantities (370-530), grid2 (823-884), groups of files (71-113); grid.get_field | parsing of log files, of time strings and of the data; iof and ionosphere files; caches; pretty names; `_get_beta`, `_get_psi` (C76) |
| `Conv*` | calc.py 326-351 `convective_deriv` | names and times of the result; broadcasting of axes with one place |
| `Resample*` | calc.py 376-414 `resample_lines`, kind linear | other kinds; rounding of linspace |
| `Gkeyll*` | gkeyll.py 26-73, 383-413 names; 76-219 derived fields; 240-276 groups; 415-450 axes; hdf5.py 82-127 selection of a component | opening of files, time stamps, `transpose` of the wrapper |
| `Tab*` | athena_tab.py 113-179, 208-213; ascii.py 28-42; athena_hst.py 27-49 | parsing of numbers and of the line of names, float32, `.nda` files, history files of one row |
| `Path*` | vutil.py 170-236 `resolve_path`, `find_item`, `find_items` | fnmatch; groups that resolve paths by themselves |
| `Clock*` | npdatetime.py 153-185 numbers and h:m:s text as spans, 344-352 `linspace_datetime64`, 653-727 `format_time` with hms, dhms and one %f | float rounding inside linspace, strftime of dates, ISO text (187-240), the other formats |
| `SelText*` | sliceutil.py raw_sel2sel_list (text), names of items, standardize_sel and standardize_value (text) | texts of times, lists of booleans, the empty list, inf and nan, complex numbers with a real part, nested or unbalanced brackets, the deprecation warnings |
| `IntSlice*` | `interpolated_slice` with one axis at a value on a field with three axes, `slice_interp`, what `make_slice_keep` shares with the cached arrays | several values at once, text slices, reflected axes |
| `Iso*` | `as_isotime`: cleaning, both regular expressions, zeros filled in, scalars, lists and arrays | which texts `np.datetime64` accepts (a parameter), blanks other than spaces |
| `Make*` | `arrays2crds` (automatic type), `arrays2field` without a change of centering, `dat2field`, `full` and so `zeros` and `ones`, `wrap_field` | times as coordinates, given types of coordinates, `full_like` |
| `Fortbin*` | `ggcm_fortbin.py`: headers, the search for all fields, reading a field at the place given by the template, order of axes | names that are not ASCII; negative lengths and fields without axes; the meaning of four bytes as a floating point number; base time; `inquire` by name |
| `Log*` | `ggcm_logfile.py`: lines of classes, parameters and types, values, the end at the first report, name of the equations | underscores in whole numbers; blanks other than spaces; letters that are not ASCII; order of the keys |
| `Detect*` | `vfile.py`: order of the reader classes, choice by file name, preference and name of the type | regular expressions of the detectors, import of reader modules |
| `Prep*` | `vpyplot.py`: `_prep_lines` with linear interpolation and numbers at the points | colours, other kinds of interpolation, matplotlib |
| `Plot2d*` | `vpyplot.py`: `_xyzind_from_symdir`, what `scatter_2d` and `plot2d_lines` hand to matplotlib | colours other than numbers, markers, limits of the axes, matplotlib |
| `AmrOp*` | `amr_field.py`: operators with an operand, functions of numpy through `__array__` and `__array_wrap__` | comparisons, axis arguments, coordinates of the patches, python's choice of the reflected operator |
| `Hex*` | `vutil.py`: `_string_colors_as_hex`, `_hexchar2int`, colours as text in `prepare_lines` | names of colours (matplotlib), characters that are no digits |
| `PrepCol*` | `vpyplot.py`: colours of the pieces in `_prep_lines` | colours of the points, other kinds of interpolation |
| `Sec*` | `npdatetime.py`: `datetime_as_seconds`, `timedelta_as_seconds`, `time_as_seconds` | units longer than a second, negative decimals, floating point rounding, 64 bit overflow, which values count as dates |
| `Multi*` | `multiplot.py`: `make_multiplot`, what `_do_multiplot` hands to the plotting functions, in one process | several processes, titles, sizes, margins, other options, variables that share one dict |

## Findings: where the code does not have the property

Each is a theorem named `..._refuted` or noted in MANIFEST.json.

* C03: with several failing tasks the exception raised depends on the schedule; with a user-supplied pool `parallel.map` always raises.
* C08: index 0, negative indices and out of range times are not members of a temporal dataset although they can be retrieved;
  getting a child by time slice always fails; ranges drop children with equal times; `remove_all_items` leaves the active child.
* C09: slices by value fail on descending or repeated coordinates; a one-point axis has tolerance 1; stepped interior slices raise.
* C10: an over-long selection with a named newaxis after the Ellipsis is accepted.
* C14: `max_t` sums running totals of dt, so lines stop early; the length counted per adaptive step is not the step taken.
* C17: periodic grids: neighbours across mixed corners and chains winding around twice are split; `multiple=False` averages the
  wrong numbers; one-point axes give NaN.
* C28: the backport's `clear` leaves the order list in place on Python 3.
* C29: `wait` on a list with a repeated finished future hangs; a callback raising a non-Exception loses the later callbacks and
  kills the worker; `max_workers=0` hangs; an exception object with false truth value is reported as a `None` result.
* C43: a call of `calc_streamlines` that raises while tracing makes every later call raise.
* C44: a point on a face shared by two patches gets the value of the patch that was active before; the cached search index is kept
  when the active patch changes, so a search can start outside the coordinate buffer of a shorter patch (bounds checks are off).
* C45: a patch with more than 48 neighbours makes neighbour discovery raise IndexError; the direction flag in the neighbour mask is
  the opposite of the documented one; a skeleton is reused when only the lower corners agree.
* Not a theorem: `make_cyfield` and `make_cyamrfield` test `i4`/`i8` with `if/elif` followed by a second `if` whose `else` raises,
  so integer fields always raise RuntimeError.
* C26: a string literal containing a comma before a bracket loses the comma; an escaped quote before `#` cuts the string; an
  apostrophe inside a string keeps a following comment, so the parser then fails.
* C27 (side effects): a field named `a__b` is looked up as `ab`; in the numpy path a double quoted name is treated as a variable.
* C30: one hour (minute, week) before the epoch passes the overflow check when converted to attoseconds, with a wrong instant.
* C30: `time_sum` and `time_diff` add 64 bit numbers without a check: an overflow gives NaT or wraps around.
* C30: `regularize_time` returns a shorter list (no error) when no unit fits, e.g. 5 as with unit 'D'; `time_sum` then fails with ValueError on unpacking.
* C30: `most_precise=True` together with `unit` refines times that were already rounded, so digits are lost although they fit.
* C31: one colour per point (documented, also as lines of six rows) always raises ValueError unless there are 1, 3 or 4 points or as many points as lines: the array is brought to N x 3 while 3 x N is expected afterwards; for exactly three points given as rows the components are mixed up.
* C31: a colour given as a tuple (documented) raises TypeError (the code assigns into it; a list is modified in place).
* C31: colour components in [255.5, 256) pass the range check, round to 256 and wrap to 0.
* C32: a reversed slice of a file list (`[3:0:-1]`) gives the files in increasing order.
* C32: `[::2]`, `[1::2]` and the documented `[10.0j::2]` are never recognised as slices (the regular expression wants a stop before a second colon); the bracket is passed to `glob` as a set of characters.
* C36 `AMRField.mean`, `std`, `ptp`, `argmax`, `argmin` (amr_field.py 287-305) apply the reduction to the list of patch results: the mean is wrong when patch sizes differ, the standard deviation of patches that are each constant is 0, `ptp` is the spread of spreads and `argmax` is a patch number chosen by the size of its own argmax.
* C36 `wrap_field_method` tests the size of the first result to detect a reduction: with one-cell patches `-f` is applied twice (returns `f` as an array) and `f + g` is a TypeError.
* C37 `_detect_layout` (field.py 1054-1057) makes `sshape2` from `dat_shape` instead of the field's shape, so the fallback comparison always succeeds: an array of the wrong shape is reported as a scalar layout and LAYOUT_OTHER never is.
* C37 With as many places along every axis as there are components, an interlaced array is detected as flat: converting flat -> interlaced -> flat exchanges components and places.
* C37 A forced layout on a single array stored in reversed axis order transposes around the component axis of the wanted layout, not the stored one: ValueError, or wrong values if lengths agree.
* C40 `transpose` that puts the component axis between space axes (also `swapaxes(0, 1)` of a flat vector) gives a field of `one component' whose data cannot be reshaped when read.
* C39 `_finalize_slice` (field.py 1169-1190): without `zyx_native` the names `first_slc` and `native_first_slc` are the same list, so the component slice is inserted twice and every hyperslab read of a vector field stored in coordinate order raises IndexError.
* C39 `reflect_slices` (coordinate.py 448-460) gives one flag per axis while `slices` also contains new axes: with a new axis before a reflected axis the hyperslab is not flipped.
* `extend_boundaries_ndarr` with its default `axes='all'` raises TypeError for every array (C38_default_axes_refuted).
* `extend_boundaries` of a cell-centred field with one cell on an axis places the new centres at distance `crd_invarient_dx` although nodes continue with the cell's width; with unequal cells the new centres are not cell middles either (C38_centres_*_refuted). The docstring says corners stay 0.0: they are extrapolated (C38_order_1).
* `as_mesh` of coordinates with two axes always raises (the target shape starts with 3 but there are two rows) (C34_mesh_of_two_axes_refuted).
* C33: `UniformCrds` uses n instead of n-1 for the cell width, so xl_cc, xh_cc and min_dx_nc differ from the arrays for every axis with length.
* C33: `nc2cc` of two nodes makes cells 1e-5 wide around the middle that contain neither node.
* C33: `UniformCrds` accepts every array with spacing below 1e-8 as uniform (absolute tolerance of np.allclose).
* C46: a cell centred slice with a negative start loses a node; backward slices with bounds are shifted by a cell or lose one; uniform coordinates with a step get wrong centres; slicing a strided slice again moves the centres; `fld[-2:5:2]` raises IndexError.
* C46: `make_slice_keep` with an index below -1 returns the nodes of the next cell.
* C24: `grad` of a node centred field raises ValueError (its result is always allocated cell centred).
* C25: integrate_along_lines with reduction='mag' slices the magnitudes of one line with offsets into all vertices: with two lines the second value is 0 if that line has two points and an exception is raised if it has three or more (and no more than the first) (`C25_mag_lines_refuted`). A repeated point gives nan for 'dot' (`C25_repeated_point_refuted`); no lines raise ValueError.
* C48: curl_at_point uses wrong rows: it returns (d_y B_z - d_x B_y, d_x B_x - d_z B_z, d_z B_y - d_y B_x) (`C48_curl_refuted`); the rotation (-y, x, 0) gets (-1, 0, 1) instead of (0, 0, 2). Not modelled: local_vector_points makes the sample points in the type of x, y, z, so integer positions truncate the offsets.
* C49: project_along_line uses the tangent [-2:-1], not the last, at the last vertex (`C49_last_refuted`), and raises for lines of three points (`C49_three_points_refuted`).
* quat2rot leaves quaternions with a norm within about 1e-5 of 1 as they are, so the matrix is not exactly a rotation (C19_quat_refuted; within 5e-5 of one).
* rot2angle drops the first angle within 1e-10 of gimbal lock (C20_near_lock_refuted; the entries are off by at most 2e-10).
* rot2wxyz with quick=False calls eigh, which reads the lower triangle only, on a matrix that is not symmetric: the axis is wrong (C50_slow_refuted).
* a2b_rot with new_x exactly opposite to the x axis as rotated without roll makes no roll, because np.sign(0) is 0: the x axis points the wrong way (C51_new_x_refuted).
* quat2rot, a2b_rot and rot2angle change their arguments in place; quat2wxyz of a stack divides every quaternion by the norm of the last one (read, not modelled).
* `dipole_moment2cotr(m).get_dipole_moment(strength=|m|)` is -m: the angles are computed as if m pointed along +z of SM, but a moment of positive strength is put along -z (C23_opposite).
* At the special 1967 time MAG transforms with `dip_tilt`/`dip_gsm` given by hand do not raise RuntimeError: MAG is then silently GEO (C22_ex_1967).
* The heliocentric table of cotr.py has 'hea' for 'hae' and `(0)` where a tuple is needed, so those transforms raise (read, not modelled).
* dip_geolat uses arcsin where the exact latitude of the dipole has an arctan; C52 holds for the latitude the code computes.
* Plane with parallel N and L divides by zero before its check, which then compares nan: it returns nan points instead of raising RuntimeError (C35_plane_parallel_refuted).
* Spline's last step along the curve is twice the others: its points are at i/n, the last at 1 (C35_spline).
* Spline with its own degree in splprep_kw and no cache pops the degree on the first call: the second get_points follows another curve (C55_spline_refuted).
* SphericalCap does not pass theta_endpoint on, and repeats its pole once for every phi (C53_cap_refuted).
* SphericalPatch checks the sines of its half angles, so angles over 90 degrees can pass and give nan points (C35_patch_refuted).
* Sphere.as_mesh with thetalim reversed adds the opposite pole (C54_reversed_refuted).
* MeshPoints.get_local_shape calls itself for ever; Line.uv_to_local slices the wrong axis (read, not modelled).
* _ts_ctrl can shrink an accepted step below smallest_ds: the limit is applied only to rejected steps (C13_smallest_refuted).
* rk45: the weight of the fifth stage is negative, so a step can be 1.4 times ds long, and dt, which divides by a weighted sum of speeds, can be negative or infinite where the speed jumps (C13_rk45_refuted).
* rk12 moves by the Euler step but takes the time of the midpoint step; rk45 moves by the fourth order result but takes the time of the fifth (read off the model).
* _py_streamline counts min(old |ds|, new |ds|) as the length of an adaptive step; the step taken can be longer when the step shrinks after being accepted (read; C14 models the count as coded).
* jrrle quantizer: a zero in the field comes back as a positive number, at least 1e-33 (C05_zero_refuted); magnitudes above 1e33 are cut silently (C05_large_refuted).
* rdn2: for zmin == zmax the field is set to zmin, the logarithm, and not to exp(zmin). wrn2 never writes such a header (part of C05_total), other writers may.
* C16: in the face tables of the null finder the two faces across z repeat the second corner as the fourth, so the bilinear function there is wrong (`C16_z_faces_refuted`) and a cell without a null is reported (`C16_false_refuted`).
* C16: roots on a face are lost where the first function does not depend on y (0/0), so the plain null B = (sx (x-xn), sy (y-yn), sz (z-zn)) is never reported in any component order (`C16_face_refuted`, `C16_missed_refuted`).
* C16: `find_nulls` raises instead of returning an empty result if there is no null (`C16_none_refuted`).
* C56: nulls with two or more eigenvalues close to zero are in no list (`C56_dropped_refuted`); with divergence a source and a sink are both type B (`C56_divergent_refuted`).
* C47: face and edge fields with one cell along an axis (2-D output) cannot be converted: the slices of the other components are empty (`C47_one_cell_refuted`); with two cells the values are not averaged and the result has three cells (`C47_two_cells_refuted`); the divergence of a plain field with one cell along an axis is 0/0 (`C47_div_one_cell_refuted`).
* C47: `trim_leading=False` raises for every leading field (`C47_untrimmed_refuted`); edge fields use the staggering of the component instead of that of the axis (`C47_mixed_refuted`).
* `topology_bitor_clusters` with `pt_bnds` assigns to an element of a tuple, so the search on a sphere that includes a pole always raises `TypeError` (`C57_pt_bnds_refuted`).
* `topology_bitor_clusters(mask_limit=0, periodic=...)` updates the caller's field in place (`C57_in_place_refuted`).
* `get_sep_pts_bisect` on a seed of at most 3 by 3 points has no samples and finds nothing (`C58_coarse_refuted`).
* `get_sep_pts_bisect` compares with 15 without masking, so topologies with further bits hide a separator that `topology_bitor_clusters` finds (`C58_other_refuted`).
* `_minvar_lmn_directions` replaces an `l_basis` parallel to the normal but not one opposite to it, where l and m become nan; the sign of the eigenvector that is the normal is arbitrary (`C59_antiparallel_refuted`).
* `cart2sph(deg=True)` scales its copy of the argument after the result is stored, so the result stays in radians; `cart2latlon` with its default `deg=True` puts every point between latitudes 86 and 90 (`C60_degrees_refuted`).
* `cart2sph` and `sph2cart` store into arrays of the type of their argument: integer points are truncated or raise `TypeError` (`C60_integers_refuted`, `C62_integers_refuted`).
* `cart2latlon` returns longitudes in (-2 pi, 0], so a positive longitude given to `latlon2cart` comes back less a turn (`C60_longitude_refuted`), and it differs by half a turn from `phi2lon` (`C60_phi2lon_refuted`).
* `pts2polar_mapfield` takes any hemisphere but north as south and truncates integer points (`C60_polar_refuted`).
* `_get_axinds` tests `<` where the component axis requires `<=`: flat vector fields with theta as the first axis are reversed along their components (`C61_flat_refuted`).
* `as_mapfield` without units on a field in radians gives `90 - theta` with theta in radians (`C61_radians_refuted`).
* A field with any further axis cannot be converted (`C61_axes_refuted`).
* `as_polar_mapfield(make_periodic=True)` on a uniform axis adds a row of data but no node (`C61_periodic_refuted`); the default `bounding_lat` is always 90 and refuses cell centred fields, and the check compares with `bounding_lat` and not with its complement (`C61_polar_default_refuted`).
* `great_circle` starts at the opposite point when `p1` is opposite to the x axis of the rotation without roll, e.g. from -x towards -y (`C62_opposite_refuted`), and on the x axis for `p1`, `p2` in one direction such as (1, 1, 0) and (2, 2, 0) (`C62_colinear_refuted`); the code only logs an error.
* `calc_dip` with N points multiplies (N, 3) by (N,) arrays: every N except 1 and 3 raises ValueError, and three points get the denominators of each other (`C63_points_refuted`).
* `calc_dip` at integer points cuts the moment to integers, so a unit moment off the axes gives no field at all (`C63_integers_refuted`).
* `dipole_map` of a point on the magnetic equator multiplies the latitude by sign(0) = 0, and moves the point along the equator to another field line (`C64_equator_refuted`).
* `scalar * vector` with an interlaced vector field raises ValueError (or pairs wrong places on thin grids) although `vector * scalar` works: only VectorField adds the axis for the components (C65_scalar_left_refuted, C65_slab_left_refuted).
* Vector fields of different layouts cannot be added, and the grids of the operands are never compared (C65_mixed_layouts_refuted, C65_other_grid_refuted).
* Reductions of vector fields: the axis number is used for the data and for the coordinates alike, so flat fields with axes from the start and interlaced fields with axes from the end lose the wrong coordinate axis; other axes of one place are dropped as well (C66_flat_refuted, C66_interlaced_negative_refuted, C66_unit_axis_refuted).
* `argsort` and `f.mean(axis) - f` return fields whose data cannot be read (C66_argsort_refuted, C66_difference_left_refuted).
* `trapz()` of an interlaced vector field with its default axis integrates over the components (C67_interlaced_default_refuted, C67_interlaced_silent_refuted).
* C68: `set_in_region` converts `alpha` and `beta` to the dtype of `a` (dipole.py 211-212), so for integer fields a factor below one drops its field (`C68_integers_refuted`).
* C68: a scalar mask with an interlaced field is first tried without a component axis; when the shapes happen to fit (a thin grid whose last axis has as many places as there are components) the mask selects components instead of places (`C68_thin_refuted`).
* C68: `fill_dipole` with a scalar mask, which is what `make_spherical_mask` makes, raises for interlaced fields, which is what `make_dipole` makes (`C68_fill_interlaced_refuted`).
* C68: `make_spherical_mask` squares a negative inner radius and leaves out the places near the origin (`C68_negative_refuted`).
* C69: a field named `file` cannot be saved to npz (`np.savez(fname, **fld_dict)` has a parameter of that name), and a field named like an axis overwrites the coordinates, so the file cannot be read (`C69_npz_file_refuted`, `C69_npz_axis_refuted`).
* C69: npz files keep the grid of the first field only; the others load on that grid (`C69_npz_grids_refuted`).
* C69: `save_fields` for hdf5 writes the number types `Uint`, `Bool` and `Complex`, which the xdmf reader does not know (`KeyError`), so one such field makes the file unreadable (`C69_xdmf_kind_refuted`); so does a colon in a name (`C69_xdmf_colon_refuted`). A field with one value cannot be saved (`C69_xdmf_single_refuted`).
* C69: vectors on a grid with as many places along every axis as components are mixed up when loaded, flat ones from hdf5 and interlaced ones from npz (`C69_xdmf_cube_refuted`, `C69_npz_cube_refuted`).
* C70: with the numpy backend `dot` raises ValueError for a flat and an interlaced field, `magnitude` raises for an interlaced field on a grid with three places along each axis, and `project_vector` raises for interlaced fields, all of which work with numexpr (calc.py 176-198, 367-373).
* C70: with the numexpr backend `add`, `diff` and `mul` raise for an interlaced vector field and a scalar field, which work with numpy (necalc.py 42-64).
* C70: `relative_diff` is documented as abs(a - b) / a and computes (a - b) / a (calc.py 122, 169; necalc.py 66).
* C70: `magnitude` raises AttributeError on a grid with one point, because the number it gets can not be given a name (calc.py 96-100).
* C71: a file whose opening raises IOError is registered as None: later loads of the name return None although the file has become readable, and unload_all_files raises AttributeError (`vfile_bucket.py` 126-143, 161-168).
* C71: unload_all_files unloads the parts of an xdmf file before the file itself, whose unload then raises KeyError; the error is swallowed and the file keeps its contents (`vfile_bucket.py` 161-168, 213-221).
* C71: loading and unloading a file that an open file refers to makes unloading or reloading the open file raise KeyError; if the user loaded it first, unloading it leaves an emptied file in the cache which later loads return (`vfile.py` 128-134).
* C71: the counts of references of a file are not reset when it is unloaded, so unloading it twice takes away references of other files (`vfile_bucket.py` 213-221).
* Slicing an AMR field at a value within a relative 1e-5 below the upper end of a patch (np.isclose with its default rtol) leaves that patch out if any other patch meets the plane, which makes a hole (amr_field.py 151) (`C72_hole_refuted`).
* Slicing an AMR field at the upper end of the grid, or outside it, raises AttributeError on None (amr_field.py 170-172, 229) (`C72_upper_end_refuted`).
* slice_reduce of an AMR field whose patches lose different axes gives patches with different axes, and a selection for which every patch is empty raises ValueError from argmax (amr_field.py 191-200) (`C72_axes_refuted`, `C72_empty_refuted`).
* Selecting a component of an AMR vector field by name raises ValueError since the extent is asked for with the unparsed selection (amr_field.py 106-107). No theorem.
* The VPIC reader does not skip comments between the descriptions of variables in a global file (vpic.py 340-345) (`C73_comment_refuted`).
* The VPIC reader reads variables described as INTEGER as floats with the same bits (vpic.py 498-500, a FIXME in the code) (`C73_integer_refuted`).
* The variables of two VPIC species with the same basename have the same names, and only those of the last can be read (vpic.py 480-482) (`C73_same_name_refuted`).
* xdmf.py 192: the times of a List or HyperSlab of a temporal collection are computed and then dropped (`time=time` instead of `time=t`), so every step of such a file is at time 0 (C74_list_times_refuted); a Single time of a temporal collection raises TypeError, len of a float (C74_temporal_time_refuted).
* xdmf.py 226-238: topology and geometry of a collection are set after its grids were read, so they never reach them: grids that rely on them are dropped with a warning (C74_shared_geometry_refuted), and if other grids remain the file cannot be loaded because datasets have no set_crds (C74_geometry_refuted).
* xdmf.py 223: `if grd:` is the number of fields or children, so a grid without attributes inside a collection is lost (C74_no_fields_refuted); xdmf.py 100: a Tree or Subset grid that is to be ignored makes the whole file fail, as add(None) raises (C74_ignored_refuted).
* xdmf.py 158: a time of a collection overrides the time of a grid inside it (C74_own_time_refuted); a temporal collection of spatial collections that have one grid with the time has all steps at time 0, though with two grids the time is found (C74_one_grid_refuted).
* athena_bin.py 287: the byte order is guessed from the number of variables as a signed little endian number: a big endian file with 128 to 255 variables is read as little endian, and no field can be read (C75_big_endian_refuted).
* athena_bin.py 157-160: nodes are put halfway between centres, so for cells of different sizes the centres of the file are not the cell centres of the loaded grid (C75_centres_refuted).
* athena.py 121-128 (seen while reading, not modelled): the field vz is given the name bz.
* plasma.py 133-136: calc_beta divides by the magnitude of the field and not by its square, against its description (2 p / B^2): right only where |B| = 1 (C76_beta_refuted, C76_beta_units).
* C77: field[0, :, [1, 2]], and an index array together with a component that is not next to it, give values in the wrong order without an error (numpy moves the axis of the array to the front, the data is then reshaped to the coordinates); two index arrays raise; b[None, None, i] = v on an interlaced vector sets a component of all points; index arrays cannot be assigned through for interlaced vectors; b['x', 0, 0, 0] raises AttributeError for a vector made of scalar fields before it is loaded; f[0:1, 0:1] is a number.
* follow_fluid weighs the two files the wrong way round: `axpby(frac, grid0, 1 - frac, grid1)` gives the first file at the time of the second and the other way (C78_interp_refuted; fluidtrace.py 243-245).
* follow_fluid carries the points one step past tstop, since a step begins at tstop too; it returns nothing although it documents the points; it overwrites the points of a generator that keeps them; dt_interp=0 or tstart == tstop loops for ever (C78_overshoot_refuted, C78_seeds_refuted, C78_hang_refuted).
* ReplacementCurator without orig_seeds takes the points after the first step as the originals, even ones out of bounds; ContinuousCurator drops points out of bounds only when it adds, and backwards in time it never does (C78_replacement_refuted, C78_adding_refuted).
* C79: `atleast_3d` of an interlaced vector field does not move the axis of the components (the result cannot be loaded); for data not loaded it ignores the order of the axes of the source and reflected axes; of a field with one value it gives a number.
* C79: a view of a field with reflected axes made before the data are loaded shows them without reflecting, and reading it changes what the field itself shows.
* C79: `as_centered('node')` of uniform coordinates takes half a cell to be the length over twice the number of nodes, so all places are wrong; `adjust_crds` with a function that is not affine moves the places of cell values elsewhere; renaming an axis through it renames that of the original field too; two names cannot be exchanged. `atmost_nd` takes the first axis out of a field that has few enough axes if it has one value. `downsample` always raises (a slice is passed as the axes).
* C80: `get_mp_info` takes the field on the magnetosphere side `step` places before the magnetosheath edge (`sheath_ind` used for both); the parameters ax, ay, az of the fit are not determined by the surface; `find_mp_edges` without a mask compares with the size of the largest current of either sign.
* C81: `from_dataframe` looks up the first time by row label 0, so rows selected from a table fail; a last axis with one point is not recognized; vector fields cannot be converted; a field called as an axis replaces it; a date column is used only if a column called `datetime` exists; all fields come back node centred.
* C82: a GGCM grid keeps crd_system 'mhd' after it was turned to GSE, while its fields say 'gse' (openggcm.py 269, 361).
* C82: `_add_field` of a grid that is not turned looks for crd_system on the grid only (365), but `_do_mhd_to_gse_on_read` does not put it there if a parent knows it (229): KeyError.
* C82: fields that were put into a GGCM grid as arrays in memory are negated in place at every read, since copy_on_transform is off (C82_reads_refuted).
* C82: `_get_b` needs bx, by and bz, and `_get_bx` needs b: without all components at the cells the two call each other until Python's recursion limit, which is no KeyError, so the fallback to the face centred field (450-457) is never reached. The same for v, without a fallback.
* C82: nodes made from nonuniform centres have other centres (855-857), and one cell along an axis is an IndexError.
* C82: the place of an x or y plane is negated if the class attribute mhd_to_gse_on_read is true as a bool (870), also for 'auto' or 'false', whether or not the grid is turned; without turning the plane is at the place of its name in MHD coordinates.
* C82: the missing key ggcm_mhd_type in a log file makes the later test for 'mirdip' useless, since the KeyError leaves both (240-257).
* Not proved: find_file_uptree ignores its max_depth argument; parse_timestring calls strip without using its result.
* C83: `convective_deriv` and `grad` of node centred fields fail, since `viscid.zeros` is cell centred unless told otherwise (345, 229).
* C84: `resample_lines` passes the float of np.ceil to np.empty and np.linspace, a TypeError since numpy 1.12 (400-403).
* C85: `Pyy_*` and `Pzz_*` of Gkeyll grids subtract rhoux * rhoux / rho instead of the momentum along their own axis (gkeyll.py 104-138, 158-192), so they are wrong wherever the squares of the velocities differ.
* C85: the names of the potentials are appended to the lists of the process-wide table at each file that has them (`dict(...)` copies only the dict); names stay right since the list is cut to the number of fields, which is proved.
* C85: `H5pyDataWrapper[..., k]` fills up the item with full slices before the component is put in, so the Ellipsis and k stand for other axes; for one axis place and component are exchanged.
* C85: structured Gkeyll grids of one or two axes raise (four indices are used); in a series of files the kind of each grid is 'q'.
* C86: athena_tab.py 159: `np.min` of the differences of an axis with one cell raises, so the branch for such axes (171-173) is never reached and the file cannot be read.
* C86: athena_tab.py 127: the pattern of the time has no exponent and no sign: `Time= 1.5e-05`, which the program writes for small times, is read as 1.5.
* C86: ascii.py 32: a file of one row or of one column is squeezed by loadtxt, and `arr[:, 0]` raises before the test of the number of axes.
* C87: vutil.py 216: with `first` only the first child that matches each part of the pattern is followed; `find_item(d, '*/x')` raises KeyError when the first child has no x although another one has.
* C88: npdatetime.py 176: `np.isclose` with rtol=1e-4 decides whether a number of units is whole, so every number of 5000 or more is: as_timedelta64(7200.4) is 7200 s, and selections by such times are off by up to half a second.
* C88: npdatetime.py 350: times go through float64; datetime64[ns] after May 1970 are not exact there, so linspace_datetime64 does not begin and end with the given times.
* C88: npdatetime.py 692-702: 'hms' shows the time of day only (25:00:15 in the docstring is 01:00:15); 'dhms' of one day is '1 day00:15:00'; for negative times days are cut to zero but the clock is not.
* C88: npdatetime.py 718-726: a fraction that rounds up to 1 is shown as zeros of the same second; and the first six digits in a row of the text are taken for the microseconds, even if they are of the date (%Y%m%d).
* C89: sliceutil.py 97: every '_' in the text becomes ',', so an axis whose name has an underscore cannot be selected by name in text.
* C89: sliceutil.py 309: `sel[0]` of an empty item is an IndexError, so that 'x=' or a comma at the end of the text ('1,') fails, although (1,) as a tuple is fine.
* C89 (seen, not modelled): sliceutil.py 425: 'inf' has an f, becomes 'inj' and is refused; '1+2f' is accepted as a coordinate with a real part, which is then ignored, although complex numbers given as such are checked.
* `interpolated_slice` writes the value into the cached coordinate arrays of the field that is sliced (`coordinate.py` 912-915, on the views from `make_slice_keep`). For fields at nodes this is before the interpolation, so the result is the data of the nearest node, and that node has moved afterwards. For fields at cells the result is right but both nodes of the nearest cell are moved onto the value.
* A text slice without a start, such as `':, 10.5j'` or `'x=:5f'`, makes `sel2values` compare the step None with 0 (`sliceutil.py` 780), a TypeError. (Seen, not modelled.)
* `as_isotime` of an array of texts returns the array as it was (`npdatetime.py` 236: `time` for `ret`); `as_isotime('2010:06:23:10.5')` is five past ten.
* `arrays2crds` uses the default absolute tolerance of `np.allclose`, 1e-8: every axis with smaller steps becomes uniform, and its nodes are replaced by evenly spaced ones (C92).
* `arrays2field` tries components last at cells before components first at nodes: two components at 3 by 4 nodes, stored first, become four components at 2 by 3 cells (C92).
* The `layout` given to `dat2field` and found by `arrays2field` is stored as meta data and never used; the field guesses again and takes data whose axes are all as long as the number of components for flat (C92).
* `UniformCrds` has no cells along an axis with one node, `NonuniformCrds` has one: `arrays2field` refuses data at cells only if the coordinates are evenly spaced, and `zeros((4, 4, 1))` has no elements (C92).
* `inquire_all_fields` steps by the size of the first field: with a second field of another size the search goes on at a wrong place and ends without an error, so later fields are missing (C93).
* `FortbinFileWrapper.inquire` calls `self.seek`, which does not exist: `read_field(name)` without a position fails for every field already seen (C93, read from the code).
* The log reader indexes a Python list with the number of the equations, so -1 to -6 get names instead of UNKNOWN (C94).
* In a log a list whose first number has an exponent (1e5, 2e5) is left as text, as the pattern for lists allows only digits and dots (C94).
* If the line after a section is not empty, the parameters of the next class are stored under the name of the class before (C94).
* `resolve_type` tries derived classes first and accepts any name that has the word as a part: `file_type='xdmf'` never gives the plain XDMF reader while readers derived from it are loaded (C95).
* `_prep_lines` with scipy and `subsample > 0` copies only the first coordinate of a line with one point; the others are whatever np.empty left in memory and go into the limits of the plot (C96).
* `plot2d_lines` looks for the plane in `segments` (pieces, 2, coordinates) where `_xyzind_from_symdir` expects coordinates first: lines with fewer than three pieces are refused when symdir is given; without symdir x and y are always the axes, a single piece is drawn with x against x, and points that come twice can give an IndexError (C97).
* `amr += x` and the like always raise TypeError: the patches answer NotImplemented, which is taken for a reduction to one value (C98).
* Every operator on an AMR field whose first patch has one value raises TypeError, as the result is taken for a reduction (C98).
* `np.add(amr, fld)` with a single field lays the patches along the last dimension of the field: with as many patches as places the wrong values are used without an error, where `amr + fld` is right (C98).
* Three or four colour texts that fit neither the lines nor the points are taken for the components of one colour: `prepare_lines` returns three or four times as many colours as points (C99).
* A colour text of seven digits passes the pattern `{6,8}`; beside a text with alpha it is filled up with one f (C99).
* `timedelta_as_seconds` of 5001 s or more has no digits after the point, however many are asked for (7200.4 s with one digit is 7200 s), as the tolerance of C88 is relative (C101).
* `datetime_as_seconds` with four digits makes the next second of a date 0.9999 s after a second (C101).
* `_do_multiplot` adds the global options to the dict of each variable in place: in one process the n-th picture has them n times (C102).
* `make_multiplot` with `subplot_params` in kwopts raises UnboundLocalError: `r` is only set without it (C102).
