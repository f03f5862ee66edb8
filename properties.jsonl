{"id": "C01", "title": "Forward-only hyperslab reads select the right elements", "statement": "When make_fwd_slice splits a requested slice (or integer index) of an axis, optionally reversed, into a first slice that only goes forward and a second slice, reading the array with the first slice and then applying the second gives exactly the elements, in order, that the requested slice picks from the (optionally reversed) array; the first slice never has a negative step. Requests the function cannot handle are rejected instead of returning other elements.", "quantifier": "every axis length, every slice(start, stop, step) or integer with any mix of None/negative/positive bounds and any step sign, reversed or not, and every array content; and every number of axes", "why_tests_cant": "start, stop, step, length and the reversal flag range over infinitely many integers and the off-by-one cases depend on residues modulo the step", "anchors": ["viscid/sliceutil.py:make_fwd_slice"]}
{"id": "C02", "title": "Work chunking is a partition", "statement": "chunk_list, chunk_slices, chunk_interslices and chunk_sizes split n items into the requested number of chunks so that every item index occurs in exactly one chunk, contiguous chunks concatenate to the original list, chunk sizes differ by at most one, and the sizes reported are the sizes of the chunks.", "quantifier": "every list, every number of chunks >= 1 including more chunks than items", "why_tests_cant": "list length and chunk count are unbounded and interact through division and remainder", "anchors": ["viscid/parallel.py:chunk_list", "viscid/parallel.py:chunk_slices", "viscid/parallel.py:chunk_interslices", "viscid/parallel.py:chunk_sizes"]}
{"id": "C03", "title": "Parallel execution does not change results or their order", "statement": "The result of mapping a function over seeds in a worker pool is the same list, in seed order, as the serial run: for the streamline driver with interleaved chunks, any number of processes and any chunk factor, and for the parallel map helper under every completion order of its tasks.", "quantifier": "every seed list, every per-seed function, every process count, chunk factor and every order in which the workers finish", "why_tests_cant": "worker schedules cannot be enumerated and the re-assembly is index arithmetic over unbounded sizes", "anchors": ["viscid/cython/streamline.pyx:calc_streamlines", "viscid/parallel.py:map", "viscid/parallel.py:map_async"]}
{"id": "C04", "title": "Jimmy-rle run length encoding round trips and detects corruption", "statement": "Decoding the records written by the jrrle integer encoder gives back exactly the encoded integer sequence, for every sequence of byte-range codes; no encoded character is a blank or a control character, every record is at most 72 characters, and a record whose single character was changed is reported as a checksum error or decodes differently rather than silently being accepted as the same data.", "quantifier": "every sequence of codes in the writer's range, of any length, with any run structure", "why_tests_cant": "the interaction of run lengths, the run-length cap and record boundaries is unbounded", "anchors": ["viscid/readers/_jrrle.f90:wrnenc", "viscid/readers/_jrrle.f90:wrndec"]}
{"id": "C05", "title": "Logarithmic quantization of jrrle fields has bounded relative error", "statement": "Writing a field with the jrrle log-quantizer and reading it back returns zero for zero, preserves the sign of every value, and changes each non-zero magnitude by at most one quantization factor; constant-magnitude fields are reproduced exactly.", "quantifier": "every field of real numbers (every size, every dynamic range)", "why_tests_cant": "a statement about all real data values", "anchors": ["viscid/readers/_jrrle.f90:wrn2", "viscid/readers/_jrrle.f90:rdn2"]}
{"id": "C06", "title": "A Bucket is a consistent handle-to-item map under any history", "statement": "After any sequence of set_item, remove_item, remove_item_by_handle, remove_reference and remove_all_items, looking up a handle returns the item it was last assigned to; each live item has at least one handle and is found under all of them; handles never point to dead items; no handle belongs to two items; integer auto-handles are never reused; a failed removal changes nothing.", "quantifier": "every history of operations over every set of handles and items", "why_tests_cant": "the state space of histories is infinite", "anchors": ["viscid/bucket.py:Bucket"]}
{"id": "C07", "title": "Inherited info comes from the nearest owner, and the search always ends", "statement": "find_info(key) returns the value stored on the nearest node (breadth-first through parents, self first) that has the key, raises or returns the default exactly when no reachable ancestor has it, and terminates even when the parent links form cycles; update_info changes that owner only.", "quantifier": "every parent graph, including shared ancestors and cycles, and every assignment of info", "why_tests_cant": "graphs of every shape", "anchors": ["viscid/tree.py:Node", "viscid/tree.py:find_info", "viscid/tree.py:find_info_owner", "viscid/tree.py:update_info", "viscid/tree.py:_parent_bfs"]}
{"id": "C08", "title": "Time series stay sorted and time lookup returns the nearest step", "statement": "After adding any children in any order a DatasetTemporal iterates them in non-decreasing time order, loses none, and activating or getting a time given as a float selects a child whose time is nearest to the request; membership tests agree with retrievability.", "quantifier": "every set of times, every insertion order, every request", "why_tests_cant": "unbounded insertion histories", "anchors": ["viscid/dataset.py:DatasetTemporal"]}
{"id": "C09", "title": "Selecting by value picks the nearest grid points", "statement": "Turning a by-value selection into indices returns an in-range index whose coordinate is nearest to the requested value; a by-value slice returns exactly the indices whose coordinates lie between the bounds (inclusive of the end); by-index selections are left untouched.", "quantifier": "every coordinate array (ascending or descending), every value, every slice", "why_tests_cant": "coordinate arrays and values range over all reals / rationals", "anchors": ["viscid/sliceutil.py:std_sel2index", "viscid/sliceutil.py:sel2values", "viscid/sliceutil.py:standardize_sel"]}
{"id": "C10", "title": "Multi-dimensional selections address the intended axes", "statement": "fill_nd_sel_list gives exactly one selector per axis: positional selectors go to axes in order with an Ellipsis absorbing the missing ones, named selectors go to the axis they name, newaxis entries create new axes in place, and unspecified axes are taken whole; over-long, duplicated or unknown selections are errors.", "quantifier": "every selection list and every list of axis names", "why_tests_cant": "selection grammars combine in unboundedly many ways", "anchors": ["viscid/sliceutil.py:fill_nd_sel_list", "viscid/sliceutil.py:raw_sel2sel_list", "viscid/sliceutil.py:prune_comp_sel"]}
{"id": "C11", "title": "Trilinear interpolation is exact at nodes, exact for trilinear data and never overshoots", "statement": "Interpolating a field at a grid node returns the stored value; for data sampled from a function that is affine in each coordinate it returns the function value inside the grid; the result always lies between the minimum and maximum of the field; outside the grid it returns the value at the nearest boundary point.", "quantifier": "every rectilinear grid, every data array, every point of space", "why_tests_cant": "the statement is about all real points and data", "anchors": ["viscid/cython/cycalc.pyx:_c_interp_trilin"]}
{"id": "C12", "title": "Interpolated values do not depend on what was interpolated before", "statement": "The cell index found by the cached linear search, and so every interpolated value, is the same whatever index the search starts from, i.e. independent of the order and history of lookups.", "quantifier": "every increasing coordinate array, every value, every previous lookup history", "why_tests_cant": "histories of lookups are unbounded", "anchors": ["viscid/cython/cycalc.pyx:closest_preceeding_ind", "viscid/cython/cycalc.pyx:closest_ind", "viscid/cython/cycalc.pyx:_c_interp_nearest"]}
{"id": "C13", "title": "Integrator steps are consistent and bounded", "statement": "Each streamline integrator follows a uniform field exactly; a fixed-step step never moves farther than |ds|; adaptive step control keeps the direction of ds, never exceeds the largest allowed step and its retry loop always ends.", "quantifier": "every vector field, starting point, step size and tolerance", "why_tests_cant": "real-valued fields and unbounded numbers of retries", "anchors": ["viscid/cython/integrate.pyx:_c_euler1", "viscid/cython/integrate.pyx:_c_rk2", "viscid/cython/integrate.pyx:_c_rk4", "viscid/cython/integrate.pyx:_ts_ctrl", "viscid/cython/integrate.pyx:_c_rk12", "viscid/cython/integrate.pyx:_c_rk45"]}
{"id": "C14", "title": "A traced streamline is one connected line through its seed and respects its limits", "statement": "Tracing terminates after at most maxit points per direction, never writes outside its line buffer, returns a line that contains the seed and whose consecutive points are consecutive integrator steps with backward part reversed, ends for a reported reason, and stops once the accumulated length or time reaches max_length / max_t.", "quantifier": "every field, seed, direction and every setting of the limits", "why_tests_cant": "loops of unbounded length over arbitrary fields", "anchors": ["viscid/cython/streamline.pyx:_py_streamline", "viscid/cython/streamline.pyx:classify_endpoint"]}
{"id": "C15", "title": "Topology classification depends only on where the two ends are", "statement": "The magnetospheric topology of a line is closed, open-north, open-south, solar-wind or other as determined by its two end reasons, independent of the order in which the two directions were traced; every combination of end flags gets exactly one of these values.", "quantifier": "every combination of end flags (every subset of flags for both ends)", "why_tests_cant": "settled by the definition over all flag words, not by sampled lines", "anchors": ["viscid/cython/streamline.pyx:end_flags_to_topology_msphere", "viscid/calculator/topology.py:topology2color"]}
{"id": "C16", "title": "The null finder loses no null and reports only nulls", "statement": "Every cell whose trilinear field has a zero inside is kept by the candidate filter (up to the boundary convention), and every point reported on a cell face satisfies both bilinear equations and lies on the face; roots in the open face are found.", "quantifier": "every cell with arbitrary corner values, every pair of bilinear functions", "why_tests_cant": "corner values range over all reals", "anchors": ["viscid/cython/null_tools.pyx:_py_reduce_candidates", "viscid/cython/null_tools.pyx:find_roots_face", "viscid/cython/null_tools.pyx:_py_find_null_cells_from_candidates"]}
{"id": "C17", "title": "Clusters are the connected components of the points", "statement": "find_clusters returns a partition of the input indices in which two indices are in the same cluster exactly when they are linked by a chain of adjacent points.", "quantifier": "every finite set of grid indices in every order", "why_tests_cant": "unbounded point sets; merging is order dependent inside the algorithm", "anchors": ["viscid/calculator/cluster.py:find_clusters"]}
{"id": "C18", "title": "AMR lookups use a patch containing the point, whatever was looked up before", "statement": "If some patch contains a point then the patch activated for it contains the point, whatever patch was active before; if none does, the patch with the nearest centre is used; neighbour discovery is symmetric.", "quantifier": "every patch layout, every point, every history of lookups", "why_tests_cant": "histories and layouts are unbounded", "anchors": ["viscid/cython/cyamr.pyx:activate_patch", "viscid/cython/cyamr.pyx:discover_neighbors", "viscid/amr_grid.py:AMRSkeleton"]}
{"id": "C19", "title": "Rotation constructors return proper rotations that compose", "statement": "Every matrix returned by angle2rot, eul2rot, e_rot, wxyz2rot, quat2rot and a2b_rot is orthogonal with determinant one; the direction cosine versions are their transposes; elementary rotations about one axis add their angles.", "quantifier": "every angle, axis order, axis vector and non-zero quaternion", "why_tests_cant": "statement over all reals", "anchors": ["viscid/rotation.py:e_rot", "viscid/rotation.py:angle2rot", "viscid/rotation.py:eul2rot", "viscid/rotation.py:wxyz2rot", "viscid/rotation.py:quat2rot", "viscid/rotation.py:a2b_rot"]}
{"id": "C20", "title": "Euler angle extraction inverts Euler angle construction", "statement": "angle2rot(rot2angle(R)) equals R for every rotation matrix and for each of the twelve axis orders, including gimbal lock.", "quantifier": "every rotation matrix, all twelve axis orders", "why_tests_cant": "statement over all real rotation matrices", "anchors": ["viscid/rotation.py:rot2angle", "viscid/rotation.py:rot2eul", "viscid/rotation.py:angle2rot"]}
{"id": "C21", "title": "Quaternion algebra agrees with matrices", "statement": "quat2rot(quatmul(p,q)) is quat2rot(p) times quat2rot(q); quat_rotate(v,q) equals quat2rot(q) applied to v; axis-angle to quaternion to matrix equals Rodrigues' formula; scaling a quaternion does not change its rotation.", "quantifier": "every pair of non-zero quaternions and every vector", "why_tests_cant": "polynomial identities over all reals", "anchors": ["viscid/rotation.py:quatmul", "viscid/rotation.py:quat_rotate", "viscid/rotation.py:wxyz2quat", "viscid/rotation.py:quat2rot", "viscid/rotation.py:wxyz2rot"]}
{"id": "C22", "title": "Coordinate transforms form a consistent system of rotations, independent of call history", "statement": "For a fixed time, the matrix from system A to system C equals the product of B to C and A to B, the matrix back is its inverse, all preserve lengths, and the matrix returned does not depend on which transforms were requested before.", "quantifier": "every triple of supported geocentric systems, every time/dipole orientation, every call history", "why_tests_cant": "histories fill two caches in any order; angles are real", "anchors": ["viscid/cotr.py:Cotr.get_transform_matrix", "viscid/cotr.py:Cotr._get_emat", "viscid/cotr.py:Cotr.XFORM_LOOKUP", "viscid/cotr.py:make_rotation"]}
{"id": "C23", "title": "A dipole moment survives conversion to a coordinate transform and back", "statement": "dipole_moment2cotr(m).get_dipole_moment() with strength |m| gives back m.", "quantifier": "every non-zero moment vector", "why_tests_cant": "statement over all real vectors", "anchors": ["viscid/cotr.py:dipole_moment2cotr", "viscid/cotr.py:Cotr.get_dipole_moment"]}
{"id": "C24", "title": "Discrete derivatives are exact on linear fields and satisfy the vector identities", "statement": "grad, div and curl of a field that is linear in the coordinates are exact at every point they return; the discrete divergence of a discrete curl and the discrete curl of a discrete gradient vanish identically.", "quantifier": "every rectilinear non-uniform grid and every field", "why_tests_cant": "grids and fields are unbounded and real valued", "anchors": ["viscid/calculator/calc.py:_grad_np", "viscid/calculator/calc.py:_div_np", "viscid/calculator/calc.py:_curl_np"]}
{"id": "C25", "title": "Integrals along lines are the per-line trapezoid sums", "statement": "integrate_along_lines returns for every line the trapezoid integral of the interpolated quantity along that line alone, for each reduction it supports, and is additive when a line is split.", "quantifier": "every list of lines of any lengths and every field", "why_tests_cant": "line counts and lengths are unbounded; the result for one line must not depend on the others", "anchors": ["viscid/calculator/calc.py:integrate_along_lines"]}
{"id": "C26", "title": "Relaxed JSON loading only removes comments and trailing commas", "statement": "vjson.loads hands the JSON parser the original text minus comments and trailing commas; string literals are never altered, so any standard JSON document is read unchanged.", "quantifier": "every text", "why_tests_cant": "all strings", "anchors": ["viscid/vjson.py:loads"]}
{"id": "C27", "title": "The evaluator never passes double underscores to eval", "statement": "After sanitising, an equation contains no double underscore whatever its text, and with the evaluator disabled nothing is evaluated.", "quantifier": "every equation string", "why_tests_cant": "all strings; removal could create new occurrences", "anchors": ["viscid/calculator/evaluator.py:evaluate", "viscid/calculator/evaluator.py:_evaluate_numpy"]}
{"id": "C28", "title": "The OrderedDict backport is an insertion-ordered map", "statement": "Under any sequence of set, delete, pop, popitem, setdefault, update and clear, iteration yields the live keys in order of first insertion since they were last absent, reversed iteration yields the reverse, and lookups return the last value set.", "quantifier": "every operation history", "why_tests_cant": "pointer structure with unbounded histories", "anchors": ["viscid/compat/ordered_dict_backport.py:OrderedDict"]}
{"id": "C29", "title": "Futures resolve exactly once and waits are faithful under any interleaving", "statement": "A future goes from pending to running to finished or from pending to cancelled, never leaves a final state through the executor protocol, its result is what the callable returned or raised, each done-callback runs exactly once, executor map yields results in argument order, and wait returns once its condition holds.", "quantifier": "every interleaving of submitters, workers, cancellers and waiters", "why_tests_cant": "thread schedules cannot be enumerated by tests", "anchors": ["viscid/compat/futures/_base.py:Future", "viscid/compat/futures/_base.py:wait", "viscid/compat/futures/_base.py:Executor.map", "viscid/compat/futures/thread.py:ThreadPoolExecutor"]}
{"id": "C30", "title": "Datetime precision changes are lossless or refused", "statement": "Converting datetimes and timedeltas to a finer unit preserves the instant exactly or raises on overflow; conversion to a coarser unit truncates by less than one unit; adding and subtracting a delta are inverse when no unit is lost.", "quantifier": "every unit pair and every 64 bit value", "why_tests_cant": "all 2^64 values and all unit pairs", "anchors": ["viscid/npdatetime.py:_adjust_t_unit", "viscid/npdatetime.py:time_sum", "viscid/npdatetime.py:time_diff"]}
{"id": "C31", "title": "Preparing lines for plotting keeps every point and never connects two lines", "statement": "prepare_lines concatenates the points of the input lines in order; the connection list joins exactly the consecutive points of the same line; per-line scalars are repeated for the points of their line only.", "quantifier": "every list of lines of any lengths", "why_tests_cant": "unbounded list of lists with offset arithmetic", "anchors": ["viscid/vutil.py:prepare_lines"]}
{"id": "C32", "title": "Slicing a globbed file list selects the requested files in the requested order", "statement": "slice_globbed_filenames with glob and slice returns exactly the matching files the slice selects from the sorted list, in slice order.", "quantifier": "every set of file names and every slice", "why_tests_cant": "sets and slices are unbounded", "anchors": ["viscid/vutil.py:slice_globbed_filenames"]}
{"id": "C33", "title": "Cell, node and extended coordinates are consistent", "statement": "Cell centres are the midpoints of their nodes and have one element fewer; node-to-cell conversion brackets every original point by its new cell; extended arrays keep the interior and continue the spacing; uniform coordinates report the same extents as their arrays.", "quantifier": "every strictly monotonic coordinate array of every length", "why_tests_cant": "all arrays of reals", "anchors": ["viscid/coordinate.py:extend_arr", "viscid/coordinate.py:StructuredCrds.nc2cc", "viscid/coordinate.py:UniformCrds"]}
{"id": "C34", "title": "Point lists and data arrays enumerate the grid in the same order", "statement": "The i-th point of get_points is the position of the i-th element of the raveled data, for any number of dimensions.", "quantifier": "every grid shape and dimension", "why_tests_cant": "shapes are unbounded", "anchors": ["viscid/coordinate.py:StructuredCrds.get_points", "viscid/field.py:Field.__iter__"]}
{"id": "C35", "title": "Seed generators produce the points they promise", "statement": "Line seeds start at the first and end at the second point and are evenly spaced; sphere, cap and circle seeds are at the given radius from the centre; plane and volume seeds lie in their plane / box; the number of points equals nr_points.", "quantifier": "every parameter choice and every count", "why_tests_cant": "counts and real parameters are unbounded", "anchors": ["viscid/seed.py:Line", "viscid/seed.py:Plane", "viscid/seed.py:Volume", "viscid/seed.py:Sphere", "viscid/seed.py:Circle"]}
{"id": "C36", "title": "Reductions over AMR fields are reductions over all cells", "statement": "sum, min, max, any, all, mean and the other reductions of a multi-patch field equal the reduction over the cells of all patches.", "quantifier": "every list of patches of any sizes", "why_tests_cant": "patch counts, sizes and values are unbounded", "anchors": ["viscid/amr_field.py:AMRField.wrap_field_method", "viscid/amr_field.py:AMRField.__getattr__"]}
{"id": "C37", "title": "Vector layout conversions are lossless", "statement": "Converting a vector field between flat and interlaced layouts, or reading one stored in reversed axis order, moves every component value to the same grid point and component; converting back gives the original.", "quantifier": "every shape and number of components and every data", "why_tests_cant": "shapes are unbounded", "anchors": ["viscid/field.py:Field._src_data_to_ndarray", "viscid/field.py:Field._xyz_src_data", "viscid/field.py:VectorField.as_layout"]}
{"id": "C38", "title": "Boundary extension keeps the interior and extrapolates linearly", "statement": "extend_boundaries keeps the original array in the interior; order 0 repeats the edge value and order 1 continues linear data exactly, at faces, edges and corners.", "quantifier": "every array shape and content, every number of ghost layers", "why_tests_cant": "unbounded arrays", "anchors": ["viscid/calculator/calc.py:extend_boundaries_ndarr"]}
{"id": "C39", "title": "Lazily slicing a stored field equals slicing the loaded field", "statement": "Slicing a field that is not in memory (hyperslab read from file, possibly stored in reversed axis order and with reflected axes) gives the same values as loading it and slicing the array.", "quantifier": "every shape, slice, set of reflected axes, storage order and component selection", "why_tests_cant": "combinatorially unbounded", "anchors": ["viscid/field.py:Field._finalize_slice", "viscid/coordinate.py:StructuredCrds.reflect_slices", "viscid/coordinate.py:StructuredCrds.reflect_fld_arr"]}
{"id": "C40", "title": "Transposing a field keeps data and coordinates together", "statement": "After transpose, transpose_crds or swapaxes with any axis permutation the value found at a given set of coordinates is the value the original field has there, and transposing with the inverse permutation restores the field.", "quantifier": "every number of dimensions, every permutation, scalar and vector fields of both layouts", "why_tests_cant": "all permutations of all ranks", "anchors": ["viscid/field.py:Field.transpose", "viscid/field.py:Field.transpose_crds", "viscid/field.py:Field.swapaxes"]}
{"id": "C41", "title": "A time assigned to a node reads back", "statement": "After node.time = t, node.time is t in seconds, whether t was a number, a datetime-like or a timedelta-like value.", "quantifier": "every node, every parent graph and every time value", "why_tests_cant": "a statement over all values and graphs; the failing branches produce no error", "anchors": ["viscid/tree.py:Node.time"]}
{"id": "C42", "title": "Attributes are inherited from the nearest parent", "statement": "find_attr(name) returns the attribute of the nearest node (self first, breadth first through the parents) that has it, and the default or AttributeError exactly when none has it.", "quantifier": "every parent graph, including cycles, and every assignment of attributes", "why_tests_cant": "graphs of every shape", "anchors": ["viscid/tree.py:Node.find_attr"]}
{"id": "C43", "title": "A failed streamline call does not affect later calls", "statement": "If calc_streamlines raises, for example because a seed or option is invalid, later calls with valid arguments work as if the failed call had not happened.", "quantifier": "every sequence of calls, successful or failing", "why_tests_cant": "a property of whole histories of calls through hidden module state", "anchors": ["viscid/cython/streamline.pyx:calc_streamlines"]}
{"id": "C44", "title": "Interpolation on AMR grids does not depend on what was interpolated before", "statement": "Interpolating a list of points on an AMR field gives every point the value it gets when it is interpolated alone, and never reads outside a patch's coordinates.", "quantifier": "every patch layout, every list of points in every order", "why_tests_cant": "histories of lookups and layouts are unbounded; the failing cases read memory outside a buffer without an error", "anchors": ["viscid/cython/cycalc.pyx:_py_interp_trilin", "viscid/cython/cycalc.pyx:_py_interp_nearest", "viscid/cython/cyamr.pyx:activate_patch"]}
{"id": "C45", "title": "AMR neighbour tables exist for every layout and a reused skeleton describes the dataset", "statement": "Neighbour discovery succeeds for every layout, its masks mean what the documentation says, and when a skeleton is reused for another dataset lookups still use a patch containing the point.", "quantifier": "every patch layout and pair of datasets", "why_tests_cant": "layouts of every size", "anchors": ["viscid/cython/cyamr.pyx:discover_neighbors", "viscid/amr_grid.py:AMRSkeleton.compatable_with"]}
{"id": "C46", "title": "The coordinates of a slice describe the selected data", "statement": "Slicing a cell centred field gives coordinates with one node more than there are selected cells, whose centres are the centres of the selected cells; selecting one cell and keeping its axis gives the two nodes of that cell.", "quantifier": "every axis, every slice (start, stop, step of either sign) and every index", "why_tests_cant": "slices and array lengths are unbounded", "anchors": ["viscid/coordinate.py:StructuredCrds._make_slice", "viscid/coordinate.py:StructuredCrds.make_slice_keep", "viscid/field.py:Field.slice_and_keep"]}
{"id": "C48", "title": "Derivatives at a point are exact on linear fields", "statement": "For a field that depends linearly on position, the Jacobian at a point is the matrix of its slopes (row: component, column: direction), the divergence at a point is its trace and the curl at a point is its antisymmetric part.", "quantifier": "every linear vector field, every point and every nonzero spacing", "why_tests_cant": "fields, points and spacings are unbounded and real", "anchors": ["viscid/calculator/calc.py:local_vector_points", "viscid/calculator/calc.py:jacobian_at_point", "viscid/calculator/calc.py:div_at_point", "viscid/calculator/calc.py:curl_at_point"]}
{"id": "C49", "title": "Projection along a line is the component along the tangent", "statement": "Projecting a vector field onto a line gives at every vertex the component of the field along the unit tangent of the line there; inside the line the tangent joins the two neighbours of the vertex, at the ends that of the nearest vertex inside is used.", "quantifier": "every line and every vector field", "why_tests_cant": "lines have any number of points", "anchors": ["viscid/calculator/calc.py:project_along_line"]}
{"id": "C50", "title": "Quaternion and axis extraction invert construction", "statement": "For every rotation matrix R, quat2rot(rot2quat(R)) is R and rot2quat(R) has length one; wxyz2rot(*rot2wxyz(R)) is R, with an axis of length one and an angle from 0 to pi.", "quantifier": "every rotation matrix", "why_tests_cant": "statement over all real rotation matrices, including half turns and the identity where the axis is ambiguous", "anchors": ["viscid/rotation.py:rot2quat", "viscid/rotation.py:rot2wxyz", "viscid/rotation.py:quat2rot", "viscid/rotation.py:wxyz2rot"]}
{"id": "C51", "title": "a2b_rot turns one direction into another", "statement": "a2b_rot(a, b) is a rotation that maps the direction of a to the direction of b, whatever the roll, also for parallel and opposite vectors; with new_x (and a perpendicular to x) the x axis is turned to the direction of the part of new_x perpendicular to b.", "quantifier": "every pair of non-zero vectors, every roll, every new_x not parallel to b", "why_tests_cant": "statement over all real vectors with special cases for parallel vectors", "anchors": ["viscid/rotation.py:a2b_rot"]}
{"id": "C52", "title": "The dipole axis is the z axis of SM and MAG", "statement": "When the dipole is not given by hand, the direction with the latitude and longitude of the dipole transforms from GEO to the z axis of SM and to the z axis of MAG, and in GSM it has no y component and no negative z component.", "quantifier": "every time, every set of IGRF coefficients, every call history", "why_tests_cant": "statement over all real parameters, with angles from arctan2 in all quadrants", "anchors": ["viscid/cotr.py:Cotr.get_transform_matrix", "viscid/cotr.py:Cotr._get_emat", "viscid/cotr.py:Cotr.dip_gsm", "viscid/cotr.py:Cotr.dip_tilt"]}
{"id": "C53", "title": "Default sphere seeds are all different", "statement": "A Sphere with the default end point rules has no two equal seeds when theta is within 0 to 180 degrees and phi covers at most one turn: neither the poles nor the seam are repeated.", "quantifier": "every centre, radius, pole, roll, count and limits", "why_tests_cant": "counts and real parameters are unbounded and the end point rule has many cases", "anchors": ["viscid/seed.py:Sphere.theta_endpoint", "viscid/seed.py:Sphere.phi_endpoint", "viscid/seed.py:Sphere.uv_axes", "viscid/seed.py:SphericalCap"]}
{"id": "C54", "title": "Sphere mesh vertices and values match", "statement": "as_mesh and arr2mesh of a sphere have the same shape, every vertex carries the value computed at that seed, every seed is on the mesh, added poles are on the sphere where theta begins or ends and carry the mean of the nearest ring, no pole is added when it is a seed, and a full turn in phi is closed.", "quantifier": "every sphere, both orders of theta and phi, all values", "why_tests_cant": "the mesh is assembled in steps that depend on end points, order and counts", "anchors": ["viscid/seed.py:Sphere.as_mesh", "viscid/seed.py:Sphere.arr2mesh", "viscid/seed.py:Sphere.skipped_poles"]}
{"id": "C55", "title": "Asking a seed generator again gives the same points", "statement": "Two calls of get_points on the same seed generator, with or without cache, return the same points.", "quantifier": "every generator state, every cache setting", "why_tests_cant": "it is a statement over call histories", "anchors": ["viscid/seed.py:SeedGen.get_points", "viscid/seed.py:Spline.to_3d", "viscid/seed.py:Point"]}
{"id": "C56", "title": "Each magnetic null is put in one class fixed by the eigenvalues of its Jacobian", "statement": "Classifying a list of nulls returns three increasing lists of positions: O nulls (one eigenvalue close to zero), A nulls and B nulls (none close to zero). Every null is in exactly one list. For a field without divergence a null is type A when the determinant of its Jacobian is positive and type B when it is negative, also for a complex pair, and reversing the field swaps A and B.", "quantifier": "all lists of nulls, all tolerances and all eigenvalue triples of a real 3 by 3 matrix, in any order and including degenerate ones", "why_tests_cant": "Tests classify a handful of nulls; the sign patterns, ties near the tolerance and degenerate matrices are a continuum.", "anchors": ["viscid/cython/null_tools.pyx:_classify_nulls", "viscid/cython/null_tools.pyx:find_classified_nulls"]}
{"id": "C47", "title": "Face and edge centred fields are averaged and differenced on their own cells", "statement": "Converting a face or edge centred field to cell centres gives each inner cell the mean of the values on its own two faces or four edges, whichever way the file stores them (leading or trailing, with axes flipped), and repeats the nearest value on the boundary cells; the shape does not change. The divergence of a face centred field is the net flux out of the cell over its volume: summed over cells it is the flux through the outer hull, and it is exactly zero for a discrete curl.", "quantifier": "all field shapes, staggerings, flips, non-uniform coordinates and values", "why_tests_cant": "Off-by-one errors in staggered slices depend on the combination of convention, flip, axis and size; tests use one file per convention.", "anchors": ["viscid/calculator/ecfc.py:make_ecfc_field_leading", "viscid/calculator/ecfc.py:fc2cc", "viscid/calculator/ecfc.py:ec2cc", "viscid/calculator/ecfc.py:div_fc"]}
{"id": "C57", "title": "Separator points are exactly the smallest blocks in which all topologies meet", "statement": "Searching a topology map for separators merges neighbouring values until, at the smallest block size not below min_depth, some block contains together exactly the topologies of the separator value (after the mask). Every such block, and no other, is reported, once, with coordinates inside the block (its centre on a uniform grid). Nothing is reported only if there is no such block up to max_depth. On a periodic axis the two ends are neighbours and no topology is invented. The input is not changed.", "quantifier": "all topology arrays and shapes, masks, separator values, depths, coordinates and periodic axes", "why_tests_cant": "The number of merges needed depends on the data; every array and depth is a different case.", "anchors": ["viscid/calculator/separator.py:topology_bitor_clusters"]}
{"id": "C58", "title": "Bisection for separators returns separated points, each tightly enclosed by all four topologies, and does not lose a crossing", "statement": "Each point returned by the bisection is inside a rectangle whose sides are at most 0.65^k of the seed extent, k being max_depth or more than min_depth, with each of the four topologies somewhere on the rectangle's sides. Two returned points are never from overlapping rectangles. If four regions meet at one point anywhere in the extent, exactly one point is returned, within 0.65^max_depth of the extent; more generally a place whose surrounding rectangles all have the four topologies at their corners is found.", "quantifier": "all topology functions of the plane, seed shapes and extents, depths and positions of the crossing", "why_tests_cant": "The recursion goes a different way for every position of the separator and retries with an uneven split; tests bisect one known case.", "anchors": ["viscid/calculator/separator.py:get_sep_pts_bisect", "viscid/calculator/separator.py:_get_sep_pts_bisect", "viscid/calculator/separator.py:_quadrent_limits", "viscid/calculator/separator.py:_quadrent_center"]}
{"id": "C59", "title": "Minimum variance analysis returns the directions of least and largest variance and a right handed LMN frame", "statement": "For at least three finite samples the eigenvalues are the variances of the field along the returned unit directions, in increasing order, and no direction has a smaller variance than the first or a larger one than the last. Samples with nan or inf do not count and a constant field added to all samples changes nothing. The boundary normal directions are a right handed orthonormal triple whose n is the direction of least variance and whose l is the projection of l_basis; they are defined for every l_basis that is not opposite to n.", "quantifier": "all sample series, all sample directions and all l_basis vectors", "why_tests_cant": "The claim compares with every direction in space and holds for every series, including degenerate eigenvalues.", "anchors": ["viscid/calculator/minvar_tools.py:minvar_series", "viscid/calculator/minvar_tools.py:minvar_around", "viscid/calculator/minvar_tools.py:_minvar_lmn_directions", "viscid/calculator/minvar_tools.py:find_minvar_lmn"]}
{"id": "C60", "title": "Conversions of points between Cartesian, spherical and latitude longitude coordinates keep the place", "statement": "Converting a point to spherical coordinates and back returns it, with the radius its distance, theta its angle from +z in [0, pi] and phi its azimuth; converting spherical coordinates to Cartesian and back returns them away from the axis. Latitude and longitude go to the point at that latitude and back to the same latitude and longitude, in degrees or radians. theta2lat and lat2theta are inverse, accept exactly the allowed range and raise otherwise. Points of a polar plot are at the angle from the pole of their hemisphere.", "quantifier": "all points and angles, both units, float and integer arrays, both hemispheres and axis orders", "why_tests_cant": "A continuum of points; mistakes of half a turn or of the unit cancel in round trips of selected points.", "anchors": ["viscid/mapfield.py:cart2sph", "viscid/mapfield.py:sph2cart", "viscid/mapfield.py:latlon2cart", "viscid/mapfield.py:cart2latlon", "viscid/mapfield.py:theta2lat", "viscid/mapfield.py:lat2theta", "viscid/mapfield.py:pts2polar_mapfield"]}
{"id": "C61", "title": "Conversions of fields between latitude longitude and spherical axes leave each value at its place", "statement": "Converting a field on a sphere between theta, phi and lat, lon axes, in any order and unit, gives a field with the requested axes in the requested order whose coordinates increase, and which has at each place on the sphere exactly the value the original had there, for scalars and vectors of either layout and both centerings. Preparing a polar plot turns latitude into the angle from the pole and closes the circle by repeating the first column a turn later unless it is closed.", "quantifier": "all fields with latitude or theta and longitude or phi axes, uniform or not, all orders and units, layouts and centerings", "why_tests_cant": "The flip of the data and of the coordinates have to agree for every combination of order, layout, centering and unit.", "anchors": ["viscid/mapfield.py:as_mapfield", "viscid/mapfield.py:as_spherefield", "viscid/mapfield.py:convert_coordinates", "viscid/mapfield.py:fld_theta2lat", "viscid/mapfield.py:fld_lat2theta", "viscid/mapfield.py:as_polar_mapfield"]}
{"id": "C62", "title": "A great circle path goes from one point to the other on the shortest arc", "statement": "great_circle(p1, p2, origin, n) returns n points, the first p1 and the last p2, all in the plane of p1, p2 and the origin, with the angle from p1 growing in equal steps up to the angle between the points, at most half a turn, and the distance from the origin changing linearly.", "quantifier": "all pairs of points, origins and numbers of points", "why_tests_cant": "The rotation behind the path is different for every pair and has special cases for directions that a test does not meet by chance.", "anchors": ["viscid/mapfield.py:great_circle", "viscid/rotation.py:a2b_rot"]}
{"id": "C63", "title": "The dipole field is the field of a dipole at every point of every grid", "statement": "Filling a field with a dipole gives, for each component at the place where that component is stored, minus the derivative of the potential m.x/|x|^3, a field without divergence, whose moment is the given vector scaled to the given strength; calc_dip gives the same vectors at any list of points.", "quantifier": "all moments, strengths, grids (staggered or not), and lists of points away from the centre", "why_tests_cant": "The formula must be the gradient of one potential for every moment and place; tests compare single values.", "anchors": ["viscid/dipole.py:fill_dipole", "viscid/dipole.py:calc_dip", "viscid/dipole.py:make_dipole"]}
{"id": "C64", "title": "Mapping a point along a dipole keeps it on its field line", "statement": "dipole_map moves a point to the given distance from the centre along the dipole field line through it, staying in its hemisphere, gives nan if the line does not reach that distance, is the identity for the distance of the point, and mapping twice is mapping once.", "quantifier": "all points, distances and coordinate systems", "why_tests_cant": "Field lines are curves that no finite set of points describes.", "anchors": ["viscid/dipole.py:xyz2lsrlp", "viscid/dipole.py:dipole_map"]}
{"id": "C65", "title": "Arithmetic on fields is done value by value at each place", "statement": "For every operator, field (op) field, field (op) number, number (op) field, field (op) array and (op) field give a field on the grid of the first field which has at each grid point, for each component, the result of the operator on the values of the operands there; a scalar field acts on every component of a vector field; operands that do not fit are refused.", "quantifier": "all fields of any rank, shape, layout and storage order with any reflected axes, all operators, numbers and arrays", "why_tests_cant": "The pairing is left to numpy's broadcasting, which depends on the shapes; a test sees a few shapes.", "anchors": ["viscid/field.py:Field.__add__", "viscid/field.py:Field.wrap", "viscid/field.py:VectorField._ow"]}
{"id": "C66", "title": "A reduction along an axis reduces the values along that axis", "statement": "sum, mean, max, min and the like of a field along an axis give a field without that axis (or with one place on it) whose value at every remaining place is the reduction of the values along the axis there, component by component; along the component axis they give a scalar field; subtracting the result from the field subtracts at each place the value of its line.", "quantifier": "all fields, axes counted from either end, reductions and settings of keepdims", "why_tests_cant": "The axis number has to mean the same axis for the data and for the coordinates in every layout and rank.", "anchors": ["viscid/field.py:Field.sum", "viscid/field.py:Field.mean", "viscid/field.py:Field.argsort", "viscid/field.py:Field.wrap"]}
{"id": "C67", "title": "trapz and cumtrapz integrate along the axis", "statement": "trapz gives, at each place of the other axes, the integral along the axis of the function that joins the values by straight lines, so it is exact for linear functions; cumtrapz gives on the same grid the integral up to each place, ending in the value of trapz.", "quantifier": "all fields, increasing coordinates, axes by number", "why_tests_cant": "An integral is a statement about all functions and all grids.", "anchors": ["viscid/field.py:Field.trapz", "viscid/field.py:Field.cumtrapz"]}
{"id": "C68", "title": "Masks select exactly the region they describe", "statement": "set_in_region gives alpha a + beta b at the grid points (and components) where the mask is true and leaves the values of out elsewhere; fill_dipole with a mask puts the dipole where the mask is true and nowhere else; make_spherical_mask is true exactly at the places whose distance from the origin is from rmin to less than rmax, for staggered fields at the places of each component.", "quantifier": "all fields of any rank, shape, layout and storage order, scalar and vector masks, factors and radii", "why_tests_cant": "The mask is paired with the data by numpy's broadcasting after a first attempt fails; which pairing happens depends on the shapes.", "anchors": ["viscid/dipole.py:set_in_region", "viscid/dipole.py:fill_dipole", "viscid/dipole.py:make_spherical_mask"]}
{"id": "C69", "title": "Saved fields load again", "statement": "Fields saved with save_fields to an npz file, or to an hdf5 file with its xdmf description, load with the names, centerings, coordinates, types (scalar or vector) and values they were saved with, and nothing else is in the file.", "quantifier": "all non-empty sets of fields on one grid, of any shape, centering, layout, reflection and storage order, and all their names", "why_tests_cant": "The names of fields, axes and bookkeeping entries share one dictionary and the layout is guessed from shapes; a test saves a few well-behaved fields.", "anchors": ["viscid/readers/numpy_binary.py:FileNumpyNPZ.save_fields", "viscid/readers/numpy_binary.py:FileNumpyNPZ._parse", "viscid/readers/hdf5.py:FileHDF5.save_fields", "viscid/readers/xdmf.py:FileXDMF._parse_attribute"]}
{"id": "C70", "title": "Vector operations work vector by vector, with any backend", "statement": "At each grid point magnitude gives the length of the vector, dot, cross and project the products of the two vectors (the projection is a.b/|b|), normalize the vector divided by its length, and project_vector the multiple of b by a.b/b.b, whichever backend computes them and in whichever layouts the fields are; an operation runs the first preferred backend that exists, and raises if only is set and none exists.", "quantifier": "all vector fields with three components on one grid, of any rank, shape, layout, reflection and storage order; all values; both backends; all lists of preferred backends", "why_tests_cant": "Two implementations with different code must agree for every shape and pair of layouts; which one runs depends on what is installed.", "anchors": ["viscid/calculator/calc.py:Operation._get_imp", "viscid/calculator/calc.py:_magnitude_np", "viscid/calculator/calc.py:_normalize_np", "viscid/calculator/calc.py:project_vector", "viscid/calculator/necalc.py:magnitude", "viscid/calculator/necalc.py:cross", "viscid/calculator/necalc.py:normalize"]}
{"id": "C71", "title": "The cache of loaded files knows exactly the files in use", "statement": "After any sequence of load_file, unload_file, reload_file and unload_all_files, a name is known to get_file exactly if the user has loaded it and not unloaded it since, or a file that is open refers to it; what is known under a name is one object, which stays the same and keeps its contents while it is in use; loading a known name gives that object; unloading empties it; every such command on an open file succeeds.", "quantifier": "all histories of commands, all contents of the disk at each of them, all patterns of references between files", "why_tests_cant": "Reference counts are wrong only after particular sequences of commands on files that share parts, and the sequences are unbounded.", "anchors": ["viscid/readers/vfile_bucket.py:VFileBucket.load_files", "viscid/readers/vfile_bucket.py:VFileBucket.remove_all_items", "viscid/readers/vfile_bucket.py:ContainerFile", "viscid/readers/vfile.py:VFile.unload", "viscid/readers/vfile.py:VFile.reload", "viscid/readers/__init__.py:load_file", "viscid/readers/__init__.py:unload_file", "viscid/readers/__init__.py:unload_all_files", "viscid/bucket.py:Bucket"]}
{"id": "C72", "title": "Slicing an AMR field by value uses the patches it should", "statement": "Slicing an AMR field by values gives, in the order of the patches, the slices of exactly the patches that have a place in common with the selected region, without empty ones, all with the same axes; no place of the region that lies in a patch is lost; an axis along which no patch extends allows any value; a selection by number is refused.", "quantifier": "all sets of patches, all selections by values and ranges of values forwards and backwards, open or closed, along any number of axes", "why_tests_cant": "The choice depends on how the ends of every patch compare with the selection, with tolerances; tests slice one file at a few planes.", "anchors": ["viscid/amr_field.py:AMRField._prepare_amr_slice", "viscid/amr_field.py:AMRField._finalize_amr_slice", "viscid/amr_field.py:AMRField.slice", "viscid/coordinate.py:StructuredCrds.get_slice_extent", "viscid/sliceutil.py:sel2values"]}
{"id": "C73", "title": "A VPIC run reads as what the simulation wrote", "statement": "Loading the global file of a VPIC run gives the blocks of the simulation; each cell of the whole grid is in exactly one block, with its edges among the coordinates of the block; and each component of each variable, found under its name (with the basename of its species), has at each cell the value that was written for it, whatever is in the outer layer of cells. Comments in the global file do not matter.", "quantifier": "all simulations: numbers of blocks and cells along each axis, sizes, variables with up to 14 components, species, values, comments and position of the lines about the grid", "why_tests_cant": "The number of a block, the offset of a variable and the place of a word are computed from all the sizes; a test has one small run.", "anchors": ["viscid/readers/vpic.py:_VPICGlobalFile", "viscid/readers/vpic.py:VPIC_File._parse", "viscid/readers/vpic.py:VPIC_BinFileWrapper.read_field", "viscid/readers/vpic.py:VPIC_DataWrapper.__array__"]}
{"id": "C74", "title": "An XDMF file loads as the tree of grids it describes", "statement": "Loading an XDMF file gives its grids in their tree: all of them, in the order of the file, each with its fields, its geometry or that of the nearest collection around it, and its time, or the one listed for it, or that of the nearest collection; the steps of a temporal collection are in the order of their times and, within one time, of the file; a grid that cannot be read is reported and not left out; a grid of a kind that is to be ignored does not hinder the others.", "quantifier": "all files: trees of grids and collections of any depth and size, with times, topologies and geometries anywhere", "why_tests_cant": "Which time and geometry a grid has depends on the whole path above it; tests have a few flat files.", "anchors": ["viscid/readers/xdmf.py:FileXDMF._parse", "viscid/readers/xdmf.py:FileXDMF._parse_grid", "viscid/readers/xdmf.py:FileXDMF._parse_time", "viscid/dataset.py:DatasetTemporal.add", "viscid/amr_grid.py:AMRGrid"]}
{"id": "C75", "title": "An Athena run reads as what the simulation wrote", "statement": "Loading a binary file of Athena, written in either byte order, gives its time, its variables under their names (density, momentum, energy and magnetic field if there are, scalars by number), each with the value that was written for each cell, and node coordinates that have each centre of the file inside its cell, in the middle of it; files given together are grouped by run, in the order of their numbers.", "quantifier": "all runs: sizes, axes with one or more cells, kinds of physics, numbers of scalars, values, byte orders, sizes of floats; all sets of files", "why_tests_cant": "Byte order, names and offsets are guessed or computed from the sizes; a test has one small file.", "anchors": ["viscid/readers/athena_bin.py:AthenaBinFileWrapper._read_file_header", "viscid/readers/athena_bin.py:AthenaBinFileWrapper.read_field", "viscid/readers/athena_bin.py:AthenaBinFile._make_crds", "viscid/readers/athena.py:group_athena_files_common"]}
{"id": "C76", "title": "The flux function and plasma beta are what they are defined to be", "statement": "calc_psi of a field without sources gives a function whose difference between any two grid points is the flux of the field through any path between them, whichever corner it begins at; for fields that come from a quadratic flux function it is that function, on any grid; the plane is found from the sizes of the axes or an error is raised. calc_beta gives 2 p / B^2 at each place.", "quantifier": "all fields, grids (not uniform too), walks between points, sizes of axes, pressures", "why_tests_cant": "The flux function is defined by a statement about all paths; a test looks at a picture.", "anchors": ["viscid/calculator/plasma.py:calc_psi", "viscid/calculator/plasma.py:calc_beta"]}
{"id": "C77", "title": "A selection reads, and assignment through it writes, exactly the selected elements", "statement": "field[selection] gives every element that is selected, at its place in a result that has the axes numpy would keep, for scalar fields and for one or all components of vectors in both layouts; field[selection] = value sets each of these elements to the value for its place (a number, or an array that is broadcast) and changes no other; reading the same selection then gives what was assigned.", "quantifier": "all shapes and numbers of axes, all selections of integers, slices with any step, new axes and index arrays, all components, layouts and values", "why_tests_cant": "Every combination of kinds of items, layouts and components moves the axes differently; tests have a few selections on one grid.", "anchors": ["viscid/field.py:Field.slice", "viscid/field.py:Field._finalize_slice", "viscid/field.py:Field.set_slice", "viscid/field.py:Field._reshape_ndarray_to_crds"]}
{"id": "C78", "title": "Fluid elements are followed from tstart to tstop through the velocity at each time", "statement": "follow_fluid calls the callback at tstart and then every dt up to tstop, forwards or backwards as asked, with the points moved through the velocity field that is the linear interpolation in time of the two files the time lies between; files not in order of time are refused; it follows the points for exactly the time asked for, it ends, and leaves the seeds it was given alone. Curators drop, put back or add points at their bounds and at their cadence.", "quantifier": "all times of files, start, stop, duration, dt and dt_interp of either sign, all fields, tracers, curators and points", "why_tests_cant": "The steps form a loop of any length with two clocks and either direction; tests follow one flow once and look at a picture.", "anchors": ["viscid/fluidtrace.py:follow_fluid", "viscid/fluidtrace.py:SeedCurator", "viscid/fluidtrace.py:ContinuousCurator", "viscid/fluidtrace.py:ReplacementCurator"]}
{"id": "C79", "title": "A field put in another form has the same values at the same places", "statement": "atleast_3d, shell and native views, as_centered, adjust_crds, atmost_nd: whatever the layout and whether the data are loaded or not, the result has the values of the field at the places of the field (moved as asked, in the new axes at their one place), the axes asked for, in order, and the field itself is as before; reading or clearing one of a field and its view never changes what the other shows.", "quantifier": "all fields with any axes, layouts, reflections, orders of data, loaded or not, any sequence of reads and clears, all adjusting functions, names and n", "why_tests_cant": "Which data a view shows depends on the history of reads and clears and on the combination of layout, order and reflection; tests use loaded fields of one layout.", "anchors": ["viscid/field.py:Field.atleast_3d", "viscid/field.py:Field.atmost_nd", "viscid/field.py:Field.as_centered", "viscid/field.py:Field.adjust_crds", "viscid/coordinate.py:StructuredCrds.atleast_3d"]}
{"id": "C80", "title": "The magnetopause: its paraboloid and normals, its edges, its width and the angle across it", "statement": "paraboloid_normal is at right angles to the paraboloid at every point and of length one when asked; find_mp_edges gives the first and last place of each column where the current exceeds the given fraction of its largest size, no edge where that is at the border, their distance as width, the magnetosphere edge never after the place of the largest current nor the magnetosheath edge before it; the shear is the angle in degrees between the fields outside the two edges.", "quantifier": "all parameters, points, columns of currents, thresholds, masks and fields", "why_tests_cant": "The normal is a statement about derivatives at every point, the edges about every column; a test looks at one fit.", "anchors": ["viscid/calculator/mpause.py:paraboloid", "viscid/calculator/mpause.py:paraboloid_normal", "viscid/calculator/mpause.py:find_mp_edges", "viscid/calculator/mpause.py:get_mp_info"]}
{"id": "C81", "title": "Fields turned into a table and back are the same fields", "statement": "from_dataframe(to_dataframe(...)) of a grid or of a series of grids has the same times, base of the times, coordinates, names of fields and every value, with the names of the coordinates given or to be found; rows selected from a table are read back as these rows.", "quantifier": "all grids with any number of axes and fields, series of any length, all tables made from them by taking rows", "why_tests_cant": "Coordinates are recognized from the values of the first two rows, so every shape and set of values counts; tests convert one data set.", "anchors": ["viscid/dataset.py:from_dataframe", "viscid/dataset.py:Dataset.to_dataframe", "viscid/dataset.py:DatasetTemporal.to_dataframe", "viscid/grid.py:Grid.to_dataframe"]}
{"id": "C82", "title": "An OpenGGCM run is read in the coordinates asked for", "statement": "With mhd_to_gse_on_read an OpenGGCM grid is turned when asked, or with 'auto' when its box says that it is in the system of the simulation, once for all its fields; the turned fields have at each place what was at the place half a turn around z away, with the x and y components of vectors, under every name, of the other sign, and so have all quantities derived from them; reading a field again gives the same; derived fields are made from the first complete set of components that is stored; the nodes made from the centres of a grid2 file have the centres in their cells, a plane is at the cell next to the place in its file name; files are grouped by run and type, in the order of time.", "quantifier": "all settings, boxes, grids of any size and centering, sets of stored names, centre coordinates, places and lists of files", "why_tests_cant": "Which spellings are stored, which setting was active at which time and what a log file says combine into far more cases than there are sample runs; the sign of every derived quantity must be right in all of them.", "anchors": ["viscid/readers/openggcm.py: GGCMGrid._do_mhd_to_gse_on_read, mhd2gse_field_scalar/vector, _get_*, GGCMFile.group_fnames, read_grid2, GGCMFile3D/2D", "viscid/grid.py: Grid.get_field", "viscid/coordinate.py: reflect_axes"]}
{"id": "C83", "title": "The convective derivative is the derivative along the other field", "statement": "convective_deriv(a, b) gives at each place of a, for each component of b (or for a scalar b), the sum over the axes of the component of a times the difference quotient of b along the axis, up to the boundaries; it is exact when b is a linear function of the place, on any grid and for any a, it is linear in both, and without b it is the derivative of a along itself.", "quantifier": "all vector fields a, scalar or vector fields b on one grid of three axes of any size and spacing, with and without boundaries", "why_tests_cant": "The nine derivatives and the shifted boundary layers must be combined rightly at every place of every grid, and a test can only compare a few fields.", "anchors": ["viscid/calculator/calc.py: convective_deriv", "viscid/calculator/calc.py: grad, _grad_np"]}
{"id": "C84", "title": "Resampled lines are the same lines with another number of points", "statement": "resample_lines(lines, factor) gives for each line ceil(factor (n - 1)) + 1 points, at equal steps along the points of the old line, each on the straight line between the two old points around it, from the first point to the last; a whole factor keeps every old point; a factor of one changes nothing and one that is not positive is refused.", "quantifier": "all lists of lines of at least two points and all factors, linear interpolation", "why_tests_cant": "Rounding up of the number of points and the search for the segment of each new point must fit together for every length and factor.", "anchors": ["viscid/calculator/calc.py: resample_lines"]}
{"id": "C85", "title": "Gkeyll files give each stored number under its own name", "statement": "The fields of a Gkeyll file are named after their number (hydro, five- and ten-moment, with or without the potentials, else Q0, Q1, ...), one name per field, no name twice, whatever files were read before; reading any selection of a field gives that selection of the component of that number; velocities and pressures derived from the stored moments are the mean velocity and the second moments about it; uniform and structured axes run from the lower to the upper bound; files are grouped by run in the order of the frames.", "quantifier": "all sequences of files with any numbers of fields, all selections and components, all distributions of particles, all grids and lists of files", "why_tests_cant": "The table of names is shared by the process and changed by reading, so only a statement about all histories shows the names are right; selections and moments range over infinitely many cases.", "anchors": ["viscid/readers/gkeyll.py: GkeyllGrid, GkeyllFile._make_template, make_crds, group_fnames, collective_name", "viscid/readers/hdf5.py: H5pyDataWrapper.__getitem__, _inject_comp_slice"]}
{"id": "C86", "title": "Text tables are read as what was written into them", "statement": "From an Athena .tab file every field has at every cell the number written for that cell and field, the axes are found from the table alone, with nodes half way between the cells, and names and time are those of the header; from a text file (.asc, .txt) the first column is the axis and field c<i> is column i; from a history file (.hst) each name has its column.", "quantifier": "tables of any number of cells per axis, any values, any names, any times in decimal notation", "why_tests_cant": "Strides, column offsets and the order of the axes must agree for every shape; a sample file has one shape and one time.", "anchors": ["viscid/readers/athena_tab.py: AthenaTabFile.parse_header, read_crds, AthenaTabDataWrapper.__array__", "viscid/readers/ascii.py: FileASCII._parse", "viscid/readers/athena_hst.py: AthenaHstFile._parse"]}
{"id": "C87", "title": "Searches by path find all that matches", "statement": "find_items(dset, loc) and resolve_path give every value whose path in the nested hierarchy matches the parts of loc between slashes, with that path, and nothing else: an item called exactly as the part, else every item and attribute whose name matches it; slashes at the ends do not count; KeyError just when there is none. With first=True it is the first of these.", "quantifier": "all nested hierarchies of any depth, all locations and all matchers of names", "why_tests_cant": "Levels, searches that end early and attributes combine without bound; a test covers one tree.", "anchors": ["viscid/vutil.py: resolve_path, find_item, find_items"]}
{"id": "C88", "title": "Numbers, series and text of times keep the time", "statement": "as_timedelta64(number, unit) is that number of units, with no more loss than the unit it chooses, and 'h:m:s' is hours, minutes and seconds; linspace_datetime64(start, stop, n) is n times from start to stop, each the one next to its even place, in order; format_time(t, 'hms' or 'dhms') shows the days, hours, minutes and seconds of t, and '%.nf' the fraction of the second rounded to n digits.", "quantifier": "all numbers and units, all starts, stops and lengths, all times, numbers of digits and date formats", "why_tests_cant": "Errors here are at particular sizes (5000 seconds, one day, the last half unit of a second, 2^53) that samples miss.", "anchors": ["viscid/npdatetime.py: _as_timedelta64_scalar, linspace_datetime64, format_time"]}
{"id": "C89", "title": "A selection written as text means what is written", "statement": "field['x=-12.5f:3e2, [4, -1], z=::-2'] is taken apart at the commas outside of brackets; each item keeps its place and, if it has one, the name before '='; whole numbers are indices, numbers with f or j after them (or with a dot or an exponent) are coordinates with exactly the written value, ':' makes slices whose missing parts are None, lists are lists of indices or of coordinates; blanks around anything and capital letters do not count.", "quantifier": "all texts made from these items, of any length, with any numbers of any number of digits, any names and any blanks", "why_tests_cant": "The text is rewritten in several passes (underscores, commas in brackets, case, f to j) whose interplay depends on every character; tests try a few texts.", "anchors": ["viscid/sliceutil.py: raw_sel2sel_list, fill_nd_sel_list, standardize_sel, standardize_value"]}
{"id": "C90", "title": "A slice that interpolates is linear between the two places next to the value", "statement": "interpolated_slice with one axis at a value has at each point of the other axes the value that is linear between the two places of the field next to the given one (that of the end beyond the ends), and leaves the sliced field as it was.", "quantifier": "all fields with three axes, uniform or not, at nodes or at cells, all axes and all values", "why_tests_cant": "Whether the field sliced shares arrays with the slice shows only in what is done with it later, and the value depends on the order of writes and reads.", "anchors": ["viscid/field.py: Field.interpolated_slice", "viscid/coordinate.py: StructuredCrds.slice_interp, make_slice_keep"]}
{"id": "C91", "title": "Times in the notation of OpenGGCM become the same times in ISO 8601", "statement": "as_isotime of YYYY:MM:DD[:hh[:mm[:ss[.fraction]]]], with blanks around it and UT before it, is YYYY-MM-DD[Thh[:mm[:ss[.fraction]]]] with the same numbers; texts in ISO 8601 stay as they are; lists and arrays are converted item by item.", "quantifier": "all dates, clocks, numbers of digits of the fraction, last parts with one or two digits, blanks and lists", "why_tests_cant": "The text is split, filled with zeros and cut at fixed positions; which parts are there changes every position.", "anchors": ["viscid/npdatetime.py: as_isotime"]}
{"id": "C92", "title": "Fields made from arrays have these coordinates and data", "statement": "arrays2field(arrays, data), dat2field(data) and full/zeros/ones(crds, ...) give a field whose axes are the given ones (counted from 0 for dat2field), at nodes or at cells as the shape of the data says, with numbers or with the right number of components, in the layout given, and with every value of the data (or the filling value) at its component and place.", "quantifier": "all numbers and lengths of axes, all spacings, all data, both layouts and centerings, all numbers of components", "why_tests_cant": "The kind of field is guessed from shapes; only certain combinations of lengths are guessed wrongly, and small spacings fall below a tolerance.", "anchors": ["viscid/field.py: arrays2field, dat2field, full, zeros, ones, wrap_field", "viscid/coordinate.py: arrays2crds"]}
{"id": "C93", "title": "OpenGGCM binary files give each field its own data", "statement": "From a binary (fortbin) file of OpenGGCM every field is found, with its name and shape, in either byte order; field[z, y, x] is the number written for x, y, z with x fastest; the list of fields found in the first file of a run can be used for its other files, each of which gives its own numbers; a file with another field or another shape at a place is refused, never misread.", "quantifier": "all files of fields with any number of axes, any lengths, names, byte orders and numbers; all pairs of files of one run", "why_tests_cant": "The place of each field depends on the sizes of all before it and the order of axes is turned twice; a sample file has one shape and one byte order.", "anchors": ["viscid/readers/ggcm_fortbin.py: FortbinFileWrapper.read_field, inquire_all_fields, inquire_next, _read_header", "viscid/readers/ggcm_fortbin.py: FortbinDataWrapper.__array__, GGCMFileFortbin._make_template"]}
{"id": "C94", "title": "The parameters in a log are those of the run", "statement": "From the log of an OpenGGCM run exactly the parameters and types of the watched classes are read, under class_parameter, with the value given last, up to the first report of the simulation; whole numbers are int, other numbers float, lists of numbers arrays of them, and other texts are kept; the number of the equations is named, or UNKNOWN.", "quantifier": "all logs made of sections about any classes with any parameters and of any other lines; all numbers and lists of numbers in decimal notation", "why_tests_cant": "A line means different things in and outside of a section and what is skipped depends on the lines before; tests read one log.", "anchors": ["viscid/readers/ggcm_logfile.py: GGCMLogFile._parse, _parse_value, _parse_param"]}
{"id": "C95", "title": "A file is read by the reader that fits it best", "statement": "load_file chooses a reader that accepts the name of the file: of those the one with the highest priority, and among equals the one derived from the others or defined later; with prefer= the best of those with that word in their name, if there is one. With file_type= the reader is found by a part of its name, where blanks, _, -, capitals and the word file do not count. No reader is chosen just if none accepts.", "quantifier": "all hierarchies of reader classes, all file names, priorities, preferred words and names of types", "why_tests_cant": "The choice depends on the whole tree of classes loaded so far and on the order of their definition; tests have one such tree.", "anchors": ["viscid/readers/vfile.py: VFile.detect_type, VFile.resolve_type, serialize_subclasses"]}
{"id": "C96", "title": "Lines are drawn as they are", "statement": "plot_lines and plot2d_lines draw each piece between two successive points of each line once, in order, and nothing between two lines; with subsample > 0 the points drawn are ceil(subsample (n-1)) + 1 points on the line at equal steps along its points, from the first point to the last. Each piece has the number of the point it begins at; the numbers are interpolated as the coordinates are.", "quantifier": "all collections of lines of any lengths, in two or three dimensions or fewer, all numbers at the points, all subsample, with or without scipy", "why_tests_cant": "The points of all lines are numbered through and the lines found again from the connections; an error shows only for certain combinations of lengths.", "anchors": ["viscid/plot/vpyplot.py: _prep_lines, plot_lines, plot2d_lines"]}
{"id": "C97", "title": "Points and lines are drawn in the right plane", "statement": "scatter_2d and plot2d_lines show points and lines in space in the plane across symdir, with the two other directions as axes in the order x, y, z, exchanged by flip_plot; without symdir in the plane across the last direction in which the points do not differ, x and y if they differ in all. With zloc the colour is the place in the direction across.", "quantifier": "all points and lines in space, all directions, flipped or not, coloured or not", "why_tests_cant": "The plane is found from the data, and an error shows only for lines in certain planes or with certain numbers of pieces.", "anchors": ["viscid/plot/vpyplot.py: scatter_2d, plot2d_lines, _xyzind_from_symdir"]}
{"id": "C98", "title": "Arithmetic on AMR fields is done at each place of each patch", "statement": "An operator between an AMR field and a number, an AMR field with the same patches or a single field as large as the patches, and a function of numpy of one or two AMR fields, give an AMR field with the same patches and at each place the value for that place. Operands with another number of patches, and functions of fields with patches of different sizes, are refused.", "quantifier": "all numbers and sizes of patches, all values, all operators and functions of one or two numbers", "why_tests_cant": "What happens depends on the number of patches, on the size of the first one and on how arrays are laid side by side; tests have few patches.", "anchors": ["viscid/amr_field.py: AMRField.wrap_field_method, AMRField.__array__, AMRField.__array_wrap__", "viscid/field.py: Field.__add__, Field.__iadd__"]}
{"id": "C99", "title": "Colours given as text are the colours written", "statement": "Colours for lines given as #rgb, #rgba, #rrggbb, #rrggbbaa or names, one for all, one for each line or one for each point, give each point the red, green, blue (and alpha, if one of them has alpha, 255 where it is not given) that its text means. Other texts and other numbers of texts are refused.", "quantifier": "all mixtures of notations, all collections of lines", "why_tests_cant": "The notations are brought to a common length that depends on all of them; tests try one notation at a time.", "anchors": ["viscid/vutil.py: _string_colors_as_hex, _hexchar2int, prepare_lines"]}
{"id": "C100", "title": "Lines are drawn in the colours of their points", "statement": "When lines are drawn with a colour for each point, each piece has the colour of the point it begins at; with subsample > 0 each component of the colour at the finer points is the byte nearest to the value on the line between the components at the points.", "quantifier": "all collections of lines, all colours with any number of components, all subsample", "why_tests_cant": "Rounding and numbering depend on all lines together; tests look at pictures.", "anchors": ["viscid/plot/vpyplot.py: _prep_lines"]}
{"id": "C101", "title": "Times rounded to seconds are the nearest", "statement": "time_as_seconds(t, decimals) of a date, a span of time or a number of seconds is a multiple of 10^-decimals seconds, and no multiple is nearer to t.", "quantifier": "all dates and spans in all units from the attosecond to the second, all numbers, all decimals of zero and more", "why_tests_cant": "The digits that are kept depend on the size of the time and on a tolerance; tests try a few short times.", "anchors": ["viscid/npdatetime.py: time_as_seconds, datetime_as_seconds, timedelta_as_seconds, as_timedelta64"]}
{"id": "C102", "title": "A series of plots has one picture for each time, each as asked for", "statement": "make_multiplot draws one picture for each time of the file in order, saved with numbers from 1; each picture has the variables in the order given, each on new axes or, with ^, on those before, the axes below each other (side by side with transpose), the field or equation as written, the selections of the variable and then the one for all, and its own options followed by the global ones. No times, or ^ at the first variable with others on new axes, are refused.", "quantifier": "all lists of times, variables, selections, options and global options", "why_tests_cant": "The options are changed in place by each picture, so only a history of pictures shows it; tests make one or two pictures.", "anchors": ["viscid/multiplot.py: make_multiplot, _do_multiplot", "viscid/parallel.py: map"]}
