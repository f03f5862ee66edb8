{
 "claims": [
  {
   "property": "C01",
   "status": "partial",
   "theorems": [
    "make_fwd_slice_one_axis_partial",
    "make_fwd_slice_serves_nonempty_requests",
    "make_fwd_slice_nd_partial",
    "make_fwd_slice_start_at_end_refuted",
    "make_fwd_slice_reversed_negative_index_fails",
    "make_fwd_slice_reversed_out_of_range_accepted_refuted"
   ],
   "note": "Correct for every shape and request except the refuted inputs (start == len with negative step; integer indices on reversed axes that are negative or out of range). Empty selections are rejected with AssertionError."
  },
  {
   "property": "C02",
   "status": "proved",
   "theorems": [
    "chunk_list_is_partition",
    "chunk_list_balanced",
    "chunk_slices_cover_once",
    "chunk_interslices_partition",
    "chunk_sizes_agree",
    "chunk_slices_size_value_ignored",
    "chunk_size_argument_refuted"
   ],
   "note": "Proved for every list and chunk count >= 1. Finding: the value of the documented size argument is never read."
  },
  {
   "property": "C03",
   "status": "proved",
   "theorems": [
    "calc_streams_matches_serial",
    "parallel_map_is_serial",
    "pool_map_order_independent",
    "pool_map_failure",
    "parallel_map_threads_is_serial",
    "parallel_map_threads_completes",
    "parallel_map_exception_schedule_refuted",
    "parallel_map_user_pool_refuted"
   ],
   "note": "Streamline driver, thread map (on the modelled thread pool, every interleaving) and process map (on the documented contract of the standard library's pool, every batch size and completion order). Findings: with several failing tasks the exception depends on the schedule; with a caller-supplied pool parallel.map always raises."
  },
  {
   "property": "C04",
   "status": "partial",
   "theorems": [
    "jrrle_record_roundtrip",
    "jrrle_record_characters",
    "jrrle_levels_roundtrip",
    "jrrle_corruption_detected",
    "jrrle_corruption_undetected_refuted",
    "jrrle_corrupt_count_overruns_refuted"
   ],
   "note": "Round trip proved in full, for single records and whole fields. Corruption detection holds except for code differences equal to the modulus (refuted), and a corrupt repeat count overruns the decoder's array (refuted)."
  },
  {
   "property": "C05",
   "status": "partial",
   "theorems": [
    "C05_total",
    "C05_sign",
    "C05_error",
    "C05_relative",
    "C05_small",
    "C05_order",
    "C05_constant",
    "C05_zero_refuted",
    "C05_large_refuted"
   ],
   "note": "Every field of reals, every header rounding of 5e-6 or better. Zero comes back positive (C05_zero_refuted) and magnitudes above 1e33 are cut (C05_large_refuted); the rest of the property is proved, with constants. Single precision arithmetic is not modelled."
  },
  {
   "property": "C06",
   "status": "proved",
   "theorems": [
    "bucket_refines_handle_map",
    "bucket_listing_consistent",
    "bucket_listing_exact",
    "bucket_failed_operation_changes_nothing",
    "bucket_auto_handles_never_reused",
    "bucket_last_assignment_wins",
    "bucket_auto_handle_collision_refuted",
    "bucket_mutates_callers_list_refuted",
    "bucket_equal_items_refuted"
   ],
   "note": "Proved for every history of operations. Findings: automatic integer handles can collide with user integers, set_item extends the caller's list, equal but distinct objects share one listing."
  },
  {
   "property": "C07",
   "status": "proved",
   "theorems": [
    "find_info_nearest_owner",
    "find_info_value",
    "update_info_touches_owner_only",
    "get_all_info_is_find_info",
    "prepare_child_idempotent",
    "tear_down_undoes_prepare"
   ],
   "note": "Proved for every finite parent graph, cyclic or not, including the tie break among equally near owners."
  },
  {
   "property": "C08",
   "status": "partial",
   "theorems": [
    "temporal_children_sorted",
    "temporal_active_child",
    "temporal_get_child_nearest",
    "temporal_get_child_by_index",
    "temporal_time_range",
    "temporal_contains_sound",
    "temporal_contains_refuted",
    "temporal_get_child_slice_refuted",
    "temporal_equal_times_range_refuted",
    "temporal_remove_all_refuted"
   ],
   "note": "Ordering, completeness, nearest lookup and time ranges proved for every history. Membership implies retrievability, but not conversely (index 0, negative indices and out of range times: refuted). Getting a child by time slice always fails; ranges drop later children at the stop time."
  },
  {
   "property": "C09",
   "status": "partial",
   "theorems": [
    "nearest_index_is_nearest",
    "nearest_indices_elementwise",
    "tolerance_is_small",
    "slice_by_value_forward",
    "slice_by_index_untouched",
    "slice_between_values",
    "slice_by_value_backward",
    "interior_slice_encloses_tightly",
    "slice_by_value_descending_refuted",
    "slice_by_value_duplicates_refuted",
    "interior_slice_step_refuted",
    "slice_by_value_single_point_refuted"
   ],
   "note": "Single values proved for every array; slices, any mixture of values/indices, any nonzero step, proved for strictly ascending arrays (up to the code's tolerance). Refuted for descending and repeated coordinates, one-point axes and stepped interior slices."
  },
  {
   "property": "C10",
   "status": "partial",
   "theorems": [
    "selection_fills_intended_axes",
    "ellipsis_absorbs_missing_axes",
    "ellipsis_misuse_is_an_error",
    "too_many_positional_selectors_is_an_error",
    "overlong_selection_accepted_refuted",
    "prune_comp_sel_spec"
   ],
   "note": "Proved (both what legal selections give and that illegal ones are errors) for every selection without Ellipsis, and for Ellipsis when the selectors fit. Over-long positional selections are errors, but with a named newaxis after the Ellipsis one can be accepted (refuted). Parsing of selection text is not modelled."
  },
  {
   "property": "C100",
   "status": "partial",
   "theorems": [
    "C100_colours",
    "C100_finer"
   ],
   "note": "Proved for the colours of the pieces, any number of components and any lines with at least two points each, or without scipy. Not covered: colours of the points themselves (for lines of one point with scipy only the first component is set, as in C96) and interpolation other than linear."
  },
  {
   "property": "C101",
   "status": "partial",
   "theorems": [
    "C101_date",
    "C101_span",
    "C101_number",
    "C101_span_refuted",
    "C101_four_digits_refuted"
   ],
   "note": "Proved for dates and up to three digits, for spans to whole seconds, for spans with one, two or three digits up to 999, 99 or 9 seconds, and for numbers with any digits. Refuted: spans of 5001 seconds or more lose all digits after the point, and a date 0.9999 s after a second, with four digits, becomes the next second. Units longer than a second, negative decimals, floating point rounding and 64 bit overflow are not modelled."
  },
  {
   "property": "C102",
   "status": "partial",
   "theorems": [
    "C102_series",
    "C102_refused",
    "C102_options_refuted",
    "C102_params_refuted"
   ],
   "note": "Proved in one process for all times, variables, selections, with axes below each other or side by side, and without global options. Refuted: with global options everything else holds, but they are added once more to the options of each variable for each picture; with subplot_params among the options nothing is drawn (UnboundLocalError). Several processes (C03 is about the order of their results), titles, margins and the drawing itself are not modelled here."
  },
  {
   "property": "C11",
   "status": "proved",
   "theorems": [
    "trilinear_exact_at_nodes",
    "trilinear_exact_for_affine_data",
    "trilinear_never_overshoots",
    "trilinear_within_data_range",
    "trilinear_outside_is_the_boundary_value",
    "nearest_interpolation_is_nearest",
    "interpolation_total"
   ],
   "note": "Proved for every rectilinear or evenly spaced grid, every data array and every point, on the result array of interp as a whole. Exact arithmetic; rounding is not modelled."
  },
  {
   "property": "C12",
   "status": "proved",
   "theorems": [
    "search_result_does_not_depend_on_its_start",
    "interpolation_does_not_depend_on_history"
   ],
   "note": "Proved for every grid and every list of points, for linear and nearest interpolation. Several patches: see C44."
  },
  {
   "property": "C13",
   "status": "partial",
   "theorems": [
    "C13_fixed",
    "C13_embedded",
    "C13_euler1a",
    "C13_uniform",
    "C13_control",
    "C13_ends",
    "C13_accepted",
    "C13_smallest_refuted",
    "C13_distance",
    "C13_euler_error",
    "C13_rk2_error",
    "C13_time",
    "C13_rk45_refuted"
   ],
   "note": "Every field, point, step and tolerance over the reals. rk45 can go 1.4 |ds| and give a negative time (C13_rk45_refuted). An accepted step can be followed by one below smallest_ds (C13_smallest_refuted). Orders 4 and 5 are proved as Butcher's conditions on all rooted trees; the error of a step is bounded for Euler and rk2."
  },
  {
   "property": "C14",
   "status": "partial",
   "theorems": [
    "streamline_is_a_line_through_its_seed",
    "streamline_reports_why_it_ended",
    "streamline_stays_inside",
    "streamline_respects_max_length",
    "streamline_independent_of_history",
    "calc_streamlines_is_each_seed_on_its_own",
    "max_t_stops_early_refuted"
   ],
   "note": "Proved for every integrator, field, seed, direction and limit: termination, buffer safety, connectedness through the seed, end reasons, containment, and the length limit for fixed-step integrators. The time limit is refuted: running totals of dt are summed, so lines stop early. For adaptive integrators the accumulated length is the smaller of old and new step size, not the step taken, so only the bound on the nominal length is proved."
  },
  {
   "property": "C15",
   "status": "proved",
   "theorems": [
    "topology_depends_on_the_two_ends",
    "streamline_topology",
    "topology_total",
    "topology_colours_are_distinct",
    "one_sided_inner_end_is_closed"
   ],
   "note": "Proved for all flag words and end to end for every traced line."
  },
  {
   "property": "C16",
   "status": "partial",
   "theorems": [
    "C16_candidates",
    "C16_no_null_lost",
    "C16_candidate_zero",
    "C16_face_sound",
    "C16_face_complete",
    "C16_face_once",
    "C16_face_refuted",
    "C16_faces",
    "C16_z_faces_refuted",
    "C16_null_on_face",
    "C16_reported",
    "C16_none_refuted",
    "C16_missed_refuted",
    "C16_false_refuted"
   ],
   "note": "The candidate test keeps every cell whose trilinear interpolant vanishes strictly inside unless a component is zero or of one sign at all corners. Roots on a face are sound, and complete and listed once when the first function depends on y. The property is false as stated: axis-aligned nulls are never reported, a cell without a null can be reported because the tables of the two z faces repeat a corner, and an empty search raises. Missing: a general condition under which the parity test is right."
  },
  {
   "property": "C17",
   "status": "partial",
   "theorems": [
    "find_clusters_averages_connected_components",
    "find_clusters_periodic_only_links_linked_points_partial",
    "find_clusters_mixed_corner_refuted",
    "find_clusters_winding_chain_refuted",
    "find_clusters_single_refuted",
    "find_clusters_one_point_axis_refuted"
   ],
   "note": "Proved in full for every point list on grids that are not periodic (with at least two distinct coordinates per axis). On periodic grids only one direction holds (points in one cluster are linked); the converse is refuted (mixed corners, chains winding more than once). multiple=False and one-point axes are refuted."
  },
  {
   "property": "C18",
   "status": "proved",
   "theorems": [
    "amr_lookup_uses_a_patch_holding_the_point",
    "amr_interpolation_uses_a_patch_holding_the_point",
    "neighbours_are_the_touching_patches",
    "neighbours_are_symmetric",
    "neighbours_found_up_to_48",
    "neighbour_masks_describe_the_contact"
   ],
   "note": "Proved for every layout, neighbour table and history. Containment is up to the code's comparison tolerance; squared distances must be below MAX_FLOAT. Discovery raises IndexError when a patch has more than 48 neighbours (C45)."
  },
  {
   "property": "C19",
   "status": "partial",
   "theorems": [
    "C19_elementary",
    "C19_add",
    "C19_handed",
    "C19_euler",
    "C19_order",
    "C19_dcm",
    "C19_rotmul",
    "C19_isometry",
    "C19_axis",
    "C19_axis_add",
    "C19_axis_elementary",
    "C19_quat",
    "C19_quat_near_unit",
    "C19_quat_refuted",
    "C51_a2b"
   ],
   "note": "Real numbers, one matrix at a time. All of it for e_rot, angle2rot, eul2rot, the dcm versions, wxyz2rot and a2b_rot (C51_a2b: any non-zero vectors). For quat2rot it holds when the norm is exactly 1 or is normalised; for norms within 1e-8 + 1e-5 of 1, which are used as they are, the matrix is within 5e-5 of a rotation but need not be one (C19_quat_refuted). Rounding and stacks are not modelled."
  },
  {
   "property": "C20",
   "status": "partial",
   "theorems": [
    "C20_angle",
    "C20_eul",
    "C20_dcm",
    "C20_dcm_eul",
    "C20_invalid",
    "C20_all_rotations",
    "C20_near_lock_refuted"
   ],
   "note": "Real numbers, one matrix. Exact for every rotation at gimbal lock or at least 1e-10 away from it, for all twelve orders and all four extraction functions; for every rotation the entries come back within 2e-10. Exactness strictly inside the 1e-10 band is false (C20_near_lock_refuted). Floating-point rounding and stacks of matrices are not modelled."
  },
  {
   "property": "C21",
   "status": "partial",
   "theorems": [
    "C21_product",
    "C21_norm",
    "C21_rotate",
    "C21_rotate_all",
    "C21_scale",
    "C21_axis",
    "C21_to_axis"
   ],
   "note": "For all lists of factors, vectors and axes over the reals; for quaternions whose norm is 1 or is normalised by quat2rot (see C19). quat_rotate is exact for every non-zero quaternion. Rounding and stacks are not modelled."
  },
  {
   "property": "C22",
   "status": "proved",
   "theorems": [
    "C22_history",
    "C22_independent",
    "C22_consistent",
    "C22_lengths",
    "C22_angles"
   ],
   "note": "For every sequence of earlier calls on an instance, every pair of the seven geocentric systems and every value of the time parameters and dipole angles, over the reals; transforms to or from MAG raise RuntimeError when the dipole is given by hand. The conversion of a date into its parameters, heliocentric systems and rdim=4 are not modelled."
  },
  {
   "property": "C23",
   "status": "partial",
   "theorems": [
    "C23_opposite",
    "C23_refuted",
    "C23_negative_strength",
    "C23_systems"
   ],
   "note": "False of the code: for every moment in GSE or MHD and any calls before, the moment comes back negated (C23_opposite, C23_refuted); with the strength taken as -|m| it comes back. Other systems raise ValueError. Real numbers."
  },
  {
   "property": "C24",
   "status": "partial",
   "theorems": [
    "C24_grad",
    "C24_div",
    "C24_curl",
    "C24_div_curl",
    "C24_curl_grad",
    "C24_grad_of_nodes_refuted",
    "C24_mixed_boundaries_refuted"
   ],
   "note": "Proved for every non-uniform grid with distinct coordinates, cell and node centred (grad: cell centred), with and without boundaries, including the coordinates of the result; the identities hold for every field if both steps treat boundaries alike or only the second leaves them out. Refuted: grad of a node centred field always raises; div with boundaries of a curl without them is not zero. Exact arithmetic."
  },
  {
   "property": "C25",
   "status": "partial",
   "theorems": [
    "C25_scalar",
    "C25_dot",
    "C25_mag_one_line",
    "C25_additive",
    "C25_mag_lines_refuted",
    "C25_repeated_point_refuted",
    "C25_no_lines_refuted"
   ],
   "note": "Proved for every list of non-empty lines for scalars and, if no point is repeated, for the tangential component; the magnitude is proved for one line and refuted for two or more. A repeated point gives nan, an empty list of lines raises. Exact (real) arithmetic; the interpolated values are a function of the point. mask_func is not modelled."
  },
  {
   "property": "C26",
   "status": "partial",
   "theorems": [
    "C26_cleaned",
    "C26_only_deletes",
    "C26_standard_unchanged",
    "C26_identity",
    "C26_strings_unaltered_refuted",
    "C26_escaped_quote_refuted",
    "C26_comment_kept_refuted"
   ],
   "note": "The text handed to the parser is characterised exactly for every text and never raises. Refuted: string literals are altered when they contain a comma before a bracket, or an escaped quote before a marker; an apostrophe in a string keeps a later comment."
  },
  {
   "property": "C27",
   "status": "proved",
   "theorems": [
    "C27_no_dunder",
    "C27_disabled",
    "C27_only_salted_names",
    "C27_fields_looked_up",
    "C27_fields_looked_up_numpy",
    "C27_plain_kept",
    "C27_dunder_field_refuted",
    "C27_double_quotes_refuted"
   ],
   "note": "Proved for every equation, grid, path and character class. The two refuted theorems are side effects outside the property: fields with double underscores in their names are looked up under another name, and double quoted names are salted."
  },
  {
   "property": "C28",
   "status": "proved",
   "theorems": [
    "ordered_dict_refines_pair_list",
    "ordered_dict_iterates_in_insertion_order",
    "ordered_dict_last_absent_exists",
    "ordered_dict_copy_equal",
    "ordered_dict_eq_order_sensitive",
    "ordered_dict_clear_python3_refuted"
   ],
   "note": "Proved for every history on the interpreters the backport is imported on (those whose dicts have itervalues). Finding: on Python 3, clear leaves the order list in place (refuted for every history)."
  },
  {
   "property": "C29",
   "status": "partial",
   "theorems": [
    "future_state_moves",
    "future_result_final",
    "future_result_is_outcome",
    "function_runs_at_most_once",
    "cancelled_never_runs",
    "callback_at_most_once",
    "callback_exactly_once",
    "wait_registers",
    "wait_immediate",
    "wait_wakes_only_if_condition",
    "wait_wakes_if_condition",
    "wait_result",
    "as_completed_sound",
    "as_completed_complete",
    "as_completed_blocks",
    "pool_work_decreases",
    "pool_never_stuck",
    "shutdown_drains",
    "executor_map_in_order",
    "wait_duplicates_refuted",
    "callback_fatal_refuted",
    "zero_workers_refuted",
    "falsy_exception_refuted"
   ],
   "note": "Proved for every interleaving of any number of clients and workers. Refuted corners: wait on a list with a repeated finished future hangs; a callback raising a non-Exception loses later callbacks and kills the worker; max_workers=0 hangs; exceptions with false truth value are reported as a None result. Process pools (futures/process.py) and the exit hook are not modelled."
  },
  {
   "property": "C30",
   "status": "partial",
   "theorems": [
    "C30_regularize",
    "C30_lossless_or_refused",
    "C30_precision_error",
    "C30_round_time",
    "C30_most_precise",
    "C30_time_sum",
    "C30_time_diff",
    "C30_sum_then_diff",
    "C30_diff_then_sum",
    "C30_before_epoch_refuted",
    "C30_sum_overflow_refuted",
    "C30_times_dropped_refuted",
    "C30_most_precise_after_rounding_refuted"
   ],
   "note": "Proved for every list of times in the units as..W. Refuted: a datetime of -1 h, m or W in attoseconds passes the overflow check with a wrong instant; sums that overflow wrap silently; time differences too fine for the asked unit are dropped from the result; most_precise with a unit refines times already rounded. Calendar units (M, Y) and text parsing are not modelled."
  },
  {
   "property": "C31",
   "status": "proved",
   "theorems": [
    "C31_points",
    "C31_connections",
    "C31_no_connections",
    "C31_scalar_per_line",
    "C31_scalar_per_point",
    "C31_scalar_in_lines",
    "C31_colour_per_line",
    "C31_colour_per_line_columns",
    "C31_single_colour",
    "C31_other_per_line",
    "C31_colour_per_point_refuted",
    "C31_six_rows_refuted",
    "C31_three_points_refuted",
    "C31_byte_wraps_refuted",
    "C31_tuple_refuted"
   ],
   "note": "Proved for every list of lines of every length. The refuted theorems are outside the property's text but inside the documentation: one colour per point is always an error (unless there are 1, 3, 4 or nlines points), lines of six rows never work, a tuple colour is a TypeError, 255.5 becomes byte 0. Colours given as text and as a Field are not modelled."
  },
  {
   "property": "C32",
   "status": "partial",
   "theorems": [
    "C32_selected_files",
    "C32_index_slice",
    "C32_value_slice",
    "C32_single",
    "C32_no_slice",
    "C32_reversed_refuted",
    "C32_open_slice_with_step_refuted"
   ],
   "note": "Proved for every set of files, every single index or value and every slice with positive step. Refuted: slices with negative step come out in increasing order; a bracket with an empty middle (the documented [10.0j::2], [::2]) is never recognised as a slice. Without a slice the list is in the order glob gives. The file system and the parsing of the slice text are arguments of the model."
  },
  {
   "property": "C33",
   "status": "partial",
   "theorems": [
    "C33_cells",
    "C33_reflect",
    "C33_extend",
    "C33_extend_linspace",
    "C33_nc2cc",
    "C33_uniform_nodes",
    "C33_uniform_nc2cc",
    "C33_uniform_reflect",
    "C33_uniform_of_array",
    "C33_reflect_given_centres_refuted",
    "C33_nc2cc_two_nodes_refuted",
    "C33_nc2cc_one_node_refuted",
    "C33_uniform_cell_extents_refuted",
    "C33_uniform_one_cell_refuted",
    "C33_uniform_nc2cc_centres_refuted",
    "C33_uniform_reflect_extent_refuted",
    "C33_uniform_of_small_array_refuted"
   ],
   "note": "Proved for arrays of every length, increasing or decreasing. Refuted: node-to-cell conversion of one or two nodes does not bracket the points; uniform coordinates report cell extents and spacing that differ from their arrays whenever the axis has a length, and unreflected extents; explicitly given centres are not reflected; arrays with spacing below 1e-8 always count as uniform. Exact arithmetic; dates are not modelled."
  },
  {
   "property": "C34",
   "status": "proved",
   "theorems": [
    "C34_get_points",
    "C34_iter_points",
    "C34_array_and_iterator_agree",
    "C34_enumeration",
    "C34_mesh",
    "C34_point_seeds",
    "C34_plane",
    "C34_resample_on_own_grid",
    "C34_mesh_of_two_axes_refuted",
    "C34_three_points_refuted"
   ],
   "note": "Proved for every number of axes and every shape, for point arrays, iterators, surface meshes and plane seeds; together with C11, interpolating a field at its own grid's points gives its raveled data. The refuted theorems are outside the property: as_mesh of a two-axis grid always raises, three points given as rows are read as columns (documented)."
  },
  {
   "property": "C35",
   "status": "partial",
   "theorems": [
    "C35_line",
    "C35_spline",
    "C35_plane_frame",
    "C35_plane_parallel_refuted",
    "C35_plane",
    "C35_volume",
    "C35_sphere",
    "C35_circle",
    "C35_patch_partial",
    "C35_patch_refuted"
   ],
   "note": "Every parameter and count over the reals. The theta of a point is tied to the pole unless the pole is within 1e-8 of the z axis but not on it. A plane with parallel vectors gives nan instead of the RuntimeError the code tries to raise, patches of more than 90 degrees can give nan; the patch theorem covers angles up to 90. RectilinearMeshPoints and MeshPoints are in C34 as far as modelled."
  },
  {
   "property": "C36",
   "status": "partial",
   "theorems": [
    "C36_sum",
    "C36_prod",
    "C36_any",
    "C36_all",
    "C36_min",
    "C36_max",
    "C36_mean_same_size",
    "C36_elementwise",
    "C36_operators",
    "C36_mean_refuted",
    "C36_std_refuted",
    "C36_ptp_refuted",
    "C36_argmax_refuted",
    "C36_one_cell_patches_refuted"
   ],
   "note": "Sum, product, any, all, min and max proved for every list of patches (min and max: non-empty patches). Mean proved for patches of one size and refuted in general (mean of means); std, ptp and argmax refuted; the negative of a field whose patches have one cell is the field itself. Reductions along one axis are not modelled."
  },
  {
   "property": "C37",
   "status": "partial",
   "theorems": [
    "C37_load",
    "C37_as_layout",
    "C37_round_trip",
    "C37_round_trip_refuted",
    "C37_forced_layout_reversed_axes_refuted"
   ],
   "note": "Proved for every rank, shape, number of components, set of reflected axes and storage order, for arrays and lists of components. Refuted: when every axis has as many places as there are components the interlaced array is taken for flat on the way back; a layout forced on a single array stored in reversed axis order raises or gives wrong values. Array copies and element types are not modelled."
  },
  {
   "property": "C38",
   "status": "partial",
   "theorems": [
    "C38_interior",
    "C38_order_0",
    "C38_order_1",
    "C38_default_axes_refuted",
    "C38_order_0_one_place_refuted",
    "C38_centres_of_one_cell_refuted",
    "C38_centres_of_unequal_cells_refuted"
   ],
   "note": "Proved for arrays of every rank and shape, any distinct axes, any component axis and any numbers of layers, for faces, edges and corners. Refuted: the default axes='all' of the array function always raises; order 0 on a one-place axis steps by invarient_dx; the extended cell centres of a field are not the centres of the extended cells when there is one cell or cells differ. Exact arithmetic."
  },
  {
   "property": "C39",
   "status": "partial",
   "theorems": [
    "C39_scalar",
    "C39_vector_reversed_order",
    "C39_never_wrong",
    "C39_vector_same_order_refuted",
    "C39_new_axis_refuted"
   ],
   "note": "Proved for scalar fields in both storage orders and for vector fields of both layouts in reversed order: every rank, shape, set of reflected axes, component selection and every selection of one slice or index per axis. Refuted: vector fields stored in coordinate order always raise (the component slice is inserted twice); a new axis shifts the reflection flags. Sources with fewer axes than the field, post-read transforms and wrapping the result are not modelled."
  },
  {
   "property": "C40",
   "status": "partial",
   "theorems": [
    "C40_scalar",
    "C40_vector",
    "C40_transpose_crds",
    "C40_swapaxes_scalar",
    "C40_swapaxes_vector",
    "C40_scalar_and_back",
    "C40_vector_and_back",
    "C40_component_axis_inside_refuted",
    "C40_equal_lengths_refuted"
   ],
   "note": "Scalar fields: every rank and permutation. Vector fields: every permutation that leaves the component axis first or last and shapes that tell the layouts apart. Refuted: with the component axis between space axes (swapaxes(0, 1) of a flat field) the result cannot be read; with equal lengths components and places are exchanged. Fields with one value become numbers; negative axis numbers are not modelled."
  },
  {
   "property": "C41",
   "status": "partial",
   "theorems": [
    "node_time_number_reads_back",
    "node_time_timedelta_refuted"
   ],
   "note": "Holds for numbers; assigning a datetime or timedelta stores nothing (refuted for every node and value)."
  },
  {
   "property": "C42",
   "status": "partial",
   "theorems": [
    "find_attr_refuted"
   ],
   "note": "The default case is right; whenever some node has the attribute a NameError is raised instead of returning it (refuted for every graph)."
  },
  {
   "property": "C43",
   "status": "partial",
   "theorems": [
    "calls_that_return_are_independent",
    "failed_call_blocks_all_later_calls_refuted"
   ],
   "note": "Refuted: the module global that marks a trace in progress is not cleared when tracing raises, so every later call raises RuntimeError; proved only for histories without failures."
  },
  {
   "property": "C44",
   "status": "partial",
   "theorems": [
    "amr_interpolation_independent_of_history_where_patches_do_not_overlap",
    "amr_value_depends_on_history_where_patches_overlap_refuted",
    "cached_index_can_leave_the_next_patch_refuted"
   ],
   "note": "Proved when the patches' coordinate buffers have one width and the point lies in one patch only. Refuted otherwise: on shared faces the value is that of the previously active patch, and a cached index from a longer patch starts the search outside a shorter patch's buffer."
  },
  {
   "property": "C45",
   "status": "partial",
   "theorems": [
    "neighbours_found_up_to_48",
    "neighbour_masks_describe_the_contact",
    "neighbour_discovery_fails_past_48_refuted",
    "neighbour_flag_is_opposite_to_its_documentation_refuted",
    "skeleton_reuse_ignores_upper_corners_refuted"
   ],
   "note": "Refuted: a 49th neighbour raises IndexError; the direction flag is the opposite of the documented one; a skeleton is reused although upper corners differ. What does hold is proved."
  },
  {
   "property": "C46",
   "status": "partial",
   "theorems": [
    "C46_slice",
    "C46_slice_uniform",
    "C46_reverse",
    "C46_strided",
    "C46_keep",
    "C46_keep_nodes",
    "C46_keep_negative_refuted",
    "C46_negative_start_refuted",
    "C46_backward_refuted",
    "C46_uniform_strided_refuted",
    "C46_last_node_refuted",
    "C46_slice_again_refuted",
    "C46_mixed_bounds_refuted",
    "C46_empty_refuted"
   ],
   "note": "Proved for every axis: slices without a step and a start that is not negative (any stop), the full reversal, steps of at least 2 on coordinates that are not uniform, and kept indices that are not negative or -1. Refuted for negative starts, backward slices with bounds, uniform coordinates with a step, slicing a strided slice again, empty selections and kept indices below -1."
  },
  {
   "property": "C47",
   "status": "partial",
   "theorems": [
    "C47_faces_leading",
    "C47_edges_leading",
    "C47_fc2cc",
    "C47_ec2cc",
    "C47_plain",
    "C47_div",
    "C47_gauss",
    "C47_div_curl",
    "C47_one_cell_refuted",
    "C47_untrimmed_refuted",
    "C47_div_one_cell_refuted",
    "C47_two_cells_refuted",
    "C47_mixed_refuted"
   ],
   "note": "Proved for three or more cells along each axis, any staggering and flips (edges: the same staggering for all axes), without rounding. False with one cell along some axis (conversion raises, or the divergence is 0/0) and with two cells (not averaged, one cell too many). The coordinates of the extended result are those of C38."
  },
  {
   "property": "C48",
   "status": "partial",
   "theorems": [
    "C48_jacobian",
    "C48_div",
    "C48_curl_refuted",
    "C48_curl_of_rotation_refuted"
   ],
   "note": "Jacobian and divergence proved exact on every linear field at every point with every nonzero spacing; refuted for the curl, whose value is given exactly. Real arithmetic; the interpolation is a function of the point (exact on linear fields: C12)."
  },
  {
   "property": "C49",
   "status": "partial",
   "theorems": [
    "C49_inside",
    "C49_first",
    "C49_last_refuted",
    "C49_three_points_refuted"
   ],
   "note": "Proved for every line of at least four points at all vertices but the last; refuted at the last vertex and for lines of three points. Real arithmetic."
  },
  {
   "property": "C50",
   "status": "partial",
   "theorems": [
    "C50_quat",
    "C50_axis",
    "C50_slow_refuted"
   ],
   "note": "For every rotation, given that np.linalg.eigh returns an orthonormal basis of eigenvectors. rot2wxyz is not covered between 0 and 1e-8 of a symmetric matrix. quick=False is wrong (C50_slow_refuted). Rounding is not modelled."
  },
  {
   "property": "C51",
   "status": "partial",
   "theorems": [
    "C51_a2b",
    "C51_a2b_close",
    "C51_new_x",
    "C51_new_x_refuted"
   ],
   "note": "For all non-zero vectors over the reals: exact unless the directions are within 1e-8 of parallel, where they agree within 2e-8. The direction of the x axis is met except when it is opposite to the one without roll (C51_new_x_refuted). Rounding, stacks and the normalisation of the arguments in place are not modelled."
  },
  {
   "property": "C52",
   "status": "proved",
   "theorems": [
    "C52_axis"
   ],
   "note": "For every time and every IGRF coefficient, after any calls; real numbers."
  },
  {
   "property": "C53",
   "status": "partial",
   "theorems": [
    "C53_distinct",
    "C53_cap_refuted"
   ],
   "note": "Every sphere with default end points and theta in [0, 180], phi over at most one turn. False for caps, which repeat their pole."
  },
  {
   "property": "C54",
   "status": "partial",
   "theorems": [
    "C54_match",
    "C54_all_seeds",
    "C54_on_sphere",
    "C54_closed",
    "C54_poles",
    "C54_no_repeat",
    "C54_reversed_refuted"
   ],
   "note": "Every sphere, both orders of theta and phi. With limits reversed the wrong pole is added."
  },
  {
   "property": "C55",
   "status": "partial",
   "theorems": [
    "C55_spline",
    "C55_spline_refuted",
    "C55_point"
   ],
   "note": "Splines with scipy's curve as a parameter, and Point. A spline with its own degree and no cache changes after the first call. The other generators do not change between calls: they are functions in the model."
  },
  {
   "property": "C56",
   "status": "partial",
   "theorems": [
    "C56_type",
    "C56_degenerate",
    "C56_reverse",
    "C56_partition",
    "C56_total",
    "C56_dropped_refuted",
    "C56_divergent_refuted"
   ],
   "note": "Eigenvalues are given to the model; their computation is not modelled. Nulls with two eigenvalues near zero are in no list, and with divergence sources and sinks are both type B."
  },
  {
   "property": "C57",
   "status": "partial",
   "theorems": [
    "C57_bitor",
    "C57_coords",
    "C57_periodic",
    "C57_seam",
    "C57_pt_bnds_refuted",
    "C57_in_place_refuted",
    "C57_no_pass_refuted"
   ],
   "note": "Proved for every topology array, mask, separator value and depth without periodic axes; with periodic axes the seam is proved for one pass and soundness for any number (C57_periodic). Refuted: boundaries that come to a point always raise TypeError, a periodic axis without a mask changes the caller's data, depth 0 raises. Exact coordinates; grouping of the points is C54."
  },
  {
   "property": "C58",
   "status": "partial",
   "theorems": [
    "C58_tile",
    "C58_shrink",
    "C58_samples",
    "C58_result",
    "C58_distinct",
    "C58_complete",
    "C58_cross",
    "C58_coarse_refuted",
    "C58_other_refuted"
   ],
   "note": "Proved for every topology map on a rectangle, every seed shape and every depth with the default check. Refuted: seeds of at most 3 by 3 points find nothing, and a kind with a further bit hides a separator (no mask). The topology is a function of the uv point (streamlines are C13-C15), exact rationals, other checks and max_depth = 0 are not modelled."
  },
  {
   "property": "C59",
   "status": "partial",
   "theorems": [
    "C59_minvar",
    "C59_samples",
    "C59_around",
    "C59_lmn",
    "C59_defined",
    "C59_find",
    "C59_antiparallel_refuted"
   ],
   "note": "Proved for every list of samples over the reals, given that np.linalg.eig returns three unit, linearly independent eigenvectors of the (symmetric) covariance matrix. Refuted: an l_basis opposite to the normal gives nan, although the sign of the normal is arbitrary. Rounding and the interpolation of the samples (C12) are not modelled."
  },
  {
   "property": "C60",
   "status": "partial",
   "theorems": [
    "C60_cart2sph",
    "C60_origin",
    "C60_sph2cart",
    "C60_sph2cart_inverse",
    "C60_latlon2cart",
    "C60_latlon_round_trip",
    "C60_longitude_refuted",
    "C60_phi2lon_refuted",
    "C60_degrees_refuted",
    "C60_integers_refuted",
    "C60_theta2lat",
    "C60_lat2theta",
    "C60_polar",
    "C60_polar_refuted"
   ],
   "note": "Proved for all float points in radians: conversions and their inverses, latitudes for any unit, polar plots for both hemispheres. Refuted: positive longitudes come back less a turn, cart2latlon and phi2lon differ by half a turn, cart2sph(deg=True) answers in radians and so cart2latlon puts every point near the pole, integer arrays are cut or raise, an unknown hemisphere is taken as south. Real numbers."
  },
  {
   "property": "C61",
   "status": "partial",
   "theorems": [
    "C61_convert",
    "C61_flat_refuted",
    "C61_radians_refuted",
    "C61_axes_refuted",
    "C61_polar_axis",
    "C61_periodic",
    "C61_periodic_refuted",
    "C61_polar_default_refuted"
   ],
   "note": "Proved for fields with two axes: every value stays at its place on the sphere for both directions, all orders and units. Refuted: flat vector fields with theta first are reversed along the components, radian fields without a unit get 90 - theta, fields with another axis raise, uniform periodic axes get a row without a node, and the default bounding_lat refuses cell centred fields. Real numbers; the slice of the hemisphere is not modelled."
  },
  {
   "property": "C62",
   "status": "partial",
   "theorems": [
    "C62_great_circle",
    "C62_opposite_refuted",
    "C62_colinear_refuted",
    "C62_integers_refuted"
   ],
   "note": "Proved for float points that are not in line with the origin and where a2b_rot reaches the direction of p1 (see C51). Refuted: when p1 is opposite to the x axis without roll, for points in the same direction, and for integer points. Real numbers."
  },
  {
   "property": "C63",
   "status": "partial",
   "theorems": [
    "C63_gradient",
    "C63_divergence",
    "C63_strength",
    "C63_one_point",
    "C63_points_refuted",
    "C63_integers_refuted"
   ],
   "note": "Proved: fill_dipole stores minus the gradient of m.x/|x|^3 at the place of every component, without divergence, with the moment scaled to the strength; calc_dip is right at one float point. Refuted: calc_dip raises for other numbers of points than one and three, is wrong for three, and cuts the moment for integer points. Real numbers; masks and the moment looked up for a time are not modelled here."
  },
  {
   "property": "C64",
   "status": "partial",
   "theorems": [
    "C64_line",
    "C64_lsrlp",
    "C64_map",
    "C64_same",
    "C64_twice",
    "C64_equator_refuted",
    "C64_axis",
    "C64_spherical"
   ],
   "note": "Proved for all points off the magnetic equator and all coordinate systems of a Cotr. Refuted on the equator, where the mapped point leaves its field line. Real numbers."
  },
  {
   "property": "C65",
   "status": "partial",
   "theorems": [
    "C65_fields",
    "C65_number",
    "C65_array",
    "C65_unary",
    "C65_one_point",
    "C65_scalar_left_refuted",
    "C65_slab_left_refuted",
    "C65_mixed_layouts_refuted",
    "C65_other_grid_refuted"
   ],
   "note": "Proved for every operator, rank, shape, layout, storage order and set of reflected axes: two scalars, two vectors of one layout, a vector and a scalar on its right, a scalar on the left of a flat vector, numbers on either side, arrays. Refuted: a scalar on the left of an interlaced vector raises or pairs wrong places, vectors of different layouts raise, and grids are not compared. In-place operators and numpy functions of fields are not modelled."
  },
  {
   "property": "C66",
   "status": "partial",
   "theorems": [
    "C66_scalar",
    "C66_number",
    "C66_components",
    "C66_scalar_drop",
    "C66_vector",
    "C66_difference",
    "C66_difference_left_refuted",
    "C66_flat_last_refuted",
    "C66_flat_refuted",
    "C66_interlaced_negative_refuted",
    "C66_unit_axis_refuted",
    "C66_argsort_refuted"
   ],
   "note": "Proved for every function of the values along the axis: scalars with axes from either end, vectors over their components, interlaced vectors with axes from the start, flat vectors with axes from the end. Refuted: flat vectors with axes from the start and interlaced ones with axes from the end lose the wrong axis, other axes with one place are dropped too, argsort gives a field that cannot be read, and a reduced field on the left of the whole field cannot be read."
  },
  {
   "property": "C67",
   "status": "partial",
   "theorems": [
    "C67_trapz",
    "C67_integral",
    "C67_trapz_integral",
    "C67_linear",
    "C67_cumtrapz",
    "C67_last",
    "C67_one_axis",
    "C67_interlaced_default_refuted",
    "C67_interlaced_silent_refuted",
    "C67_unit_axes_refuted"
   ],
   "note": "Proved over the reals for scalars and vectors of both layouts, without fudge factors and with initial = 0. Refuted: with the default axis an interlaced vector is integrated over its components (raises, or silently if there are as many components as places); a scalar field whose other axes all have one place raises."
  },
  {
   "property": "C68",
   "status": "partial",
   "theorems": [
    "C68_region",
    "C68_everywhere",
    "C68_integers_refuted",
    "C68_thin_refuted",
    "C68_fill",
    "C68_fill_interlaced_refuted",
    "C68_sphere",
    "C68_sphere_staggered",
    "C68_negative_refuted"
   ],
   "note": "Proved over the reals for every rank, shape, layout and pair of factors: set_in_region with and without a mask, the masked fill of a dipole for flat fields or masks with components, and spherical masks for all centerings. Refuted: factors below one vanish for integer fields; a scalar mask with an interlaced field is paired with the wrong axes on thin grids, and raises in fill_dipole; a negative inner radius leaves out the places near the origin."
  },
  {
   "property": "C69",
   "status": "partial",
   "theorems": [
    "C69_npz",
    "C69_npz_file_refuted",
    "C69_npz_axis_refuted",
    "C69_npz_grids_refuted",
    "C69_npz_cube_refuted",
    "C69_xdmf",
    "C69_xdmf_kind_refuted",
    "C69_xdmf_colon_refuted",
    "C69_xdmf_single_refuted",
    "C69_xdmf_cube_refuted"
   ],
   "note": "Proved for any set of fields on one grid, of any rank (npz) or on x, y, z (hdf5/xdmf), any centering, layout, reflection and storage order: the loaded fields have the names, centerings, places and values of the saved ones. Refuted: npz files with a field named file or like an axis, fields on other grids than the first, hdf5 files with unsigned, boolean or complex fields, with a colon in a name or with a single value, and vectors on a grid with as many places along every axis as components."
  },
  {
   "property": "C70",
   "status": "partial",
   "theorems": [
    "C70_magnitude",
    "C70_dot",
    "C70_cross",
    "C70_normalize",
    "C70_unit",
    "C70_orthogonal",
    "C70_project",
    "C70_project_vector",
    "C70_backend",
    "C70_layouts_refuted",
    "C70_cube_refuted",
    "C70_project_vector_refuted",
    "C70_scalar_operand_refuted",
    "C70_relative_diff_refuted",
    "C70_one_point_refuted"
   ],
   "note": "Proved over the reals for both backends and fields of any rank, shape, layout, reflection and storage order. Refuted: with numpy dot raises for fields in different layouts, magnitude raises for an interlaced field on a 3x3x3 grid, and project_vector raises for interlaced fields; with numexpr add, diff and mul raise for an interlaced vector and a scalar; relative_diff takes no absolute value although documented; on a grid with one point magnitude raises."
  },
  {
   "property": "C71",
   "status": "partial",
   "theorems": [
    "C71_open_files",
    "C71_same_object",
    "C71_unload_empties",
    "C71_cached",
    "C71_open_error_refuted",
    "C71_unload_all_error_refuted",
    "C71_unload_all_contents_refuted",
    "C71_shared_refuted",
    "C71_emptied_refuted",
    "C71_twice_refuted",
    "C71_two_users_refuted"
   ],
   "note": "Proved by induction over all histories of load, unload, reload and unload_all_files in which the user loads only files that no other file refers to; loading what is known is proved for all histories whatever. Refuted: a file that cannot be opened stays known as no file, and then unload_all_files raises; unload_all_files leaves the contents of a file whose parts it unloads first; loading and unloading a file that an open file refers to breaks the open file, or leaves an emptied file in the cache; unloading a file twice takes away the references of others; two users of one name share one file and one unload empties it for both."
  },
  {
   "property": "C72",
   "status": "partial",
   "theorems": [
    "C72_patches",
    "C72_no_place_lost",
    "C72_no_other_patch",
    "C72_some_patch",
    "C72_by_index",
    "C72_range_points",
    "C72_slice",
    "C72_result",
    "C72_hole_refuted",
    "C72_upper_end_refuted",
    "C72_axes_refuted",
    "C72_empty_refuted"
   ],
   "note": "Proved for all sets of patches and selections if no patch ends within a relative 1e-5 of the beginning of the region; that no other patch is used, and that one is used if there is one, is proved without that. Refuted: near the upper end of a patch (relative 1e-5) the patch is left out although no other has its place; at the upper end of the whole grid, and beyond, slicing raises; patches that lose different axes give a field with different axes; if every part is empty slicing raises. Not modelled: selecting components, arrays and dates in the selection."
  },
  {
   "property": "C73",
   "status": "partial",
   "theorems": [
    "C73_run",
    "C73_once",
    "C73_comment_refuted",
    "C73_integer_refuted",
    "C73_same_name_refuted"
   ],
   "note": "Proved for all simulations, with exact coordinates and words of 32 bits read as floats; the binary header, the list of times and the spelling of lines are not modelled. Refuted: a comment between the descriptions of variables is an error; variables of integers are read as floats with the same bits; of two species with one basename only the last can be read. Not in the model: every variable is declared to be cell centred (a FIXME in the code)."
  },
  {
   "property": "C74",
   "status": "partial",
   "theorems": [
    "C74_load",
    "C74_no_silent_loss",
    "C74_list_times_refuted",
    "C74_geometry_refuted",
    "C74_shared_geometry_refuted",
    "C74_own_time_refuted",
    "C74_temporal_time_refuted",
    "C74_one_grid_refuted",
    "C74_no_fields_refuted",
    "C74_ignored_refuted"
   ],
   "note": "Proved for all files in which every grid has its own topology, geometry and an attribute, collections have no geometry, times are single and at most one on each path, spatial collections are of grids, and each step of a temporal collection has a time; that unreadable grids are reported is proved for all files. Refuted: lists of times are dropped and every step is at time 0; geometry of a collection; times inside a collection with a time; a time on a temporal collection; grids without attributes; ignored kinds of grids. The contents of geometries and attributes are not modelled here (see C69)."
  },
  {
   "property": "C75",
   "status": "partial",
   "theorems": [
    "C75_file",
    "C75_groups",
    "C75_big_endian_refuted",
    "C75_centres_refuted"
   ],
   "note": "Proved for all runs with increasing centres, at least one axis with two cells, less than 128 variables (1000 in little endian), floats decoded by any function that undoes the writer's; that centres are in the middle of their cells for equal cells, inside them for all. Refuted: big endian files with 128 to 255 variables; centres of cells of different sizes. Not modelled: primitive variables, truncated files."
  },
  {
   "property": "C76",
   "status": "partial",
   "theorems": [
    "C76_flux",
    "C76_any_field",
    "C76_rev",
    "C76_quadratic",
    "C76_plane",
    "C76_beta_refuted",
    "C76_beta_units"
   ],
   "note": "The flux function is proved for all fields and grids with exact numbers; that the result gets dropped axes back is not modelled. Refuted: calc_beta is 2 p / |B|, right only where |B| = 1."
  },
  {
   "property": "C77",
   "status": "partial",
   "theorems": [
    "C77_read",
    "C77_read_array",
    "C77_write",
    "C77_write_array",
    "C77_write_read",
    "C77_places",
    "C77_array_refuted",
    "C77_two_arrays_refuted",
    "C77_newaxis_refuted",
    "C77_write_array_refuted",
    "C77_lazy_refuted",
    "C77_number_refuted"
   ],
   "note": "Proved for data in memory: all selections of integers, slices and new axes in all layouts (assignment to interlaced vectors: new axes within the first items); one index array next to the integers. Refuted: an index array apart from an integer or component gives values in the wrong order; two index arrays raise; new axes past the grid axes assign to the wrong axis of interlaced vectors, index arrays raise there; one element of a vector made of scalar fields cannot be read; slices that leave one element give a number."
  },
  {
   "property": "C78",
   "status": "partial",
   "theorems": [
    "C78_steps",
    "C78_own_field",
    "C78_bracket",
    "C78_steady",
    "C78_setup",
    "C78_setup_refuses",
    "C78_curator",
    "C78_replacement",
    "C78_replacement_count",
    "C78_adding",
    "C78_overshoot_refuted",
    "C78_seeds_refuted",
    "C78_hang_refuted",
    "C78_interp_refuted",
    "C78_replacement_refuted",
    "C78_adding_refuted"
   ],
   "note": "Proved: the calls, times, points and fields of every run, the choice of the two files, direction and order, the three curators. Refuted: the weights of the interpolation are swapped; the points are carried past tstop; the generator's own points are overwritten; dt_interp = 0 or tstart = tstop never ends; the replacing curator without places puts points back to where the first step took them; the adding curator keeps points out of bounds between its times and never adds backwards. The tracing of one step is a parameter; floating point is not modelled."
  },
  {
   "property": "C79",
   "status": "partial",
   "theorems": [
    "C79_three_axes",
    "C79_three_axes_xyz",
    "C79_atleast_3d_scalar",
    "C79_atleast_3d_scalar_unloaded",
    "C79_atleast_3d_flat",
    "C79_atleast_3d_list_unloaded",
    "C79_atleast_3d_interlaced_refuted",
    "C79_atleast_3d_unloaded_reversed_refuted",
    "C79_atleast_3d_unloaded_reflected_refuted",
    "C79_atleast_3d_one_value_refuted",
    "C79_view_history",
    "C79_view_loaded",
    "C79_view_reflected_refuted",
    "C79_to_node",
    "C79_to_node_uniform_refuted",
    "C79_adjust_affine",
    "C79_adjust_function_refuted",
    "C79_adjust_crds",
    "C79_rename_breaks_the_field_refuted",
    "C79_rename_exchange_refuted",
    "C79_atmost_nd",
    "C79_atmost_nd_small",
    "C79_atmost_nd_small_refuted"
   ],
   "note": "Proved: the axes of atleast_3d, its values for scalar fields and flat vectors, loaded or not; views without reflected axes through any history; centring of nonuniform coordinates; affine adjusting; atmost_nd. Refuted: interlaced vectors and unloaded reversed or reflected data in atleast_3d; views of reflected fields; centring of uniform coordinates; functions that are not affine; renaming of axes changes the field itself; atmost_nd takes an axis out of fields that have few enough."
  },
  {
   "property": "C80",
   "status": "partial",
   "theorems": [
    "C80_normal",
    "C80_parameters_refuted",
    "C80_edges",
    "C80_order",
    "C80_edges_unmasked_refuted",
    "C80_shear",
    "C80_shear_sphere_refuted"
   ],
   "note": "Proved over the reals (normals, angle) and the rationals (edges) for all inputs. Refuted: the fitted parameters are not determined by the surface; without a mask a larger current of the other sign hides the layer; the field on the magnetosphere side is taken next to the magnetosheath edge. The fit itself, the cache files and the places of largest pressure and electric field are not modelled."
  },
  {
   "property": "C81",
   "status": "partial",
   "theorems": [
    "C81_round_trip_given",
    "C81_round_trip",
    "C81_rows_taken_out_refuted",
    "C81_vector_refuted",
    "C81_last_axis_single_refuted",
    "C81_field_named_as_axis_refuted",
    "C81_base",
    "C81_base_name_refuted"
   ],
   "note": "Proved for series of any length with any axes and scalar fields: the same series comes back, with the coordinates given, or found if the last axis has two points. Refuted: rows taken out of a table without its first row; vectors; a last axis of one point; a field called as an axis; another name of the date column. Centring is not kept (always nodes); tables with different columns and pandas itself are not modelled."
  },
  {
   "property": "C82",
   "status": "partial",
   "theorems": [
    "C82_auto",
    "C82_mirror",
    "C82_requested",
    "C82_decided_once",
    "C82_system_of_parent_refuted",
    "C82_grid_system_refuted",
    "C82_turned",
    "C82_names",
    "C82_reads",
    "C82_reads_refuted",
    "C82_derived_turn",
    "C82_sources",
    "C82_magnitudes",
    "C82_never_ends_refuted",
    "C82_nodes",
    "C82_centres_refuted",
    "C82_plane",
    "C82_plane_refuted",
    "C82_groups"
   ],
   "note": "Proved for all settings, grids, stored names, centres and lists of files. Refuted: a grid below a node that knows the system takes no fields unless it is turned; the grid keeps the name of the old system; arrays in memory change their sign at each reading; without its components the magnetic field or the velocity is sought for ever although the face centred one is stored; nonuniform centres are not kept; the place of a plane depends on the setting and is on the other side when it counts as on but nothing is turned. Reading of log files and of the values themselves is not modelled."
  },
  {
   "property": "C83",
   "status": "partial",
   "theorems": [
    "C83_values",
    "C83_linear",
    "C83_bilinear",
    "C83_nodes_refuted"
   ],
   "note": "Proved for cell centred fields of any size on any grid. Refuted: fields on the nodes have no such derivative (the gradient cannot be put into its cell centred result)."
  },
  {
   "property": "C84",
   "status": "partial",
   "theorems": [
    "C84_on_the_line",
    "C84_whole_factor",
    "C84_lines",
    "C84_float_size_refuted"
   ],
   "note": "Proved for all lines and factors where numpy takes a float as a size (before 1.12). Refuted: with later versions each factor but one is a TypeError, because np.ceil gives a float. Kinds other than linear are not modelled."
  },
  {
   "property": "C85",
   "status": "partial",
   "theorems": [
    "C85_names",
    "C85_names_distinct",
    "C85_numbered",
    "C85_kind_refuted",
    "C85_component",
    "C85_whole",
    "C85_ellipsis_refuted",
    "C85_derived",
    "C85_pressure_refuted",
    "C85_uniform",
    "C85_structured",
    "C85_structured_2d_refuted",
    "C85_groups"
   ],
   "note": "Proved for every history of files read, every number of fields, selection, set of particles, grid and list of files. Refuted: in a series the kind of a grid is a part of the file name; a selection with an Ellipsis takes other axes; the yy and zz pressures subtract the momentum along x; structured grids of one or two axes cannot be read. Opening of HDF5 files, the transposed wrapper and time stamps are not modelled."
  },
  {
   "property": "C86",
   "status": "partial",
   "theorems": [
    "C86_fields",
    "C86_axes",
    "C86_single_cell_refuted",
    "C86_centres",
    "C86_time",
    "C86_exponent_refuted",
    "C86_names",
    "C86_ascii",
    "C86_ascii_thin_refuted",
    "C86_history"
   ],
   "note": "Proved for tables of any size with any values. Refuted: a table with an axis of one cell cannot be read; the exponent of the time is dropped; text files of one row or one column cannot be read. Cell centres of nonuniform axes are not kept (the exact condition is proved). Parsing of numbers and of the names in the header, single precision, and the .nda format are not modelled."
  },
  {
   "property": "C87",
   "status": "partial",
   "theorems": [
    "C87_all",
    "C87_whole_key",
    "C87_first",
    "C87_first_refuted"
   ],
   "note": "Proved for all hierarchies, locations and pattern matchers. Refuted: with first=True (find_item) the search follows only the first child that matches each part, so a match further on is a KeyError. fnmatch itself and groups that take paths as keys are not modelled."
  },
  {
   "property": "C88",
   "status": "partial",
   "theorems": [
    "C88_number",
    "C88_whole",
    "C88_large_refuted",
    "C88_never_refused",
    "C88_text",
    "C88_series",
    "C88_double",
    "C88_nanoseconds_refuted",
    "C88_hms",
    "C88_hms_refuted",
    "C88_dhms",
    "C88_dhms_refuted",
    "C88_fraction",
    "C88_carry_refuted",
    "C88_digits_of_date_refuted"
   ],
   "note": "Proved for all numbers, series and times. Refuted: numbers of 5000 units or more lose their fraction; a series in nanoseconds does not begin with its first time; 'hms' leaves whole days out; 'dhms' has no blank after one day and is wrong for negative times; a fraction that rounds up to a second is shown as zero; a date of six digits in a row is taken for the fraction. Floating point rounding inside the series, dates by strftime and text in ISO format are not modelled."
  },
  {
   "property": "C89",
   "status": "partial",
   "theorems": [
    "C89_item",
    "C89_case",
    "C89_keywords",
    "C89_text",
    "C89_underscore_refuted",
    "C89_trailing_refuted"
   ],
   "note": "Proved at the level of characters for all texts made of indices, coordinates (suffix f or j, or a bare number with a dot or exponent), slices, steps, lists and names, with blanks. Refuted: the name of an axis may not have an underscore; a comma at the end is an IndexError. Texts of times, lists of booleans, infinities and malformed texts are not covered. What the parsed items then select is C10."
  },
  {
   "property": "C90",
   "status": "partial",
   "theorems": [
    "C90_cells",
    "C90_nodes_refuted",
    "C90_changed_refuted"
   ],
   "note": "Proved for fields with three axes, one of them taken at a value. Values at cells: right. Refuted: for values at nodes the slice is that of the nearest node, nothing is interpolated; and the coordinates of the field that was sliced are changed, as the value is written into its cached arrays. Several axes at once and fields with other numbers of axes are not modelled."
  },
  {
   "property": "C91",
   "status": "partial",
   "theorems": [
    "C91_time",
    "C91_date",
    "C91_other",
    "C91_again",
    "C91_list",
    "C91_fraction_refuted",
    "C91_array_refuted"
   ],
   "note": "Proved for all dates and clocks in digits, blanks and letters UT before them. Refuted: the fraction of an hour (or minute) is taken for minutes (or seconds); an array of texts is returned unconverted. Which texts numpy takes for times is a parameter."
  },
  {
   "property": "C92",
   "status": "partial",
   "theorems": [
    "C92_axes",
    "C92_scalar",
    "C92_vector",
    "C92_dat",
    "C92_full",
    "C92_small_refuted",
    "C92_flat_refuted",
    "C92_layout_refuted",
    "C92_one_node_refuted",
    "C92_ints_refuted"
   ],
   "note": "Proved for one to six axes with any numbers of nodes and any data. Refuted: axes with steps below 5e-9 are made uniform; data with the components first can be taken for data at the other places; a layout given by the caller is ignored; data at cells are refused if an axis of uniform coordinates has one node; integers count nodes, not places. Conversion to another centering is C79; times as coordinates are not modelled."
  },
  {
   "property": "C93",
   "status": "partial",
   "theorems": [
    "C93_sound",
    "C93_files",
    "C93_sizes_refuted"
   ],
   "note": "Proved for files of any number of fields of one size, both byte orders, any shapes and names. Refuted: the search for fields steps by the size of the first one, so with a longer second field the fields after it are lost. Values are taken as four bytes; what they mean as floating point numbers and the base time are not modelled."
  },
  {
   "property": "C94",
   "status": "partial",
   "theorems": [
    "C94_values",
    "C94_log",
    "C94_type_refuted",
    "C94_exp_refuted",
    "C94_blank_refuted"
   ],
   "note": "Proved for logs of any sections, rows and other lines, and for all numbers, lists of numbers and words. Refuted: a negative type of the equations gets a name from the end of the list; a list whose first number has an exponent stays text; without an empty line the next class is taken for the one before. Texts with colons and blanks other than spaces are modelled only in part."
  },
  {
   "property": "C95",
   "status": "partial",
   "theorems": [
    "C95_detect",
    "C95_prefer",
    "C95_resolve",
    "C95_exact_refuted"
   ],
   "note": "Proved for all trees of reader classes, names and preferences. Refuted: a reader can not be asked for by its own name when a class derived from it has that name as a part of its own (xdmf gives a reader for OpenGGCM, PSC or Athena). The regular expressions of the detectors are a parameter; types with a second 'file' in their name are not covered."
  },
  {
   "property": "C96",
   "status": "partial",
   "theorems": [
    "C96_drawn",
    "C96_finer",
    "C96_single_point_refuted"
   ],
   "note": "Proved for all lines with at least one point, any subsample and numbers for the points or none. Refuted with scipy for lines of one point: only their first coordinate is set. Colours and interpolation other than linear are not covered."
  },
  {
   "property": "C97",
   "status": "partial",
   "theorems": [
    "C97_points",
    "C97_lines",
    "C97_few_pieces_refuted",
    "C97_no_direction_refuted",
    "C97_single_piece_refuted",
    "C97_repeated_refuted"
   ],
   "note": "Proved for points and for lines with a named direction and at least three pieces. Refuted for lines otherwise: the plane is looked for in the array of pieces instead of the coordinates, so fewer than three pieces are refused, and without a direction x and y are always the axes, or x twice, or an IndexError. Tolerances are those of numpy on exact numbers; symdir without blanks and in small letters."
  },
  {
   "property": "C98",
   "status": "partial",
   "theorems": [
    "C98_arithmetic",
    "C98_other_patches",
    "C98_inplace_refuted",
    "C98_single_cell_refuted",
    "C98_function",
    "C98_function_sizes",
    "C98_function2",
    "C98_function_field_refuted"
   ],
   "note": "Proved for any operator or function, any patches and numbers, AMR fields with the same patches or (operators) a single field. Refuted: += and the like always raise TypeError, so does every operator if the first patch has a single value, and a function of numpy of an AMR field and a single field mixes places and patches. Comparisons and fields of more than one dimension in the last case are not covered."
  },
  {
   "property": "C99",
   "status": "partial",
   "theorems": [
    "C99_colours",
    "C99_count_refuted",
    "C99_seven_digits_refuted"
   ],
   "note": "Proved for any mixture of #rgb, #rgba, #rrggbb, #rrggbbaa and names, one for all, for each line or for each point. Refuted: three or four texts that fit neither lines nor points are accepted, and so are texts of seven digits beside one with alpha. What a name means is left to matplotlib."
  }
 ]
}