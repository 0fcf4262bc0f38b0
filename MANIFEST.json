{
 "claims": [
  {
   "property": "C01",
   "status": "proved",
   "theorems": [
    "C01_construction"
   ],
   "note": ""
  },
  {
   "property": "C02",
   "status": "proved",
   "theorems": [
    "C02_set_get",
    "C02_get_set",
    "C02_set_set",
    "C02_number_laws"
   ],
   "note": ""
  },
  {
   "property": "C03",
   "status": "proved",
   "theorems": [
    "C03_item_writes_safe",
    "C03_number_writes_safe"
   ],
   "note": ""
  },
  {
   "property": "C04",
   "status": "partial",
   "theorems": [
    "C04_read_refusal_refuted",
    "C04_statement_false_refuted",
    "C04_read_refusal_partial"
   ],
   "note": "value, get<Array> and scalar one past the end read outside the storage; a far index wraps to an existing item. get<double> is guarded."
  },
  {
   "property": "C05",
   "status": "proved",
   "theorems": [
    "C05_history_storage",
    "C05_unrestricted_refuted"
   ],
   "note": "proved under the proviso of the statement; without it refuted as the statement says"
  },
  {
   "property": "C06",
   "status": "proved",
   "theorems": [
    "C06_copies",
    "C06_clone_of_reached",
    "C06_independence",
    "C06_clone_of_invalid_refuted"
   ],
   "note": "cloning an invalid Serie (outside the statement) is undefined"
  },
  {
   "property": "C07",
   "status": "partial",
   "theorems": [
    "C07_dimension_refuted",
    "C07_statement_refuted",
    "C07_dimension_partial"
   ],
   "note": "false: assignment keeps the target's dimension, clone resets it to 3"
  },
  {
   "property": "C08",
   "status": "proved",
   "theorems": [
    "C08_reCount"
   ],
   "note": ""
  },
  {
   "property": "C09",
   "status": "proved",
   "theorems": [
    "C09_map_number",
    "C09_map_number_items"
   ],
   "note": ""
  },
  {
   "property": "C10",
   "status": "proved",
   "theorems": [
    "C10_map_array",
    "C10_map_array_inconsistent",
    "C10_map_array_empty",
    "C10_zero_size_results_refuted"
   ],
   "note": "empty result arrays (excluded by the statement) make the constructor divide by zero"
  },
  {
   "property": "C11",
   "status": "proved",
   "theorems": [
    "C11_map_fusion",
    "C11_map_identity"
   ],
   "note": ""
  },
  {
   "property": "C12",
   "status": "partial",
   "theorems": [
    "C12_map_multi",
    "C12_map_multi_refused",
    "C12_map_multi_empty_refuted"
   ],
   "note": "everything but the empty case: on empty Series the callback argument read at index 0 is undefined"
  },
  {
   "property": "C13",
   "status": "proved",
   "theorems": [
    "C13_exception_stops_numbers",
    "C13_exception_stops_arrays",
    "C13_exception_stops_map_array",
    "C13_each_item_once_numbers",
    "C13_each_item_once_arrays",
    "C13_each_item_once_generic"
   ],
   "note": ""
  },
  {
   "property": "C14",
   "status": "partial",
   "theorems": [
    "C14_refused_partial",
    "C14_array_callback_refused",
    "C14_scalar_callback_refused_refuted",
    "C14_map_on_vector_reads_components"
   ],
   "note": "holds for forEach, find, partition; false for map, filter, reject, findAll, check, reduce"
  },
  {
   "property": "C15",
   "status": "proved",
   "theorems": [
    "C15_filter",
    "C15_filter_pure"
   ],
   "note": ""
  },
  {
   "property": "C16",
   "status": "proved",
   "theorems": [
    "C16_filter_laws",
    "C16_filter_laws_numbers"
   ],
   "note": ""
  },
  {
   "property": "C17",
   "status": "proved",
   "theorems": [
    "C17_filter_reject_complement",
    "C17_reject_is_filter_not"
   ],
   "note": ""
  },
  {
   "property": "C18",
   "status": "proved",
   "theorems": [
    "C18_multi_filter_aligned",
    "C18_common_index",
    "C18_multi_filter_refused"
   ],
   "note": ""
  },
  {
   "property": "C19",
   "status": "proved",
   "theorems": [
    "C19_partition"
   ],
   "note": ""
  },
  {
   "property": "C20",
   "status": "proved",
   "theorems": [
    "C20_find_first",
    "C20_find_none",
    "C20_find_throw",
    "C20_find_pure",
    "C20_find_pure_arrays"
   ],
   "note": ""
  },
  {
   "property": "C21",
   "status": "proved",
   "theorems": [
    "C21_findAll_filter"
   ],
   "note": ""
  },
  {
   "property": "C22",
   "status": "proved",
   "theorems": [
    "C22_forEach_multi",
    "C22_forEach_multi_log",
    "C22_forEach_multi_refused"
   ],
   "note": ""
  },
  {
   "property": "C24",
   "status": "proved",
   "theorems": [
    "C24_check_mask",
    "C24_mask_sum"
   ],
   "note": ""
  },
  {
   "property": "C25",
   "status": "proved",
   "theorems": [
    "C25_pipe_compose",
    "C25_pipe_compose_pure"
   ],
   "note": ""
  },
  {
   "property": "C23",
   "status": "proved",
   "theorems": [
    "C23_reduce",
    "C23_reduce_empty",
    "C23_reduce_fold_left",
    "C23_reduce_concat",
    "C23_reduce_concat_arrays"
   ],
   "note": ""
  },
  {
   "property": "C27",
   "status": "proved",
   "theorems": [
    "C27_merge_concat",
    "C27_merge_refused",
    "C27_merge_associative",
    "C27_merge_variadic",
    "C27_merge_variadic_refused"
   ],
   "note": ""
  },
  {
   "property": "C28",
   "status": "proved",
   "theorems": [
    "C28_merge_interleave",
    "C28_merge_variadic_interleave"
   ],
   "note": ""
  },
  {
   "property": "C29",
   "status": "proved",
   "theorems": [
    "C29_concat",
    "C29_concat_refused"
   ],
   "note": ""
  },
  {
   "property": "C30",
   "status": "proved",
   "theorems": [
    "C30_concat_flattens",
    "C30_concat_single_and_merge"
   ],
   "note": ""
  },
  {
   "property": "C31",
   "status": "proved",
   "theorems": [
    "C31_partition_n_lossless",
    "C31_partition_n_multi_lossless"
   ],
   "note": ""
  },
  {
   "property": "C32",
   "status": "proved",
   "theorems": [
    "C32_partition_n_balanced",
    "C32_partition_n_multi_balanced"
   ],
   "note": ""
  },
  {
   "property": "C33",
   "status": "partial",
   "theorems": [
    "C33_partition_n_refuted",
    "C33_partition_n_parts_partial",
    "C33_partition_n_count",
    "C33_partition_n_multi_parts"
   ],
   "note": "false for the single-Serie form: fewer parts when count < n, division by zero for n = 0; the multi-Serie form is proved"
  },
  {
   "property": "C34",
   "status": "proved",
   "theorems": [
    "C34_partition_n_aligned",
    "C34_partition_n_refused"
   ],
   "note": ""
  },
  {
   "property": "C35",
   "status": "proved",
   "theorems": [
    "C35_zip",
    "C35_zip_refused"
   ],
   "note": ""
  },
  {
   "property": "C36",
   "status": "proved",
   "theorems": [
    "C36_unzip_zip"
   ],
   "note": ""
  },
  {
   "property": "C37",
   "status": "proved",
   "theorems": [
    "C37_zip_unzip",
    "C37_unzip",
    "C37_unzip_refused"
   ],
   "note": ""
  },
  {
   "property": "C38",
   "status": "partial",
   "theorems": [
    "C38_unzip_total_refuted",
    "C38_unzip_total_partial"
   ],
   "note": "false: the sum is taken modulo 2^32"
  },
  {
   "property": "C43",
   "status": "proved",
   "theorems": [
    "C43_sort_scalar",
    "C43_sort_nan_undefined"
   ],
   "note": "the second sort may exchange +0 and -0, so it changes nothing up to =="
  },
  {
   "property": "C44",
   "status": "proved",
   "theorems": [
    "C44_sort_vector",
    "C44_sort_by_comparator",
    "C44_swo_everywhere"
   ],
   "note": ""
  },
  {
   "property": "C45",
   "status": "partial",
   "theorems": [
    "C45_scalar_comparator_refuted",
    "C45_scalar_comparator_ignored"
   ],
   "note": "false: the comparator is ignored for item size 1"
  },
  {
   "property": "C100",
   "status": "proved",
   "theorems": [
    "C100_print",
    "C100_print_all"
   ],
   "note": ""
  },
  {
   "property": "C39",
   "status": "proved",
   "theorems": [
    "C39_schedule_independent",
    "C39_complete_schedules"
   ],
   "note": ""
  },
  {
   "property": "C40",
   "status": "proved",
   "theorems": [
    "C40_item_wise"
   ],
   "note": "with two or more cores the result has dimension 3; the output must fit 32-bit sizes"
  },
  {
   "property": "C41",
   "status": "proved",
   "theorems": [
    "C41_first_failure",
    "C41_some_failure",
    "C41_all_jobs",
    "C41_undefined",
    "C41_no_cores"
   ],
   "note": "exceptions foreign to std::exception pass unwrapped"
  },
  {
   "property": "C42",
   "status": "partial",
   "theorems": [
    "C42_refuted",
    "C42_refused_partial"
   ],
   "note": "false for one core: the functor is called directly, unchecked and unwrapped; proved from two cores on"
  },
  {
   "property": "C46",
   "status": "partial",
   "theorems": [
    "C46_transparent_refuted",
    "C46_nan_refuted",
    "C46_transparent_partial"
   ],
   "note": "false: the key ignores item size and dimension, +0 and -0 share an entry, NaN breaks the order; proved for arguments of one item size and dimension without NaN and -0, up to the dimension of the result"
  },
  {
   "property": "C47",
   "status": "proved",
   "theorems": [
    "C47_once_per_key",
    "C47_clear",
    "C47_throw_stores_nothing"
   ],
   "note": "whenever the look-up is defined"
  },
  {
   "property": "C48",
   "status": "proved",
   "theorems": [
    "C48_finite_map"
   ],
   "note": ""
  },
  {
   "property": "C49",
   "status": "partial",
   "theorems": [
    "C49_same_count_refuted",
    "C49_same_count_partial"
   ],
   "note": "false: add accepts any count and a non-const look-up of an absent name stores a Serie of count 0; proved for histories that store the current count only"
  },
  {
   "property": "C50",
   "status": "partial",
   "theorems": [
    "C50_dimension_refuted",
    "C50_dimension_partial"
   ],
   "note": "false: stored Series always have dimension 3"
  },
  {
   "property": "C51",
   "status": "proved",
   "theorems": [
    "C51_lookups",
    "C51_reads"
   ],
   "note": ""
  },
  {
   "property": "C52",
   "status": "proved",
   "theorems": [
    "C52_setCount"
   ],
   "note": ""
  },
  {
   "property": "C53",
   "status": "partial",
   "theorems": [
    "C53_contains_refuted",
    "C53_nameOfSerie",
    "C53_contains_partial"
   ],
   "note": "false for the empty name, which nameOfSerie also uses for 'not found'; the rest is proved"
  },
  {
   "property": "C54",
   "status": "proved",
   "theorems": [
    "C54_add_sub"
   ],
   "note": ""
  },
  {
   "property": "C55",
   "status": "proved",
   "theorems": [
    "C55_commutation"
   ],
   "note": ""
  },
  {
   "property": "C56",
   "status": "proved",
   "theorems": [
    "C56_list_sum",
    "C56_variadic_sum",
    "C56_add_value",
    "C56_shapes"
   ],
   "note": ""
  },
  {
   "property": "C57",
   "status": "proved",
   "theorems": [
    "C57_sub_overloads"
   ],
   "note": ""
  },
  {
   "property": "C58",
   "status": "proved",
   "theorems": [
    "C58_negate"
   ],
   "note": ""
  },
  {
   "property": "C59",
   "status": "proved",
   "theorems": [
    "C59_by_number",
    "C59_by_factors",
    "C59_by_serie",
    "C59_shapes",
    "C59_f64"
   ],
   "note": ""
  },
  {
   "property": "C60",
   "status": "proved",
   "theorems": [
    "C60_div",
    "C60_shapes",
    "C60_empty",
    "C60_guard_f64",
    "C60_no_nan"
   ],
   "note": ""
  },
  {
   "property": "C61",
   "status": "proved",
   "theorems": [
    "C61_weighted_sum",
    "C61_shapes",
    "C61_linear"
   ],
   "note": ""
  },
  {
   "property": "C62",
   "status": "proved",
   "theorems": [
    "C62_scalar",
    "C62_vector",
    "C62_edges"
   ],
   "note": ""
  },
  {
   "property": "C63",
   "status": "partial",
   "theorems": [
    "C63_refuted",
    "C63_partial"
   ],
   "note": "false: a scalar Serie of infinities reports +-DBL_MAX, which is not in the Serie; proved for finite values"
  },
  {
   "property": "C64",
   "status": "proved",
   "theorems": [
    "C64_normalize_scalar"
   ],
   "note": ""
  },
  {
   "property": "C65",
   "status": "proved",
   "theorems": [
    "C65_normalize_vector"
   ],
   "note": ""
  },
  {
   "property": "C66",
   "status": "proved",
   "theorems": [
    "C66_equivalence",
    "C66_meaning",
    "C66_all"
   ],
   "note": ""
  },
  {
   "property": "C67",
   "status": "proved",
   "theorems": [
    "C67_equality_mask",
    "C67_approximate_mask",
    "C67_equals_all_ones"
   ],
   "note": ""
  },
  {
   "property": "C101",
   "status": "partial",
   "theorems": [
    "C101_refuted",
    "C101_approx_zero_partial"
   ],
   "note": "false when a storage carries leftover numbers: answers differ, or std::equal reads past the end; proved for storages of equal length"
  },
  {
   "property": "C26",
   "status": "partial",
   "theorems": [
    "C26_dimension_refuted",
    "C26_dimension_partial"
   ],
   "note": "false: every result has dimension 3; proved that dimension 3 is kept by all the operations, for every callback and state"
  },
  {
   "property": "C68",
   "status": "proved",
   "theorems": [
    "C68_scalar",
    "C68_vector"
   ],
   "note": ""
  },
  {
   "property": "C69",
   "status": "proved",
   "theorems": [
    "C69_covariance",
    "C69_shapes"
   ],
   "note": ""
  },
  {
   "property": "C70",
   "status": "proved",
   "theorems": [
    "C70_quantile",
    "C70_order_of_items",
    "C70_refused"
   ],
   "note": ""
  },
  {
   "property": "C71",
   "status": "proved",
   "theorems": [
    "C71_monotone",
    "C71_median"
   ],
   "note": ""
  },
  {
   "property": "C72",
   "status": "partial",
   "theorems": [
    "C72_exact",
    "C72_mask_and_items",
    "C72_partition_partial",
    "C72_partition_refuted"
   ],
   "note": "exact arithmetic in full; for doubles the partition is false when a fence is NaN ({inf}), proved otherwise"
  },
  {
   "property": "C73",
   "status": "partial",
   "theorems": [
    "C73_total",
    "C73_nothing_lost",
    "C73_intervals_partial",
    "C73_intervals_refuted"
   ],
   "note": "false when a value lies 2^32 bins above start (undefined conversion); proved otherwise"
  },
  {
   "property": "C74",
   "status": "proved",
   "theorems": [
    "C74_cross",
    "C74_antisymmetric",
    "C74_refused"
   ],
   "note": ""
  },
  {
   "property": "C75",
   "status": "proved",
   "theorems": [
    "C75_dot",
    "C75_symmetric_bits",
    "C75_fixed_vector"
   ],
   "note": ""
  },
  {
   "property": "C76",
   "status": "partial",
   "theorems": [
    "C76_single_partial",
    "C76_refuted"
   ],
   "note": "False: norm2 allocates createArray(1, count), one number equal to the count, so two vectors write out of bounds; a scalar Serie is returned unsquared; an empty Serie gives one number. Proved for a Serie of one vector."
  },
  {
   "property": "C77",
   "status": "partial",
   "theorems": [
    "C77_full_matrices_partial",
    "C77_determinant",
    "C77_symmetric_refuted",
    "C77_refused"
   ],
   "note": "Symmetric storage reads a destroyed array for every matrix, hence false there. Full matrices proved when the dimension of the Serie is set to 2 resp. 3 (other combinations throw)."
  },
  {
   "property": "C78",
   "status": "proved",
   "theorems": [
    "C78_inverse",
    "C78_refused"
   ],
   "note": ""
  },
  {
   "property": "C79",
   "status": "partial",
   "theorems": [
    "C79_inverse_partial",
    "C79_refuted"
   ],
   "note": "False: the sixth cofactor is wrong. Proved: first and last row of the product, and exactly which matrices are inverted."
  },
  {
   "property": "C80",
   "status": "proved",
   "theorems": [
    "C80_transpose",
    "C80_refused"
   ],
   "note": ""
  },
  {
   "property": "C89",
   "status": "partial",
   "theorems": [
    "C89_componentwise",
    "C89_at",
    "C89_dot",
    "C89_norm_partial",
    "C89_norm_refuted"
   ],
   "note": "norm() and normalize() are false: std::accumulate starts from the int 0, so partial sums are truncated (or undefined from 2^31 on). Proved for integer components with sum of squares below 2^31; the component-wise operations are proved."
  },
  {
   "property": "C90",
   "status": "proved",
   "theorems": [
    "C90_packed_index"
   ],
   "note": "for every m whose m(m+1)/2 entries have 32-bit indices, in IEEE arithmetic"
  },
  {
   "property": "C91",
   "status": "partial",
   "theorems": [
    "C91_reads",
    "C91_stored_partial",
    "C91_returned_refuted"
   ],
   "note": "False for transpose, multMat and symSquaredMatrix: the result views a local array, every read is undefined. Proved: what at, trace, isSymmetric, array, multVec return, and which numbers the destroyed arrays held."
  },
  {
   "property": "C81",
   "status": "proved",
   "theorems": [
    "C81_orthonormal_eigenvectors",
    "C81_any_number_of_sweeps"
   ],
   "note": ""
  },
  {
   "property": "C82",
   "status": "proved",
   "theorems": [
    "C82_eigenpairs",
    "C82_stops_before_the_cap"
   ],
   "note": "at most 64 of the 100 passes"
  },
  {
   "property": "C83",
   "status": "proved",
   "theorems": [
    "C83_sorted_and_agree",
    "C83_vector_belongs_to_value",
    "C83_inconsistent_shapes",
    "C83_empty",
    "C83_other_dimensions_refuted"
   ],
   "note": "Series whose dimension is 2 or 3. Outside the claim: for another dimension eigenSystem silently returns two empty Series while eigenValues and eigenVectors compute."
  },
  {
   "property": "C84",
   "status": "proved",
   "theorems": [
    "C84_normals",
    "C84_swap",
    "C84_missing_point",
    "C84_otherwise"
   ],
   "note": "right-handed orientation too; a triangle naming a point that does not exist makes the call undefined"
  },
  {
   "property": "C85",
   "status": "partial",
   "theorems": [
    "C85_refuted",
    "C85_never_returns",
    "C85_otherwise"
   ],
   "note": "False for every mesh: up to one triangle areas throws invalid_argument, from two triangles on it is undefined; proved in every arithmetic."
  },
  {
   "property": "C86",
   "status": "partial",
   "theorems": [
    "C86_insar_partial",
    "C86_insar_empty_refuted",
    "C86_fringes",
    "C86_periodic",
    "C86_fringes_empty",
    "C86_insar_otherwise",
    "C86_fringes_otherwise"
   ],
   "note": "False for the empty displacement Serie, where insar reads past the end. Proved: insar for every non-empty Serie; fringes for every Serie."
  },
  {
   "property": "C87",
   "status": "partial",
   "theorems": [
    "C87_box_partial",
    "C87_refuted",
    "C87_refused"
   ],
   "note": "False for coordinates with one point, which sit at center-dim/2. Proved: everything for coordinates with at least two points, and where one-point coordinates sit."
  },
  {
   "property": "C88",
   "status": "proved",
   "theorems": [
    "C88_from_points",
    "C88_refused"
   ],
   "note": ""
  },
  {
   "property": "C92",
   "status": "proved",
   "theorems": [
    "C92_names",
    "C92_no_repetition",
    "C92_other_dimension"
   ],
   "note": "a Dataframe stores every Serie with dimension 3, so a Manager for another dimension lists no stored Serie"
  },
  {
   "property": "C93",
   "status": "partial",
   "theorems": [
    "C93_stored_partial",
    "C93_size_zero_refuted",
    "C93_first_answer",
    "C93_no_answer",
    "C93_exception",
    "C93_adding"
   ],
   "note": "False for stored Series of item size 0, whose copy divides by zero. Proved: everything for item sizes from 1 on, and the order of the decomposers for every request."
  },
  {
   "property": "C94",
   "status": "partial",
   "theorems": [
    "C94_vector",
    "C94_symmetric_partial",
    "C94_full_partial",
    "C94_full_wrong",
    "C94_full_refuted",
    "C94_clash_refuted",
    "C94_two_dimensional_refuted",
    "C94_scalar",
    "C94_empty"
   ],
   "note": "False for yy, yz and zz of full matrices, when a stored name is a prefix of another request, and for two-dimensional Series. Proved: vectors, symmetric matrices, the other six entries of full matrices, what the three wrong ones give."
  },
  {
   "property": "C96",
   "status": "proved",
   "theorems": [
    "C96_coordinates",
    "C96_fewer_names"
   ],
   "note": ""
  },
  {
   "property": "C97",
   "status": "partial",
   "theorems": [
    "C97_refuted",
    "C97_never_resolves",
    "C97_control_character_partial",
    "C97_vectors_one_number",
    "C97_empty_name",
    "C97_requests"
   ],
   "note": "False for every Serie: the digit is compared as a character code, so n1, n2, n3 never resolve. Proved: that no decimal digit resolves, and which control characters do."
  },
  {
   "property": "C98",
   "status": "proved",
   "theorems": [
    "C98_valence",
    "C98_arithmetics",
    "C98_missing_point",
    "C98_otherwise"
   ],
   "note": "every arithmetic in which whole numbers below 2^32 are exact; binary64 and the reals are such"
  },
  {
   "property": "C99",
   "status": "partial",
   "theorems": [
    "C99_normals",
    "C99_area_partial",
    "C99_area_undefined",
    "C99_area_empty_refuted",
    "C99_area_refuted",
    "C99_otherwise"
   ],
   "note": "Area is false for every mesh but those of exactly one triangle: undefined behaviour from two triangles on, one number instead of none for no triangle. Proved: Area for one triangle; Normals for every Dataframe; other names and missing meshes for both."
  },
  {
   "property": "C95",
   "status": "partial",
   "theorems": [
    "C95_eigen_refuted",
    "C95_mesh_refuted",
    "C95_partial",
    "C95_components_partial"
   ],
   "note": "False for EigenValues, and for Normals, Area and Valence when only one of positions and indices is stored. Proved: Normals, Valence, Coordinates and Components over every Dataframe whose Series have items, with a mesh and names that do not clash; Coordinates and Components also without indices."
  },
  {
   "property": "C102",
   "status": "partial",
   "theorems": [
    "C102_fills",
    "C102_random",
    "C102_uniform",
    "C102_canonical",
    "C102_item_size_throws",
    "C102_overflow",
    "C102_wide_range",
    "C102_refuted"
   ],
   "note": "False when max - min overflows (no value is finite) and undefined when count * itemSize reaches 2^32. Proved otherwise: for every seed, with mt19937 of the C++ standard and uniform_real_distribution as in libstdc++, in binary64."
  },
  {
   "property": "C103",
   "status": "partial",
   "theorems": [
    "C103_refuted",
    "C103_derived_undefined",
    "C103_copy_undefined",
    "C103_clear_leaks",
    "C103_twice_undefined",
    "C103_after_end",
    "C103_dangling_undefined",
    "C103_partial"
   ],
   "note": "False: no virtual destructor, clear() leaks, copies delete twice. Proved for decomposers of the base class, without clear() and copies."
  },
  {
   "property": "C104",
   "status": "partial",
   "theorems": [
    "C104_refuted",
    "C104_temporary_undefined",
    "C104_other_requests",
    "C104_partial"
   ],
   "note": "False for every lambda passed as a temporary: the member is a reference to it. Proved while the function object lives."
  },
  {
   "property": "C105",
   "status": "partial",
   "theorems": [
    "C105_between",
    "C105_monotone",
    "C105_extremes",
    "C105_refuted"
   ],
   "note": "False for finite values whose difference overflows (two values far apart give NaN). Proved for all Series in which no difference of two values overflows, for every q in [0,1], with the rounding of every operation."
  },
  {
   "property": "C106",
   "status": "partial",
   "theorems": [
    "C106_refuted",
    "C106_components_partial",
    "C106_components_otherwise",
    "C106_eigen",
    "C106_mesh",
    "C106_user"
   ],
   "note": "False for item sizes outside the six layouts, where only one name is offered. Proved: the names of all layouts and of every other decomposer."
  },
  {
   "property": "C107",
   "status": "partial",
   "theorems": [
    "C107_normalize_partial",
    "C107_refuted",
    "C107_below_one",
    "C107_above_one",
    "C107_tiny_range",
    "C107_huge_range"
   ],
   "note": "False: {0, 49} gives 1 - 2^-53 for its maximum, {0, 7*2^1021} gives more than 1, tiny and huge ranges give NaN. Proved when 2^-1022 <= max - min <= 2^1022: within [0,1], 0 for the minimum, at least 1 - 2^-53 for the maximum, order kept."
  },
  {
   "property": "C108",
   "status": "partial",
   "theorems": [
    "C108_error",
    "C108_finite",
    "C108_monotone",
    "C108_vector",
    "C108_between_refuted",
    "C108_overflow_refuted"
   ],
   "note": "Error bound, finiteness and monotonicity proved for every number of items. False: mean of three times 0.1 exceeds 0.1; the mean of two largest doubles is infinite."
  },
  {
   "property": "C109",
   "status": "proved",
   "theorems": [
    "C109_error",
    "C109_cancellation_refuted"
   ],
   "note": "Error bound for every item size. C109_cancellation_refuted shows that no relative bound on the exact product can hold."
  },
  {
   "property": "C110",
   "status": "partial",
   "theorems": [
    "C110_symmetric",
    "C110_variance",
    "C110_constant_refuted",
    "C110_nan_refuted"
   ],
   "note": "Symmetry bit for bit and the sign of the variance proved for all values. False: three times 0.1 has a positive variance; overflowing products of opposite signs give NaN."
  },
  {
   "property": "C111",
   "status": "partial",
   "theorems": [
    "C111_array_partial",
    "C111_array_empty_refuted",
    "C111_strings_partial",
    "C111_serie_partial",
    "C111_valid_showable",
    "C111_serie_undefined",
    "C111_series_partial",
    "C111_stream_refuted",
    "C111_own_stream"
   ],
   "note": "False: an Array always goes to std::cout, Strings and a Serie to std::cerr, Series partly to the given stream and partly to std::cerr; an empty Array is written [[]. Proved: the exact text and stream for every argument and every prior output; the text is complete for Arrays that are not empty and for every Serie with a storage; undefined exactly for items without storage (or a storage above 2^32)."
  },
  {
   "property": "C112",
   "status": "partial",
   "theorems": [
    "C112_dump_partial",
    "C112_scalar_refuted"
   ],
   "note": "False for item size 1, where dump throws and writes nothing. Proved for every other item size."
  },
  {
   "property": "C113",
   "status": "proved",
   "theorems": [
    "C113_print_array",
    "C113_messages",
    "C113_log"
   ],
   "note": "The colour codes of the labels are left out; one token per argument of log."
  },
  {
   "property": "C114",
   "status": "partial",
   "theorems": [
    "C114_symmetric_refuted",
    "C114_lengths_covered",
    "C114_squared_refuted",
    "C114_squared_partial"
   ],
   "note": "False: no length is rejected. For every length between two triangular numbers it is determined whether symSquaredMatrix is undefined or returns a matrix of part of the numbers (exact arithmetic); squaredMatrix ignores the numbers beyond the largest square."
  },
  {
   "property": "C115",
   "status": "proved",
   "theorems": [
    "C115_add_sub",
    "C115_mult",
    "C115_dot",
    "C115_cross",
    "C115_det",
    "C115_mean",
    "C115_limit_refuted"
   ],
   "note": "C115_limit_refuted: the bound on sums is sharp up to one bit, 2^53 + 1 is already rounded."
  },
  {
   "property": "C116",
   "status": "partial",
   "theorems": [
    "C116_antisymmetric",
    "C116_self_partial",
    "C116_self_refuted",
    "C116_error",
    "C116_orthogonal_refuted"
   ],
   "note": "Antisymmetry and the error bounds are proved. cross(a,a) is false when a product of two components overflows (NaN); proved zero otherwise. Exact orthogonality is false, with the deviation bounded."
  },
  {
   "property": "C117",
   "status": "partial",
   "theorems": [
    "C117_from_points_partial",
    "C117_from_dims_partial",
    "C117_last_refuted"
   ],
   "note": "False for the last point, which may lie before or beyond the end by rounding. First point exact, monotone, error bound proved for all numbers of points."
  },
  {
   "property": "C118",
   "status": "partial",
   "theorems": [
    "C118_fringes_partial",
    "C118_below_refuted",
    "C118_number_refuted"
   ],
   "note": "False: a displacement just below zero gives the spacing itself, and an overflowing quotient gives NaN. Proved: between 0 and the spacing, both included, whenever the quotient is finite."
  },
  {
   "property": "C119",
   "status": "partial",
   "theorems": [
    "C119_normalize_partial",
    "C119_large_refuted",
    "C119_small_refuted",
    "C119_above_refuted"
   ],
   "note": "False for vectors whose squares overflow (the result is zero) or underflow (infinite components, components above 1). Proved for all vectors with components up to 2^490 in size of which one is at least 2^-511."
  },
  {
   "property": "C120",
   "status": "proved",
   "theorems": [
    "C120_error",
    "C120_whole",
    "C120_average_refuted"
   ],
   "note": "Also shown: weights that add up to 1 exactly do not give an average (the result may leave the range of the values by rounding)."
  },
  {
   "property": "C121",
   "status": "proved",
   "theorems": [
    "C121_parallel",
    "C121_sources",
    "C121_main",
    "C121_count_refuted"
   ],
   "note": "Includes the program's own main (12 cores, a million points). Also shown: the number of sources asked for is ignored, there are always 10000."
  },
  {
   "property": "C122",
   "status": "partial",
   "theorems": [
    "C122_linear_partial",
    "C122_relative_partial",
    "C122_fall_off_partial",
    "C122_near_partial",
    "C122_isotropic_refuted",
    "C122_equilibrium_refuted"
   ],
   "note": "False: a half turn does not turn the tensor with the source, and the divergence one unit from the source is 3. Linearity, invariance, evenness, fall-off and cut-off proved."
  },
  {
   "property": "C123",
   "status": "partial",
   "theorems": [
    "C123_pipeline_partial",
    "C123_exact_partial",
    "C123_never_finite",
    "C123_usable_refuted"
   ],
   "note": "False: with the cohesion 0 of the program the critical stress is 0 and no index nor the mean is ever finite, whatever the data. Proved: what the pipeline computes, and that in exact arithmetic with positive cohesion exactly the items compressed in all directions get an index, none negative."
  },
  {
   "property": "C124",
   "status": "partial",
   "theorems": [
    "C124_same_result_partial",
    "C124_one_core_partial",
    "C124_cores_forget",
    "C124_remembered_refuted"
   ],
   "note": "Same result proved for every number of cores, schedule and sound cache (Series without NaN and -0; with one core up to the dimension, which memoize loses). False: with two cores or more the jobs fill copies of the cache that are thrown away, so the same call computes every part again."
  },
  {
   "property": "C125",
   "status": "partial",
   "theorems": [
    "C125_listing_partial",
    "C125_resolved_partial",
    "C125_resolved_refuted",
    "C125_normals_refuted"
   ],
   "note": "The listing of attributes/README.md is reproduced for all data, and the components, coordinates and the tensor resolve. False: the listed eigenvalue and eigenvector names resolve to nothing for any data, and the scalars nx, ny, nz of the main README are never listed."
  },
  {
   "property": "C126",
   "status": "partial",
   "theorems": [
    "C126_inverse_sym_partial",
    "C126_inverse_full_partial",
    "C126_singular_partial",
    "C126_singular_refuted",
    "C126_scale_refuted"
   ],
   "note": "Proved for whole entries up to 2^16 (for full matrices without the sixth entry, which is wrong in any arithmetic: C79). False in general: a singular matrix of whole entries below 2^18 gets a computed determinant of -2 and an inverse; 2^400 times the identity gets the zero matrix; 2^-12 times the identity is refused."
  },
  {
   "property": "C127",
   "status": "proved",
   "theorems": [
    "C127_dump"
   ],
   "note": "For every history of calls."
  },
  {
   "property": "C128",
   "status": "partial",
   "theorems": [
    "C128_bound_partial",
    "C128_large",
    "C128_symmetric",
    "C128_bound_refuted"
   ],
   "note": "Symmetry and the behaviour from 128 on proved. The bound is exact up to the next double only: 100*2^-52 and -2^-200 differ by more and are accepted, as the rounded difference is compared."
  },
  {
   "property": "C129",
   "status": "partial",
   "theorems": [
    "C129_sum_partial",
    "C129_chain_partial",
    "C129_chain_refuted",
    "C129_display_partial",
    "C129_display_refuted"
   ],
   "note": "Proved: the numbers of the weighted sum (22, 21, 16, 15 for the documented data), one line per item of the chain for items of three numbers or more, one group per index for forEach. False: the sum goes to std::cerr, the chain as written (items of two numbers) reads arr[2] beyond the end for every data, and forEach prints brackets and no line feeds between the items."
  },
  {
   "property": "C130",
   "status": "proved",
   "theorems": [
    "C130_words",
    "C130_exists",
    "C130_fraction",
    "C130_values",
    "C130_prefix",
    "C130_reshape",
    "C130_standard"
   ],
   "note": "uniform_real_distribution as libstdc++ computes it; mt19937 as the standard defines it."
  },
  {
   "property": "C131",
   "status": "proved",
   "theorems": [
    "C131_refused",
    "C131_passed_on",
    "C131_no_calls"
   ],
   "note": "For every arithmetic."
  },
  {
   "property": "C132",
   "status": "proved",
   "theorems": [
    "C132_pi",
    "C132_literals",
    "C132_guards"
   ],
   "note": "Binary64; the determinant of the guard is the computed one."
  },
  {
   "property": "C133",
   "status": "partial",
   "theorems": [
    "C133_eigenpairs_partial",
    "C133_diagonal_returned",
    "C133_large_refuted",
    "C133_small_refuted"
   ],
   "note": "Proved for entries of moderate size and an accurate library; the claim for all finite entries (C133_full) is false: overflow and underflow of the squared entries give the diagonal back."
  },
  {
   "property": "C134",
   "status": "partial",
   "theorems": [
    "C134_eigenvalues_exist",
    "C134_exact_values",
    "C134_f64_values_partial",
    "C134_f64_refuted"
   ],
   "note": "Exact arithmetic in full. Binary64 for entries of moderate size and an accurate library; false for all finite entries (C134_f64_full), where squares overflow."
  },
  {
   "property": "C135",
   "status": "proved",
   "theorems": [
    "C135_bins",
    "C135_bins_of_range",
    "C135_constant",
    "C135_exact_refuted",
    "C135_any_range_refuted"
   ],
   "note": "Binary64, proved within the stated range. The exact intervals (C73) do not hold for doubles (C135_exact_refuted), and outside the range the conversion is undefined (C135_any_range_refuted)."
  },
  {
   "property": "C136",
   "status": "proved",
   "theorems": [
    "C136_sort",
    "C136_quantile",
    "C136_outliers",
    "C136_minMax",
    "C136_minMax_arrays",
    "C136_bins_between",
    "C136_bins",
    "C136_exact_sums",
    "C136_mean_refuted"
   ],
   "note": "Binary64 for everything but sums; sums in exact arithmetic, and C136_mean_refuted shows that doubles depend on the order, as the statement says. minMax of scalars and bins without bounds: finite values."
  },
  {
   "property": "C137",
   "status": "proved",
   "theorems": [
    "C137_bins",
    "C137_minMax",
    "C137_exact"
   ],
   "note": "bins and minMax in binary64 (minMax of finite values), mean and covariance in exact arithmetic."
  },
  {
   "property": "C138",
   "status": "proved",
   "theorems": [
    "C138_refused",
    "C138_pipeline"
   ],
   "note": "The program is not built and does not compile as a whole; modelled are the calls of its pipeline."
  },
  {
   "property": "C139",
   "status": "proved",
   "theorems": [
    "C139_error",
    "C139_sign",
    "C139_two",
    "C139_singular",
    "C139_regular_refuted",
    "C139_three_refuted"
   ],
   "note": "Full matrices in binary64 (symmetric storage is undefined behaviour, C77). The two refuted theorems are the negative parts of the statement."
  },
  {
   "property": "C140",
   "status": "proved",
   "theorems": [
    "C140_swap",
    "C140_error",
    "C140_degenerate",
    "C140_refuted"
   ],
   "note": "Places of vertices stored as doubles. C140_refuted is the negative part of the statement."
  },
  {
   "property": "C141",
   "status": "proved",
   "theorems": [
    "C141_moments",
    "C141_quantile",
    "C141_outliers",
    "C141_normalize",
    "C141_bins",
    "C141_mirror_refuted"
   ],
   "note": "Exact reals, non-empty scalar Series; normalize and bins without bounds need two distinct values, all within the largest double (minMax starts from it). C141_mirror_refuted is the last sentence of the statement."
  },
  {
   "property": "C142",
   "status": "proved",
   "theorems": [
    "C142_insar",
    "C142_phase",
    "C142_power_of_two",
    "C142_negative_refuted"
   ],
   "note": "binary64. C142_negative_refuted is the negative part of the statement; an empty Serie is undefined behaviour for insar (C86)."
  },
  {
   "property": "C143",
   "status": "proved",
   "theorems": [
    "C143_rescaled",
    "C143_equal_values_refuted"
   ],
   "note": "Exact reals. C143_equal_values_refuted is the last sentence of the statement."
  },
  {
   "property": "C144",
   "status": "proved",
   "theorems": [
    "C144_affine",
    "C144_rigid",
    "C144_translation",
    "C144_scale",
    "C144_closed",
    "C144_open_refuted"
   ],
   "note": "Exact reals, vertices of size 3. C144_open_refuted is the last sentence of the statement."
  },
  {
   "property": "C145",
   "status": "proved",
   "theorems": [
    "C145_error",
    "C145_rank",
    "C145_median",
    "C145_outliers",
    "C145_rank_refuted"
   ],
   "note": "binary64; std::sort is any conforming sorter. C145_rank_refuted is the last sentence of the statement."
  },
  {
   "property": "C146",
   "status": "proved",
   "theorems": [
    "C146_mean",
    "C146_covariance",
    "C146_dot",
    "C146_cross",
    "C146_det",
    "C146_normals",
    "C146_normalize",
    "C146_quantile",
    "C146_outliers",
    "C146_dot_refuted"
   ],
   "note": "binary64; std::sort is any conforming sorter. C146_dot_refuted is the last sentence of the statement."
  },
  {
   "property": "C147",
   "status": "proved",
   "theorems": [
    "C147_toSerie",
    "C147_createArray",
    "C147_counts",
    "C147_map",
    "C147_contains",
    "C147_find",
    "C147_contains_refuted"
   ],
   "note": "C147_counts also justifies the model of countAndCheck in Serie.v. C147_contains_refuted is the last sentence of the statement."
  },
  {
   "property": "C148",
   "status": "proved",
   "theorems": [
    "C148_merge_map",
    "C148_merge_map_arrays",
    "C148_merge_filter",
    "C148_merge_filter_interleaved_refuted",
    "C148_find",
    "C148_concat_map",
    "C148_concat_filter",
    "C148_filter_map",
    "C148_filter_map_arrays",
    "C148_filter_map_arrays_refuted",
    "C148_reduce",
    "C148_partition_n",
    "C148_zip_filter",
    "C148_sort"
   ],
   "note": "The two exceptions of the last sentence of the statement are C148_filter_map_arrays_refuted and C148_merge_filter_interleaved_refuted; C148_filter_map_arrays is the law when an item is selected."
  },
  {
   "property": "C149",
   "status": "proved",
   "theorems": [
    "C149_decides",
    "C149_items",
    "C149_mask",
    "C149_monotone",
    "C149_reflexive",
    "C149_symmetric",
    "C149_leftover_undefined",
    "C149_not_transitive"
   ],
   "note": ""
  },
  {
   "property": "C150",
   "status": "proved",
   "theorems": [
    "C150_number",
    "C150_special",
    "C150_read_back",
    "C150_same_text",
    "C150_vector",
    "C150_vectors",
    "C150_not_injective"
   ],
   "note": "std::to_string(double) is modelled as the correctly rounded sprintf(\"%f\") of the reference platform."
  },
  {
   "property": "C151",
   "status": "partial",
   "theorems": [
    "C151_triple_product",
    "C151_double_cross",
    "C151_dot_bilinear",
    "C151_cross_bilinear",
    "C151_parallelogram",
    "C151_matrices",
    "C151_plane_refuted"
   ],
   "note": "The laws of det hold for 3x3 matrices and are false for 2x2 matrices (C151_plane_refuted)."
  },
  {
   "property": "C152",
   "status": "proved",
   "theorems": [
    "C152_guard",
    "C152_eigen",
    "C152_values",
    "C152_scale",
    "C152_units_refuted"
   ],
   "note": "Exact reals, symmetric storage (full storage has a wrong entry: C79). C152_units_refuted is the last clause of the statement."
  },
  {
   "property": "C153",
   "status": "proved",
   "theorems": [
    "C153_constructors",
    "C153_unary",
    "C153_binary",
    "C153_several",
    "C153_reader",
    "C153_programs",
    "C153_joins",
    "C153_zip",
    "C153_clone",
    "C153_left_out"
   ],
   "note": "Props_Safe.v: every loop keeps its indices inside the storage of a sound Serie; programs are trees of calls with shared intermediate results."
  },
  {
   "property": "C154",
   "status": "proved",
   "theorems": [
    "C154_components",
    "C154_coordinates",
    "C154_eigen",
    "C154_normals",
    "C154_valence",
    "C154_request",
    "C154_names",
    "C154_built"
   ],
   "note": "Props_Ask.v: exact condition for Components, Coordinates and the eigen decomposers, sufficient condition for Normals and Valence, any list of them under a Manager."
  },
  {
   "property": "C155",
   "status": "proved",
   "theorems": [
    "C155_value",
    "C155_exact",
    "C155_doubles",
    "C155_not_the_sum",
    "C155_shapes"
   ],
   "note": "Props_SubAdd.v: the value for every arithmetic, then the negated sum in exact and in double arithmetic, and the refusals."
  },
  {
   "property": "C156",
   "status": "proved",
   "theorems": [
    "C156_values",
    "C156_joins",
    "C156_div",
    "C156_opposite",
    "C156_opposite_doubles",
    "C156_factors",
    "C156_number"
   ],
   "note": "Props_Make.v: argument order of the operations made by MAKE_OP and the conversion of numbers to Series."
  },
  {
   "property": "C157",
   "status": "proved",
   "theorems": [
    "C157_conditions",
    "C157_number",
    "C157_special",
    "C157_distance_refuted",
    "C157_arrays",
    "C157_series",
    "C157_exceptions",
    "C157_inv_test"
   ],
   "note": "Props_Assertions.v: exact meaning of the comparisons of assertions.h, NaN included."
  },
  {
   "property": "C158",
   "status": "proved",
   "theorems": [
    "C158_error",
    "C158_monotone",
    "C158_signs",
    "C158_order",
    "C158_nan",
    "C158_extremes"
   ],
   "note": "Props_F64Length.v: norm and norm2 of one vector in binary64 (more than one vector is undefined, C76)."
  },
  {
   "property": "C159",
   "status": "proved",
   "theorems": [
    "C159_get",
    "C159_display",
    "C159_sums",
    "C159_parts",
    "C159_zip",
    "C159_masks",
    "C159_pipe",
    "C159_filters"
   ],
   "note": "Props_DocComments.v: programs in comments that do not compile are left out (listed in DocComments.v)."
  },
  {
   "property": "C160",
   "status": "proved",
   "theorems": [
    "C160_products",
    "C160_mean",
    "C160_lengths",
    "C160_determinants",
    "C160_inverses",
    "C160_eigenvalues",
    "C160_box_refuted"
   ],
   "note": "Props_Axes.v: exact reals, three dimensions."
  },
  {
   "property": "C161",
   "status": "proved",
   "theorems": [
    "C161_accuracy",
    "C161_exact",
    "C161_offset"
   ],
   "note": "Props_F64Cov.v: every length; sizes between 2^-400 and 2^400, where no operation overflows and underflow stays below the bound."
  },
  {
   "property": "C162",
   "status": "proved",
   "theorems": [
    "C162_partition_n",
    "C162_several",
    "C162_unzip",
    "C162_insar",
    "C162_eigen",
    "C162_sort",
    "C162_approximately",
    "C162_parallel",
    "C162_grids",
    "C162_random"
   ],
   "note": "Exact conditions for undefined behaviour in (b) to (e)."
  },
  {
   "property": "C163",
   "status": "proved",
   "theorems": [
    "C163_products",
    "C163_products_exact",
    "C163_stresses",
    "C163_names"
   ],
   "note": "The classes EigenValues and EigenVectors of decomposer.cxx are its own; their names() give the same lists as the library's in dimensions 2 and 3, and the library's are used here."
  },
  {
   "property": "C164",
   "status": "proved",
   "theorems": [
    "C164_length",
    "C164_never",
    "C164_runtime",
    "C164_invalid",
    "C164_callbacks",
    "C164_chains"
   ],
   "note": "The sets are upper bounds; that the exceptions occur is shown in C164_example. bad_alloc is not modelled."
  },
  {
   "property": "C165",
   "status": "proved",
   "theorems": [
    "C165_exchange",
    "C165_any_order",
    "C165_same_name",
    "C165_setCount"
   ],
   "note": ""
  },
  {
   "property": "C166",
   "status": "proved",
   "theorems": [
    "C166_minMax_scalar",
    "C166_minMax_vector",
    "C166_mean",
    "C166_covariance",
    "C166_items",
    "C166_weights",
    "C166_masks",
    "C166_sort"
   ],
   "note": ""
  },
  {
   "property": "C167",
   "status": "proved",
   "theorems": [
    "C167_components",
    "C167_decomposer",
    "C167_arithmetic",
    "C167_mean",
    "C167_minMax"
   ],
   "note": ""
  }
 ]
}
