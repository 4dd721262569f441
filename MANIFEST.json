{
 "claims": [
  {
   "property": "C01",
   "status": "proved",
   "theorems": [
    "C01_queue_is_map"
   ],
   "note": "Refinement of the array heap to a cell->key map for every history of calls with non-NaN binary64 keys; storage growth and shrinking included."
  },
  {
   "property": "C02",
   "status": "proved",
   "theorems": [
    "C02_pop_minimal",
    "C02_drain_is_sorted"
   ],
   "note": "Every reachable state; also popping everything is a sort of the entries."
  },
  {
   "property": "C03",
   "status": "proved",
   "theorems": [
    "C03_queue_memory_safe",
    "C03_bad_arguments",
    "C03_nan_key_refuted"
   ],
   "note": "Proved for non-NaN keys. C03_nan_key_refuted shows that with a NaN key pop indexes crossrefs with -1."
  },
  {
   "property": "C04",
   "status": "proved",
   "theorems": [
    "C04_min_over_paths",
    "C04_float64_sums",
    "C04_flat_steps",
    "C05_public_outputs"
   ],
   "note": "Exact binary64 accumulation; steps_ok excludes NaN step costs (inf*0), C04_flat_steps discharges it when there is no elevation."
  },
  {
   "property": "C05",
   "status": "proved",
   "theorems": [
    "C05_public_outputs",
    "C05_unreached_core",
    "C05_bad_connectivity",
    "C05_negative_source_refuted"
   ],
   "note": "Public wrapper for float64 costs. The refuted theorem is about the docstring's reading of negative costs."
  },
  {
   "property": "C06",
   "status": "proved",
   "theorems": [
    "C06_traceback_walk"
   ],
   "note": "Walk exists, is unique, has no repeated cell, stays in the grid, ends in the allocated source and costs exactly the reported distance."
  },
  {
   "property": "C07",
   "status": "proved",
   "theorems": [
    "C07_cap_never_hit"
   ],
   "note": "The queue is empty at the end and any cap >= number of cells gives the same result."
  },
  {
   "property": "C08",
   "status": "proved",
   "theorems": [
    "C08_codes_are_neighbours"
   ],
   "note": "Codes are those of the core (0..7); the public function adds 1 (C05_public_outputs)."
  },
  {
   "property": "C09",
   "status": "proved",
   "theorems": [
    "C09_sources_keep_label",
    "C09_index_sources",
    "C09_index_sources_rejected"
   ],
   "note": ""
  },
  {
   "property": "C12",
   "status": "proved",
   "theorems": [
    "C12_first",
    "C12_last",
    "C12_int_min",
    "C12_int_max",
    "C12_float_min",
    "C12_float_max"
   ],
   "note": "Values already on the common grid and dtype; any number of rasters, any dask chunking of the stack."
  },
  {
   "property": "C13",
   "status": "partial",
   "theorems": [
    "C13_sum_partial",
    "C13_sum_refuted",
    "C13_null_iff_all_null_refuted"
   ],
   "note": "Integer dtypes. The full statement is false: a partial or final sum equal to the null value is taken for null."
  },
  {
   "property": "C10",
   "status": "proved",
   "theorems": [
    "C10_proximity_sound",
    "C10_target_zero",
    "C10_no_cell_skipped",
    "C10_nan_is_no_target",
    "C10_nearest_refuted",
    "C10_integer_padding_refuted"
   ],
   "note": "All four metrics, float32 and float64 storage, any chunk with any overlap. max_distance >= 2^-511 (below that its square underflows) and padding that is no target. Two findings: the padding of an unmasked integer raster is a target (C10_integer_padding_refuted), and the Euclidean search is not always the nearest (C10_nearest_refuted), which the property does not claim but the docstring does."
  },
  {
   "property": "C11",
   "status": "proved",
   "theorems": [
    "C11_one_target"
   ],
   "note": "The bearing formula and the great-circle formula are parameters."
  },
  {
   "property": "C51",
   "status": "proved",
   "theorems": [
    "C51_taxi_nearest",
    "C51_chebyshev_nearest"
   ],
   "note": ""
  },
  {
   "property": "C14",
   "status": "proved",
   "theorems": [
    "C14_pad_shift",
    "C15_block_infos"
   ],
   "note": "Affine coefficients are rationals (the code rounds them to binary64)."
  },
  {
   "property": "C15",
   "status": "proved",
   "theorems": [
    "C15_locations_partition",
    "C15_one_chunk_per_index",
    "C15_row_major",
    "C15_block_infos"
   ],
   "note": ""
  },
  {
   "property": "C16",
   "status": "partial",
   "theorems": [
    "C16_symmetric_depth",
    "C16_when_exact",
    "C16_interior_exact_refuted",
    "C16_edge_refuted"
   ],
   "note": "Exact for symmetric depths at interior chunks and for every padding boundary; C16_when_exact characterises the general case. The full statement is false for asymmetric depths at interior chunks (finding), which are accepted with boundary None."
  },
  {
   "property": "C17",
   "status": "proved",
   "theorems": [
    "C17_quadrants",
    "C17_chunk_rasters",
    "C17_shared_band_chunk_rejected"
   ],
   "note": "get_chunk_rasters needs one band per chunk; otherwise it raises."
  },
  {
   "property": "C18",
   "status": "proved",
   "theorems": [
    "C18_names_increasing",
    "C18_name_order"
   ],
   "note": ""
  },
  {
   "property": "C22",
   "status": "proved",
   "theorems": [
    "C22_depth_meaning",
    "C22_depth_rejected",
    "C22_chunks_for_overlap"
   ],
   "note": "dask's ensure_minimum_chunksize is modelled, not assumed."
  },
  {
   "property": "C45",
   "status": "partial",
   "theorems": [
    "C45_same_null_value",
    "C45_rule",
    "C45_return_mask_refuted"
   ],
   "note": "Holds except for return_mask=True without dtype=, meta= or null_value=, where the wrapper raises KeyError (finding)."
  },
  {
   "property": "C46",
   "status": "proved",
   "theorems": [
    "C46_data_and_mask_padded_alike",
    "C46_accepted_strings"
   ],
   "note": "One axis; dask's padding functions are modelled."
  },
  {
   "property": "C31",
   "status": "partial",
   "theorems": [
    "C31_mode",
    "C31_unique",
    "C31_distinct_values_exist",
    "C31_asm",
    "C31_entropy",
    "C31_order_and_nulls",
    "C31_same_values_perm",
    "C31_argmin",
    "C31_argmax",
    "C31_arg_all_nan",
    "C31_asm_binary64_order_refuted",
    "C31_argmin_infinity_refuted"
   ],
   "note": "mode and unique hold for every collection of values; asm and entropy hold in real arithmetic. In binary64 the asm sum depends on the order in which values first occur (refuted with a witness). nanargmin/nanargmax proved unless every valid value is the starting infinity (refuted)."
  },
  {
   "property": "C19",
   "status": "proved",
   "theorems": [
    "C19_focal_chunk_independent"
   ],
   "note": "Any two chunkings and any contents of the uninitialised output arrays give equal results, errors included. min/max/sum of a raster without nulls are computed by dask_image, modelled as a filter of the whole array."
  },
  {
   "property": "C20",
   "status": "partial",
   "theorems": [
    "C20_masked",
    "C20_unmasked",
    "C20_unmasked_fast",
    "C20_ignore_null",
    "C20_ignore_null_refuted",
    "C20_even_refuted",
    "C20_annulus_edge_refuted"
   ],
   "note": "Holds for every raster with nulls and for every statistic but min, max, sum on rasters without nulls; for those with odd kernels (sum) and odd solid kernels such as rectangles and circles (min, max). Refuted for even kernels and for min/max with an annulus at the edge; ignore_null=True never gives a null cell a value."
  },
  {
   "property": "C21",
   "status": "proved",
   "theorems": [
    "C21_correlate",
    "C21_correlate_unmasked",
    "C21_convolve",
    "C21_convolve_unmasked",
    "C21_correlation_sum",
    "C21_convolution_sum"
   ],
   "note": "For any arithmetic (the order of the additions is fixed), every edge mode, odd and even kernels. Without nulls scipy's filter is modelled."
  },
  {
   "property": "C52",
   "status": "partial",
   "theorems": [
    "C52_rectangle",
    "C52_circle",
    "C52_annulus",
    "C52_errors",
    "C52_unique_dtype",
    "C52_rectangle_orientation_refuted"
   ],
   "note": "Holds except that a rectangle has width rows and height columns (refuted against the documented meaning)."
  },
  {
   "property": "C34",
   "status": "partial",
   "theorems": [
    "C34_holds_literals",
    "C34_holds_dtypes",
    "C34_no_wider",
    "C34_float_literal",
    "C34_promote_to_float",
    "C34_wide_range_refuted",
    "C34_wide_range_alone_refuted",
    "C34_order_refuted",
    "C34_u64_refuted"
   ],
   "note": "Holds when one integer dtype holds all literals and the result is an integer dtype or the literal is within 2^53. Refuted: literals that no dtype holds are dropped (or raise TypeError), the result depends on item order, uint64 next to signed gives float64."
  },
  {
   "property": "C23",
   "status": "partial",
   "theorems": [
    "C23_burn_mask",
    "C23_set_null_value",
    "C23_clear_null_value",
    "C23_data_to_raster",
    "C23_history",
    "C23_int64_nan_refuted",
    "C23_bool_nan_refuted",
    "C23_huge_null_value_refuted",
    "C23_astype_refuted"
   ],
   "note": "Holds for burn_mask, data_to_xr_raster_ds and set_null_value with a null value some dtype holds, and for any history of set_null_value, set_null, burn_mask, astype, clip. Refuted: NaN for int64/uint64 (KeyError) and for bool (True cells become null), integers no dtype holds, astype with a null value close to the old one. astype of element values is a parameter."
  },
  {
   "property": "C24",
   "status": "proved",
   "theorems": [
    "C24_set_null",
    "C24_sequence",
    "C24_order",
    "C24_idempotent",
    "C24_errors"
   ],
   "note": "Every raster and every sequence of valid mask rasters; exact union, order independent, idempotent."
  },
  {
   "property": "C25",
   "status": "partial",
   "theorems": [
    "C25_ufunc",
    "C25_int_only",
    "C25_outputs",
    "C25_outputs_refuted"
   ],
   "note": "Every element-wise function of one or two operands on one grid (alignment: C63); several outputs if an operand has a null value. Refuted: np.modf, np.frexp and divmod of rasters without null value raise TypeError"
  },
  {
   "property": "C26",
   "status": "partial",
   "theorems": [
    "C26_where",
    "C26_null_value",
    "C26_errors",
    "C26_where_refuted"
   ],
   "note": "Exact characterisation; refuted in that a selected valid value equal to the result's null value becomes null, e.g. where(cond, 255, None)."
  },
  {
   "property": "C27",
   "status": "partial",
   "theorems": [
    "C27_remap_range",
    "C27_bad_mapping",
    "C27_remap_range_refuted"
   ],
   "note": "Exact characterisation; refuted in that a valid cell (or new value) equal to the null value of the result becomes null."
  },
  {
   "property": "C28",
   "status": "partial",
   "theorems": [
    "C28_reclassify",
    "C28_mapping_unchanged_partial",
    "C28_mapping_changed_refuted",
    "C28_reclassify_refuted"
   ],
   "note": "Exact characterisation; the caller's dict is changed when it maps to None (refuted), and values equal to the null value of the result become null (refuted)."
  },
  {
   "property": "C29",
   "status": "proved",
   "theorems": [
    "C29_stack",
    "C29_stack_split",
    "C29_band_count",
    "C29_split",
    "C29_get_bands",
    "C29_get_bands_errors",
    "C29_null_cells_refuted"
   ],
   "note": "Every list of rasters on one grid whose valid values the common dtype holds. Additional finding: null cells of the stack need not hold its null value."
  },
  {
   "property": "C30",
   "status": "proved",
   "theorems": [
    "C30_pad",
    "C30_errors",
    "C30_fill_cast_refuted"
   ],
   "note": "Every raster, amount of padding and fill specification; the number of added rows/columns (rioxarray pad_box) is given. Finding: a fill value is compared with the null value before it is cast."
  },
  {
   "property": "C44",
   "status": "proved",
   "theorems": [
    "C44_clip",
    "C44_partition",
    "C44_errors"
   ],
   "note": "Every raster and footprint; the footprint (rasterised feature) is given."
  },
  {
   "property": "C40",
   "status": "partial",
   "theorems": [
    "C40_index_xy",
    "C40_index_corner",
    "C40_point_in_cell",
    "C40_cell_of_point",
    "C40_binary64_centre",
    "C40_binary64_point",
    "C40_binary64_corner_refuted"
   ],
   "note": "Proved for every invertible affine grid in exact arithmetic, and in binary64 for axis-parallel grids of reasonable size and points not within 1/64 cell of a border. In binary64 a point on the corner of a cell can map to a neighbouring cell (refuted)."
  },
  {
   "property": "C43",
   "status": "proved",
   "theorems": [
    "C43_grids_close",
    "C43_reflexive",
    "C43_displacement",
    "C43_all_same",
    "C43_symmetric_refuted",
    "C43_transitive_refuted",
    "C43_subpixel_refuted"
   ],
   "note": "Exact characterisation, reflexivity and the displacement bound for every pair of grids. Additional findings: neither symmetric nor transitive, and far cells can be displaced by more than a pixel."
  },
  {
   "property": "C50",
   "status": "proved",
   "theorems": [
    "C50_overviews"
   ],
   "note": "Every raster size."
  },
  {
   "property": "C36",
   "status": "proved",
   "theorems": [
    "C36_read_total",
    "C36_reads_every_row_once",
    "C36_size",
    "C36_getitem",
    "C36_empty_layer_refuted"
   ],
   "note": "Every positive feature count and partition count. Finding: a layer without features raises UnboundLocalError."
  },
  {
   "property": "C37",
   "status": "proved",
   "theorems": [
    "C37_ids_unique",
    "C37_name_is_new",
    "C37_name_given",
    "C37_large_partition_refuted"
   ],
   "note": "Every list of partition sizes up to the base and every list of column names; int64 overflow not modelled (2^63 / 10^9 partitions)."
  },
  {
   "property": "C32",
   "status": "proved",
   "theorems": [
    "C32_mode",
    "C32_asm",
    "C32_entropy",
    "C32_asm_entropy_any_arithmetic",
    "C32_nunique",
    "C32_count",
    "C32_size",
    "C32_min",
    "C32_max",
    "C32_sum",
    "C32_prod",
    "C32_mean",
    "C32_var",
    "C32_sum_binary64_refuted"
   ],
   "note": "Every split of the rows over partitions and every aggregation tree; sum, prod, mean, var in exact arithmetic (in binary64 the sum depends on the partitioning, refuted). median, std (square root of var), the cast to float64 and the reshaping of the result are not modelled."
  },
  {
   "property": "C33",
   "status": "proved",
   "theorems": [
    "C33_nanmin",
    "C33_nanmax",
    "C33_raster_min",
    "C33_raster_max"
   ],
   "note": "Every split into blocks, including empty ones, and every reduction tree."
  },
  {
   "property": "C35",
   "status": "partial",
   "theorems": [
    "C35_rasterize",
    "C35_mask",
    "C35_nan_null_value_refuted",
    "C35_value_equal_null_refuted",
    "C35_nan_value_refuted"
   ],
   "note": "Every feature table, partitioning and reduction tree, for a null value that is neither NaN nor the value of a feature, and features without NaN values; refuted without each of these. Which cells a feature touches is given."
  },
  {
   "property": "C38",
   "status": "proved",
   "theorems": [
    "C38_batches",
    "C38_batch_size",
    "C38_length_block",
    "C38_length",
    "C38_buffers_refuted",
    "C38_binary32_refuted",
    "C38_weights_refuted"
   ],
   "note": "Every list of features, batch size and partitioning, in any exact arithmetic; that a line within the circle around a cell has a buffer touching the cell is a hypothesis (needed, shown). Findings: binary32 totals depend on batches; weighting raises AttributeError unless the field is called weights. Overlay and buffering (GEOS) are given."
  },
  {
   "property": "C39",
   "status": "proved",
   "theorems": [
    "C39_aggregate",
    "C39_windows",
    "C39_mode",
    "C39_min",
    "C39_max",
    "C39_unique_fits",
    "C39_coords",
    "C39_errors",
    "C39_mode_nan_refuted",
    "C39_mode_int64_refuted"
   ],
   "note": "Every shape, factor, mask, chunking and statistic. Findings: mode of a window of valid NaN cells is 0; mode of masked int64 rasters is rounded through float64."
  },
  {
   "property": "C41",
   "status": "proved",
   "theorems": [
    "C41_parse",
    "C41_unambiguous",
    "C41_lines"
   ],
   "note": "Every ASCII file content, with the regular expression matched by a model of Python's backtracking matcher; the rounding of decimals to float is any function of the value. There are no comment lines: lines starting with # are rejected. Not modelled: non-ASCII digits and spaces, Python's 4300 digit limit."
  },
  {
   "property": "C48",
   "status": "partial",
   "theorems": [
    "C48_dilate",
    "C48_erode",
    "C48_order",
    "C48_errors",
    "C48_infinity_refuted"
   ],
   "note": "Every raster, mask, size, dtype and chunking, for values that are not NaN and not the infinity the padding replaces (C48_infinity_refuted: -inf dilated at an edge or beside a null becomes the smallest finite number). C48_order holds for infinities too. scipy.ndimage's grey and binary filters are modelled by a plain window filter with scipy's origins."
  },
  {
   "property": "C49",
   "status": "partial",
   "theorems": [
    "C49_nulls",
    "C49_chunks",
    "C49_hillshade",
    "C49_null_neighbour_refuted",
    "C49_float16_refuted",
    "C49_hillshade_255_refuted"
   ],
   "note": "Every raster, mask, chunking and arithmetic: the output is null exactly on the outermost ring and where the input is null; a valid cell with a null among the needed neighbours becomes NaN, not null (refuting that part of the statement). Refuted too: masked 8-bit and float16 rasters put their null value into the neighbours' formulas; hillshade makes cells of value 255 null."
  },
  {
   "property": "C53",
   "status": "proved",
   "theorems": [
    "C53_slope",
    "C53_aspect",
    "C53_curvature",
    "C53_hillshade",
    "C53_northing",
    "C53_plane",
    "C53_quadric",
    "C53_flat_northing_refuted"
   ],
   "note": "Exact real arithmetic; float rounding is not modelled. Aspect ignores cell sizes: the statement is for square cells with north up. Flat cells get northing cos(1 degree) (C53_flat_northing_refuted)."
  },
  {
   "property": "C54",
   "status": "proved",
   "theorems": [
    "C54_area",
    "C54_plane",
    "C54_at_least"
   ],
   "note": "Exact real arithmetic, square cells (the code uses the x cell size for both)."
  },
  {
   "property": "C47",
   "status": "proved",
   "theorems": [
    "C47_regions",
    "C47_label",
    "C47_neighbors",
    "C47_duplicates_refuted"
   ],
   "note": "for every component labelling that meets the stated contract (dask_image's label is a parameter; label_by_merging is proved to meet it); unique_values without duplicates, with duplicates the labels of different values can coincide (C47_duplicates_refuted)"
  },
  {
   "property": "C42",
   "status": "proved",
   "theorems": [
    "C42_script",
    "C42_names",
    "C42_error_line",
    "C42_dead_functions"
   ],
   "note": "for every file content (ASCII) and every choice of raster operations and file system: accepted exactly when the lines evaluate in order; ARITHMETIC, REMAP, EXTRACTBAND and SETNULL can never succeed (C42_dead_functions)"
  },
  {
   "property": "C55",
   "status": "proved",
   "theorems": [
    "C55_local_stats",
    "C55_minband_nan_refuted"
   ],
   "note": "numpy's and the custom statistics are parameters where they are one reduction (mean, std, ...; asm and entropy); mode, unique, minband and maxband are modelled; refuted: a cell that is NaN in all bands of an unmasked raster gets minband 254"
  },
  {
   "property": "C56",
   "status": "proved",
   "theorems": [
    "C56_predict",
    "C56_wrong_outputs"
   ],
   "note": "for every model that treats rows independently; promotion of integer data to float not modelled"
  },
  {
   "property": "C57",
   "status": "proved",
   "theorems": [
    "C57_predict",
    "C57_checks",
    "C57_one_output_refuted"
   ],
   "note": "refuted: a model with a single output is accepted when several are announced, its column is repeated (numpy broadcasting)"
  },
  {
   "property": "C58",
   "status": "proved",
   "theorems": [
    "C58_to_points"
   ],
   "note": "Coordinates of the cells are a parameter, within 1/512 of a cell of the exact centre."
  },
  {
   "property": "C59",
   "status": "proved",
   "theorems": [
    "C59_blocks",
    "C59_cells",
    "C59_return_mask",
    "C59_out_bands",
    "C59_refused",
    "C59_wrong_bands",
    "C59_mask_null_value_refuted"
   ],
   "note": "return_mask together with out_bands not covered by a theorem; refuted: return_mask with a function that asks for the null value and neither dtype, meta nor null_value raises KeyError"
  },
  {
   "property": "C60",
   "status": "partial",
   "theorems": [
    "C60_named",
    "C60_order",
    "C60_band_first_refuted",
    "C60_two_dims",
    "C60_normalized",
    "C60_idempotent",
    "C60_data",
    "C60_single_row_refuted"
   ],
   "note": "how rioxarray and odc-geo find dimensions by name is a parameter; refuted: an array with unknown names and float coordinates whose first dimension is band (every such 2-D array) raises AttributeError; a result with one row or column fails is_normalized"
  },
  {
   "property": "C61",
   "status": "partial",
   "theorems": [
    "C61_outcome",
    "C61_value_partial",
    "C61_carried",
    "C61_kept_partial",
    "C61_int16_refuted",
    "C61_float32_refuted",
    "C61_lowest_refuted",
    "C61_float64_refuted"
   ],
   "note": "with NumPy 2's np.can_cast. Refuted: values of the dtype that are lost (20000 for int16, 100 for int8, the lowest float32 and floats that half precision rounds for float32) and an int64 null value that is no float64 kept for float64 data"
  },
  {
   "property": "C62",
   "status": "partial",
   "theorems": [
    "C62_null_value",
    "C62_dataarray",
    "C62_dataset",
    "C62_mask_dtype",
    "C62_shapes",
    "C62_array",
    "C62_fast_path_refuted",
    "C62_null_cells_refuted"
   ],
   "note": "how dimensions are found by name is a parameter, see C60. Refuted: a lazy Dataset with dimensions (band, y, x) is taken as it is, with y increasing or masked cells that do not hold the null value; a valid cell may hold the null value that replaces NaN"
  },
  {
   "property": "C63",
   "status": "partial",
   "theorems": [
    "C63_rasters",
    "C63_masked",
    "C63_masked_grids",
    "C63_array",
    "C63_array_refused",
    "C63_bandwise_partial",
    "C63_bandwise_one",
    "C63_bandwise_refused",
    "C63_bandwise_refuted",
    "C63_single_band_refuted"
   ],
   "note": "xarray's alignment is modelled, not verified. Refuted: bandwise with one value for each band raises if the raster has one column or as many columns as bands; a raster of one band and one of several bands gives one band"
  },
  {
   "property": "C64",
   "status": "proved",
   "theorems": [
    "C64_cells",
    "C64_return_mask",
    "C64_refused",
    "C64_too_deep"
   ],
   "note": "dask's map_overlap is modelled, not verified; keyword names are not checked by the model"
  },
  {
   "property": "C65",
   "status": "partial",
   "theorems": [
    "C65_blocks",
    "C65_cells",
    "C65_overlap",
    "C65_overlap_return_mask",
    "C65_refused",
    "C65_geographic_refuted",
    "C65_no_boundary_refuted"
   ],
   "note": "proved without geographic coordinate systems and, for geo_map_overlap, with as many cells before each chunk as after it. Refuted: every call on a raster in a geographic system raises KeyError; without boundary the coordinates of the outer chunks are shifted, so the result depends on the chunks"
  },
  {
   "property": "C66",
   "status": "partial",
   "theorems": [
    "C66_one_target",
    "C66_taxi_nearest",
    "C66_chebyshev_nearest",
    "C66_refused",
    "C66_long_side",
    "C66_result_refuted",
    "C66_allocation_null_refuted",
    "C66_no_target_refuted",
    "C66_min_width_north",
    "C66_min_width_refuted",
    "C66_overlap_south_refuted",
    "C66_overlap_north_refuted"
   ],
   "note": "the boundary value must not be a target, and for the distances max_distance must cover the raster or not be longer than its sides. Refuted: max_distance longer than one side but within the raster raises; targets that hold the default null value are null in the allocation; unmasked 32 and 64 bit integers are padded with targets; the overlap for great circle distances is too small in the south and near the pole"
  },
  {
   "property": "C67",
   "status": "proved",
   "theorems": [
    "C67_full",
    "C67_geobox",
    "C67_empty",
    "C67_random",
    "C67_refused",
    "C67_valid_null_refuted"
   ],
   "note": "Refuted (a consequence, not part of the statement): with copy_mask and a fill value equal to the null value the valid cells hold the null value. dask's promotion of dtypes when the null value does not fit is not modelled."
  },
  {
   "property": "C68",
   "status": "proved",
   "theorems": [
    "C68_sum",
    "C68_prod",
    "C68_mean",
    "C68_var",
    "C68_std",
    "C68_all",
    "C68_any",
    "C68_int_sum",
    "C68_int_prod"
   ],
   "note": "Real arithmetic for floats, without rounding and infinities; dask's reductions are modelled, not verified. min and max: C33."
  },
  {
   "property": "C69",
   "status": "partial",
   "theorems": [
    "C69_pick",
    "C69_sum",
    "C69_refused",
    "C69_valid_null_refuted",
    "C69_close_null_refuted",
    "C69_bool_refuted"
   ],
   "note": "placing rasters on the common grid, np.result_type and the conversion of values are parameters; sum for integers, at most six rasters or no run of values that sums to the null value (see C13; C94 for floats). Refuted: valid cells that hold the null value of the result are null; null cells become values if the null values of rasters are close but not equal; min and max of bool rasters raise ValueError"
  },
  {
   "property": "C70",
   "status": "partial",
   "theorems": [
    "C70_round_trip",
    "C70_saved",
    "C70_null_value",
    "C70_refused",
    "C70_opened",
    "C70_tile",
    "C70_int64_refuted",
    "C70_nan_refuted",
    "C70_uint64_refuted",
    "C70_tile_refuted"
   ],
   "note": "GDAL, rasterio and the conversion of values are parameters with stated hypotheses. Refuted: valid int64 cells that round to the same double as the null value become null; NaN cells of float rasters without null value become null; null values of uint64 beyond 2^53 rely on GDAL; save_chunks gives several bands without null value the default one, so valid cells that hold it become null in the files"
  },
  {
   "property": "C71",
   "status": "partial",
   "theorems": [
    "C71_rows",
    "C71_columns",
    "C71_crs",
    "C71_refused",
    "C71_band_refuted",
    "C71_int64_refuted"
   ],
   "note": "exact coordinates (C40 has the doubles); reprojection and conversion to float64 are parameters. Refuted: with column_name='band' the values replace the numbers of the bands; 64-bit integers are rounded"
  },
  {
   "property": "C72",
   "status": "partial",
   "theorems": [
    "C72_polygons",
    "C72_same",
    "C72_exact",
    "C72_refused",
    "C72_int64_refuted",
    "C72_float64_refuted",
    "C72_nan_refuted"
   ],
   "note": "rasterio's shapes is a parameter that must cover the valid cells of a chunk with polygons of their values; polygons are lists of cells. Refuted: values beyond int32 are wrong and areas that differ by 2^32 are joined; float64 values are rounded to single precision; valid NaN cells are in no polygon"
  },
  {
   "property": "C73",
   "status": "partial",
   "theorems": [
    "C73_rasterize",
    "C73_same",
    "C73_mask",
    "C73_mask_null_value",
    "C73_refused",
    "C73_again",
    "C73_thin",
    "C73_again_refuted",
    "C73_mask_null_value_refuted",
    "C73_thin_refuted"
   ],
   "note": "every chunk of like has two rows and columns at least; features say which cells they touch; to_crs, clip and GDAL are not modelled further; null value neither NaN nor a feature's value (see C35). Refuted: a call without spatial partitions leaves like's bounds as spatial partitions in the caller's table, and a later call for a grid elsewhere loses features; with mask=True and null_value=1 every cell is null; a chunk of one row or column makes every call raise"
  },
  {
   "property": "C74",
   "status": "partial",
   "theorems": [
    "C74_clip_box",
    "C74_clip",
    "C74_erase",
    "C74_envelope",
    "C74_mask",
    "C74_complement",
    "C74_same",
    "C74_thin",
    "C74_thin_mask",
    "C74_refused",
    "C74_chunks_refuted"
   ],
   "note": "Refuted: when the window takes a single row or column out of a chunk, clip, erase and envelope raise, and mask raises for chunks of one row or column; C74_thin shows that there is never a result then. the window kept by rio.clip_box, the bounds of the features and the cells a feature touches are parameters"
  },
  {
   "property": "C75",
   "status": "proved",
   "theorems": [
    "C75_masked",
    "C75_unmasked",
    "C75_exact",
    "C75_chunks",
    "C75_refused",
    "C75_symmetric_refuted",
    "C75_empty_annulus_refuted",
    "C75_radius_refuted"
   ],
   "note": "one band; the mean and arithmetic are parameters, the annulus must reach less than the raster's size beyond a cell (as C20). Findings: the index is not symmetric, radii are one cell less than asked for, an unmasked raster gets valid cells made of NaN where the annulus is empty"
  },
  {
   "property": "C76",
   "status": "proved",
   "theorems": [
    "C76_gtiff",
    "C76_cog",
    "C76_gtiff_warnings",
    "C76_cog_warnings",
    "C76_other_driver",
    "C76_extension",
    "C76_lower",
    "C76_write_cog",
    "C76_write",
    "C76_temp_removed",
    "C76_refused_first",
    "C76_opened",
    "C76_opened_refuted",
    "C76_driver_case_refuted",
    "C76_resampling_late_refuted",
    "C76_empty_overviews_refuted"
   ],
   "note": "rasterio's calls are operations that may raise; strings are ASCII; gdal_kwargs is a dict, so its keys are different. Findings: a str path is never refused, driver names in other case lose the options silently, an unknown resampling is noticed after writing"
  },
  {
   "property": "C77",
   "status": "partial",
   "theorems": [
    "C77_raster",
    "C77_features",
    "C77_overlap",
    "C77_long",
    "C77_overlap_long",
    "C77_name",
    "C77_refused",
    "C77_several_bands_refuted",
    "C77_index_refuted",
    "C77_mask_refuted",
    "C77_band_order_refuted",
    "C77_again_refuted",
    "C77_thin",
    "C77_one_row_refuted"
   ],
   "note": "for features, the chunks dask chooses have two rows and columns at least; cells are null exactly where they hold the null value; a raster of zones for data with several bands must have the chunks dask chooses; sum, prod, mean, std, var, median, asm and entropy are any function of the valid values that does not depend on their order (C32 has most of them). Refuted: zones for several bands in other chunks are refused, zones are named index + 1, valid cells holding the null value are left out, band 10 comes before band 2, a second call loses zones, features with a chunk of one row or column (e.g. data of one row) raise"
  },
  {
   "property": "C78",
   "status": "proved",
   "theorems": [
    "C78_call",
    "C78_inplace",
    "C78_operands",
    "C78_functions",
    "C78_unfit",
    "C78_types",
    "C78_dtype_refuted",
    "C78_int_refuted",
    "C78_large_int_refuted",
    "C78_crs_refuted"
   ],
   "note": "numpy's choice of dtype and its arithmetic are part of the function; arrays come with their values spread over the raster (C63). Refuted: keywords such as dtype= have no effect, a Python int turns uint64 into float64, an int beyond int64 raises OverflowError, different CRSs are combined"
  },
  {
   "property": "C79",
   "status": "proved",
   "theorems": [
    "C79_memory",
    "C79_lazy",
    "C79_operations",
    "C79_cast_field",
    "C79_getitem",
    "C79_missing_label",
    "C79_iteration",
    "C79_object_ids",
    "C79_open",
    "C79_open_refused",
    "C79_sources",
    "C79_refused",
    "C79_gaps_refuted",
    "C79_labels_refuted",
    "C79_count_refuted",
    "C79_size_refuted",
    "C79_buffer_refuted",
    "C79_geometry_name_refuted",
    "C79_empty_refuted"
   ],
   "note": "Geometries are names; reading a file is a function with the hypothesis that it gives the features in partitions labelled from 0. Refuted: labels with gaps (to_crs raises, v[i] fails), filtered collections over-count, a size one too small is accepted, buffer drops the fields, other names of the geometry column, copying an empty Vector"
  },
  {
   "property": "C80",
   "status": "partial",
   "theorems": [
    "C80_length_partial",
    "C80_cuts_partial",
    "C80_refused",
    "C80_field_refuted",
    "C80_radius_refuted",
    "C80_geographic_refuted"
   ],
   "note": "Missing: fields not called weights, radii beyond the size of the raster, geographic systems (refuted: all three raise); sums and products are exact (C38 has binary32); the geometry (buffers, clips, intersections) is a parameter with stated laws, of which the coverage of buffers can fail (C38_buffers_refuted)"
  },
  {
   "property": "C81",
   "status": "proved",
   "theorems": [
    "C81_pad",
    "C81_covers",
    "C81_targets",
    "C81_refused",
    "C81_infinite",
    "C81_nan_refuted"
   ],
   "note": "Exact coordinates; rioxarray's pad_box is modelled, not verified; the values of new cells are those of C30. Refuted: NaN bounds are not refused and add nothing"
  },
  {
   "property": "C82",
   "status": "partial",
   "theorems": [
    "C82_boxes_partial",
    "C82_tile_partial",
    "C82_thin_refused",
    "C82_bands",
    "C82_all_rasters_refuted",
    "C82_band_position_refuted"
   ],
   "note": "Missing: chunks of one row or column (refuted: rioxarray cannot tell their resolution and the whole call raises). Refuted: chunk_band counts bands, not chunks. Exact coordinates; rioxarray's bounds is modelled, not verified"
  },
  {
   "property": "C83",
   "status": "partial",
   "theorems": [
    "C83_cells",
    "C83_nulls_partial",
    "C83_grid",
    "C83_same_grid",
    "C83_refused",
    "C83_tuple_refuted",
    "C83_valid_refuted",
    "C83_mean_refuted"
   ],
   "note": "Null exactly where no valid source cell is seen: proved for rasters with a null value and methods that choose one of the values; refuted otherwise (valid cells that hold or are calculated to the null value become null). Refuted: a tuple as resolution, as documented, raises TypeError. GDAL's warp is a parameter with a stated law; grids are abstract"
  },
  {
   "property": "C84",
   "status": "partial",
   "theorems": [
    "C84_open",
    "C84_places_partial",
    "C84_refused",
    "C84_too_few_refuted",
    "C84_kwargs_refuted",
    "C84_upside_down_refuted",
    "C84_default_refuted",
    "C84_nan_refuted"
   ],
   "note": "Cells are at the variable's coordinates if the dataset's transform agrees with them (refuted otherwise: they are ignored, so rows can be upside down). Refuted: variables with too few dimensions raise in spite of ignore_extra_dim_errors; the caller's xarray_kwargs is changed; without declared missing value valid cells that hold the default null value are null and NaN cells are not. Files as xarray and rioxarray present them; exact coordinates"
  },
  {
   "property": "C85",
   "status": "partial",
   "theorems": [
    "C85_round",
    "C85_rounded",
    "C85_to_null_mask",
    "C85_replace_null_partial",
    "C85_get_raster",
    "C85_get_refused",
    "C85_nulls_to_nan",
    "C85_replace_null_refuted",
    "C85_replace_valid_refuted",
    "C85_round_null_refuted",
    "C85_round_wrap_refuted",
    "C85_nan_refuted"
   ],
   "note": "Rounding is exact up to one cast (numpy rounds each of three steps). Refuted: replace_null keeps the replaced cells null and makes valid cells that hold the value null; a valid cell that rounds to the null value stays valid and holds it; integers near the limit of their dtype wrap when rounded to tens; after null_to_nan null cells do not hold the null value"
  },
  {
   "property": "C86",
   "status": "partial",
   "theorems": [
    "C86_cells",
    "C86_same_grid",
    "C86_few",
    "C86_crs",
    "C86_shape_refuted",
    "C86_beside_refuted",
    "C86_null_value_refuted",
    "C86_crs_refuted"
   ],
   "note": "np.result_type and casts are parameters. Refuted: rasters of other shapes are cut to the common rows and columns instead of being refused, rasters side by side give a raster without cells, a valid cell may hold the new default null value, rasters of different CRSs are joined and get the CRS of the first"
  },
  {
   "property": "C87",
   "status": "partial",
   "theorems": [
    "C87_union",
    "C87_intersection",
    "C87_whole",
    "C87_same",
    "C87_refused",
    "C87_touching_refuted",
    "C87_resolution_refuted",
    "C87_cut_refuted"
   ],
   "note": "reprojecting a grid is a parameter (to axis-aligned grids), GeoBox.from_bbox is modelled from odc-geo, coordinates are exact. Refuted: grids that only touch have an intersection of one column or row, the vertical resolution of the first grid is not used, up to 1/100 of a cell is cut off"
  },
  {
   "property": "C88",
   "status": "partial",
   "theorems": [
    "C88_arguments",
    "C88_refused",
    "C88_accepted",
    "C88_clash",
    "C88_forwarded_refuted"
   ],
   "note": "the names that dask takes or uses internally are parameters; with those of dask's signatures it is refuted that every other keyword is forwarded: new_axes, adjust_chunks and out_ind end in a TypeError of dask"
  },
  {
   "property": "C89",
   "status": "partial",
   "theorems": [
    "C89_features",
    "C89_size_partial",
    "C89_size",
    "C89_partitions",
    "C89_size_refuted",
    "C89_getitem_refuted"
   ],
   "note": "dask_geopandas' spatial_shuffle is modelled (set_index with the distance along the curve), not verified. Refuted: with several partitions the size is calculated from distances along the curve, and features cannot be accessed by number"
  },
  {
   "property": "C90",
   "status": "partial",
   "theorems": [
    "C90_kept",
    "C90_integers_kept",
    "C90_refused",
    "C90_first_last",
    "C90_first_last_mask",
    "C90_min_max",
    "C90_min_max_mask",
    "C90_features_refuted",
    "C90_untouched_refuted",
    "C90_int64_refuted"
   ],
   "note": "one chunk; rasterio's check of the fill value and numba's promotion are modelled, not verified. Refuted for a null value that the dtype of the field rounds: features of other partitions are lost; an integer field and a fraction leave untouched cells valid; 64-bit integers go through float64 with an old GDAL"
  },
  {
   "property": "C91",
   "status": "partial",
   "theorems": [
    "C91_call_partial",
    "C91_plain",
    "C91_one_cell",
    "C91_operands",
    "C91_functions",
    "C91_shapes",
    "C91_unknown",
    "C91_count",
    "C91_list_refuted",
    "C91_raster_refuted"
   ],
   "note": "on top of C78; another adapter as operand and ints beyond uint64 are not modelled. Refuted: a list with one value for each band is refused if there are as many columns as bands or one column; a raster of one cell loses its null mask"
  },
  {
   "property": "C92",
   "status": "partial",
   "theorems": [
    "C92_integers",
    "C92_floats",
    "C92_single_sums",
    "C92_flat_ints",
    "C92_flat_floats",
    "C92_bands",
    "C92_elevation_shape",
    "C92_bad_sources",
    "C92_parts",
    "C92_unsigned_costs_refuted",
    "C92_uint64_sources_refuted",
    "C92_fractions_refuted",
    "C92_overflow_refuted"
   ],
   "note": "integer elevations are float64s (the same within 2^25 of 0). Refuted: unsigned costs with a null value are refused (NumPy 2), null cells of uint64 sources with a null value above int64 count as sources, indices that are fractions are truncated, int64 costs of 2^62 overflow"
  },
  {
   "property": "C93",
   "status": "partial",
   "theorems": [
    "C93_direction",
    "C93_points",
    "C93_back",
    "C93_great_circle",
    "C93_metric",
    "C93_meridian_partial",
    "C93_equator_partial",
    "C93_sphere_refuted",
    "C93_antimeridian_refuted"
   ],
   "note": "real arithmetic, without rounding; 57.29577951308232 stands for 180 / pi. Missing (refuted): with the great circle metric the direction is that of the shortest way only along meridians and along the equator; on a parallel it is off to the south, across the antimeridian it is the opposite"
  },
  {
   "property": "C94",
   "status": "partial",
   "theorems": [
    "C94_sum_partial",
    "C94_whole_partial",
    "C94_few_partial",
    "C94_missing",
    "C94_null_refuted",
    "C94_partial_sum_refuted",
    "C94_infinity_refuted"
   ],
   "note": "one cell, all bands; C69 has whole rasters. Missing: finite null values with more than six rasters (refuted: a sum or partial sum equal to the null value is taken for null) and infinite values (refuted: infinities of both signs make a null cell)"
  },
  {
   "property": "C95",
   "status": "partial",
   "theorems": [
    "C95_polygons",
    "C95_points",
    "C95_default_null_refuted"
   ],
   "note": "joins the models of C72 and C73, C58 and C71; a polygon touches exactly the cells it is made of (GDAL with all_touched=False). Refuted without the hypothesis on the null value: with the default null value, valid cells that hold it are lost"
  },
  {
   "property": "C96",
   "status": "partial",
   "theorems": [
    "C96_pieces",
    "C96_quadrants",
    "C96_chunks",
    "C96_cells_refuted"
   ],
   "note": "joins the models of C17, C69 and C87. Reprojection onto the common grid copies the cells with the same centres and leaves the rest null (C83); exact coordinates. Refuted for cells that are not square: the combined grid has square cells"
  },
  {
   "property": "C97",
   "status": "proved",
   "theorems": [
    "C97_bands",
    "C97_tiles",
    "C97_bands_kept",
    "C97_tiles_kept",
    "C97_extension",
    "C97_path_extension",
    "C97_no_extension",
    "C97_path_refused",
    "C97_bands_error",
    "C97_tiles_error",
    "C97_both_refuted",
    "C97_driver_case_refuted"
   ],
   "note": "joins the models of C17, C18, C70 and C76. Side findings, refuted: null_value and no_data_value together are refused as by save; the extension does not depend on the case of the driver's name"
  },
  {
   "property": "C98",
   "status": "proved",
   "theorems": [
    "C98_uniform",
    "C98_proximity",
    "C98_eight_refuted"
   ],
   "note": "joins the models of C04, C05 and C66; floats must hold the distances exactly (scaled). Side finding, refuted: with connectivity 8 uniform costs give neither metric"
  },
  {
   "property": "C99",
   "status": "proved",
   "theorems": [
    "C99_budget",
    "C99_reduction",
    "C99_refused",
    "C99_output_refuted",
    "C99_inputs_refuted"
   ],
   "note": "dask's choice of tiles is a parameter that keeps to its limit up to a tolerance below 2. Side findings, refuted: a result of a larger dtype (or with a mask), or another raster of a larger dtype, does not fit the budget"
  },
  {
   "property": "C100",
   "status": "proved",
   "theorems": [
    "C100_same",
    "C100_order",
    "C100_fraction_refuted",
    "C100_both_refuted"
   ],
   "note": "joins the models of C27 and C28. Shown to differ for fractions and inclusivity both"
  },
  {
   "property": "C101",
   "status": "proved",
   "theorems": [
    "C101_same",
    "C101_null_condition_refuted",
    "C101_negative_refuted",
    "C101_default_refuted",
    "C101_wide_condition_refuted"
   ],
   "note": "joins the models of C24 and C26. The dtype of where's result is given, as in C26"
  },
  {
   "property": "C102",
   "status": "proved",
   "theorems": [
    "C102_max",
    "C102_min",
    "C102_coords",
    "C102_mean_refuted",
    "C102_mode_refuted"
   ],
   "note": "on the model of C39. Shown not to hold for mean and mode"
  },
  {
   "property": "C103",
   "status": "proved",
   "theorems": [
    "C103_dilate",
    "C103_erode",
    "C103_unmasked",
    "C103_even_refuted",
    "C103_even_erode_refuted"
   ],
   "note": "joins the models of C20 and C48. Refuted for erosion, and for rasters without null value, with even sizes"
  },
  {
   "property": "C104",
   "status": "proved",
   "theorems": [
    "C104_dilate",
    "C104_erode",
    "C104_even_refuted"
   ],
   "note": "on the model of C48. Refuted for two even sizes"
  },
  {
   "property": "C105",
   "status": "proved",
   "theorems": [
    "C105_opening",
    "C105_closing",
    "C105_opening_twice",
    "C105_closing_twice",
    "C105_closing_edge_refuted"
   ],
   "note": "on the model of C48. Refuted: with a null value, closing drops valid cells at the edges"
  }
 ]
}