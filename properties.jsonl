{"id": "C01", "title": "The cost-distance priority queue behaves as a finite map from cell to key", "statement": "Starting from an empty queue, after any sequence of push, push_if_lower and pop calls the queue holds exactly the entries an abstract cell->key map would hold after the same calls: push inserts or overwrites, push_if_lower inserts or lowers only, pop removes the entry it reports, out-of-range cells change nothing, and every call returns the status code (-1, 0 or 1) the map dictates. Growing and shrinking the storage never loses, duplicates or changes an entry.", "quantifier": "every initial capacity and max value, every finite sequence of calls with any non-NaN keys (infinities included) and any cell numbers", "why_tests_cant": "the state is an implicit tree plus cross references that is re-packed at data-dependent moments; tests exercise only a few call histories and sizes", "anchors": ["raster_tools/distance/_heap.py:init_heap_data", "raster_tools/distance/_heap.py:push", "raster_tools/distance/_heap.py:push_if_lower", "raster_tools/distance/_heap.py:pop", "raster_tools/distance/_heap.py:_resize_levels", "raster_tools/distance/_heap.py:_remove"]}
{"id": "C02", "title": "pop always reports an entry whose key is minimal", "statement": "Whenever the queue is non-empty, pop returns a cell that is in the queue together with its current key, and no entry of the queue has a smaller key. On an empty queue pop reports an infinite key and changes nothing.", "quantifier": "every reachable queue state", "why_tests_cant": "minimality has to hold after every interleaving of key decreases, key increases, growth and shrinkage", "anchors": ["raster_tools/distance/_heap.py:pop", "raster_tools/distance/_heap.py:_sift"]}
{"id": "C03", "title": "Queue operations never index outside their arrays", "statement": "No push, push_if_lower or pop reads or writes outside the key, value or cross-reference arrays (the code is compiled without bounds checks, so a violation would be silent memory corruption).", "quantifier": "every capacity >= 1, max value >= 1 and every finite sequence of calls", "why_tests_cant": "an out-of-bounds access in compiled code is usually invisible to a test; absence must be shown for all histories", "anchors": ["raster_tools/distance/_heap.py:_sift", "raster_tools/distance/_heap.py:_sift_all", "raster_tools/distance/_heap.py:_resize_levels", "raster_tools/distance/_heap.py:_remove", "raster_tools/distance/_heap.py:_simple_push", "raster_tools/distance/_heap.py:pop"]}
{"id": "C04", "title": "Cost distance is the minimum over all paths", "statement": "For every cell the accumulated cost distance is attained by some path of legal moves from a source and is no larger than the accumulated cost of any legal path from any source, where costs are accumulated with the same IEEE double operations (length * 0.5 * (cost_a + cost_b) per step). Legal moves go to in-grid neighbours (8 or 4), start from and lead to cells whose cost is not negative, infinite or NaN and whose elevation is not null.", "quantifier": "every grid shape, cost surface, source layout, scaling, connectivity and optional elevation surface (with per-step costs that are not NaN)", "why_tests_cant": "the claim quantifies over all paths on all grids, including rounding behaviour", "anchors": ["raster_tools/distance/cost_distance.py:cost_distance_analysis_numpy", "raster_tools/distance/cost_distance.py:_cost_distance_analysis_core", "raster_tools/distance/cost_distance.py:cost_distance_analysis"]}
{"id": "C05", "title": "Unreachable cells, and only those, are null in all three cost-distance outputs", "statement": "A cell of the outputs of cost_distance_analysis is null exactly when it is null in costs or no legal path from a source has a finite accumulated cost; the null masks of the distance, traceback and allocation rasters are the same, and null cells carry the null value of each raster.", "quantifier": "every input raster and source layout", "why_tests_cant": "reachability is a global property of the surface", "anchors": ["raster_tools/distance/cost_distance.py:cost_distance_analysis"]}
{"id": "C06", "title": "Following the traceback leads to the allocated source at exactly the reported cost", "statement": "From every reached cell, repeatedly moving to the neighbour named by the traceback code ends at a source cell (code 0) after fewer steps than there are cells, never leaves the grid, and never cycles, even across zero-cost cells; the allocation of the starting cell is the label of that source; and accumulating the step costs back along that walk gives exactly the reported distance.", "quantifier": "every grid and every reached cell", "why_tests_cant": "walk length is unbounded and ties / zero costs could create cycles for particular inputs only", "anchors": ["raster_tools/distance/cost_distance.py:_cost_distance_analysis_core", "raster_tools/distance/cost_distance.py:cost_distance_analysis", "raster_tools/distance/cost_distance.py:_MOVES"]}
{"id": "C07", "title": "The cost-distance iteration cap never truncates the search", "statement": "The main loop always stops because the frontier is empty, never because the 1.5*size iteration cap was hit; each cell is settled at most once.", "quantifier": "every input", "why_tests_cant": "a cap that is hit only on adversarial surfaces would silently give wrong results", "anchors": ["raster_tools/distance/cost_distance.py:_cost_distance_analysis_core"]}
{"id": "C08", "title": "connectivity=4 uses only orthogonal moves, and no move wraps around a row end", "statement": "With connectivity=4 the traceback contains only the codes 1, 3, 5, 7 besides 0 (source) and the null code; with connectivity 8 and 4, the cell a code points to is the true geometric neighbour in the grid (row and column differ by the documented offsets) and lies inside the grid.", "quantifier": "every grid shape including single-row and single-column grids", "why_tests_cant": "flat-index arithmetic can alias a neighbour across a row end for particular shapes", "anchors": ["raster_tools/distance/cost_distance.py:_MOVES", "raster_tools/distance/cost_distance.py:_ravel_indices", "raster_tools/distance/cost_distance.py:_get_strides", "raster_tools/distance/cost_distance.py:_cost_distance_analysis_core"]}
{"id": "C09", "title": "Sources keep distance zero and their own label", "statement": "Every source cell has accumulated distance 0, traceback code 0 and its own label as allocation, regardless of other sources and of costs around it, unless it is null in costs.", "quantifier": "every source layout", "why_tests_cant": "another source could overwrite a label only for particular processing orders", "anchors": ["raster_tools/distance/cost_distance.py:_cost_distance_analysis_core"]}
{"id": "C10", "title": "Every reported proximity is the distance to a real target within range", "statement": "Every finite value reported by the proximity computation is the distance from the cell to some actual target cell, so it never under-estimates the distance to the nearest target; it never exceeds max_distance; target cells report 0.", "quantifier": "every raster, target set, metric and max_distance", "why_tests_cant": "the scanline algorithm propagates candidates through buffers in four passes; a stale candidate would only surface for particular layouts", "anchors": ["raster_tools/distance/proximity.py:_process_proximity_line", "raster_tools/distance/proximity.py:_compute_proximity", "raster_tools/distance/proximity.py:proximity"]}
{"id": "C11", "title": "Proximity, allocation and direction describe the same target", "statement": "For each cell there is one target such that allocation is that target's value, the proximity is the distance to it and the direction is the bearing to it; cells null in one are null in the others.", "quantifier": "every raster and target set", "why_tests_cant": "the three outputs are produced by separate runs of the same scan with different finalisation", "anchors": ["raster_tools/distance/proximity.py:_compute_proximity", "raster_tools/distance/proximity.py:allocation", "raster_tools/distance/proximity.py:direction"]}
{"id": "C12", "title": "mosaic picks the documented value at every cell, for any number of rasters", "statement": "On a common grid, at each cell mosaic returns: first/last - the value of the first/last raster in list order that is not null there; min/max - the smallest/largest non-null value; null exactly when every raster is null there. The recursive splitting of long raster lists does not change the result.", "quantifier": "every number of input rasters and every stack of values", "why_tests_cant": "the reduction tree depends on the number of rasters; tests use a handful", "anchors": ["raster_tools/_mosaic.py:_paint", "raster_tools/_mosaic.py:_paint_recursive", "raster_tools/_mosaic.py:_mosaic_single_band", "raster_tools/_mosaic.py:mosaic"]}
{"id": "C13", "title": "mosaic 'sum' equals the sum of the non-null values", "statement": "With mosaic_method='sum' the result at each cell is the (dtype-wrapped) sum of the non-null values, null exactly when all are null.", "quantifier": "every number of input rasters and every stack of values", "why_tests_cant": "whether a partial sum collides with the null value depends on data and on the number of rasters", "anchors": ["raster_tools/_mosaic.py:_paint", "raster_tools/_mosaic.py:_paint_recursive"]}
{"id": "C14", "title": "Block geometry stays consistent under any sequence of pad and shift calls", "statement": "For a block description obtained from a raster, after any sequence of pad_x/pad_y/pad/shift calls that succeeds, the block's shape, row/column slices and geobox describe the same cells: slice lengths equal the shape and the coordinates of cell (i, j) of the block are the coordinates of cell (row_start+i, col_start+j) of the raster's grid.", "quantifier": "every block and every sequence of operations with any amounts", "why_tests_cant": "a sequence of geometry edits is unbounded", "anchors": ["raster_tools/blocks.py:GeoBlockInfo", "raster_tools/blocks.py:geo_block_infos"]}
{"id": "C15", "title": "Chunk locations partition the raster", "statement": "The row/column ranges derived from a raster's chunks are consecutive, disjoint and cover the raster exactly; every cell lies in exactly one block, blocks are enumerated in row-major order, and the block info looked up by chunk location describes that chunk.", "quantifier": "every chunking", "why_tests_cant": "holds for all lists of chunk sizes, not a sample", "anchors": ["raster_tools/dask_utils.py:chunks_to_array_locations", "raster_tools/blocks.py:geo_block_infos", "raster_tools/raster.py:Raster.get_chunk_bounding_boxes", "raster_tools/raster.py:Raster.get_chunk_rasters"]}
{"id": "C16", "title": "The georeferencing seen by geo_map_overlap functions is exact", "statement": "For a block extended by overlap, the coordinates handed to the function are those of the cells in the extended block, for interior chunks and for every padding boundary.", "quantifier": "every chunk, every depth specification, every boundary mode", "why_tests_cant": "the split of the extra rows between the two sides is inferred from shapes", "anchors": ["raster_tools/blocks.py:_resolve_gbi_with_overlap_pad", "raster_tools/blocks.py:geo_map_overlap"]}
{"id": "C17", "title": "Quadrants and per-chunk rasters partition and reassemble the raster", "statement": "to_quadrants and get_chunk_rasters return pieces whose cells are exactly the cells of the raster, each once, with their data, mask and coordinates; laying the pieces out by position gives the raster back.", "quantifier": "every raster shape and chunking", "why_tests_cant": "odd sizes and degenerate shapes are unbounded in number", "anchors": ["raster_tools/raster.py:Raster.to_quadrants", "raster_tools/raster.py:Raster.get_chunk_rasters"]}
{"id": "C18", "title": "save_chunks file names are unique and sort in block order", "statement": "Different chunks are given different file names, and the lexicographic order of the names is the (band, row, column) order of the chunks.", "quantifier": "every number of chunks in each dimension", "why_tests_cant": "zero-padding width depends on the chunk counts", "anchors": ["raster_tools/raster.py:Raster.save_chunks"]}
{"id": "C19", "title": "Focal statistics do not depend on how the raster is chunked", "statement": "Running a focal operation block-wise with overlap gives the same value at every cell as running it on the whole raster in one block.", "quantifier": "every chunking, kernel size (odd or even in each dimension) and kernel", "why_tests_cant": "chunk boundaries can fall anywhere relative to the kernel", "anchors": ["raster_tools/focal.py:focal", "raster_tools/focal.py:_focal", "raster_tools/focal.py:_focal_chunk", "raster_tools/focal.py:_get_offsets"]}
{"id": "C20", "title": "A focal value is the statistic of the valid cells under the kernel", "statement": "The value at a cell is the statistic applied to exactly the non-null cells of the raster that lie under a true kernel entry when the kernel is centred on that cell (cells beyond the raster edge are ignored); cells that are null in the input are null in the output.", "quantifier": "every raster, mask and kernel", "why_tests_cant": "index arithmetic for even kernels and at the borders", "anchors": ["raster_tools/focal.py:_focal_chunk", "raster_tools/focal.py:focal"]}
{"id": "C21", "title": "correlate and convolve agree with the textbook sums and are chunk independent", "statement": "correlate returns the sum of products of the kernel with the window; convolve is correlate with the kernel flipped in both directions; both give the same result for every chunking.", "quantifier": "every kernel and chunking", "why_tests_cant": "alignment of even-sized kernels and the flipping interact", "anchors": ["raster_tools/focal.py:correlate", "raster_tools/focal.py:convolve", "raster_tools/focal.py:_correlate2d_chunk"]}
{"id": "C22", "title": "Overlap depth normalisation and re-chunking always give chunks at least as large as the depth", "statement": "Every accepted depth specification is normalised to the documented per-axis meaning; malformed ones are rejected; after re-chunking for overlap no chunk is smaller than the overlap depth in its axis and the total size is unchanged.", "quantifier": "every depth specification and every chunking", "why_tests_cant": "merging of small chunks depends on the whole chunk list", "anchors": ["raster_tools/blocks.py:_normalize_depth", "raster_tools/blocks.py:_normalize_depth_axis", "raster_tools/blocks.py:_ensure_chunks_for_overlap"]}
{"id": "C23", "title": "Masked cells carry the null value and other cells are untouched", "statement": "After set_null_value / burn_mask / any constructor that burns the mask, a cell is masked exactly as documented, every masked cell holds the null value and every unmasked cell keeps its value.", "quantifier": "every raster, old and new null value", "why_tests_cant": "relation between data, mask and null value must survive any history of calls", "anchors": ["raster_tools/raster.py:Raster.set_null_value", "raster_tools/raster.py:Raster.burn_mask", "raster_tools/raster.py:data_to_xr_raster_ds"]}
{"id": "C24", "title": "set_null only adds nulls", "statement": "set_null(mask_raster) yields exactly the union of the old null cells and the selected cells; it is idempotent, order independent, and never changes the value of a cell that stays valid.", "quantifier": "every raster and every sequence of masks", "why_tests_cant": "history of calls is unbounded", "anchors": ["raster_tools/raster.py:Raster.set_null"]}
{"id": "C25", "title": "Arithmetic between rasters is null exactly where an operand is null", "statement": "For every element-wise operation the output cell is null if and only if some operand cell is null, and elsewhere it is the operation applied to the operand values.", "quantifier": "every operation, operand count, null values and masks", "why_tests_cant": "null-value collisions and reconciliation depend on data and dtypes", "anchors": ["raster_tools/raster.py:_apply_ufunc", "raster_tools/utils.py:merge_masks"]}
{"id": "C26", "title": "where() selects per cell and combines nulls as documented", "statement": "where(cond, a, b): a cell is null when the condition is null there or the selected branch is null there; otherwise it holds the selected branch's value.", "quantifier": "every condition, branches (raster or scalar) and masks", "why_tests_cant": "depends on collisions between values and the chosen null value", "anchors": ["raster_tools/general.py:where", "raster_tools/general.py:_get_where_nv"]}
{"id": "C27", "title": "remap_range applies the first matching interval", "statement": "A valid cell takes the new value of the first interval in list order that contains it (with the requested end-point inclusion), otherwise it keeps its value; null cells stay null.", "quantifier": "every list of mappings, inclusivity mode and value", "why_tests_cant": "overlapping intervals and end points", "anchors": ["raster_tools/general.py:remap_range", "raster_tools/general.py:_remap_values", "raster_tools/general.py:_normalize_mappings"]}
{"id": "C28", "title": "reclassify replaces exactly the mapped values", "statement": "A valid cell whose value is a key of the mapping takes the mapped value (or null if mapped to None); other valid cells are kept, or become null when unmapped_to_null is set; null cells stay null; the caller's mapping is not changed.", "quantifier": "every mapping and raster", "why_tests_cant": "the mapping is data and is shared between calls", "anchors": ["raster_tools/general.py:reclassify", "raster_tools/general.py:_reclassify_chunk"]}
{"id": "C29", "title": "Stacking bands and splitting them are inverse", "statement": "split_bands(stack_bands([r1..rn])) gives back the bands of the inputs in order with their values, and the null cells are exactly the inputs' null cells; the number of bands is the sum of the input band counts.", "quantifier": "every list of rasters on one grid", "why_tests_cant": "null-value reconciliation across inputs", "anchors": ["raster_tools/_stack.py:stack_bands", "raster_tools/_stack.py:split_bands", "raster_tools/raster.py:Raster.get_bands"]}
{"id": "C30", "title": "pad keeps every original cell and marks exactly the requested new cells", "statement": "pad never removes or changes an original cell; new cells take the per-band fill value and are null exactly when the fill is the null value (or fill_values is None).", "quantifier": "every raster, extent and fill specification", "why_tests_cant": "per-band combinations", "anchors": ["raster_tools/_padding.py:pad", "raster_tools/_padding.py:_validate_fill_values"]}
{"id": "C31", "title": "mode, unique count, asm and entropy are functions of the multiset of valid values", "statement": "The focal/zonal mode is the smallest of the most frequent valid values, unique counts the distinct valid values; these do not depend on the order of the values or on null cells.", "quantifier": "every finite collection of values", "why_tests_cant": "ties and orderings are combinatorial", "anchors": ["raster_tools/stat_common.py:nanmode_jit", "raster_tools/stat_common.py:nan_unique_count_jit", "raster_tools/stat_common.py:nanasm_jit", "raster_tools/stat_common.py:nanentropy_jit"]}
{"id": "C32", "title": "Zonal statistics do not depend on partitioning", "statement": "The chunk/aggregate/finalise statistics used for zonal statistics give, for every zone, the statistic of all the zone's values, however the values are split over partitions.", "quantifier": "every partitioning of the cells", "why_tests_cant": "partitioning is chosen by the scheduler", "anchors": ["raster_tools/zonal.py:zonal_stats", "raster_tools/zonal.py:_zonal_stats"]}
{"id": "C33", "title": "Chunked min/max ignores empty and all-NaN blocks", "statement": "The block-wise minimum/maximum of a column equals the minimum/maximum over all non-NaN values, for any split into blocks including empty blocks and any reduction tree.", "quantifier": "every split and reduction tree", "why_tests_cant": "empty-block handling depends on data-dependent block sizes", "anchors": ["raster_tools/dask_utils.py:dask_nanmin", "raster_tools/dask_utils.py:dask_nanmax"]}
{"id": "C34", "title": "The common dtype holds every literal", "statement": "The dtype chosen for a list of dtypes and integer literals can represent every integer literal in the list, and it is no wider than needed for the literals alone.", "quantifier": "every list of literals and dtypes", "why_tests_cant": "boundary values of eight integer types in combination", "anchors": ["raster_tools/dtypes.py:get_common_dtype", "raster_tools/dtypes.py:safe_min_scalar_type"]}
{"id": "C35", "title": "Rasterising overlapping features does not depend on vector partitioning", "statement": "With overlap_resolve_method first/last/min/max a cell receives the value of the first/last/smallest/largest-valued feature touching it, whatever the partitioning of the feature table and the reduction tree; untouched cells receive the null value.", "quantifier": "every feature table, partitioning and reduction tree", "why_tests_cant": "partition boundaries and tree shape are chosen at run time", "anchors": ["raster_tools/rasterize.py:rasterize", "raster_tools/rasterize.py:_rasterize_onto_chunk", "raster_tools/rasterize.py:_reduce_stacked_feature_rasters", "raster_tools/rasterize.py:_resolve_first", "raster_tools/rasterize.py:_resolve_last", "raster_tools/rasterize.py:_resolve_min", "raster_tools/rasterize.py:_resolve_max"]}
{"id": "C36", "title": "Vector reading splits the table into consecutive row ranges", "statement": "Delayed reading of a layer reads every row exactly once in order, gives each row its position as index, and the divisions describe the partitions.", "quantifier": "every feature count and partition count", "why_tests_cant": "remainders", "anchors": ["raster_tools/vector.py:_read_file_delayed", "raster_tools/vector.py:_get_len_from_divisions", "raster_tools/vector.py:Vector.__init__"]}
{"id": "C37", "title": "OBJECTID values are unique", "statement": "add_objectid_column gives different features different IDs as long as no partition has more than 10^9 features, and picks a column name that does not exist yet.", "quantifier": "every partitioning and every set of existing columns", "why_tests_cant": "partition sizes are data dependent", "anchors": ["raster_tools/vector.py:add_objectid_column", "raster_tools/vector.py:_add_objid"]}
{"id": "C38", "title": "Line-length batching processes every geometry exactly once", "statement": "Splitting the geometries into batches and merging the per-batch lengths gives for every cell the same total as processing all geometries at once.", "quantifier": "every number of geometries and vertices", "why_tests_cant": "batch sizes depend on averages", "anchors": ["raster_tools/line_stats.py:_get_indices_and_lengths", "raster_tools/line_stats.py:_length_sum"]}
{"id": "C39", "title": "aggregate uses exactly the cells of each window", "statement": "aggregate with an expansion factor gives each output cell the statistic of exactly the factor x factor input cells under it, trimming incomplete windows at the high edges.", "quantifier": "every raster shape and factor", "why_tests_cant": "remainders", "anchors": ["raster_tools/general.py:aggregate", "raster_tools/general.py:_coarsen"]}
{"id": "C40", "title": "Index and coordinate conversions are inverse", "statement": "index -> coordinate -> index is the identity for every in-grid cell, and any point inside a cell maps to that cell.", "quantifier": "every affine grid and point", "why_tests_cant": "rounding at cell borders", "anchors": ["raster_tools/raster.py:Raster.index", "raster_tools/raster.py:Raster.xy", "raster_tools/raster.py:rowcol_to_xy", "raster_tools/raster.py:xy_to_rowcol"]}
{"id": "C41", "title": "Remap files are parsed exactly or rejected", "statement": "A remap file is accepted exactly when each non-comment line has the documented form, duplicates are rejected, and the resulting mapping is the one written in the file.", "quantifier": "every file content", "why_tests_cant": "text inputs are unbounded", "anchors": ["raster_tools/general.py:_parse_remap_file", "raster_tools/general.py:reclassify"]}
{"id": "C42", "title": "Batch scripts evaluate lines in order", "statement": "A batch script evaluates its non-blank, non-comment lines in order, each name refers to its latest assignment, names shadow paths, and the final raster is that of the last assignment.", "quantifier": "every script", "why_tests_cant": "scripts are unbounded histories", "anchors": ["raster_tools/batch.py:parse_batch_script", "raster_tools/batch.py:_parse_raster"]}
{"id": "C43", "title": "Grid comparison accepts identical grids and is tolerant only to sub-pixel noise", "statement": "Two grids compare equal when CRS and shape are equal and each affine coefficient differs by at most 0.1% of the first grid's pixel size; the relation is reflexive; accepting bounds the displacement of any cell.", "quantifier": "every pair of grids", "why_tests_cant": "floating tolerance over all affines and shapes", "anchors": ["raster_tools/_grids.py:grids_close", "raster_tools/_grids.py:are_all_grids_same"]}
{"id": "C44", "title": "clip, erase and mask partition the cells", "statement": "For a feature, mask keeps exactly the valid cells touching the feature, mask(invert=True) exactly the other valid cells, values are unchanged, and applying either never validates a null cell.", "quantifier": "every raster and feature footprint", "why_tests_cant": "all footprints and masks", "anchors": ["raster_tools/clipping.py:_clip", "raster_tools/clipping.py:mask", "raster_tools/clipping.py:clip", "raster_tools/clipping.py:erase"]}
{"id": "C45", "title": "Output null value resolution of the block-map functions is consistent", "statement": "The null value handed to the block function is the one used to build the output mask, following the documented rule (explicit value; else inherit for a single input of the same dtype; else dtype default).", "quantifier": "every dtype, input count and hint combination", "why_tests_cant": "per-block and graph-level resolution happen in different places", "anchors": ["raster_tools/blocks.py:_resolve_out_null_value", "raster_tools/blocks.py:map_blocks"]}
{"id": "C46", "title": "Overlap boundary and mask stay in sync", "statement": "For every boundary mode the padding given to the mask corresponds to the padding given to the data: null fill gives masked cells, a constant equal to the null value gives masked cells, other constants give unmasked cells, reflect/periodic/nearest pad data and mask alike.", "quantifier": "every boundary specification, null value and dtype", "why_tests_cant": "combinations of boundary, dtype and null value", "anchors": ["raster_tools/blocks.py:_resolve_boundary"]}
{"id": "C47", "title": "Region labelling is a labelling of connected components", "statement": "regions gives two cells the same non-zero label exactly when they are connected through equal-valued neighbouring cells under the chosen neighbourhood; labels of different values never coincide.", "quantifier": "every raster and neighbourhood", "why_tests_cant": "connectivity is global", "anchors": ["raster_tools/general.py:regions", "raster_tools/general.py:_create_labels"]}
{"id": "C48", "title": "Dilation and erosion grow and shrink as documented", "statement": "dilate replaces a cell by the maximum over the window and erode by the minimum over the window, restricted to valid cells, so erode <= original <= dilate.", "quantifier": "every raster, mask and footprint", "why_tests_cant": "all masks and window sizes", "anchors": ["raster_tools/general.py:dilate", "raster_tools/general.py:erode"]}
{"id": "C49", "title": "surface operations null the border", "statement": "slope, aspect, curvature and hillshade are null on the outermost ring of cells and wherever a needed neighbour is null, and nowhere else.", "quantifier": "every raster", "why_tests_cant": "chunk borders versus raster borders", "anchors": ["raster_tools/surface.py:_finalize"]}
{"id": "C50", "title": "Overview factors are the powers of two that keep the shorter side at least 256", "statement": "Automatic overviews use 2, 4, 8, ... as long as the shorter side divided by the factor is at least 256, and the list is finite for every size.", "quantifier": "every raster size", "why_tests_cant": "unbounded sizes", "anchors": ["raster_tools/io.py:_auto_overview_factors"]}
{"id": "C51", "title": "Taxi-cab and Chebyshev proximity is exactly the distance to the nearest target", "statement": "With the taxi-cab or the Chebyshev metric on a regular grid, every cell reports exactly the distance to the nearest target cell, or null exactly when no target is within max_distance, whatever the chunking, provided the chunk overlap covers every target within max_distance (or the raster is one chunk).", "quantifier": "every raster, target set, regular grid whose coordinates are small multiples of a power of two, max_distance and chunk; float32 and float64 output", "why_tests_cant": "optimality of a propagation scheme over all target layouts; for the Euclidean metric the same claim is false on a 4 x 4 raster", "anchors": ["raster_tools/distance/proximity.py:_process_proximity_line", "raster_tools/distance/proximity.py:_compute_proximity", "raster_tools/distance/proximity.py:pa_proximity"]}
{"id": "C52", "title": "Focal windows have the documented shapes", "statement": "get_focal_window returns a rectangle of True values, the disc of cells within radius - 1 of the centre, or that disc minus the inner disc; it raises ValueError for non-positive sizes, an inner radius that is not smaller, or a height together with an annulus; the dtype chosen for unique counts holds every count.", "quantifier": "every width, height and radius", "why_tests_cant": "unbounded sizes; off-by-one errors in the padding of the inner disc", "anchors": ["raster_tools/focal.py:get_focal_window", "raster_tools/focal.py:focal"]}
{"id": "C53", "title": "Surface formulas mean what they say", "statement": "In exact arithmetic slope is the angle of Horn's gradient, aspect the compass direction in which the surface falls (-1 where flat), curvature the negated sum of second differences, hillshade 255 times the cosine between surface normal and sun, and northing and easting the components of the downhill direction; on planes and quadrics they give the true slope and curvature.", "quantifier": "every raster, cell, cell size, sun position and chunking", "why_tests_cant": "formulas over all elevations and angles", "anchors": ["raster_tools/surface.py:_slope", "raster_tools/surface.py:_aspect", "raster_tools/surface.py:_curv", "raster_tools/surface.py:_hillshade", "raster_tools/surface.py:_northing_easting"]}
{"id": "C54", "title": "Surface area is the area of the eight triangles", "statement": "In exact arithmetic surface_area_3d is the sum of the areas of the eight triangles between a cell's centre and the points half way to its neighbours; it is never less than the cell's own area and exact on planes.", "quantifier": "every raster, cell, cell size and chunking", "why_tests_cant": "Heron's formula over all elevations", "anchors": ["raster_tools/surface.py:_surface_area_3d"]}
{"id": "C55", "title": "Local statistics summarise each cell's own bands", "statement": "local_stats gives one band; a cell is null exactly when it is null in every band and otherwise holds the statistic of its valid values across bands (mode: a most frequent value; unique: the number of distinct values; minband/maxband: the first band holding the extreme), whatever the chunks, and the result dtype can hold it.", "quantifier": "every raster, mask, chunking and statistic", "why_tests_cant": "all shapes, chunkings, null patterns and values", "anchors": ["raster_tools/general.py:local_stats", "raster_tools/general.py:_local", "raster_tools/general.py:_local_chunk"]}
{"id": "C56", "title": "Predictions belong to the cell whose values they were made from", "statement": "model_predict_raster gives, for a model that treats rows independently, at every cell and output band the model's output for that cell's own band values, null exactly where some input band is null, whatever the chunks; a model with another number of outputs than announced is rejected.", "quantifier": "every raster, mask, chunking and row-wise model", "why_tests_cant": "all shapes, chunkings and models", "anchors": ["raster_tools/general.py:model_predict_raster", "raster_tools/general.py:_pred_raster"]}
{"id": "C57", "title": "Vector predictions belong to their own row", "statement": "model_predict_vector keeps index, columns and rows of every partition and appends columns prefix1..prefixN (all names distinct) that hold, in each row, the model's outputs for that row's own field values, or NaN where one of them is NaN; unknown fields and name collisions are rejected.", "quantifier": "every partitioned table, field selection and row-wise model", "why_tests_cant": "all partitionings, NaN patterns and models", "anchors": ["raster_tools/general.py:model_predict_vector", "raster_tools/general.py:_pred_df"]}
{"id": "C58", "title": "Points are exactly the non-null cells", "statement": "Raster.to_points gives exactly one point for every non-null cell and none for a null cell, whatever the chunks; the point has the cell's band number, row, column and value, an index that no other point in any partition has, and lies at the cell's centre up to the error of the coordinates.", "quantifier": "every raster, mask and chunking; every axis-parallel binary64 transform with cells of 2^-400..2^400 and an origin within 2^40 cells", "why_tests_cant": "all chunkings and transforms; row and column come from floating-point coordinates", "anchors": ["raster_tools/raster.py:Raster.to_points", "raster_tools/raster.py:_extract", "raster_tools/raster.py:_vectorize"]}
{"id": "C59", "title": "map_blocks does not depend on the chunks", "statement": "map_blocks applies the function to the blocks all rasters have at the chunk locations of the first one and puts the results back in place; hence for a function that works cell by cell every cell of the result is the function of the values (and, on request, the nulls) of all rasters at that cell. With return_mask exactly the cells the function marks are null and hold the null value; with out_bands the function sees all bands at once and a different number of bands is refused; so are no rasters and rasters of different shapes.", "quantifier": "every function, number of rasters, shape and chunking of each raster; every choice of chunks by dask", "why_tests_cant": "all functions and all combinations of chunkings", "anchors": ["raster_tools/blocks.py:map_blocks", "raster_tools/blocks.py:_build_map_blocks_wrapper", "raster_tools/blocks.py:_pack_data_mask", "raster_tools/blocks.py:_align_chunks_to_ref"]}
{"id": "C60", "title": "Any array becomes a raster with every value at its place", "statement": "normalize_xarray_data turns an array with named dimensions in any order (time, lat, lon and unknown names included) into one with dimensions band, y, x: every value stays in its band and at its coordinates, x increases, y decreases, bands are numbered from 1; is_normalized accepts the result; doing it again changes nothing. data_to_xr_raster_ds keeps values and mask together at the cell's coordinates; with a mask exactly its cells are null and hold the null value on burn, without one exactly the cells with the null value are null.", "quantifier": "every array, order and names of dimensions, coordinates, mask and null value", "why_tests_cant": "all dimension orders, orientations and shapes", "anchors": ["raster_tools/raster.py:normalize_xarray_data", "raster_tools/raster.py:find_spatial_dims", "raster_tools/raster.py:is_normalized", "raster_tools/raster.py:data_to_xr_raster", "raster_tools/raster.py:data_to_xr_raster_ds"]}
{"id": "C61", "title": "The null value fits the dtype", "statement": "reconcile_nullvalue_with_dtype returns a value of the dtype of the data; it keeps a null value that the dtype has, and otherwise returns the default null value of the dtype with a warning; NaN gives the default.", "quantifier": "every null value of every dtype (NumPy 2 casting rules) and every dtype of the data", "why_tests_cant": "all values of all dtypes, including rounding of floats", "anchors": ["raster_tools/masking.py:reconcile_nullvalue_with_dtype", "raster_tools/masking.py:get_default_null_value"]}
{"id": "C62", "title": "Rasters from arrays and xarray objects", "statement": "A raster made from an array, a DataArray or a Dataset has every value at its own coordinates; the mask is true exactly where the value equals the null value found (or where the given mask says so), and there the raster holds its null value, reconciled with the dtype; all other values are unchanged.", "quantifier": "every array, every order and name of the dimensions, every combination of _FillValue, nodata and encoded nodata, lazy or not", "why_tests_cant": "all arrays and all combinations of attributes", "anchors": ["raster_tools/raster.py:_array_input_to_raster_ds", "raster_tools/raster.py:_try_to_get_null_value_xarray", "raster_tools/raster.py:_dataarray_input_to_raster_ds", "raster_tools/raster.py:_dataset_to_raster_ds", "raster_tools/raster.py:dataarray_to_xr_raster_ds"]}
{"id": "C63", "title": "Operations between rasters on different grids, with arrays, and by band", "statement": "An element-wise operation between two rasters combines only values at the same band, y and x: without null values the result has exactly the coordinates both have; with null values both must be on one grid, and a cell is null if one of them is. An array takes part exactly if numpy can broadcast it to the shape of the raster. Raster.bandwise with one value for each band applies value k to band k.", "quantifier": "all rasters, all coordinates, all arrays of any shape, every binary operation", "why_tests_cant": "all pairs of grids and all shapes; the tests use one grid and one shape", "anchors": ["raster_tools/raster.py:_normalize_ufunc_other", "raster_tools/raster.py:_apply_ufunc", "raster_tools/raster.py:_normalize_bandwise_other", "raster_tools/raster.py:BandwiseOperationAdapter", "raster_tools/utils.py:can_broadcast", "raster_tools/utils.py:merge_masks"]}
{"id": "C64", "title": "map_overlap does not depend on the chunks", "statement": "For a function whose result at a cell depends only on what it sees within the depth around the cell, map_overlap gives at every cell the function of the cells around it in the rasters, continued beyond their edges as the boundary says (mirrored, repeated, nearest, null, a number, nothing); hence the chunks do not matter. With return_mask exactly the cells the function marks are null and hold the null value. Refused are no rasters, different shapes, a depth or boundary without meaning, a depth that differs between two sides together with a boundary that adds cells, and a depth larger than the raster.", "quantifier": "every such function, number of rasters, shape, chunking of each raster, depth and boundary", "why_tests_cant": "all functions and all combinations of chunkings, depths and boundaries; chunks smaller than the depth are merged", "anchors": ["raster_tools/blocks.py:map_overlap", "raster_tools/blocks.py:_resolve_boundary", "raster_tools/blocks.py:_normalize_depth", "raster_tools/blocks.py:_build_map_blocks_wrapper"]}
{"id": "C65", "title": "geo_map_blocks and geo_map_overlap tell the function where a block lies", "statement": "The function is called once for each chunk with the blocks of all rasters there and with the bands and the y and x coordinates of exactly those cells; its results are put where the blocks lie. So a function of the band, the coordinates and the values at (or around) a cell gives at every cell its value for that cell, whatever the chunks. Refused are no rasters and rasters on different grids.", "quantifier": "every function, number of rasters, shape, chunking, grid without rotation, depth and boundary", "why_tests_cant": "all functions, grids and chunkings; the tests use projected grids and one size of chunks", "anchors": ["raster_tools/blocks.py:geo_map_blocks", "raster_tools/blocks.py:geo_map_overlap", "raster_tools/blocks.py:GeoBlockInfo.to_dataarray", "raster_tools/blocks.py:_resolve_gbi_with_overlap_pad"]}
{"id": "C66", "title": "Proximity, allocation and direction of whole rasters", "statement": "pa_proximity, pa_allocation and pa_direction either all fail in the same way or agree: in every cell of every band they describe one target of that band, its distance, its value and its direction, or all have the null value. With the taxi-cab and the Chebyshev metric on a regular grid that target is a nearest one and the distance is exact, and a cell is null exactly when no target of its band is within max_distance, whatever the chunks. Refused are targets that are not finite and a max_distance that is not positive.", "quantifier": "every raster, chunking, target set, max_distance, precision; every metric for the agreement, taxi-cab and Chebyshev for the distance", "why_tests_cant": "all rasters, chunkings and distances; the tests compare small rasters with one max_distance", "anchors": ["raster_tools/distance/proximity.py:pa_proximity", "raster_tools/distance/proximity.py:pa_allocation", "raster_tools/distance/proximity.py:pa_direction", "raster_tools/distance/proximity.py:_proximity_analysis", "raster_tools/distance/proximity.py:_estimate_min_resolution"]}
{"id": "C67", "title": "Rasters created like a template lie on its grid and hold the value asked for", "statement": "full_like, zeros_like, ones_like, constant_raster, empty_like and random_raster give a raster with the bands asked for on the template's grid, in the dtype asked for. Every cell holds the value asked for. With copy_mask the template's mask (band by band if the number of bands agrees, else that of its first band) masks the cells and these hold the null value; without it, or with a GeoBox as template, no cell is null. Bad arguments are refused.", "quantifier": "every template raster and GeoBox, number of bands, dtype, value and mask", "why_tests_cant": "all templates, masks and values; the tests compare a few rasters", "anchors": ["raster_tools/creation.py:full_like", "raster_tools/creation.py:zeros_like", "raster_tools/creation.py:ones_like", "raster_tools/creation.py:constant_raster", "raster_tools/creation.py:empty_like", "raster_tools/creation.py:random_raster", "raster_tools/creation.py:_build_result", "raster_tools/raster.py:data_to_xr_raster_ds_like"]}
{"id": "C68", "title": "Reductions of rasters are over exactly the valid cells, whatever the chunks", "statement": "sum, prod, mean, var and std of a raster are those of the cells that are not masked and not NaN; mean, var and std are NaN if there are none. all and any are over the cells that are not masked. For integers sum and prod are exact modulo 2^64. None of them depends on the chunks or on the order in which partial results are combined.", "quantifier": "every raster, mask, chunking and tree of partial results", "why_tests_cant": "all rasters, chunkings and reduction trees; the tests use small rasters in few chunks", "anchors": ["raster_tools/raster.py:_ReductionsMixin._build_reduce_method", "raster_tools/raster.py:_inject_reductions"]}
{"id": "C69", "title": "A mosaic of whole rasters takes every cell from the rasters that have a value there", "statement": "The mosaic of rasters has the dtype asked for (else the common dtype), the null value asked for (else the first one there is) and the bands of the raster with most bands. Every cell is the first, last, smallest or largest value, or the sum, of the values of exactly those rasters that have its band and are not null there, and is null if there are none. Bad methods and an empty list are refused.", "quantifier": "every list of rasters, number of bands, dtypes, null values and method", "why_tests_cant": "all lists of rasters with all patterns of null cells, null values and dtypes; the tests combine two or three small rasters", "anchors": ["raster_tools/_mosaic.py:mosaic", "raster_tools/_mosaic.py:_mosaic", "raster_tools/_mosaic.py:_paint"]}
{"id": "C70", "title": "A raster saved to a file and opened again has the same cells and null cells", "statement": "Raster.save writes bool as uint8 and int64 as float64 exactly when the file or its null value cannot be held, and the dtype otherwise. The raster opened from the file has the null cells of the raster saved and, in the others, its values in the dtype of the file; further cells are null only if their value in that dtype is the null value of the file. A null value given is set first. Formats and dtypes that cannot be written are refused, as are two null values. Tiles written by save_chunks are saved like the part of the raster they cover.", "quantifier": "every raster, dtype, null value, extension and driver, and every GDAL that keeps null values up to 2^53", "why_tests_cant": "all values, null values and dtypes, in particular 64-bit integers near 2^53 and 2^63; the tests save a few files", "anchors": ["raster_tools/raster.py:Raster.save", "raster_tools/raster.py:Raster.save_chunks", "raster_tools/io.py:write_raster", "raster_tools/io.py:open_raster_from_path_or_url", "raster_tools/io.py:normalize_null_value"]}
{"id": "C71", "title": "Extracting point values gives each point the value of the cell it lies in", "statement": "extract_points_eager gives, for every band and point, the value (as float64) of the cell that contains the point, and NaN if the cell is null or the point is empty or outside the raster. With axis=0 there is one row for each band and point, numbered consecutively, with the number of the band; otherwise one row for each point and one named column for each band. Points in another coordinate system are reprojected first. Empty column names, geometries that are not points, and points without coordinate system are refused.", "quantifier": "every invertible transform, raster, mask and list of points", "why_tests_cant": "all positions of points relative to cell borders and null cells, and all transforms; the tests use a few points", "anchors": ["raster_tools/zonal.py:extract_points_eager", "raster_tools/raster.py:xy_to_rowcol"]}
{"id": "C72", "title": "The polygons of a raster are its areas of equal value, whatever the chunks", "statement": "to_polygons gives exactly one polygon for each value in each band. It covers exactly the valid cells of that band with this value, as far as the value survives the dtype used for polygons. The result depends neither on the chunks nor on neighbors. Values of neighbors other than 4 and 8 are refused.", "quantifier": "every raster, mask, dtype, chunking and gathering of cells into polygons by rasterio", "why_tests_cant": "all chunkings and value patterns; the tests compare a few small rasters with rasterio's result", "anchors": ["raster_tools/raster.py:Raster.to_polygons", "raster_tools/raster.py:_shapes_delayed", "raster_tools/raster.py:_get_rio_shapes_dtype"]}
{"id": "C73", "title": "Rasterising a table gives every cell its features' value, whatever the chunks and partitions", "statement": "rasterize gives every cell of like the value that resolves the overlap (first, last, min or max in table order) of all features touching it in like's coordinate system, and makes it null exactly when there is none; with mask=True touched cells are 1 and the others null, or the other way round. The result depends neither on like's chunks, nor on the partitions of the table, nor on known, requested or missing spatial partitions, nor on earlier calls. Unknown or non-numeric fields, bad null values and unknown methods are refused.", "quantifier": "every table, partitioning, grid, chunking, field, null value and overlap method; every sound set of spatial partitions; every sequence of calls", "why_tests_cant": "all combinations of chunks, partitions and overlaps, and the state left by earlier calls; tests rasterise fresh tables", "anchors": ["raster_tools/rasterize.py:rasterize", "raster_tools/rasterize.py:_rasterize_spatial_aware", "raster_tools/rasterize.py:_rasterize_spatial_naive", "raster_tools/rasterize.py:_rasterize_spatial_matches", "raster_tools/raster.py:Raster.get_chunk_bounding_boxes", "raster_tools/utils.py:list_reshape_2d"]}
{"id": "C74", "title": "Clipping keeps exactly the cells the features touch", "statement": "clip_box keeps the cells of the window unchanged at their place. clip returns the window of the bounds in which exactly the valid cells touched by a feature, in the raster's coordinate system, stay valid with their values, in every band; erase keeps the others; envelope keeps all; mask does the same on the whole raster, or the opposite. dtype is kept, an unmasked raster gets the default null value. clip and erase divide the valid cells of clip_box. Chunks, partitions and earlier uses of the features do not matter. A raster or features without CRS and bounds that are not four numbers are refused.", "quantifier": "every raster, number of bands, null value, chunking, set of features, partitioning, coordinate system and window", "why_tests_cant": "tests clip a few rasters with one set of features in one chunking", "anchors": ["raster_tools/clipping.py:_clip", "raster_tools/clipping.py:clip", "raster_tools/clipping.py:erase", "raster_tools/clipping.py:mask", "raster_tools/clipping.py:envelope", "raster_tools/clipping.py:clip_box"]}
{"id": "C75", "title": "The topographic position index compares each cell with the mean of its annulus", "statement": "tpi gives, for every cell, the truncation of the cell's value minus the mean of the valid values in its annulus plus one half, as int32. The annulus holds the cells at most outer - 1 away and, unless inner is 0, more than inner - 1 away. With a null value, the result is null exactly where the raster is null, the annulus has no valid value, or the index is the lowest int32; without, no cell is null. In exact arithmetic, index 0 means that the cell is less than 3/2 below and less than 1/2 above the mean; a positive index t means t - 1/2 to t + 1/2 above it, a negative one that the cell is below it. Chunks do not matter. Radii that are not integers, negative, or not increasing are refused.", "quantifier": "every raster, null mask, dtype, chunking, annulus and arithmetic", "why_tests_cant": "tests compare one raster and two annuli with a formula written the same way", "anchors": ["raster_tools/surface.py:tpi", "raster_tools/focal.py:get_focal_window", "raster_tools/focal.py:focal"]}
{"id": "C76", "title": "Options of saving reach GDAL as asked and files are handled safely", "statement": "For GTiff and COG the creation options are exactly those of the arguments given, under the keys of the driver: the compressor in lower case or none, a level only for a compressor that has one and under its key, no predictor with jpeg, a square block size for COG, nbits=1 only for bool in GTiff; gdal_kwargs win. What has no effect is warned about, and a predictor that is not known or a block size that is no size is refused before any file is touched. Other drivers get gdal_kwargs only. A COG is staged in a temporary file that never stays, whatever fails; other files get the overviews asked for after writing, a COG none. The extension of a path is the last dot of the file name and what follows, in lower case.", "quantifier": "every set of options, path, driver, shape and failure of a file operation", "why_tests_cant": "options combine in thousands of ways, of which tests write a few; failures are not tested", "anchors": ["raster_tools/io.py:write_raster", "raster_tools/io.py:_gtiff_translate", "raster_tools/io.py:_cog_translate", "raster_tools/io.py:_get_extension", "raster_tools/io.py:open_raster_from_path_or_url"]}
{"id": "C77", "title": "zonal_stats of whole rasters", "statement": "For features or a raster of zones, the wide frame of zonal_stats has one row for each zone that has a cell and, in the order asked for, one column for each band and statistic, holding that statistic of the valid values of the band in exactly the cells of the zone. A cell belongs to the last feature touching it; with handle_overlap every feature has rows of its own over all cells it touches. The long format holds the same numbers, one row for each zone and band. Anything but features or a single-band integer raster that matches the data, an unknown statistic and an unknown field are refused.", "quantifier": "every raster, table of features, list of statistics, chunking, partition of cells and tree of aggregations", "why_tests_cant": "tests use a few small rasters in one or few chunks and compare with a second implementation", "anchors": ["raster_tools/zonal.py:zonal_stats", "raster_tools/zonal.py:_zonal_stats", "raster_tools/zonal.py:_melt_part", "raster_tools/zonal.py:_find_problem_stats"]}
{"id": "C78", "title": "Numpy functions and operators reach rasters as asked", "statement": "A numpy function or operator with a raster among its operands, the others being rasters, numbers, arrays that fit or DataArrays, uses the operands in the order given and gives new rasters: null where an operand is null, with the dtype numpy gives for the operands, a Python int counting as int64 and a float as float64, and the CRS of the first raster that has one. No raster is changed, except by an operation in place, which changes exactly the raster itself, to what the operation gives. Other operands, functions that do not work cell by cell, another raster as out, arrays that do not fit, ints beyond int64 and floats in functions of bits are refused with the fitting exception and change nothing.", "quantifier": "every function, operands, rasters in existence and null masks", "why_tests_cant": "tests try a few functions with a few scalars; refused calls and other rasters are not looked at", "anchors": ["raster_tools/raster.py:_RasterBase.__array_ufunc__", "raster_tools/raster.py:_apply_ufunc", "raster_tools/raster.py:_normalize_ufunc_other"]}
{"id": "C79", "title": "Vectors keep their features", "statement": "A Vector made from a table in memory holds exactly its rows, by index label; one made from a lazy table with consecutive labels holds the table and knows the number of features, and a given size must fit the divisions. Copying, loading, changing the CRS, casting a field and buffering keep the number, order and labels of the features; casting changes the values of that field only. With labels 0, 1, ..., v[i] for -n <= i < n is a Vector of just feature i mod n that can be indexed again, other i raise IndexError, and iterating gives every feature once in order. add_objectid_column appends a new column of distinct ids and changes nothing else. open_vectors gives one Vector for each requested layer (all by default), with the features of that layer, a single one by itself; get_vector and get_dask_geodataframe agree on every source. Missing paths, unknown, empty or mixed layer requests, sources of several layers where one is needed, slices, indices or sizes that are not ints, unknown fields, ids of an existing name and unknown divisions are refused with the fitting exception.", "quantifier": "every table, partitioning, label offset, index, geometry operation, cast, source and layer request", "why_tests_cant": "tests use a few files with one partition; divisions, sizes and labels only go wrong for particular partitions and indices", "anchors": ["raster_tools/vector.py:Vector", "raster_tools/vector.py:open_vectors", "raster_tools/vector.py:get_vector", "raster_tools/vector.py:get_dask_geodataframe", "raster_tools/vector.py:add_objectid_column"]}
{"id": "C80", "title": "Line lengths near the cells of a raster", "statement": "length(features, like, radius, weighting_field) returns a raster of one float32 band on the grid and chunks of like, without null value, in which each cell holds the length of all valid, non-empty features (in the CRS of like, weighted with the values of the field if one is given) within the circle of that radius around its centre; how like is cut into chunks and the features into partitions does not matter. A radius that is no number, not positive, a raster without CRS, geometries that are no lines, a field that is no string, unknown or not numeric, and unsuitable sources of features raise the fitting exception.", "quantifier": "every Vector, partitioning, raster, chunking, radius and field", "why_tests_cant": "tests compare a few radii on one small raster with one partition; lengths lost or counted twice at the borders of chunks, clips or partitions need particular layouts", "anchors": ["raster_tools/line_stats.py:length", "raster_tools/line_stats.py:_length_chunk", "raster_tools/line_stats.py:_length"]}
{"id": "C81", "title": "Padding reaches the bounds and keeps the cells in place", "statement": "pad(raster, target) keeps the resolution and alignment of the grid and adds on each side the least number of rows or columns that reaches the bounds of the target, none where they are already reached; every cell keeps its value, null state and coordinates, new cells get the fill value and are null when it is the null value. The target can be four numbers, another raster or its path (its bounds), or a GeoBox (its bounding box). Targets in another CRS, sequences that are not four numbers, other targets, unfit fill values and infinite bounds outwards raise the fitting exception.", "quantifier": "every north-up grid, target, bounds and fill value", "why_tests_cant": "tests pad a few rasters by whole cells; wrong counts show up only for particular positions of bounds between cells", "anchors": ["raster_tools/_padding.py:pad", "raster_tools/_padding.py:_resolve_bounds", "raster_tools/raster.py:bounds"]}
{"id": "C82", "title": "The boxes of the chunks tile the raster", "statement": "get_chunk_bounding_boxes() returns one row per chunk of a band in row-major order: its position and the box that is the area of the chunk's cells, so that every cell lies in exactly one box. With include_band=True the table is repeated for every chunk along the bands.", "quantifier": "every north-up grid and chunking", "why_tests_cant": "tests look at one raster with even chunks; thin last chunks and chunks of several bands are not tried", "anchors": ["raster_tools/raster.py:Raster.get_chunk_bounding_boxes"]}
{"id": "C83", "title": "Reprojecting keeps null cells null and valid cells valid", "statement": "reproject(raster, crs_or_geobox, method, resolution) returns a raster of the same bands and dtype on the target grid: the given GeoBox, the raster's grid in the given CRS or its own grid, at the given resolution. Each cell is made by the method of the valid source cells only; it is null exactly if there is none and then holds the null value (the raster's, or the default of the dtype). The same grid returns the raster. Unsupported methods, neither grid nor resolution and resolutions that are not positive raise ValueError.", "quantifier": "every raster, grid, method, resolution and warping library that ignores the null value", "why_tests_cant": "tests compare a few warps with GDAL; values that meet the null value are not tried", "anchors": ["raster_tools/warp.py:reproject", "raster_tools/raster.py:dataarray_to_xr_raster_ds"]}
{"id": "C84", "title": "Datasets open as rasters of their variables", "statement": "open_dataset(path) returns a dict from the names of the variables with two or three dimensions (not counting those of size one), in the order of the file, to rasters. A raster holds the values of its variable at the variable's coordinates; it is null exactly where the file declares the cell missing; its null value is the declared one, or the default of the dtype if none or NaN is declared. Variables with other numbers of dimensions raise DimensionsError; with ignore_extra_dim_errors they are left out. No variables left raises ValueError. The arguments are not changed.", "quantifier": "every dataset, transform, declared missing value and keyword arguments", "why_tests_cant": "tests open one or two files; transforms that disagree with the coordinates and values that meet the default null value are not in them", "anchors": ["raster_tools/io.py:open_dataset", "raster_tools/io.py:_build_raster", "raster_tools/io.py:_get_valid_variables", "raster_tools/raster.py:data_to_xr_raster"]}
{"id": "C85", "title": "Coercion to rasters, rounding and the mask as a raster", "statement": "get_raster returns rasters as they are, opens paths, refuses other inputs with TypeError if strict and otherwise converts them, reporting failed conversions as ValueError; with null_to_nan the null cells of the result hold NaN, it has a float dtype, the other values and the mask are unchanged. round(decimals) rounds every valid cell to the nearest multiple of 10^-decimals, halves to the even multiple, and leaves null cells null; valid cells do not become the null value. to_null_mask is true exactly at the null cells and has no nulls. replace_null replaces null cells by a value and leaves the valid cells alone.", "quantifier": "every raster, number of decimals, value and kind of input", "why_tests_cant": "tests round a few arrays and replace nulls by values that do not occur; values that meet the null value or the limits of the dtype are not among them", "anchors": ["raster_tools/raster.py:get_raster", "raster_tools/raster.py:Raster.round", "raster_tools/raster.py:Raster.to_null_mask", "raster_tools/raster.py:Raster.replace_null"]}
{"id": "C86", "title": "Joining rasters along the bands", "statement": "band_concat(rasters) returns a raster whose bands are those of the rasters one after the other, on the grid they share, in the common dtype. A cell is null exactly where the raster it comes from is null; valid cells keep their value and do not hold the null value. If any raster has a null value the result has the default one of its dtype, otherwise none. One raster is returned as it is, no raster raises ValueError, and rasters of different shapes or CRSs are refused.", "quantifier": "every list of rasters, grids, numbers of bands, dtypes and null values", "why_tests_cant": "tests join rasters of one grid; xarray cuts others silently, and values that meet the default null value are not tried", "anchors": ["raster_tools/general.py:band_concat"]}
{"id": "C87", "title": "Combining grids", "statement": "combine_grids(grids, how, dst_crs, resolution) returns a grid in dst_crs (default: the CRS of the first grid) with cells of the given resolution (default: that of the first grid). Grids that are all the same give the first one. Otherwise the union is a grid over the smallest box around all grids, the intersection one over the box they share, with less than a cell too much on each side; grids on a common lattice are covered exactly. An empty intersection, other values of how and resolutions that are not positive raise ValueError.", "quantifier": "every list of grids, CRS and resolution, every reprojection to axis-aligned grids", "why_tests_cant": "tests combine a few overlapping grids of square cells; grids that touch, cells that are not square and grids off the lattice are not tried", "anchors": ["raster_tools/_grids.py:combine_grids", "raster_tools/_grids.py:reproject_grid", "raster_tools/_grids.py:get_grid_bounds"]}
{"id": "C88", "title": "Keywords of the functions that map over blocks", "statement": "map_blocks, map_overlap, geo_map_blocks and geo_map_overlap call the function for each block with one block of each raster, in order, and with exactly these keywords: the caller's, unchanged, and those of input_masks, input_null_values, block_info, block_id, out_null_value (and geo_block_info) that the function names as parameters, with the values of this block. Keywords with these names, options of dask, and out_bands for the functions with overlap raise ValueError; nothing else does.", "quantifier": "every set of keywords and values, every list of parameter names, every block and the call that infers the dtype", "why_tests_cant": "each name is tried alone at most; combinations of injected and forwarded keywords, and names that only dask knows, are not", "anchors": ["raster_tools/blocks.py:map_blocks", "raster_tools/blocks.py:map_overlap", "raster_tools/blocks.py:geo_map_blocks", "raster_tools/blocks.py:geo_map_overlap", "raster_tools/blocks.py:_build_map_blocks_wrapper", "raster_tools/blocks.py:_check_no_dask_kwargs", "raster_tools/blocks.py:_check_reserved_kwargs"]}
{"id": "C89", "title": "Shuffling the features of a Vector by place", "statement": "Vector.spatial_shuffle returns a Vector with the same features, none lost, added or changed, in the order of a space-filling curve over all partitions; its size is the number of features and each can be accessed by its number. calculate_spatial_partitions changes neither the features nor the size.", "quantifier": "every Vector, curve and choice of divisions", "why_tests_cant": "no test calls the method; one shuffles a frame of dask_geopandas to number its features", "anchors": ["raster_tools/vector.py:Vector.spatial_shuffle", "raster_tools/vector.py:Vector.calculate_spatial_partitions"]}
{"id": "C90", "title": "Rasterising with any null value and any dtype of the field", "statement": "Whatever scalar is given as null_value and whatever the integer or float dtype of the field, a cell touched by features is valid and holds the value chosen by overlap_resolve_method among all features touching it, and a cell touched by none is null; or the null value is refused.", "quantifier": "every null value, dtype, feature table, partitioning and reduction tree", "why_tests_cant": "tests use null values that every dtype holds and few partitions; the loss depends on rounding and on which partitions meet at a chunk", "anchors": ["raster_tools/rasterize.py:rasterize", "raster_tools/rasterize.py:_get_rio_dtype", "raster_tools/rasterize.py:_rio_rasterize_wrapper", "raster_tools/rasterize.py:_rasterize_onto_chunk", "raster_tools/rasterize.py:_resolve_first", "raster_tools/rasterize.py:_resolve_last", "raster_tools/rasterize.py:_resolve_min", "raster_tools/rasterize.py:_resolve_max"]}
{"id": "C91", "title": "Numpy functions and operators of Raster.bandwise", "statement": "A numpy function or operator of two operands, one of them r.bandwise and the other a number, an array of one value or an array with one value for each band, uses the operands in the order given and gives new rasters: band k is combined with value k, a cell is null exactly if it is null in r, the dtype is numpy's and the CRS is r's. A number gives what it gives without bandwise. Other operands, shapes and functions, and out, are refused with the fitting exception; no raster changes.", "quantifier": "every function, raster, operand, side and shape", "why_tests_cant": "the outcome depends on how shapes and types coincide; tests try a few", "anchors": ["raster_tools/raster.py:BandwiseOperationAdapter.__array_ufunc__", "raster_tools/raster.py:_normalize_bandwise_other", "raster_tools/raster.py:Raster.bandwise"]}
{"id": "C92", "title": "Arguments of the cost distance functions", "statement": "Costs of any integer or float dtype (float16 and float32 costs are added in float32, integers exactly below 2^62) and sources given as an integer raster with a null value or as a list of distinct cells within bounds: the sources are exactly the valid cells of the raster, labelled with their values, or the listed cells, labelled with their positions; distance, traceback and allocation are those of the least-cost paths from these sources, null where the costs are null or no source can be reached. Costs of several bands, other shapes, other dtypes, rasters without null value, repeated cells and cells out of bounds are refused with the documented exception.", "quantifier": "every shape, dtype, mask, null value, source raster or list, elevation, resolution and connectivity", "why_tests_cant": "the tests use a few int64 and float64 rasters of one size; how dtypes, null values and fills interact is not enumerated", "anchors": ["raster_tools/distance/cost_distance.py:cost_distance_analysis", "raster_tools/distance/cost_distance.py:_normalize_raster_data", "raster_tools/distance/cost_distance.py:cda_cost_distance", "raster_tools/distance/cost_distance.py:cda_allocation", "raster_tools/distance/cost_distance.py:cda_traceback"]}
{"id": "C93", "title": "Directions to targets and great circle distances", "statement": "In real arithmetic the direction that pa_direction assigns is the compass direction of the target from the cell: the one number d in (0, 360] such that going some way in direction d (north 360, east 90, south 180, west 270) leads from the cell to the target, and 0 exactly for the target itself. The great circle distance is the angle between the two points seen from the centre of the earth times 6371009 m; it is a metric on the sphere, at most half a turn, and does not change with whole turns of the longitude. With that metric the direction is the one in which the shortest way over the sphere starts.", "quantifier": "all coordinates of cell and target", "why_tests_cant": "the tests compare with the same formula on a few rasters; that the formula is the direction or the distance is about all real coordinates", "anchors": ["raster_tools/distance/proximity.py:_direction", "raster_tools/distance/proximity.py:_haversine_dist_sqr", "raster_tools/distance/proximity.py:pa_direction"]}
{"id": "C94", "title": "mosaic 'sum' of float rasters", "statement": "With mosaic_method='sum' and rasters of any float dtype, every cell of every band holds the sum of the values that are not null up to one rounding for each raster (an error of at most (1+u)^n - 1 times the sum of the absolute values, for n rasters and the unit roundoff u of the dtype), exactly the sum for whole numbers that fit the precision, and is null exactly when all values are null. This holds whatever the order in which dask and numpy add the layers.", "quantifier": "every float format, number of rasters and bands, all finite values that do not overflow, every order of addition, every null value", "why_tests_cant": "the tests add a few small rasters; the order of addition depends on chunks and on the number of rasters", "anchors": ["raster_tools/_mosaic.py:_paint", "raster_tools/_mosaic.py:_paint_recursive", "raster_tools/_mosaic.py:_mosaic"]}
{"id": "C95", "title": "Polygons and points give the raster back", "statement": "The polygons made by to_polygons from a band, rasterised by their value onto the same grid (with all_touched=False), give a raster of the same dtype with the same values and the same nulls, provided the null value asked for is not the value of a valid cell. The points made by to_points, handed to extract_points, give for each point its own value in the column of its band.", "quantifier": "all rasters, bands, chunkings of the raster and of the grid, overlap methods, 4 or 8 neighbours, dtypes and null values; for points all rectilinear grids of float64 coordinates with up to 2^40 rows and columns", "why_tests_cant": "a round trip depends on how each chunk is cut into polygons, on rounding of every cell centre and on every value; a test covers a few rasters", "anchors": ["raster_tools/raster.py:Raster.to_polygons", "raster_tools/raster.py:Raster.to_points", "raster_tools/rasterize.py:rasterize", "raster_tools/zonal.py:extract_points_eager"]}
{"id": "C96", "title": "mosaic puts the pieces of a raster together again", "statement": "A raster that was cut into pieces - its quadrants (to_quadrants), the rasters of its chunks (get_chunk_rasters), or any rectangles that cover it, overlapping and in any order - is given back by mosaic with the methods first, last, min and max, and with sum if the pieces do not overlap: the same grid, dtype, null value, values and null cells.", "quantifier": "all rasters with square cells whose null cells, and no others, hold the null value; all shapes, bands, chunk sizes, dtypes and orders of the pieces", "why_tests_cant": "depends on every cut and on every value being distinguished from the null value; a test covers a few cuts", "anchors": ["raster_tools/raster.py:Raster.to_quadrants", "raster_tools/raster.py:Raster.get_chunk_rasters", "raster_tools/_mosaic.py:mosaic", "raster_tools/_grids.py:combine_grids"]}
{"id": "C97", "title": "save_chunks writes each chunk to its own file, and the files give the chunks back", "statement": "When save_chunks returns, the file of each name holds the chunk (or the stacked bands) of its place and no file was written over by another chunk; other files are untouched; the rasters returned are those of the files, in order, and have the cells and null cells of the chunks. The extension is the caller's with a dot put before it, or the first one rasterio has for the driver, or .tif, and it is the extension save sees. The keyword path is refused; any other error is that of a chunk.", "quantifier": "all prefixes, extensions, drivers, tables of drivers, numbers of bands and chunks, chunks, and files that were there before", "why_tests_cant": "depends on every number of chunks (padding of the names), on dots and slashes in the prefix and on rasterio's table; a test covers a few", "anchors": ["raster_tools/raster.py:Raster.save_chunks", "raster_tools/raster.py:_ext_for_driver", "raster_tools/raster.py:Raster.save", "raster_tools/io.py:_get_extension"]}
{"id": "C98", "title": "With the same cost everywhere, cost distance is taxicab distance, as proximity analysis gives it", "statement": "With connectivity 4, no elevation and the same cost in every cell, cost_distance_analysis gives each cell exactly the taxicab distance to the nearest source times the cost, and the label of such a source; if there is no source all cells are null. With cost 1 and the targets of proximity analysis as sources, it gives the values and null cells of proximity analysis with the metric taxi, for any chunks. With connectivity 8 it gives neither the taxicab nor the straight distance.", "quantifier": "all raster sizes, sources, resolutions and costs whose distances fit in the 53 bits of a float; all chunkings", "why_tests_cant": "a queue over a grid of any size and a sweep over chunks of any size; a test compares them on a few rasters", "anchors": ["raster_tools/distance/cost_distance.py:cost_distance_analysis", "raster_tools/distance/cost_distance.py:_cost_distance_analysis_core", "raster_tools/distance/proximity.py:pa_proximity"]}
{"id": "C99", "title": "With out_bands the tiles map_blocks works on stay within dask's byte budget", "statement": "When out_bands is given, map_blocks and geo_map_blocks rechunk every raster to the same tiles with all bands in one chunk, keep cells, shapes and dtypes, and give the result out_bands bands in one chunk on the same tiles. If dask keeps to the limit it is given, a tile of more than one cell takes at most array.chunk-size bytes both with the bands that go in and with those that come out, for cells not larger than those of the first raster. With out_bands not above the number of bands the limit is array.chunk-size itself. For a result or another raster of a larger dtype the tiles do not fit.", "quantifier": "all budgets, shapes, chunks, dtypes, numbers of rasters and of bands, and all ways dask may choose tiles within its limit and tolerance", "why_tests_cant": "which tiles dask chooses depends on its version, configuration and the old chunks; a test sees one choice", "anchors": ["raster_tools/blocks.py:_align_chunks_single_band", "raster_tools/blocks.py:_check_out_bands", "raster_tools/raster.py:Raster.chunk"]}
{"id": "C100", "title": "reclassify is remap_range with ranges of one whole number", "statement": "For a raster whose valid cells are whole numbers, reclassify(r, {k: o, ...}) returns the same raster (cells, mask, dtype, null value) or raises the same error as remap_range(r, [(k, k + 1, o), ...]) with inclusivity 'left'. Hence the order in which such ranges are given does not matter. For rasters with fractions, or with inclusivity 'both', the two differ.", "quantifier": "all rasters without fractions, all non-empty mappings from distinct whole numbers to numbers or None", "why_tests_cant": "the two functions choose dtypes, null values and masks in code of their own; that they agree is a relation over all mappings and rasters", "anchors": ["raster_tools/general.py:remap_range", "raster_tools/general.py:reclassify"]}
{"id": "C101", "title": "where with None for true cells is set_null", "statement": "If the condition is bool, int8 or uint8 without null cells or negative numbers, and no valid cell of r holds the null value r has (or would get by default), then where(cond, None, r) and r.set_null(cond) have the same dtype, null value, null cells and valid cells. They differ for null cells of the condition, for negative numbers, for valid cells that hold the default null value and for conditions of wider dtypes.", "quantifier": "all rasters and conditions of the same shape", "why_tests_cant": "relates two functions that read conditions and choose null values by different rules, for every content of the cells", "anchors": ["raster_tools/general.py:where", "raster_tools/raster.py:Raster.set_null"]}
{"id": "C102", "title": "aggregate with max or min may be done in steps", "statement": "Aggregating a raster by (a, b) with max (or min) and the result by (c, d) gives the same null cells and the same values as aggregating by (a * c, b * d), and cells at the same coordinates, with null cells, NaN and incomplete windows at the edges. This is not so for mean (if there are null cells) and mode.", "quantifier": "all rasters with or without a mask, all window sizes and chunkings of each step", "why_tests_cant": "relates three runs with different windows; windows are trimmed at different places in each", "anchors": ["raster_tools/general.py:aggregate", "raster_tools/general.py:_coarsen_chunk"]}
{"id": "C103", "title": "Dilation and erosion are the focal maximum and minimum of a rectangle", "statement": "dilate and focal(max) with a full rectangular kernel of the same size give equal values at every valid cell of a raster with null cells, and for odd sizes erode and focal(min) give equal values at every cell that erode leaves valid. focal keeps null cells null, dilate may fill them. For odd sizes and rasters without a null value, and finite cells, they agree at every cell. For even sizes, erosion and rasters without a null value differ.", "quantifier": "all sizes up to twice the raster (odd where said), shapes, masks, values of the dtype and chunkings of either", "why_tests_cant": "the functions are written apart (scipy filters against a kernel loop, with fill values at null cells and edges); agreement is over all contents and chunks", "anchors": ["raster_tools/general.py:dilate", "raster_tools/general.py:erode", "raster_tools/focal.py:focal"]}
{"id": "C104", "title": "Dilating or eroding twice is doing so once with a larger window", "statement": "dilate with size (a, b), a and b odd, followed by dilate with any size (c, d) gives the same null cells and equal values as dilate with size (a + c - 1, b + d - 1), and likewise erode, at every cell up to the edges. For two even sizes this is not so.", "quantifier": "all such sizes up to twice the raster, shapes, masks (or none), values of the dtype and chunkings of each call", "why_tests_cant": "relates three calls over all contents, masks and chunks; fill values at null cells and edges could show in the second call only", "anchors": ["raster_tools/general.py:dilate", "raster_tools/general.py:erode", "raster_tools/general.py:_erosion_or_dilation_filter"]}
{"id": "C105", "title": "Opening and closing are ordered and idempotent", "statement": "erode followed by dilate with the same size (opening) leaves valid only cells that were valid, and never raises a value; dilate followed by erode (closing) keeps every valid cell whose window lies within the raster (every cell if the raster has no null value), and never lowers its value. Doing either twice gives the same null cells and equal values as doing it once. Sizes may be even.", "quantifier": "all sizes up to twice the raster, shapes, masks (or none), finite values of the dtype and chunkings of each call", "why_tests_cant": "relates up to four calls over all contents, masks and chunks; for even sizes it depends on which way the windows of the two operations reach", "anchors": ["raster_tools/general.py:dilate", "raster_tools/general.py:erode", "raster_tools/general.py:_erosion_or_dilation_filter"]}
