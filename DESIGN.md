# Formal model of raster_tools in Rocq (Coq 8.16.1)

`properties.jsonl` holds the English statements, `MANIFEST.json` the theorems
that prove them. This file says how the model is built, what is trusted, what is
modelled and what is not, and which statements turned out to be false.

## Layout

Each area has up to five files in `rocq/theories/`:

* `<Area>.v`: the executable model. No proofs. Every definition cites the file
  and the lines in /repo that it models and says where it simplifies.
* `<Area>Spec.v`: what the property talks about, written without the model's
  helper functions.
* `<Area>Proofs.v`, `<Area>Results.v`: lemmas.
* `<Area>Props.v`: the property theorems, examples that meet their hypotheses,
  refutations, and `Print Assumptions` for each theorem.

Shared files: `Base.v`, `BaseFacts.v` (errors, lists indexed by integers),
`Scalars.v`, `NumFacts.v` (exact numbers with infinities and NaN, dtypes),
`Arr2.v`, `Arr2Facts.v` (two-dimensional arrays, dask's overlap by chunks),
`F64.v`, `F32.v` (IEEE binary64 and binary32 from Flocq).

## Conventions

* Arrays are lists. Reading or writing outside an array is an error value,
  never a default, so memory safety is part of the theorems.
* Python exceptions are error values (`Err ValueError`, ...).
* Loops are structural recursion or recursion over the loop's own range. Where
  fuel is used, running out of fuel is an error that the theorems exclude.
* Numbers: cost distance and proximity use IEEE binary64 (proximity also
  binary32) with rounding, infinities and NaN. Null handling, focal statistics,
  zonal statistics and similar code use exact numbers extended with infinities
  and NaN (`num`), or an arithmetic that is a parameter of the theorem. The
  surface formulas are proved for any arithmetic (null handling) and for real
  numbers (values).
* `_refuted` theorems give a concrete witness against a documented statement or
  against a property of `properties.jsonl`; `_partial` theorems prove part of
  one.

## Trusted base

1. Coq's kernel (8.16.1).
2. What `Print Assumptions` lists. Most theorems are closed under the global
   context. The others use the following axioms of the standard library, which
   come with its real numbers (Flocq's floats are specified over the reals):

   * `ClassicalDedekindReals.sig_forall_dec`
   * `ClassicalDedekindReals.sig_not_dec`
   * `FunctionalExtensionality.functional_extensionality_dep`
   * `Classical_Prop.classic`

   Per theorem:

   * all four: `C01_queue_is_map`, `C02_drain_is_sorted`, `C02_pop_minimal`,
     `C03_queue_memory_safe`, `C04_flat_steps`, `C04_float64_sums`,
     `C04_min_over_paths`, `C05_bad_connectivity`,
     `C05_negative_source_refuted`, `C05_public_outputs`,
     `C05_unreached_core`, `C06_traceback_walk`, `C07_cap_never_hit`,
     `C08_codes_are_neighbours`, `C09_sources_keep_label`,
     `C10_integer_padding_refuted`, `C10_nearest_refuted`,
     `C10_no_cell_skipped`, `C10_proximity_sound`, `C10_target_zero`,
     `C11_one_target`, `C12_float_max`, `C12_float_min`,
     `C31_asm_binary64_order_refuted`, `C31_entropy`, `C31_order_and_nulls`,
     `C32_asm`, `C32_entropy`, `C32_sum_binary64_refuted`,
     `C38_binary32_refuted`, `C40_binary64_centre`,
     `C40_binary64_corner_refuted`, `C40_binary64_point`,
     `C49_hillshade_255_refuted`, `C51_chebyshev_nearest`, `C51_taxi_nearest`,
     `C53_aspect`, `C53_curvature`, `C53_flat_northing_refuted`,
     `C53_hillshade`, `C53_northing`, `C53_plane`, `C53_slope`, `C54_area`,
     `C58_to_points`, `C66_allocation_null_refuted`, `C66_chebyshev_nearest`,
     `C66_long_side`, `C66_min_width_north`, `C66_min_width_refuted`,
     `C66_no_target_refuted`, `C66_one_target`, `C66_overlap_north_refuted`,
     `C66_overlap_south_refuted`, `C66_refused`, `C66_result_refuted`,
     `C66_taxi_nearest`, `C92_bad_sources`, `C92_bands`,
     `C92_elevation_shape`, `C92_flat_floats`, `C92_flat_ints`, `C92_floats`,
     `C92_integers`, `C92_overflow_refuted`, `C92_parts`, `C92_single_sums`,
     `C92_unsigned_costs_refuted`, `C93_antimeridian_refuted`, `C93_back`,
     `C93_direction`, `C93_equator_partial`, `C93_great_circle`,
     `C93_meridian_partial`, `C93_metric`, `C93_points`, `C93_sphere_refuted`,
     `C94_few_partial`, `C94_infinity_refuted`, `C94_missing`,
     `C94_null_refuted`, `C94_partial_sum_refuted`, `C94_sum_partial`,
     `C94_whole_partial`, `C95_points`, `C98_eight_refuted`, `C98_proximity`,
     `C98_uniform`.
   * `functional_extensionality_dep`, `sig_forall_dec`, `sig_not_dec`:
     `C54_at_least`, `C54_plane`, `C68_std`.
   * `functional_extensionality_dep`, `sig_forall_dec`: `C31_asm`, `C32_mean`,
     `C32_prod`, `C32_sum`, `C32_var`, `C53_quadric`, `C68_mean`, `C68_prod`,
     `C68_sum`, `C68_var`.
   * none ("Closed under the global context"): the other 517 property
     theorems.
3. The reading of /repo into the model. /repo is Python; it was read as text and
   never run.
4. The libraries that the code calls (dask, numpy, xarray, rioxarray, scipy,
   dask_image, numba, GDAL, rasterio, geopandas, shapely, GEOS). What the model
   assumes of each is written as a definition or a parameter and listed below.

No axioms, parameters outside sections, admitted proofs or disabled kernel
checks are used.

## What is modelled, per property

### Heap: C01-C03 (`Heap*.v`)
`_heap.py` in full: level array, cross references, growth and shrinking of the
storage, push/update/pop, on binary64 keys. Not modelled: numba's int64
wrap-around (sizes are bounded by memory) and the `uint8`/`int64` dtypes of the
buffers.

Finding: with a NaN key `pop` indexes `crossrefs` with -1
(`C03_nan_key_refuted`). Costs are never NaN in cost distance unless an infinite
cost meets a zero step.

### Cost distance: C04-C09 (`Cost*.v`, `Dijkstra*.v`)
`_cost_distance_analysis_core`, flat indices and neighbour offsets, elevation
steps, allocation and traceback, source preparation and the public function's
masks. Exact binary64 accumulation. Not modelled: dask delays, xarray wrapping,
`np.sqrt` of the step length is binary64's correctly rounded square root.

Findings: a source on a cell of negative cost keeps distance 0 although the
docstring calls negative costs impassable (`C05_negative_source_refuted`).
An elevation of -9999 is treated as null whatever the raster's null value
(by reading).

### Proximity: C10, C11, C51 (`Proximity*.v`)
`_process_proximity_line`, `_compute_proximity`, chunk overlap, the four metrics
and the three outputs, in binary32 and binary64. The great-circle distance and
the bearing are parameters. Assumed of dask: `map_overlap` pads with the given
constant and trims.

Findings: the padding of an unmasked integer raster (`NaN` cast to integer) is
found as a target (`C10_integer_padding_refuted`); the Euclidean search is not
always the nearest target though the documentation says so
(`C10_nearest_refuted`); `max_distance` below 2^-511 underflows when squared
(hypothesis). Taxicab and Chebyshev distances are
the nearest (`C51_taxi_nearest`, `C51_chebyshev_nearest`).

### Mosaic: C12, C13 (`Mosaic*.v`)
`_paint`, `_paint_recursive`, `_mosaic_single_band` after all inputs are on one
grid and dtype. Reprojection is not modelled.

Finding: with "sum", a partial or final sum that equals the null value is taken
for null (`C13_sum_refuted`, `C13_null_iff_all_null_refuted`).

### Chunks and blocks: C14-C18, C22, C45, C46 (`Chunks*.v`, `Blocks*.v`, `BlockArgs*.v`)
GeoBlockInfo, chunk locations, quadrants, chunk rasters, chunk file names, depth
normalisation, dask's rechunking for overlap, boundaries, the null value of
outputs. Affine coefficients are rationals. Not modelled: bounding boxes of
chunks with a single cell, casting of the boundary constant.

Findings: with asymmetric depths the georeferencing of interior chunks is off
(`C16_interior_exact_refuted`), at the edges with boundary "none" too
(`C16_edge_refuted`); `get_chunk_rasters`/`save_chunks` raise ValueError when
bands share a chunk (`C17_shared_band_chunk_rejected`); `return_mask=True`
without dtype, meta or null value raises KeyError (`C45_return_mask_refuted`);
the depth `{0: (0, 0)}` is rejected.

### Focal statistics: C19-C21, C52 (`Focal*.v`)
`get_offsets`, the numba window loops including their uninitialised output
arrays, `map_overlap` by chunks, mask handling, the fast path of dask_image for
min, max and sum, correlate and convolve with all edge modes, window shapes.
scipy's filters are modelled by plain window filters with scipy's origins. Not
modelled: overflow of scipy's integer sums, NaN and infinities in the fast path
without a mask, float16 precision, int64 rounded to float64.

Findings: `ignore_null=True` never gives a null cell a value
(`C20_ignore_null_refuted`); even windows are centred differently with and
without nulls (`C20_even_refuted`); annulus min/max at the edges
(`C20_annulus_edge_refuted`); a rectangle has `width` rows and `height` columns
(`C52_rectangle_orientation_refuted`).

### Statistics: C31, C33 (`Stats*.v`; nanmin/nanmax are in `Zonal*.v`)
Mode, unique count, ASM, entropy, argmin/argmax, nanmin/nanmax over any
reduction tree.

Findings: ASM in binary64 depends on the order of values
(`C31_asm_binary64_order_refuted`); nanargmin/nanargmax are wrong when every
valid value is the starting infinity (`C31_argmin_infinity_refuted`). By
reading: `nanmode` sorts its input in place.

### Zonal statistics: C32 (`Zonal*.v`)
The aggregations of zonal.py over any partitioning and aggregation tree. Not
modelled: median, std (square root of var), the cast to float64, reshaping.

Finding: in binary64 sums depend on the partitioning
(`C32_sum_binary64_refuted`).

### Dtypes: C34 (`Dtypes*.v`)
`get_common_dtype` and promotion. Findings: literals that fit no common dtype
are dropped or raise TypeError (`C34_wide_range*_refuted`), the result depends
on the order of the items (`C34_order_refuted`), uint64 with signed gives float64
(`C34_u64_refuted`).

### Rasters and nulls: C23-C30, C44 (`Raster*.v`, `Pad*.v`)
Masks and null values of Raster: burn_mask, set_null_value, set_null, astype,
element-wise functions, where, remap_range, reclassify, stack/split/get_bands,
pad, clip. Operands are on one grid (xarray alignment is not modelled), `astype`
of an element is a parameter, footprints of features are given.

Findings: `set_null_value(NaN)` raises KeyError for int64/uint64 and makes True
cells null for bool; integers that no dtype holds are accepted as null values;
`astype` with a null value close to the old one keeps the old one
(`C23_*_refuted`); by reading, `astype(new_null_value=...)` is ignored on
unmasked rasters. Values equal to the null value of the result become null in
`where`, `remap_range`, `reclassify` (`C26_where_refuted`,
`C27_remap_range_refuted`, `C28_reclassify_refuted`); `reclassify` changes the
caller's dict (`C28_mapping_changed_refuted`); null cells of a stack may hold a
value merely close to its null value (`C29_null_cells_refuted`); `pad` compares
the fill with the null value before casting it (`C30_fill_cast_refuted`).

### Grids: C40, C43, C50 (`Grids*.v`)
Index/coordinate conversion with rational affine transforms and, for
axis-parallel grids, in binary64 (`GridsFloat.v`: no fused multiply-add in the
matrix product); `grids_close`, overview factors. Findings: in binary64 a corner can map to a neighbouring cell
(`C40_binary64_corner_refuted`); `grids_close` is neither symmetric nor
transitive and lets far cells drift by more than a pixel (`C43_*_refuted`).

### Vectors: C36, C37 (`Vectors*.v`)
Partitioned reading, OBJECTID assignment, indexing. Findings: an empty layer
raises UnboundLocalError (`C36_empty_layer_refuted`), by reading
`npartitions=0` raises ZeroDivisionError; partitions larger than the base give
equal ids (`C37_large_partition_refuted`). int64 overflow of ids is not modelled.

### Rasterize: C35 (`Rasterize*.v`)
Overlap resolution over any partitioning and reduction tree. Which cells a
feature touches is given. Findings: a NaN null value, a feature value equal to
the null value and NaN feature values give partition-dependent results
(`C35_*_refuted`).

### Line lengths: C38 (`LineStats*.v`)
Batching and summation. Intersections and buffers (GEOS) are given. Findings:
weighting raises AttributeError unless the field is called "weights"
(`C38_weights_refuted`); binary32 totals depend on the batches
(`C38_binary32_refuted`); the result needs buffers that cover the cell
(`C38_buffers_refuted`).

### Aggregation: C39 (`Aggregate*.v`)
`aggregate` for every statistic. Findings: the mode of a window of valid NaN
cells is 0 (`C39_mode_nan_refuted`); the mode of masked int64 rasters is rounded
through float64 (`C39_mode_int64_refuted`).

### Remap files: C41 (`RemapFile*.v`)
The parser character by character, with a model of Python's backtracking
matcher. ASCII only; Python's 4300 digit limit is not modelled; rounding of
decimals to float is a parameter. Findings by the model: comments are not
allowed, leading zeros are rejected, "+" and "e5" pass the pattern and raise
ValueError instead of RemapFileParseError.

### Batch scripts: C42 (`Batch*.v`)
`batch.py` in full. Rasters, the file system, `float()` and `int()` of a string
are parameters; ASCII only; POSIX paths.

Findings: ARITHMETIC calls a method that Raster does not have
(`_binary_arithmetic`), REMAP passes numbers where `Raster.remap_range` expects
a mapping, EXTRACTBAND and SETNULL call `pop` on a string. None of the four can
succeed (`C42_dead_functions`). OPENRASTER does not strip its argument. A
raster named like a number ("nan", "1e5") cannot be an operand. A script
without assignments raises `KeyError(None)`.

### Regions: C47 (`Regions*.v`)
`regions` and `_create_labels` for every labelling function that meets the
contract `labels_components` (dask_image's `label`); a simple labelling is proved
to meet it. uint64 labels are integers.

Findings: a value given twice in `unique_values` can make labels of different
values coincide (`C47_duplicates_refuted`); by reading, values that are not
listed get 0 though the documentation says that they form one zone; labels
restart in each band.

### Dilation and erosion: C48 (`Morph*.v`)
`dilate`/`erode` by chunks; scipy's grey and binary filters are modelled as
window filters. Findings: infinities at edges or beside nulls become the largest
finite number (`C48_infinity_refuted`); by the model, masked rasters lose their
border under erosion and unmasked ones do not; bool rasters raise ValueError;
even windows reach further on one side.

### Surface: C49, C53, C54 (`Surface*.v`)
surface_area, slope, aspect, curvature, hillshade, northing, easting: the numba
kernels, chunk overlap and null handling for any arithmetic; the formulas in
real numbers. Rounding is not modelled. Not modelled: topographic position index.

Findings: valid cells beside nulls become NaN, not null
(`C49_null_neighbour_refuted`); for masked 8-bit and float16 rasters the null
value enters the neighbours' formulas (`C49_float16_refuted`); hillshade makes
cells of value 255 null (`C49_hillshade_255_refuted`); flat cells get northing
cos(1 degree) (`C53_flat_northing_refuted`). By the model: "percent" slope is
the ratio; aspect ignores cell sizes and assumes north up; surface area uses the
x cell size for both directions.

### Bands: C55, C56 (`Bands*.v`)

Modelled: `general.py` `local_stats`, `_local`, `_local_chunk`, `_get_local_chunk_func`,
and `model_predict_raster` with its per-block prediction. The statistics that are one
numpy reduction (mean, std, var, max, min, prod, sum, median) and the sums of asm and
entropy are parameters (`LNumpy`, `LSum`); mode, unique, minband and maxband are the
functions of `Stats.v`. `astype` is a parameter `cast`; C55 assumes only that it keeps
integers a dtype can hold and that converting the valid values of a masked raster to
the float dtype and back is exact. The contents of `np.empty` are a parameter. A model's
`predict` is a parameter that C56 requires to treat rows independently. Not modelled:
promotion of integer data to float before prediction, coordinates.

Findings:
- `C55_minband_nan_refuted`: in a raster without null value, a cell that is NaN in every
  band gets minband (and maxband) 254: the code -2 for "no valid value" wraps in a uint8.
- The model is given `np.nan_to_num` of the data: infinities reach it as the largest
  finite numbers, and NaN cells of an unmasked raster as 0, without becoming null.
- The mode of masked 64-bit integers is computed in float64 (hypothesis of C55 on `cast`).
- Not checked against numba: masked 8-bit rasters are promoted to float16, which numba
  does not compile; other places of the code avoid float16, `_local` does not.

### Vector predictions: C57 (`Frames*.v`)

Modelled: `model_predict_vector` and `_pred_df` on a list of partitions; columns are of
numbers or of objects. `predict` is a parameter as for C56. Not modelled: types of
arguments, numpy's width check on assigning zero rows, laziness.
Finding: `C57_one_output_refuted`, a model with one output is accepted when more are
announced and its output is repeated in every column, whereas `model_predict_raster`
rejects it. A partition without complete rows calls the model with an empty array, which
many models reject; C57 asks the model to accept it.


### Points: C58 (`Points*.v`)

Modelled: `Raster.to_points`, `_vectorize` and `_extract` over the blocks in dask's order.
The coordinates of a block's cells (odc-geo `GeoBox.coordinates`) are a parameter that C58
requires to be within 1/512 of a cell of the exact centres; row and column are computed
from them in binary64 as in C40 (no fused multiply-add). The contents of `np.empty` are a
parameter; `values`, `bands` and `xy1` are one array. Not modelled: the data frame, the
coordinate system, int64 overflow.

### map_blocks: C59 (`MapBlocks*.v`)

Modelled: `map_blocks`, `_align_chunks_to_ref`, the wrapper around the caller's function
and `_pack_data_mask`; the null value is that of C45. The caller's function is a parameter;
it may fail, and may look at the block's position. dask's `map_blocks` is modelled as
cutting the inputs at the chunk locations and joining the results. Not modelled: dask's
call on empty arrays, the dtypes of the values (the dtype of the result is the announced
or the inferred one), `input_null_values`, extra keywords, coordinates.
Findings: `C59_mask_null_value_refuted` (as C45). By reading C59_return_mask: when the
only raster has no null value and keeps its dtype, the function is told there is no null
value, but the result gets the default one.

### Arrays as rasters: C60 (`Normalize*.v`)

Modelled: `find_spatial_dims`, `normalize_xarray_data`, `is_normalized`,
`data_to_xr_raster`, `data_to_xr_raster_ds` and the tests for strictly ordered
coordinates. Coordinates are rationals; which dimensions rioxarray or odc-geo recognise as
y and x is a parameter. Not modelled: chunks, coordinate systems, transforms, other
coordinates and attributes, dtypes of the values (a null value outside the dtype of the
data promotes it on `burn`).
Findings:
- `C60_band_first_refuted`: an array with dimensions (band, a, b) or (a, b), names that
  are not recognised and float coordinates raises AttributeError: the code calls `remove`
  on a tuple. Integer coordinates work.
- `C60_single_row_refuted`: a raster of one row or one column never passes
  `is_normalized`.
- By reading: `data_to_xr_raster` tests `isinstance(x, np.ndarray)` twice and never
  tests `y`.

### Null values for a dtype: C61 (`Reconcile*.v`)

Modelled: `reconcile_nullvalue_with_dtype` for null values of the 12 dtypes of `Scalars.v`
with NumPy 2, whose `np.can_cast` looks at the dtype of a scalar and not at its value;
`np.min_scalar_type` and the conversion to float16 and float32 (to the nearest, ties to
even) are modelled too. `np.allclose` is exact here. The project allows NumPy 1.22 and
later; with NumPy 1 `np.can_cast` looks at the value and the findings below do not apply.
Not modelled: Python integers outside int64, longdouble.
Findings (with NumPy 2):
- `C61_int16_refuted`: 20000 for int16 or 100 for int8 is replaced by the default null
  value, because its smallest dtype is unsigned.
- `C61_float32_refuted`: a Python float for float32 data is rounded to half precision:
  1e-9 becomes 0, 1.1 becomes 1.0996, without a warning.
- `C61_lowest_refuted`: -3.4028234663852886e38 as a Python float, for float32 data, is
  replaced by -999999.
- `C61_float64_refuted`: integers that float64 does not have are kept for float64 data.
- `C61_bool_rounded`: 0.99999 becomes True.

### Rasters from arrays and xarray objects: C62 (`Ingest*.v`)

Modelled: `_array_input_to_raster_ds`, `_try_to_get_null_value_xarray`,
`_dataarray_input_to_raster_ds`, `_dataset_to_raster_ds` and `dataarray_to_xr_raster_ds`
on top of the models of C60 and C61. What rioxarray reports as `nodata` and
`encoded_nodata` is part of the input (`source`); so is whether the chunks and coordinate
systems of values and mask agree. Values are compared with the null value exactly.
`C62_dataset` needs values and mask on the same coordinates; xarray would align different
ones. Not modelled: files, chunks, coordinate systems, other attributes, and rasters
with more than the two variables (refused by the code).
Findings:
- `C62_fast_path_refuted`: a lazy Dataset with dimensions (band, y, x) is returned
  unchanged: y may increase, x may decrease, masked cells may hold any value.
- `C62_null_cells_refuted`: NaN is replaced by the default null value even if a valid cell
  holds that value; it is then valid but equal to the null value.

### Rasters on different grids, arrays, bandwise: C63 (`Align*.v`)

Modelled: the raster and array operands of `_normalize_ufunc_other` and `_apply_ufunc`
with coordinates, `can_broadcast`, `merge_masks`, `_normalize_bandwise_other` and
`BandwiseOperationAdapter`. xarray's part is a model of its documented behaviour: a binary
operation keeps the coordinates that both operands have, each dimension by itself, in the
order of the left one; an in-place operation (`mask |= m`) raises MergeError, a ValueError,
unless the coordinates are equal; a ufunc must not change the size of a dimension.
Coordinates are compared exactly. The operation is an arbitrary function of two values;
the dtype of the result is a parameter. The order of the operands does not matter to the
model. Not modelled: dask arrays of unknown size (refused by the code), operands that are
xarray objects (they become rasters first, C62), coordinate systems.
Findings:
- `C63_bandwise_refuted`: `raster.bandwise + [a, b]` raises ValueError if the raster has
  one column or as many columns as bands, because the list could also be broadcast.
- `C63_single_band_refuted`: a raster of one band and a raster of several bands, both
  without null values, give a raster of one band: the other bands are dropped without a
  warning. With a null value the same operation raises MergeError (`C63_masked_grids`).

### map_overlap: C64 (`MapOverlap*.v`)

Modelled: `map_overlap` on top of the models of C22 (depth), C46 (boundary), C45 (null
value) and C59 (wrapper, blocks). dask's `map_overlap` is a model of its code: chunks
smaller than the depth are merged (`ensure_minimum_chunksize`), the arrays are continued
along rows, then columns (`boundaries`; a constant is converted to the dtype of the array
by the parameter `cast`), every chunk is handed over with its margins
(`overlap_internal`), the margins are cut off the results (`trim_internal`). The function
is a parameter; the theorems ask that it is local (`windowed`): its value at a cell of
the chunk is g of what it sees within the depth. Where nothing lies beyond the edges, g
is told so (`None`). The result is said to have the chunks of the first raster; nothing
else depends on them. Not modelled: checks of keyword names, `block_info`,
`input_null_values`, dask's call on empty arrays.

### geo_map_blocks and geo_map_overlap: C65 (`GeoMap*.v`)

Modelled: `geo_map_blocks`, `geo_map_overlap`, the wrapper around the function, the two
resolvers, `GeoBlockInfo.x`, `y`, `band` and the check of shapes in `to_dataarray`, on top
of the models of C15, C16 (block infos), C43 (equal grids), C59 and C64. A coordinate
system is a number and whether it is geographic; odc-geo names the axes y, x or latitude,
longitude accordingly (`GeoBox.dimensions`, also noted at `_grids.py:64`), and
`coordinates` is modelled for grids that are not rotated, as exact rational numbers. The
function gets the blocks, the coordinates and the block info; it is a parameter. Blocks
are not empty (`no_empty_chunk`). With `out_bands` the model is not used in a theorem.
Not modelled: attributes of the DataArrays (nodata, CRS), keyword names.
Findings:
- `C65_geographic_refuted`: `GeoBlockInfo.x` and `y` look up "x" and "y"; for a raster in a
  geographic system (EPSG:4326) this raises KeyError, so `geo_map_blocks`,
  `geo_map_overlap` and what uses them (`line_stats.length`) fail for such rasters.
- `C65_no_boundary_refuted`: with boundary None and more than one chunk, or with a depth
  that differs between the two sides, the coordinates handed over are those of other
  cells (see C16), so the result depends on the chunks.

### Whole rasters in proximity analysis: C66 (`ProximityWhole*.v`, `GreatCircle*.v`)

Modelled: `_proximity_analysis` (checks of the arguments, one chunk when `max_distance`
covers the raster, overlap from the resolution, merging of small chunks, bands, mask of
the result), `_validate_lonlat_coords`, `_estimate_min_resolution`, on top of C10, C11 and
C51. `raster.resolution` is a model of rioxarray's. For the overlap of great circle
distances there is a second model in real numbers (`GreatCircle.v`), without rounding.
Not modelled: lookup of the metric by name, shape of `target_values`, float16.
Findings:
- `C66_result_refuted`, `C66_long_side`: when `max_distance` is longer than one side of the
  raster and shorter than its extent, dask refuses the overlap: ValueError. One row of ten
  cells with a `max_distance` of two cells is refused.
- `C66_allocation_null_refuted`: a target whose value is the default null value of the
  dtype (255 in an unmasked uint8 raster) is null in the allocation.
- `C66_no_target_refuted`: as `C10_integer_padding_refuted`, for whole rasters: in a raster
  without targets every cell near the coordinate 0 gets a distance.
- `C66_min_width_refuted`, `C66_overlap_south_refuted`: `_estimate_min_resolution` takes the
  largest latitude, not the one farthest from the equator. South of the equator cells are
  narrower than the estimate and the overlap is too small, so with several chunks targets
  within `max_distance` are missed. In the north the width is right
  (`C66_min_width_north`), but
- `C66_overlap_north_refuted`: the number of columns is `max_distance` divided by the width
  of one cell along the great circle; over the pole more columns are within reach.
- By the model: with a great circle metric, a raster of one column raises IndexError and
  one of one row ValueError when `max_distance` does not cover it.

### Rasters like a template: C67 (`Creation*.v`)

Modelled: `creation.py` (all functions) and `data_to_xr_raster_ds_like` on arrays of three
dimensions, on top of the models of C60 and C62. Conversion of a value to a dtype and the
random numbers are parameters. Not modelled: coordinate systems, chunks, templates given
by a file name, promotion of the dtype by `da.where` when the null value does not fit.
Findings:
- `C67_valid_null_refuted`: `zeros_like(template, copy_mask=True)` of a raster whose null
  value is 0 keeps 0 as null value, so cells that are not null hold the null value.
- By reading: without `dtype` the template's null value is kept although the data have the
  dtype of the value, so `zeros_like` of a raster with null value NaN gives float64.

### Reductions of rasters: C68 (`Reductions*.v`)

Modelled: `_ReductionsMixin` with dask's `nansum`, `nanprod`, `nanmean`, `nanvar`,
`nanstd`, `all` and `any` as reductions over trees of blocks (the variance with dask's
`moment_chunk`, `moment_combine` and `moment_agg`); `min` and `max` are C33. Floats are
real numbers or NaN; sums and products of integers wrap in 64 bits. Not modelled: float
rounding, infinities, dtypes of the results.
Notes: `all` and `any` take a valid NaN as true, the other reductions skip it. The sum and
product of no cells are 0 and 1.

### Mosaics of whole rasters: C69 (`MosaicWhole*.v`)

Modelled: `mosaic` and `_paint` for all methods on top of the models of C12 and C13, with
the choice of dtype and null value and the conversion of every input by `astype`.
Parameters: placing a raster on the common grid (alignment or reprojection),
`np.result_type`, addition in the dtype, conversion of values. Not modelled:
`combine_grids`, chunks, coordinate systems, promotion of the dtype by `da.where`.
`C69_sum` holds for any number of rasters in every cell where no run of consecutive values adds up to the null
value (`run_free`; with up to six rasters nothing is needed): the recursion of `_paint_recursive` takes such a sum for null (C13).
Findings:
- `C69_valid_null_refuted`: a valid cell becomes null if its value is the null value chosen
  for the result (that of another raster, say).
- `C69_close_null_refuted`: `astype(dtype, nodata)` leaves null cells alone if the old null
  value is close to the new one (`np.allclose`). If it is not equal, the null cells enter
  the mosaic as values.
- `C69_bool_refuted`: `min` and `max` of bool rasters raise ValueError (`np.iinfo(bool)`).
- `C69_nan_to_int` (an example): with null value NaN and an integer dtype the mosaic raises.

### Saving and opening rasters: C70 (`Saving*.v`)

Modelled: `Raster.save`, the dtype and null value chosen by `write_raster`, opening the
file (`open_raster_from_path_or_url`, `normalize_null_value`), and the files written by
`save_chunks` (their names and chunks are C17 and C18). Parameters: conversion of values,
which dtypes GDAL writes, and the null value read back from a file. Hypotheses about
these: NumPy leaves values of the dtype alone and rounds int64 to doubles; GDAL gives back
float null values and integers up to 2^53. Cells are read back as written. Not modelled:
compression, tiling and overviews (`_gtiff_translate`, `_cog_translate`), coordinates,
chunks, warnings, extra GDAL options; NotImplementedError is given as ValueError.
Findings:
- `C70_int64_refuted`: int64 rasters whose null value is beyond 2^53 (the default one is)
  are saved as float64. A valid cell that rounds to the null value comes back null.
- `C70_nan_refuted`: float files without null value are opened with null value NaN, so NaN
  cells of a raster without null value come back null.
- `C70_uint64_refuted`: the check of null values beyond 2^53 is made for int64 only. For
  uint64, whose default null value is beyond it too, the code relies on GDAL.
- `C70_tile_refuted`: `save_chunks` stacks the bands of a tile with `stack_bands`, which
  gives rasters without null value the default one. Cells of 255 in a uint8 image without
  null value are null in the files, though `save` keeps them.

### Extracting point values: C71 (`Extract*.v`)

Modelled: `extract_points_eager` with the index computation of C40 in exact arithmetic,
masked assignment, and the frames for both values of `axis`. Parameters: reprojection of
geometries and conversion to float64. Hypothesis: the transform is invertible. Not
modelled: partitions, the dtype of the band column, an empty list of points.
Findings:
- `C71_band_refuted`: with `column_name="band"` and `axis=0` the values replace the band
  numbers.
- `C71_int64_refuted`: values of 64-bit integer rasters are rounded to doubles.
- By reading: `da.full(n, ...)` has several chunks for very many points, but the index made
  for it has one partition.

### Polygons: C72 (`Polygons*.v`)

Modelled: `to_polygons`, `_shapes_delayed`, `_get_rio_shapes_dtype`; a polygon is the list
of its cells. Parameters: `rio.features.shapes` (hypothesis: its polygons cover the valid
cells of a chunk, with their values; GDAL may join floats that are a few units in the last
place apart, which the hypothesis excludes) and conversion of values (hypothesis: equal
values are converted to equal values). The transform of a chunk is taken to put polygons
at the place of the chunk. `dissolve` is modelled, not verified.
Findings:
- `C72_int64_refuted`: int64, uint32 and uint64 go through int32, so values beyond are wrong
  and areas whose values differ by a multiple of 2^32 become one polygon.
- `C72_float64_refuted`: float64 goes through float32.
- `C72_nan_refuted`: valid NaN cells are in no polygon (`dissolve` drops NaN).
- `C72_same`: `neighbors` makes no difference, because `dissolve` joins all polygons of the
  same value, touching or not.
- By reading: `chunk[mask] = 0` changes the block in place.

### Rasterising onto a whole raster: C73 (`RasterizeRaster*.v`)

Modelled: `rasterize` with its checks, the choice of dtype and null value,
`_rasterize_spatial_naive`, `_rasterize_spatial_aware`, the matching of partitions with
chunks, the reduction of the stack of a chunk by twos, `list_reshape_2d` and the joined
array, on top of C35 for one chunk. The model returns the caller's table as well, because
line 523 assigns to it. All grids lie on one lattice of cells, and a feature says which
cells it touches in a coordinate system. Parameters: the regions computed by
`calculate_spatial_partitions` (hypothesis: a region meets every box in which a feature
of the partition touches a cell), conversion of values. Not modelled: the detour of int8,
and with an old GDAL of 64-bit integers, through another dtype; null values the dtype
cannot hold; progress bars.
Findings:
- `C73_again_refuted`: without spatial partitions, `_rasterize_spatial_naive` assigns like's
  bounds as spatial partitions to the dataframe it is given. Without a change of the
  coordinate system this is the dataframe of the caller's Vector. A second call with a grid
  elsewhere then uses these bounds and drops features. The branch for
  `use_spatial_aware` makes a copy first. `C73_again` shows that grids inside the first one
  are safe.
- `C73_mask_null_value_refuted`: with `mask=True` and `null_value=1`, `set_null_value` also
  masks the cells that hold 1, so every cell is null.
- `C73_thin`, `C73_thin_refuted`: `get_chunk_bounding_boxes` calls `rio.bounds()` on coordinates
  only, which rioxarray refuses for a chunk of a single row or column (C82). A like raster with
  such a chunk, e.g. 4097 rows in chunks of 4096, cannot be rasterised onto, with any arguments.
- By reading: `get_chunk_bounding_boxes(include_band=True)` numbers bands, not band chunks,
  and `get_chunk_rasters` sets one band coordinate, which fails for chunks of several bands.

### Clipping whole rasters: C74 (`Clipping*.v`)

Modelled: `_clip`, `clip`, `erase`, `mask`, `envelope` and `clip_box`, with the footprint
computed by the model of C73 and the masking of C44. Slicing an array in chunks gives the
chunks of the part. `Vector.to_crs` gives a new table without spatial partitions, even when
the coordinate system is the same, so the finding of C73 does not reach clipping.
Parameters: the rows and columns `rio.clip_box` keeps (hypothesis: a part of the raster that
is not empty), `total_bounds`, and what C73 takes as parameters. RuntimeError and
RasterNoDataError are given as KeyError. Not modelled: opening paths.
Finding:
- `C74_chunks_refuted`, `C74_thin`, `C74_thin_mask`: the chunks of the window are the parts of the
  raster's chunks. If the window takes a single row or column out of a chunk, `clip`, `erase` and
  `envelope` raise OneDimensionalRaster (from C73), although all chunks of the raster are large.

### Topographic position index: C75 (`Tpi*.v`)

Modelled: `tpi` with its checks, on top of the focal statistics (C20, C52) and the
arithmetic of rasters (C23 to C30), for one band. Parameters: the mean, subtraction,
addition and conversion of values (hypothesis: the lowest int32 stays what it is);
`C75_exact` takes exact arithmetic and a conversion towards zero.
Findings:
- `C75_symmetric_refuted`: `int(x + 0.5)` rounds towards zero, so a cell 1 above its
  surroundings has index 1 and a cell 1 below has index 0.
- `C75_empty_annulus_refuted`: without a null value, a cell with an empty annulus gets NaN
  cast to int32 as a valid value.
- `C75_radius_refuted`: a radius of 1 is the cell itself (the finding of C52), so
  `tpi(dem, 0, 1)` is 0 everywhere.

### Options and files of writing: C76 (`WriteOptions*.v`)

Modelled: `_gtiff_translate`, `_cog_translate`, the creation options of `write_raster`, the
order of its operations on files with `try` and `finally`, the overview pass,
`_get_extension` with POSIX `os.path.splitext`, `is_batch_file`, and which paths
`open_raster_from_path_or_url` gives to rioxarray. An operation on files is a value that
may raise; what it does is not modelled. `os.path.exists` of the temporary file is taken to
be true. Strings are ASCII. Not modelled: options of other Python types (a numpy integer as
block size raises TypeError, as BlockOther); gdal_kwargs called lock or compute.
Findings:
- `C76_opened_refuted`: `urllib.parse.urlparse(path) == ""` compares a tuple with a string,
  so a str path is neither checked for existence nor refused for its extension; a Path is
  refused, unless its extension is in capitals.
- `C76_driver_case_refuted`: `driver="gtiff"`, which GDAL accepts, loses the compressor and
  all other options without a warning; so do all drivers but two.
- `C76_resampling_late_refuted`: an unknown resampling raises KeyError after the file has
  been written.
- `C76_empty_overviews_refuted`: `overviews=[]` builds none for a GTiff and all for a COG.

### Zonal statistics of whole rasters: C77 (`ZonalRaster*.v`)

Modelled: `zonal_stats` and `_zonal_stats` with all checks, for tables of features and rasters
of zones: rechunking, rasterizing (C73), null cells to NaN, the cast to float64, partitions,
the trees of aggregations (C32), joining the medians and ordering the columns, the long
format, and `handle_overlap`. Parameters: the chunks dask chooses, the cells of each
partition (hypothesis: every cell once), the shape of the trees, the partitions of the
result, the cast (hypothesis: it keeps NaN apart from numbers). count, size, nunique, min,
max and mode are exact; the other statistics are any function of the valid values that does
not depend on their order. Not modelled: paths, dtypes of columns, statistics named twice,
the order of zones in the wide format.
Findings:
- `C77_several_bands_refuted`: a raster of zones (one band) is rechunked with the chunks of
  all bands of the data. If the data has several bands and the zones have other chunks than
  dask chooses for float64, dask refuses.
- `C77_index_refuted`: the docstring says zones are the features' index; they are index + 1.
- `C77_mask_refuted`: valid cells that hold the null value are left out, since the null value
  and not the mask is looked at.
- `C77_band_order_refuted`: the long format sorts the bands by label text, band 10 before 2.
- `C77_again_refuted`: a second call with the same lazy table for a raster elsewhere finds no
  zones (from `C73_again_refuted`).
- `C77_thin`, `C77_one_row_refuted`: with features, data of one row or column, or data for which
  dask chooses a chunk of one row or column, is refused (from `C73_thin`).

### Numpy functions and operators: C78 (`UfuncCall*.v`)

Modelled: which raster numpy asks, `_RasterBase.__array_ufunc__`, `_normalize_ufunc_other`, the
scalars, the order of operands, `out` and the CRS of `_apply_ufunc`; rasters are a list of
mutable entries, so that operations in place are visible. The cells are those of C25. A numpy
function is a record: name, numbers of inputs and outputs, dtypes of its outputs for the
types of its inputs, and values. Not modelled: complex numbers, fractions, decimals;
alignment and broadcasting (C63); DataArrays that do not become rasters.
Findings:
- `C78_dtype_refuted`: keywords other than `out` (`dtype=`, `where=`, `casting=`) are dropped
  without an error.
- `C78_int_refuted`: Python ints count as int64, so a uint64 raster plus 1 is float64 and an
  int8 raster plus 1 is int64 (numpy 2: uint64 and int8).
- `C78_large_int_refuted`: comparing a uint64 raster with 2^63 raises OverflowError.
- `C78_crs_refuted`: rasters with different CRSs are combined; the result has the first CRS.
- `np.bool_` is no `numbers.Number`, so `raster & np.bool_(True)` raises TypeError
  (`C78_operands`); the branch for `xr.Dataset` in `_normalize_ufunc_other` cannot be reached.
- `C25_outputs_refuted` (found here): numpy functions with several outputs fail for rasters
  without null value, since `get_mask_from_data` gets a tuple.

### Vectors as tables of features: C79 (`VectorTable*.v`)

Modelled: `Vector.__init__` with `_normalize_geo_data`, the sizes of C37 and dask's
`from_geopandas` (sorting by label), `copy`, `load`, `to_crs`, `cast_field`, `buffer` and
`simplify`, `field_names`, `__getitem__` with dask's lookup by label, iteration,
`open_vectors` (with pyogrio), `_normalize_layers_arg`, `get_vector`,
`get_dask_geodataframe` and `add_objectid_column`. Geometries are names (numbers) and
operations on them functions. Parameters: the layers at a path and how `read_file` partitions
them (hypothesis: all features, labelled from 0, no empty partition). Errors of lazy results
are raised at once. Not modelled: CRSs, dtypes, spatial partitions, casting geometries, index
names, `to_lazy` for data in memory (never reached: the data of a Vector is always lazy).
Findings:
- `C79_gaps_refuted`: a table in memory whose labels have gaps (a selection of rows) makes a
  Vector, but `to_crs` raises ValueError: the size does not fit the divisions.
- `C79_labels_refuted`: `v[i]` and iteration look up the label i, not the i-th feature, and
  raise KeyError when the labels are not 0, 1, ....
- `C79_count_refuted`: the comment "This should never overcount" (vector.py:292) fails for
  filtered collections, whose divisions stay.
- `C79_size_refuted`: a given size one too small is accepted.
- `C79_buffer_refuted`: `buffer` and `simplify` drop all fields.
- `C79_geometry_name_refuted`: `table`, `field_names` and `shape` raise KeyError when the
  geometry column is not called "geometry".
- `C79_empty_refuted`: an empty table makes a Vector, whose `copy`, `cast_field` etc. raise
  ValueError, since dask knows no divisions for it.

### Line lengths on whole rasters: C80 (`LengthRaster*.v`)

Modelled: `length`, `_length_chunk` and `_length` (line_stats.py:181-313) on top of the blocks
of C38, `geo_map_overlap` of C65 and the Vectors of C79: the checks of the arguments, the
first band of `like`, the change of CRS, the overlap in cells, the rectangle around the
coordinates of a block, dropping unusable features, clipping, and the sum over partitions.
Parameters: the geometry library (types, validity, clipping, parts, buffers, lengths within
circles) and arithmetic. Hypotheses: clipping to a rectangle that contains the circle keeps
the length within it; a line with a part in the circle has a buffer that touches the cell
(`C38_buffers_refuted` shows what happens otherwise); exact sums and products. The
AttributeError of `features.weights` is a KeyError here. Not modelled: dtypes of columns (a
predicate says which are numeric), empty partitions, laziness.
Findings:
- `C80_field_refuted`: a weighting field that is not called "weights" raises.
- `C80_radius_refuted`: a radius larger than the raster raises ValueError (dask's overlap).
- `C80_geographic_refuted`: in a geographic system `length` raises KeyError (as C65).

### Padding to bounds: C81 (`PadGrid*.v`)

Modelled: `pad` and `_resolve_bounds` (_padding.py:35-203), `Raster.bounds`, the bounding box
of a GeoBox, and rioxarray's `pad_box` and `pad_xy` with numpy's `arange` (from their source;
they are part of the trusted base): the comparisons and lengths that decide how many rows and
columns are added, and the new coordinates. What the new cells hold is C30. Exact rational
coordinates: with doubles a bound that lies on an edge up to rounding may add one row or
column more. Not modelled: rasters of one row or column whose resolution is not stored,
rotated rasters.
Finding: `C81_nan_refuted`: NaN bounds (and bounds in the wrong order) are accepted; nothing is
added on that side.

### Boxes of chunks: C82 (`ChunkBoxes*.v`)

Modelled: `Raster.get_chunk_bounding_boxes` (raster.py:2851-2929) and rioxarray's `bounds` for an
array with coordinates but no stored transform (from its source; part of the trusted base): the
resolution is the distance of the first and last coordinate divided by the number of steps.
Boxes are their four edges, coordinates are exact.
Findings:
- `C82_all_rasters_refuted`, `C82_thin_refused`: a raster with a chunk of one row or one column
  (e.g. 5 columns in chunks of 4) has no boxes: OneDimensionalRaster is raised (ValueError here).
- `C82_band_position_refuted`: with `include_band=True` the column `chunk_band` counts bands; when
  a chunk holds several bands it is no position of a chunk in the data.

### Reprojecting: C83 (`Warp*.v`)

Modelled: `reproject` (warp.py:14-120) and the mask that `dataarray_to_xr_raster_ds`
(raster.py:1081-1119) makes for the result: the choice of the grid, the checks, the null value.
Parameters: grids, `to_crs`, `zoom_to`, equality of grids, and the warp of one band with the law
`warps` (each cell is a function of the source cells around it that do not hold the source's null
value, and gets the given null value if there is none). A raster is assumed to be null exactly where
it holds its null value (`consistent`; C23, C24). Not modelled: renaming of longitude and latitude,
attributes, chunks of the result, conversion of the target to a CRS object.
Findings:
- `C83_tuple_refuted`: the documented tuple of resolutions raises TypeError (`resolution <= 0`).
- `C83_valid_refuted`: a raster without null value gets the default one (255 for uint8), so its
  valid cells that hold 255 become null.
- `C83_mean_refuted`: values that are calculated (average, cubic, ...) and happen to be the null value
  are null.

### Datasets: C84 (`Dataset*.v`)

Modelled: `_get_valid_variables`, `_build_raster`, `_get_affine` and `open_dataset` (io.py:476-596)
with `data_to_xr_raster_ds` of C60. A file is the list of its variables as xarray decodes them
(shape, dtype, `_FillValue` attribute, rioxarray's `nodata`, coordinates, values) and the transform
that rioxarray finds for the dataset. `set_null_value` with the default null value of the same dtype
is modelled cell by cell. Not modelled: CRSs, bool variables, missing backends, variables whose x or
y dimension has size one and is squeezed away (rioxarray raises), laziness. DimensionsError and
AffineEncodingError are TypeError here.
Findings:
- `C84_upside_down_refuted`: `data_to_raster` ignores x and y when a transform is given, so the
  coordinates of the variable are never used. A file with rows from south to north and a stored
  GeoTransform from north to south opens upside down.
- `C84_too_few_refuted`: a variable with fewer than two dimensions raises even with
  `ignore_extra_dim_errors=True`, which is documented to ignore all that cannot be mapped.
- `C84_kwargs_refuted`: `decode_coords` is added to the caller's `xarray_kwargs`.
- `C84_default_refuted`, `C84_nan_refuted`: without declared missing value, valid cells that hold the
  default null value become null, and NaN cells do not.

### Coercion and small methods: C85 (`Coerce*.v`)

Modelled: `get_raster` (raster.py:3166-3214), `Raster.round` (2469-2498), `to_null_mask` (2165-2182),
`replace_null` (2184-2203). `Raster(path)`, `Raster(object)` and casts are parameters. np.round is
exact (scale, rint, scale back) with one cast at the end; numpy rounds each step to a float. Bool
rasters are not rounded here. RasterDataError and RasterIOError are ValueError.
Findings:
- `C85_replace_null_refuted`, `C85_replace_valid_refuted`: `replace_null` is `set_null_value`. The
  "replaced" cells are still null, with `value` as the new null value, and valid cells that hold
  `value` become null. `hillshade` and batch scripts (NULLTOVALUE) rely on it.
- `C85_round_null_refuted`: with null value 0 the valid cell 0.4 becomes a valid cell that holds 0;
  it is null after saving and opening.
- `C85_round_wrap_refuted`: uint8 255 rounded with `decimals=-1` is 260, which wraps to 4.
- `C85_nan_refuted`: after `get_raster(r, null_to_nan=True)` the raster still has its old null value
  while its null cells hold NaN.

### Joining bands: C86 (`BandConcat*.v`)

Modelled: `band_concat` (general.py:912-954) with `xr.concat(..., join="inner")`: the rows and columns
that all rasters have, in the order of the first (pandas' intersection of different indexes; equal
indexes are kept). Coordinates are exact, np.result_type and casts are parameters. Not modelled:
paths, chunks, attributes other than the null value.
Findings:
- `C86_shape_refuted`, `C86_beside_refuted`: the docstring asks for rasters of the same shape.
  Others are not refused: the result has the common rows and columns only, and none at all for rasters
  side by side.
- `C86_null_value_refuted`: the null value becomes the default of the dtype if any raster has one; a
  valid cell of a raster without null value may hold it already.
- `C86_crs_refuted`: rasters of different CRSs are joined, and the result has the CRS of the first.

### Combining grids: C87 (`Combine*.v`)

Modelled: `get_grid_bbox`, `get_grid_bounds`, `reproject_grid` and `combine_grids` (_grids.py:71-140), which
`mosaic` and `stack_bands` use to find their grid, on top of C43. Parameter: the reprojected grid
(hypothesis: axis-aligned). Modelled from odc-geo (part of the trusted base): `GeoBox.from_bbox` with
`tight=True` and its tolerance of 1/100 of a cell. shapely's intersection of boxes is not empty when they
share a line or a point. Coordinates are exact.
Findings:
- `C87_touching_refuted`: grids side by side have an "intersection": a column of cells that lies in the
  second grid only. `stack_bands(..., join="inner")` gives a raster instead of the error for an empty
  intersection.
- `C87_resolution_refuted`: without resolution, the cells are squares of the width of the first grid's.
- `C87_cut_refuted`: grids that are not on one lattice may lose up to 1/100 of a cell at the right and bottom.

### Keywords of the functions for blocks: C88 (`Keywords*.v`)

Modelled: the keyword checks of `map_blocks`, `map_overlap`, `geo_map_blocks`, `geo_map_overlap`
(blocks.py:318-351, 383-406, 1098-1111) and the two wrappers up to the call of the caller's function
(844-890, 1663-1729), with Python's dicts. Blocks, block_info, GeoBlockInfo and the null value for a
dtype are abstract here; their values are those of C45, C59, C64 and C65. Parameters: the names that
dask takes for itself and those that it passes on to its own functions. Not modelled: the kind of
the parameters of the function (has_keyword is true for `*block_info`, too), and how Python binds
the arguments to them.
Finding:
- `C88_forwarded_refuted`: with the names of dask's signatures (part of the trusted base of this
  refutation only), `new_axes`, `adjust_chunks` and `out_ind` are missing from `_DASK_RESERVED_KWARGS`: they
  are not forwarded, dask raises a TypeError.

### Shuffling features: C89 (`Shuffle*.v`)

Modelled: `Vector.spatial_shuffle`, `Vector.calculate_spatial_partitions` (vector.py:858-896) on top of C79.
dask_geopandas' `spatial_shuffle` (part of the trusted base) is dask's `set_index` with the distance along a
Hilbert curve; parameters: this distance, and the divisions (at least two, increasing, from the least to the
greatest distance). Not modelled: spatial partitions (C73 has their use), geometries without place.
Findings:
- `C89_size_refuted`, `C89_size`: `Vector(data)` calculates the size from the divisions as if they were
  positions. After shuffling they are distances along the curve (up to 2^32), so `len(v)`, `size` and
  `shape` are wrong with more than one partition.
- `C89_getitem_refuted`: `v[i]` looks for the label i, but labels are distances now: KeyError.

### Null values that the field's dtype rounds: C90 (`RasterFill*.v`)

Modelled: `_get_rio_dtype`, `_rio_rasterize_wrapper` (rasterize.py:24-60) and, once more, one chunk of C35 with the
null value as the dtype stores it kept apart from the null value that was given (73-289, 401-409). The check of the
fill value in rasterio (`can_cast_dtype`) and the promotions of numba and NumPy are part of the trusted base here.
Numbers lie in the range of the dtype. `C90_kept` is C35 for every null value and dtype that hold each other.
Findings:
- `C90_features_refuted`, `C90_first_last`, `C90_min_max`: `_resolve_*` compare a float32 array with the null value
  as float64. For 0.1, 1e20 or -3.4e38 nothing equals it, so with several partitions at a chunk "first"
  and "last" keep one partition only, and "min" and "max" may choose the null value over a feature.
- `C90_untouched_refuted`: an integer field with `null_value=0.5` gives valid cells of value 0 where no partition
  comes near, and a ValueError of rasterio elsewhere (`C90_refused`).
- `C90_int64_refuted`: with GDAL before 3.5 or rasterio before 1.3 values above 2^53 change.

### Operations by band: C91 (`BandwiseCall*.v`)

Modelled: `_normalize_bandwise_other`, `BandwiseOperationAdapter.__array_ufunc__`, `Raster.bandwise` (raster.py:375-473,
1456-1464) and `Raster.__array__` (368-372) as used there, with any numpy function, on top of C78 and the shapes of C63.
`C91_plain` says that a number does with bandwise what it does without. Not modelled: a second adapter as operand and ints
beyond uint64 (numpy makes arrays of Python objects of them).
Findings:
- `C91_list_refuted`: `r.bandwise - [1, 2]` raises ValueError for a raster of two bands if it has two columns, or one,
  since the list could also be broadcast along the columns.
- `C91_raster_refuted`: a raster with a single cell is taken as operand through `__array__`, so its null mask is lost.

### Arguments of the cost distance functions: C92 (`CostArgs*.v`)

Modelled: `cost_distance_analysis` from its arguments on (cost_distance.py:551-680), `cda_*` (683-810), costs of every
dtype (C05 has float64 only). Part of the trusted base here: `np.where` of NumPy 2 refuses a Python integer that the dtype
of the other array does not hold; numba adds integers in 64 bits. `C92_single_sums` shows that adding float32s by way of
float64, as the model does, is exact float32 addition. Integer elevations are float64s here, the same within 2^25 of 0.
Coordinates, CRS and chunks are not modelled. `steps_ok` (no step is NaN) is a hypothesis with elevation, and a theorem
without (`C92_flat_ints`, `C92_flat_floats`).
Findings:
- `C92_unsigned_costs_refuted`: null costs are replaced by -1, null elevations by -9999. A masked uint8 costs raster
  (or an int8 or unsigned elevation raster) makes the call fail with NumPy 2; NumPy 1 widens the dtype.
- `C92_uint64_sources_refuted`: the sources become int64 but their null value does not, so with the default null value
  of uint64 (2^64 - 1) every null cell is handed over as a source. What the call does after that is not modelled.
- `C92_fractions_refuted`: `astype(int)` before the check of bounds: the index (-0.5, 0.9) is the cell (0, 0).
- `C92_overflow_refuted`: the sum of two int64 costs of 2^62 overflows; the distance is negative.

### Directions and great circle distances: C93 (`Bearing*.v`)

Modelled: the formula of `_direction` (proximity.py:111-140), which is a parameter in C11 and C66, in the real numbers; with
`angle` of C53 for `np.arctan2`, and 180 / pi for 57.29577951308232. `haversine` is that of C66. C93 says what the formulas
mean: the spec has sine and cosine only, no `arctan2` and no `arcsin`. Rounding is not modelled, so nothing is said
about a direction within rounding of north (0 or 360).
Findings:
- `C93_sphere_refuted`: with the metric "haversine" distances are along great circles but directions are those of the plane
  of longitude and latitude: from (0, 45) to (90, 45) the result is 90, and the shortest way starts north of east.
- `C93_antimeridian_refuted`: from longitude 179 to the target at -179, 2 degrees to the east, the direction is 270 (west),
  while the distance is that of 2 degrees.

### Sums of float rasters in mosaic: C94 (`MosaicSum*.v`)

Modelled: `_paint` with "sum" (_mosaic.py:118-126) in any binary float format (float16, float32 and float64 among them), with
`_paint_recursive` and the grouping by bands of C12. `da.sum` adds in an order that depends on chunks and on numpy, so the
order is any function from lists to trees that have the elements of the list as leaves. Additions are Flocq's `Bplus`,
rounding to nearest even. The bound on the error counts one rounding for each raster.
Findings:
- `C94_null_refuted`, `C94_partial_sum_refuted`: as for integers (C13), with a finite null value a sum equal to it is null,
  and with seven or more rasters a half of the stack whose sum equals it is left out: with the null value 10 the sum of
  7, 1, 4 and 5 is 7. With NaN, the default, this cannot happen.
- `C94_infinity_refuted`: cells inf and -inf add up to NaN, which is null if the null value is NaN.

### Rasters to vectors and back: C95 (`RoundTrip*.v`)

Modelled: nothing new; `through_polygons` composes `to_polygons` (Polygons.v) and `rasterize` (RasterizeRaster.v), and the
theorem on points composes `to_points` (Points.v, float64 coordinates) and `extract_points` (Extract.v, rational
coordinates equal to these floats). The one assumption in between is that GDAL without `all_touched` burns a polygon into
exactly the cells it was made of; with `all_touched=True`, the default of `rasterize`, cells that share an edge are taken too.
Finding:
- `C95_default_null_refuted`: `rasterize` without `null_value` uses the default of the dtype (255 for uint8). A valid cell
  that holds this value becomes a polygon and comes back as null.

### Rasters cut into pieces and put together again: C96 (`Pieces*.v`)

Modelled: `place`, what `Raster.reproject` (nearest) does to a piece whose cells are cells of the destination grid, and
`subgrid`, the grid of a piece. The rest is composed of `to_quadrants` and `get_chunk_rasters` (Chunks.v), `mosaic`
(MosaicWhole.v) and `combine_grids` (Combine.v). Reprojecting a grid with square cells to its own CRS and resolution gives the
grid itself (hypothesis of C96_quadrants and C96_chunks). Quadrants of rasters with fewer than two rows or columns are
left out; pieces of one row or column are pieces like others here (but see C82 for what rioxarray does with them).
Finding:
- `C96_cells_refuted`: the quadrants of a raster with cells of 1 x 2 are put together on a grid with cells of 1 x 1 (C87).

### Saving chunks: C97 (`SaveChunks*.v`)

Modelled: `_ext_for_driver` and `Raster.save_chunks` (raster.py:143-157, 1783-1832) with a file system that is the list of
files written. Names are those of Chunks.v, files those of Saving.v, extensions of paths those of WriteOptions.v. Not
modelled: directories, the warning, and keywords that only change how a file is written. rasterio's table of extensions
is a parameter. `*_kept` take the hypotheses of C70 for each chunk; several bands without a null value are left out there,
because stacking them gives the raster a default null value (C70).
Findings:
- `C97_both_refuted`: the docstring says keywords are forwarded verbatim to `save`. `save` refuses `null_value` together with
  `no_data_value`; `save_chunks` drops `no_data_value` without an error.
- `C97_driver_case_refuted`: GDAL ignores the case of driver names. `_ext_for_driver("png")` compares with case and gives `.tif`,
  so PNG files are written under names that end in `.tif`.

### Uniform costs: C98 (`Uniform*.v`)

No new model: `UniformProofs.v` joins the cost distance of C04 and C05 with the proximity analysis of C66. `uniform costs n ec W`
says that no cell is null and each costs `W * 2^ec`; resolutions are `scaled e`, and `W * (rows * |dy| + columns * |dx|) <= 2^53`,
so that no sum is rounded. `C98_uniform` gives distances and labels, `C98_proximity` that two modules written apart agree.

- `C98_eight_refuted`: with connectivity 8 uniform costs give octile distance, neither that of `taxi` nor that of `euclidean`.

### Byte budget with out_bands: C99 (`BlockBudget*.v`)

`_align_chunks_single_band` (blocks.py:1113-1141), `_check_out_bands` for integers and the chunks of the result. dask's choice of
tiles is the parameter `auto`; `auto_within num den` says that it cuts the shape, keeps the bands together, and that a tile of more
than one cell takes at most `num / den` of the limit. That dask does so is assumed, not proved (a tolerance, as in dask's setting
`array.chunk-size-tolerance`, is the reason for the factor). `strip_auto_within` shows that the assumption can be met.

- `C99_output_refuted`: the docstring says the output block fits. The limit is computed from the dtype of the first raster only, so
  a `uint8` raster mapped to `float64` gives blocks of eight times the budget; the mask of `return_mask` adds a byte a cell.
- `C99_inputs_refuted`: the same for a second raster of a larger dtype.

### Two ways to say the same: C100 (`UnitRanges*.v`), C101 (`WhereNull*.v`)

No new model: `remap_range`, `reclassify`, `where` and `set_null` of Raster.v are compared with each other. `C100_same` needs that
the valid cells are whole numbers and that the new dtype holds them. `C101_same` takes the dtype of r as that of where's result
(xarray promotes the null value, a scalar that r's dtype holds, to r's dtype). Where they part:
- `C100_fraction_refuted`, `C100_both_refuted`: 1.5 lies in [1, 2) but is no key; with `both` 2 lies in [1, 2] too.
- `C101_null_condition_refuted`: a null cell of the condition is null in the result of `where`, and is left alone by `set_null`
  (whose docstring says that cells "marked as null in mask_raster" become null; it is the true cells that do).
- `C101_negative_refuted`: `set_null` converts to bool, `where` tests for > 0, so -1 is true for one and false for the other.
- `C101_default_refuted`: a uint8 raster without null value whose cells hold 255: `where` makes these null, `set_null` does not.
- `C101_wide_condition_refuted`: an int16 condition is accepted by `where` only.

`C26_null_value` pins the null value of the result of `where` without the model's own helper: the default of the promoted dtype for two rasters, the null value of the raster for one, the default of the common dtype for scalars.

The hypothesis of `C26_where` that the dtype of the result holds the selected values is asked for only where the branch is not null
(`None` stands for NaN in the model, which no integer dtype holds).

### Aggregating in steps: C102 (`TwoSteps*.v`)

No new model: two runs of `aggregate` (Aggregate.v) are compared with one. Values are equal as numbers or both NaN. Coordinates are exact
(rationals, evenly spaced). `C102_mean_refuted` and `C102_mode_refuted` show that the statistic matters: the mean of means weighs
cells by how many of their neighbours are null, the mode of modes is not the mode.

### Dilation, erosion and focal statistics: C103 (`FocalMorph*.v`)

No new model: the results of `dilate` and `erode` (Morph.v) are compared with those of `focal` (Focal.v) for a full rectangle.
Values are equal as numbers. Infinities that dilation or erosion does not keep are excluded as in C48.
- `C103_even_refuted`: windows of even size reach up for `focal` of rasters without null value (see C20_even_refuted) and down for `dilate`.
- `C103_even_erode_refuted`: and up for `erode`, but down for `focal` of rasters with null value.

### Dilating and eroding twice: C104 (`MorphTwice*.v`)

No new model: two runs of `dilate` or `erode` (Morph.v) are compared with one. Values are equal as numbers.
- `C104_even_refuted`: windows of size 2 reach down, so two of them reach two cells down; a window of size 3 reaches one up and one down.

### Opening and closing: C105 (`MorphOpen*.v`)

No new model: runs of `erode` and `dilate` (Morph.v) one after the other. Values are finite and compared as numbers.
- `C105_closing_edge_refuted`: `erode` counts what lies outside of the raster as null if the raster has a null value, so closing
  makes cells at the edges null even if no cell of the raster is.
## Not modelled at all

Reading and writing of raster files through GDAL/rasterio except the overview
factors, reprojection (`warp.py`), rasterisation and polygonisation geometry,
plotting, the `rasterstats`-like table output of zonal statistics,
`focal` texture functions other than those listed, documentation and build
scripts.

## Mutation tests

`seeded/LOG.jsonl` has one line per wrong program tried: the definition, the
edit, the property, where the build failed and which theorems were lost. Mutants
that survived are equivalent programs, with a note, or led to a stronger theorem
(`theorems_tightened`). A mutant is `killed` when a proof no longer goes through;
this shows that the proofs depend on the definition, and for most that the
theorem is false. It is `undecided` when a proof only ran out of time, and
`invalid` when the edited definition did not type-check.
