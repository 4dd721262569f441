(* Model of rasterize.py for a whole raster, on top of Rasterize.v (one chunk).

   All cells lie on one lattice of cells; a raster covers a window of it.  A
   feature says which lattice cells it touches in a coordinate system (GDAL's
   filling, geopandas' clip and to_crs are not modelled further).  The table has
   partitions and may carry the spatial partitions, a region per partition; a
   region is known by the boxes it intersects.  Left out: geometry-free features
   (they touch nothing), the detour of int8 and, with an old GDAL, of 64-bit
   integers through another dtype (29-60) and a null value that the dtype of the field
   cannot hold (both in RasterFill.v), and show_progress. *)
From Coq Require Import QArith String.
From Verif Require Import Base Scalars Arr2 Dtypes Raster Rasterize MapBlocks.
Open Scope Z_scope.

Record gfeature := GFeature { g_index : Z; g_values : string -> num; g_touches : option Z -> Z -> Z -> bool }.
(* rows r0 .. r1 - 1 and columns c0 .. c1 - 1 of the lattice *)
Record box := Box { r0 : Z; r1 : Z; c0 : Z; c1 : Z }.
Definition region := box -> bool.
(* a dask_geopandas.GeoDataFrame; columns with their dtype, None: not a number *)
Record table := Table { t_parts : list (list gfeature); t_spatial : option (list region); t_crs : option Z; t_columns : list (string * option dtype) }.
(* what is used of like: its chunks, its place on the lattice and its crs *)
Record grid := Grid { k_ychunks : list Z; k_xchunks : list Z; k_row : Z; k_col : Z; k_crs : option Z }.

(* shapely.intersects of two boxes: they may just touch *)
Definition boxes_intersect (a b : box) : bool :=
  (r0 a <=? r1 b) && (r0 b <=? r1 a) && (c0 a <=? c1 b) && (c0 b <=? c1 a).

(* raster.py:2891-2907 the loop of get_chunk_bounding_boxes, the same as in
   raster.py:2945-2970 get_chunk_rasters for one band: the chunks row by row *)
Fixpoint chunk_row (i yc j : Z) (xchunks : list Z) : list box :=
  match xchunks with
  | [] => []
  | xc :: t => Box i (i + yc) j (j + xc) :: chunk_row i yc (j + xc) t
  end.
Fixpoint chunk_rows (i j : Z) (ychunks xchunks : list Z) : list box :=
  match ychunks with
  | [] => []
  | yc :: t => chunk_row i yc j xchunks ++ chunk_rows (i + yc) j t xchunks
  end.
Definition chunk_boxes (k : grid) : list box := chunk_rows (k_row k) (k_col k) (k_ychunks k) (k_xchunks k).
Fixpoint total (l : list Z) : Z := match l with [] => 0 | x :: t => x + total t end.
(* like.bounds *)
Definition grid_box (k : grid) : box := Box (k_row k) (k_row k + total (k_ychunks k)) (k_col k) (k_col k + total (k_xchunks k)).

(* rasterize.py:315-328 _compute_partition_chunk_matches: (part_idx, flat_idx)
   sorted by part_idx *)
Definition partition_chunk_matches (spatial : list region) (boxes : list box) : list (Z * Z) :=
  concat (map (fun p => map (fun b => (fst p, fst b)) (filter (fun b => (snd p : region) (snd b)) (enumerate boxes))) (enumerate spatial)).

(* a feature as the chunk sees it: cell k of the chunk in row-major order *)
Definition local (crs : option Z) (field : option string) (b : box) (f : gfeature) : feature :=
  let w := c1 b - c0 b in
  Feature (g_index f) (match field with Some name => g_values f name | None => NaN end) (fun k => g_touches f crs (r0 b + k / w) (c0 b + k mod w)).

(* rasterize.py:331-388 _rasterize_spatial_matches; the arrays of a chunk are
   computed later, here the partitions seen by the chunk are collected *)
Definition rasterize_matches (matches : list (Z * Z)) (parts : list (list gfeature)) (boxes : list box) (crs : option Z) (field : option string)
  : res (list (option (list (list feature)))) :=
  foldM (fun out '(ipart, flat) =>
    let* part := get parts ipart in
    let* b := get boxes flat in
    let* old := get out flat in
    let stack := match old with None => [] | Some l => l end in
    set out flat (Some (stack ++ [map (local crs field b) part]))) matches (full (len boxes) None).

(* da.reduction with split_every=2: neighbours are combined until one is left *)
Fixpoint pair_up (l : list steps) : list steps :=
  match l with
  | a :: b :: t => Two a b :: pair_up t
  | [a] => [One a]
  | [] => []
  end.
Fixpoint tree (fuel : nat) (l : list steps) : res steps :=
  match l with
  | [] => Err ValueError                                   (* da.stack([]) *)
  | [a] => Ok a
  | _ => match fuel with O => Err OutOfFuel | S n => tree n (pair_up l) end
  end.

(* what to compute *)
Inductive mode := Values (use_index : bool) (m : overlap) | Mask (invert : bool).
Definition mode_fill (o : mode) (fill : num) : num :=
  match o with Values _ _ => fill | Mask invert => of_Z (if invert then 1 else 0) end.
(* rows of h x w cells *)
Definition reshape {A} (h w : Z) (l : list A) : arr2 A := map (fun i => slice l (i * w) (i * w + w)) (zrange 0 h).
(* rasterize.py:401-425, one chunk *)
Definition process_chunk (o : mode) (fill : num) (b : box) (oc : option (list (list feature))) : res (arr2 num) :=
  let h := r1 b - r0 b in
  let w := c1 b - c0 b in
  match oc with
  | None => Ok (full h (full w (mode_fill o fill)))
  | Some stack =>
      match o with
      | Values ui m => let* t := tree (Datatypes.length stack) (map Part stack) in Ok (reshape h w (rasterize_chunk ui m fill (h * w) (Some t)))
      | Mask invert => Ok (reshape h w (map of_Z (mask_chunk invert (h * w) stack)))
      end
  end.
(* utils.py:129-140 list_reshape_2d; flat_idx counts up *)
Definition list_reshape_2d {A} (l : list A) (nrows ncols : Z) : res (list (list A)) :=
  traverse (fun row => traverse (fun col => get l (row * ncols + col)) (zrange 0 ncols)) (zrange 0 nrows).
(* rasterize.py:390-430 _raw_rasterized_chunks_to_dask_array *)
Definition chunks_to_array (o : mode) (fill : num) (raw : list (option (list (list feature)))) (boxes : list box) (nrows ncols : Z) : res (arr2 num) :=
  let* processed := traverse (fun '(b, oc) => process_chunk o fill b oc) (combine boxes raw) in
  let* grid := list_reshape_2d processed nrows ncols in
  Ok (concat (map (fun row => hcat row) grid)).

Section Calls.
Variable cast : dtype -> num -> num.
Variable float_dtype : num -> dtype.
(* gdf.calculate_spatial_partitions() *)
Variable spatial_bounds : option Z -> list gfeature -> region.

(* raster.py:2900-2902 in get_chunk_bounding_boxes: rioxarray's bounds raises
   OneDimensionalRaster (ValueError here) for a chunk of one row or column, see
   ChunkBoxes.v; numpy raises for an empty chunk *)
Definition thin_chunk (k : grid) : bool := existsb (fun c => c <? 2) (k_ychunks k ++ k_xchunks k).
(* rasterize.py:432-501 _rasterize_spatial_aware.  null_value is None only with
   mask=True *)
Definition rasterize_spatial_aware (t : table) (k : grid) (field : option string) (null_value : option scalar) (d : dtype) (o : mode) : res raster :=
  match t_spatial t with
  | None => Err ValueError
  | Some spatial =>
      if thin_chunk k then Err ValueError else
      let boxes := chunk_boxes k in
      let matches := partition_chunk_matches spatial boxes in
      let fill := match null_value with Some s => scalar_num s | None => NaN end in
      let* raw := rasterize_matches matches (t_parts t) boxes (t_crs t) field in
      let* data := chunks_to_array o fill raw boxes (len (k_ychunks k)) (len (k_xchunks k)) in
      match o with
      | Values _ _ => data_to_raster d [concat data] None (Some fill) false
      | Mask _ =>
          let* r := data_to_raster U8 [concat data] None (Some (of_Z 0)) false in
          match null_value with
          | None => Ok r
          | Some s => set_null_value cast float_dtype r (Some s)
          end
      end
  end.

Inductive field_arg := NoField | FieldName (name : string) | FieldOther.
Inductive nv_arg := NvNone | NvScalar (s : scalar) | NvOther.
Definition lookup (name : string) (columns : list (string * option dtype)) : option (option dtype) :=
  option_map snd (find (fun p => String.eqb (fst p) name) columns).
(* a Python value of a number: default null values are integers *)
Definition default_scalar (d : dtype) : scalar := SFloat (default_null d).
(* rasterize.py:641-676: the field, the dtype, the null value and the mode *)
Definition check_args (t : table) (field : field_arg) (overlap_method : option overlap) (mask invert : bool) (null_value : nv_arg)
  : res (option string * dtype * option scalar * mode) :=
  if mask then
    match null_value with
    | NvOther => Err TypeError                             (* later, in set_null_value *)
    | NvNone => Ok (None, U8, None, Mask invert)
    | NvScalar s => Ok (None, U8, Some s, Mask invert)
    end
  else
    let* fd := match field with
      | FieldName name =>
          match lookup name (t_columns t) with
          | None => Err ValueError
          | Some None => Err ValueError
          | Some (Some d) => Ok (Some name, d)
          end
      | FieldOther => Err ValueError
      | NoField => Ok (None, I64)
      end in
    let* nv := match null_value with
      | NvOther => Err TypeError
      | NvScalar s => Ok s
      | NvNone => Ok (match field with NoField => SInt 0 | _ => default_scalar (snd fd) end)
      end in
    match overlap_method with
    | None => Err ValueError
    | Some m => Ok (fst fd, snd fd, Some nv, Values (match fst fd with None => true | Some _ => false end) m)
    end.
Definition crs_eqb (a b : option Z) : bool :=
  match a, b with Some x, Some y => x =? y | None, None => true | _, _ => false end.
(* rasterize.py:537-713 rasterize: the raster, and the table of the caller
   afterwards.  to_crs and copy give new tables; line 523 assigns to the table at
   hand, which is the caller's when there was neither. *)
Definition rasterize (t : table) (k : grid) (field : field_arg) (overlap_method : option overlap) (mask invert : bool) (null_value : nv_arg) (use_spatial_aware : bool)
  : res (raster * table) :=
  let* args := check_args t field overlap_method mask invert null_value in
  let '(name, d, nv, o) := args in
  let differs := negb (crs_eqb (t_crs t) (k_crs k)) && (match k_crs k with Some _ => true | None => false end) in
  let* gdf :=
    if differs then
      match t_crs t with
      | None => Err ValueError                             (* geopandas: cannot transform naive geometries *)
      | Some _ => Ok (Table (t_parts t) None (k_crs k) (t_columns t))
      end
    else Ok t in
  match t_spatial gdf with
  | Some _ => let* r := rasterize_spatial_aware gdf k name nv d o in Ok (r, t)
  | None =>
      if use_spatial_aware then
        let* r := rasterize_spatial_aware (Table (t_parts gdf) (Some (map (spatial_bounds (t_crs gdf)) (t_parts gdf))) (t_crs gdf) (t_columns gdf)) k name nv d o in
        Ok (r, t)
      else
        (* rasterize.py:504-534 _rasterize_spatial_naive *)
        let gdf := Table (t_parts gdf) (Some (map (fun _ => boxes_intersect (grid_box k)) (t_parts gdf))) (t_crs gdf) (t_columns gdf) in
        let* r := rasterize_spatial_aware gdf k name nv d o in
        Ok (r, if differs then t else gdf)
  end.
End Calls.
