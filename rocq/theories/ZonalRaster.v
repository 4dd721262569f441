(* Model of zonal_stats (zonal.py:160-518) for whole rasters, on top of Zonal.v
   (the aggregations) and RasterizeRaster.v (the features).

   Left out: paths, the schedule, dtypes of the columns, statistics named twice
   (pandas refuses them), and the arithmetic of sum, prod, mean, std, var, median,
   asm and entropy: C32 has the chunked computation of these (median excepted), here
   any function of the valid values stands for them.  The order in which zones are
   listed is that of their first cells; dask's is another one. *)
From Coq Require Import QArith String Ascii DecimalString NArith.
From Verif Require Import Base Scalars Arr2 Dtypes Raster Stats Zonal Rasterize RasterizeRaster Frames.
Open Scope Z_scope.

(* a raster and where it lies, with its chunks *)
Record placed := Placed { p_raster : raster; p_grid : grid }.
Inductive features_arg := FeatTable (t : table) (in_memory : bool) | FeatRaster (p : placed) | FeatOther.
Inductive stats_arg := StatName (s : string) | StatList (l : list string) | StatOther.
(* the index and the columns of a data frame; (band, stat) labels the columns *)
Record zframe := ZFrame { f_columns : list (string * string); f_rows : list (num * list num) }.
Record long_row := LongRow { l_zone : num; l_band : Z; l_stats : list num }.
Inductive zresult := Wide (f : zframe) | Long (rows : list long_row).

(* zonal.py:136-157 *)
Definition dask_stat_names : list string := ["count"; "max"; "mean"; "median"; "min"; "prod"; "size"; "std"; "sum"; "var"]%string.
Definition custom_stat_names : list string := ["asm"; "entropy"; "mode"; "nunique"]%string.
Definition known_stat (s : string) : bool := existsb (String.eqb s) (dask_stat_names ++ custom_stat_names).
(* f"band_{b}" *)
Definition band_label (b : Z) : string := numbered "band_" b.

Definition grid_ny (k : grid) : Z := RasterizeRaster.total (k_ychunks k).
Definition grid_nx (k : grid) : Z := RasterizeRaster.total (k_xchunks k).
Definition lists_eqb (a b : list Z) : bool := list_eqb a b.
(* raster.py:1542-1560 Raster.chunk with explicit chunks: dask refuses chunks that
   do not add up to the shape *)
Definition rechunk (p : placed) (bchunks ychunks xchunks : list Z) : res placed :=
  let k := p_grid p in
  if (RasterizeRaster.total bchunks =? len (r_data (p_raster p))) && (RasterizeRaster.total ychunks =? grid_ny k) && (RasterizeRaster.total xchunks =? grid_nx k)
  then Ok (Placed (p_raster p) (Grid ychunks xchunks (k_row k) (k_col k) (k_crs k)))
  else Err ValueError.
(* zonal.py:203-211 _find_problem_stats *)
Definition find_problem_stats (stats : list string) : list string * bool :=
  (filter (fun s => negb (String.eqb s "median")) stats, existsb (String.eqb "median") stats).
Definition of_option {A} (o : option A) : res A := match o with Some a => Ok a | None => Err KeyError end.

(* dd.concat(axis=1) of two series with the same partitions *)
Fixpoint zip_parts (zones band : list (list num)) : res (list (list row)) :=
  match zones, band with
  | [], [] => Ok []
  | z :: zones, v :: band => if len z =? len v then let* t := zip_parts zones band in Ok (combine z v :: t) else Err ValueError
  | _, _ => Err ValueError
  end.
(* DataFrame.join on the zones *)
Definition join_row (right : zframe) (r : num * list num) : num * list num :=
  (fst r, snd r ++ match find (fun q => num_eqb (fst r) (fst q)) (f_rows right) with Some q => snd q | None => map (fun _ => NaN) (f_columns right) end).
Definition join (left right : zframe) : zframe := ZFrame (f_columns left ++ f_columns right) (map (join_row right) (f_rows left)).
(* df[target_columns] *)
Definition column_eqb (a b : string * string) : bool := String.eqb (fst a) (fst b) && String.eqb (snd a) (snd b).
Fixpoint lookup_column (columns : list (string * string)) (vals : list num) (c : string * string) : res num :=
  match columns, vals with
  | k :: columns, v :: vals => if column_eqb k c then Ok v else lookup_column columns vals c
  | _, _ => Err KeyError
  end.
Definition select (f : zframe) (target : list (string * string)) : res zframe :=
  let* rows := traverse (fun r => let* vals := traverse (lookup_column (f_columns f) (snd r)) target in Ok (fst r, vals)) (f_rows f) in
  Ok (ZFrame target rows).

(* zonal.py:174-200 _melt_part.  x.split("_")[-1] *)
Fixpoint after_last (acc : list ascii) (l : list ascii) : list ascii :=
  match l with
  | [] => acc
  | c :: t => if Ascii.eqb c "_" then after_last [] t else after_last (acc ++ [c]) t
  end.
Definition parse_band (label : string) : res Z :=
  match NilZero.uint_of_string (string_of_list_ascii (after_last [] (list_ascii_of_string label))) with
  | Some u => Ok (Z.of_N (N.of_uint u))
  | None => Err ValueError
  end.
Definition labels (columns : list (string * string)) : list string :=
  fold_left (fun acc c => if existsb (String.eqb (fst c)) acc then acc else acc ++ [fst c]) columns [].
Definition stack_row (columns : list (string * string)) (r : num * list num) : list (num * string * list num) :=
  map (fun l => (fst r, l, map snd (filter (fun p => String.eqb (fst (fst p)) l) (combine columns (snd r))))) (labels columns).
(* sort_values(["band", "zone"]): the bands are texts here *)
Definition row_leb (a b : num * string * list num) : bool :=
  match String.compare (snd (fst a)) (snd (fst b)) with
  | Lt => true
  | Gt => false
  | Eq => num_leb (fst (fst a)) (fst (fst b))
  end.
Fixpoint insert_row (r : num * string * list num) (l : list (num * string * list num)) : list (num * string * list num) :=
  match l with
  | [] => [r]
  | x :: t => if row_leb r x then r :: l else x :: insert_row r t
  end.
Fixpoint sort_rows (l : list (num * string * list num)) : list (num * string * list num) :=
  match l with [] => [] | r :: t => insert_row r (sort_rows t) end.
Definition melt_part (columns : list (string * string)) (part : list (num * list num)) : res (list long_row) :=
  traverse (fun r => let* b := parse_band (snd (fst r)) in Ok (LongRow (fst (fst r)) b (snd r))) (sort_rows (flat_map (stack_row columns) part)).

Section Zonal.
Variable cast : dtype -> num -> num.
Variable float_dtype : num -> dtype.
Variable spatial_bounds : option Z -> list gfeature -> region.
(* da.empty((1, ny, nx), dtype=F64).chunksize, as the chunks it gives *)
Variable auto_chunks : Z -> Z -> list Z * list Z.
(* to_dask_dataframe: the cells of each partition, by the chunks *)
Variable partition : list Z -> list Z -> list (list Z).
(* dask's tree of aggregations *)
Variable tree_of : list (list row) -> list (Zonal.tree (list row)).
(* the partitions of the result *)
Variable result_parts : list (num * list num) -> list (list (num * list num)).
(* the statistics whose arithmetic is left out *)
Variable other_stat : string -> list num -> num.

(* zonal.py:214-219 _raster_to_series of band b (counted from 0) *)
Definition series (p : placed) (b : Z) : res (list (list num)) :=
  let* cells := get (r_data (p_raster p)) b in
  traverse (traverse (get cells)) (partition (k_ychunks (p_grid p)) (k_xchunks (p_grid p))).
(* zonal.py:242-253: nulls to NaN, the cast *)
Definition band_value (r : raster) (v : num) : num :=
  let v := null_to_nan (r_nv r) v in
  if dtype_eqb (r_dtype r) F64 then v else cast F64 v.
(* an aggregation of the series of zone z, without nulls by now *)
Definition entry (stat : string) (zone_null : option num) (ts : list (Zonal.tree (list row))) (z : num) : option num :=
  if String.eqb stat "count" then option_map of_Z (zonal_count zone_null None ts z)
  else if String.eqb stat "size" then option_map of_Z (zonal_size zone_null None ts z)
  else if String.eqb stat "nunique" then option_map of_Z (zonal_nunique zone_null None ts z)
  else if String.eqb stat "min" then zonal_min zone_null None ts z
  else if String.eqb stat "max" then zonal_max zone_null None ts z
  else if String.eqb stat "mode" then zonal_mode zone_null None ts z
  else zonal_agg (filter not_nan) (@concat num) (other_stat stat) zone_null None ts z.
(* grouped.agg(stats) *)
Definition agg (zone_null : option num) (stats : list string) (bands : list (string * list (Zonal.tree (list row)))) (zones : list num) : res zframe :=
  let columns := flat_map (fun b => map (fun s => (b, s)) stats) bands in
  let* rows := traverse (fun z =>
    let* vals := traverse (fun c => of_option (entry (snd c) zone_null (snd (fst c)) z)) columns in
    Ok (z, vals)) zones in
  Ok (ZFrame (map (fun c => (fst (fst c), snd c)) columns) rows).

(* zonal.py:222-297 _zonal_stats *)
Definition zonal_frame (features data : placed) (stat_names : list string) : res zframe :=
  let '(stats, has_median) := find_problem_stats stat_names in
  let nb := len (r_data (p_raster data)) in
  let kf := p_grid features in
  let kd := p_grid data in
  let* features :=
    if negb (lists_eqb (k_ychunks kf) (k_ychunks kd) && lists_eqb (k_xchunks kf) (k_xchunks kd))
    then rechunk features (full nb 1) (k_ychunks kd) (k_xchunks kd)
    else Ok features in
  let zone_null := r_nv (p_raster features) in
  let* zones := series features 0 in
  let* bands := traverse (fun b =>
    let* band := series data (b - 1) in
    let* rows := zip_parts zones (map (map (band_value (p_raster data))) band) in
    Ok (band_label b, tree_of rows)) (zrange 1 (nb + 1)) in
  let keys := to_set (filter (fun z => keep_zone zone_null z && not_nan z) (concat zones)) in
  let* result :=
    match stats with
    | [] => agg zone_null ["median"%string] bands keys
    | _ =>
        let* f := agg zone_null stats bands keys in
        if has_median then
          let* m := agg zone_null ["median"%string] bands keys in
          Ok (join f m)
        else Ok f
    end in
  if has_median then select result (flat_map (fun b => map (pair (band_label b)) stat_names) (zrange 1 (nb + 1)))
  else Ok result.

(* zonal.py:402-448: the arguments *)
Definition check_features (f : features_arg) : res unit :=
  match f with
  | FeatTable _ _ => Ok tt
  | FeatRaster p =>
      if negb (is_int_dtype (r_dtype (p_raster p))) then Err TypeError
      else if 1 <? len (r_data (p_raster p)) then Err ValueError
      else Ok tt
  | FeatOther => Err TypeError
  end.
Definition check_stats (s : stats_arg) : res (list string) :=
  let* stats :=
    match s with
    | StatName s => Ok [s]
    | StatList [] => Err ValueError
    | StatList l => Ok l
    | StatOther => Err ValueError
    end in
  if forallb known_stat stats then Ok stats else Err ValueError.

(* zonal.py:470-518: the features, as the caller has them afterwards, come with
   the result.  get_vector of a data frame in memory gives one partition;
   calculate_spatial_partitions gives a new table. *)
Definition zonal_body (f : features_arg) (data : placed) (stats : list string) (field : option string) (wide : bool) : res (zresult * features_arg) :=
  let k := p_grid data in
  let* _ :=
    match f with
    | FeatRaster p =>
        if negb (crs_eqb (k_crs (p_grid p)) (k_crs k)) then Err ValueError
        else if negb ((grid_ny (p_grid p) =? grid_ny k) && (grid_nx (p_grid p) =? grid_nx k)) then Err ValueError
        else Ok tt
    | _ => Ok tt
    end in
  let '(ychunks, xchunks) := auto_chunks (grid_ny k) (grid_nx k) in
  let* data := rechunk data (full (len (r_data (p_raster data))) 1) ychunks xchunks in
  let* fr :=
    match f with
    | FeatTable t in_memory =>
        let* _ := match field with
          | Some name => match lookup name (t_columns t) with None => Err KeyError | Some _ => Ok tt end
          | None => Ok tt
          end in
        let v := if in_memory then Table [concat (t_parts t)] (Some [spatial_bounds (t_crs t) (concat (t_parts t))]) (t_crs t) (t_columns t) else t in
        let* out := rasterize cast float_dtype spatial_bounds v (p_grid data) (match field with Some name => FieldName name | None => NoField end)
                      (Some Last) false false NvNone in_memory in
        Ok (Placed (fst out) (p_grid data), FeatTable (if in_memory then t else snd out) in_memory)
    | FeatRaster p => Ok (p, f)
    | FeatOther => Err TypeError
    end in
  let* frame := zonal_frame (fst fr) data stats in
  if wide then Ok (Wide frame, snd fr)
  else
    let* parts := traverse (melt_part (f_columns frame)) (result_parts (f_rows frame)) in
    Ok (Long (concat parts), snd fr).

(* dd.concat(result_dfs); all have the same columns *)
Definition add_result (a b : zresult) : zresult :=
  match a, b with
  | Wide f, Wide g => Wide (ZFrame (f_columns f) (f_rows f ++ f_rows g))
  | Long x, Long y => Long (x ++ y)
  | _, _ => a
  end.
Definition concat_results (l : list zresult) : res zresult :=
  match l with
  | [] => Err ValueError
  | r :: t => Ok (fold_left add_result t r)
  end.
(* zonal.py:300-518 zonal_stats; the calls with a single feature repeat the checks
   of stats, which then succeed *)
Definition zonal_stats (f : features_arg) (data : placed) (s : stats_arg) (field : option string) (wide overlap : bool) : res (zresult * features_arg) :=
  let* _ := check_features f in
  let* stats := check_stats s in
  if overlap then
    match f with
    | FeatTable t in_memory =>
        let* l := traverse (fun g => zonal_body (FeatTable (Table [[g]] None (t_crs t) (t_columns t)) true) data stats field wide) (concat (t_parts t)) in
        let* r := concat_results (map fst l) in
        Ok (r, f)
    | _ => Err ValueError
    end
  else zonal_body f data stats field wide.
End Zonal.
