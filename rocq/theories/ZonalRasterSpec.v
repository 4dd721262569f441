(* What zonal_stats must give, cell by cell. *)
From Coq Require Import QArith String Permutation Sorted.
From Verif Require Import Base Scalars Raster FocalSpec FocalResults RasterSpec StatsSpec RasterizeRaster RasterizeRasterSpec ZonalRaster.
Open Scope Z_scope.

(* the zone of each cell (in row-major order), if it is in one: *)
(* ... of a raster of zones *)
Definition zone_raster (fr : raster) (i : Z) : option num := if null fr 0 i then None else Some (value fr 0 i).
(* ... of features: the value of the last feature of the table that touches the cell *)
Definition zone_table (t : table) (k : grid) (field : option string) (nx i : Z) : option num :=
  match touching_cell (cells_crs t k) (t_parts t) (k_row k + i / nx) (k_col k + i mod nx) with
  | [] => None
  | l => Some (List.last (map (feature_value field) l) NaN)
  end.
(* ... of a single feature *)
Definition zone_feature (crs : option Z) (g : gfeature) (k : grid) (field : option string) (nx i : Z) : option num :=
  if g_touches g crs (k_row k + i / nx) (k_col k + i mod nx) then Some (feature_value field g) else None.

(* the cells of zone z among n *)
Definition in_zone (zone : Z -> option num) (z : num) (i : Z) : bool := match zone i with Some v => num_eqb z v | None => false end.
Definition cells_of (zone : Z -> option num) (n : Z) (z : num) : list Z := filter (in_zone zone z) (zrange 0 n).
(* the valid values of band b in some cells, as float64 *)
Definition to_float64 (cast : dtype -> num -> num) (r : raster) (v : num) : num := match r_dtype r with F64 => v | _ => cast F64 v end.
Definition valid_values (cast : dtype -> num -> num) (r : raster) (b : Z) (cells : list Z) : list num :=
  map (fun i => to_float64 cast r (value r b i)) (filter (fun i => negb (null r b i || is_nan (value r b i))) cells).

(* e is the statistic of the valid values vals; ncells counts all cells *)
Definition stat_of (other : string -> list num -> num) (name : string) (ncells : Z) (vals : list num) (e : num) : Prop :=
  if String.eqb name "count" then e = of_Z (len vals)
  else if String.eqb name "size" then e = of_Z ncells
  else if String.eqb name "nunique" then exists D, distinct_values vals D /\ e = of_Z (len D)
  else if String.eqb name "min" then vals = [] /\ e = NaN \/ In e vals /\ forall v, In v vals -> num_leb e v = true
  else if String.eqb name "max" then vals = [] /\ e = NaN \/ In e vals /\ forall v, In v vals -> num_leb v e = true
  else if String.eqb name "mode" then vals = [] /\ e = NaN \/ is_mode vals e
  else e = other name vals.

(* the columns: all statistics of band 1, then those of band 2, ... *)
Definition columns_of (nb : Z) (names : list string) : list (string * string) :=
  flat_map (fun b => map (pair (band_label b)) names) (zrange 1 (nb + 1)).
(* the frame f has one row for each zone that has a cell, with its statistics *)
Definition frame_of (cast : dtype -> num -> num) (other : string -> list num -> num) (names : list string) (zone : Z -> option num) (n nb : Z) (dr : raster) (f : zframe) : Prop :=
  f_columns f = columns_of nb names
  /\ ForallOrdPairs (fun a b => num_eqb (fst a) (fst b) = false) (f_rows f)
  /\ (forall i z, 0 <= i < n -> zone i = Some z -> exists r, In r (f_rows f) /\ num_eqb (fst r) z = true)
  /\ forall z vals, In (z, vals) (f_rows f) ->
     cells_of zone n z <> [] /\ len vals = nb * len names
     /\ forall b j name, 0 <= b < nb -> get names j = Ok name ->
        exists e, get vals (b * len names + j) = Ok e /\ stat_of other name (len (cells_of zone n z)) (valid_values cast dr b (cells_of zone n z)) e.

(* cells are null exactly when they hold the null value *)
Definition clean (nb n : Z) (r : raster) : Prop := forall b i, in_raster nb n b i -> null r b i = hits r (value r b i).
(* partitions that hold every cell once, however they are cut *)
Definition partitions_cells (partition : list Z -> list Z -> list (list Z)) : Prop :=
  forall ny nx ys xs, cuts ny ys -> cuts nx xs -> Permutation (concat (partition ys xs)) (zrange 0 (ny * nx)).
(* dask's choice of chunks cuts the raster *)
Definition chunks_fit (auto_chunks : Z -> Z -> list Z * list Z) : Prop :=
  forall ny nx, 0 < ny -> 0 < nx -> cuts ny (fst (auto_chunks ny nx)) /\ cuts nx (snd (auto_chunks ny nx)) /\ snd (auto_chunks ny nx) <> [].
(* all chunks have two rows and columns at least *)
Definition big_chunks (c : list Z * list Z) : Prop := Forall (fun n => 2 <= n) (fst c) /\ Forall (fun n => 2 <= n) (snd c).
(* a raster with nb bands on its grid of ny x nx cells *)
Definition lies (nb ny nx : Z) (p : placed) : Prop := grid_of ny nx (p_grid p) /\ 0 < ny /\ wf nb (ny * nx) (p_raster p) /\ clean nb (ny * nx) (p_raster p).
(* the long format of some rows of the wide format: one row for each zone and band *)
Definition long_rows (nb m : Z) (rows : list (num * list num)) : list long_row :=
  flat_map (fun r => map (fun b => LongRow (fst r) (b + 1) (slice (snd r) (b * m) (b * m + m))) (zrange 0 nb)) rows.
(* ordered by the labels "band_1", "band_2", ..., then by the zones *)
Definition label_order (a b : long_row) : Prop :=
  String.compare (band_label (l_band a)) (band_label (l_band b)) = Lt
  \/ l_band a = l_band b /\ num_leb (l_zone a) (l_zone b) = true.
Definition field_of_option (field : option string) : field_arg := match field with Some name => FieldName name | None => NoField end.
(* the table can be rasterized with dtype d and null value fill, and no zone is NaN
   or the null value *)
Definition zones_ok (t : table) (field : option string) (d : dtype) (fill : num) : Prop :=
  chosen t (field_of_option field) NvNone d fill /\ is_nan fill = false
  /\ forall g, In g (concat (t_parts t)) -> is_nan (feature_value field g) = false /\ num_eqb (feature_value field g) fill = false.
(* the statistics the documentation of zonal_stats lists *)
Definition stat_names : list string :=
  ["asm"; "count"; "entropy"; "max"; "mean"; "median"; "min"; "mode"; "nunique"; "prod"; "size"; "std"; "sum"; "var"]%string.
(* not a list of these *)
Definition bad_stats (s : stats_arg) : Prop :=
  match s with StatName s => ~ In s stat_names | StatList l => l = [] \/ exists s, In s l /\ ~ In s stat_names | StatOther => True end.
