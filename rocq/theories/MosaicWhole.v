(* Model of mosaic for whole rasters, _mosaic.py:155-330, on top of Mosaic.v (the
   computation at one cell) and Raster.v (astype).

   Data are given band by band, the cells of a band in row-major order on the
   destination grid of nc cells.  Putting a raster on that grid is a parameter: nothing
   where its grid is the destination grid (are_all_grids_same, C43), else a
   reprojection.  So is the choice of the destination grid. *)
From Coq Require Import QArith.
From Verif Require Import Base Scalars Arr2 Dtypes Raster Mosaic.
Open Scope Z_scope.

(* _mosaic.py:174 _MOSAIC_OPS *)
Inductive method := First | Last | Min | Max | Sum | Other.

(* raster.py:485-505 get_mask_from_data at one cell; the same test in
   _mosaic.py:27-31, 43 *)
Definition missing (nodata v : num) : bool := if is_nan nodata then is_nan v else num_eqb v nodata.
(* da.nanmin / da.nanmax; da.min / da.max of integers, which are never NaN *)
Definition extremum (better : num -> num -> bool) (l : list num) : num :=
  fold_left (fun a v => if is_nan v then a else if is_nan a then v else if better v a then v else a) l NaN.

Section Whole.
(* x.astype(d), and reconcile_nullvalue_with_dtype: see Raster.v *)
Variable cast : dtype -> num -> num.
Variable reconcile_other : num -> dtype -> num * bool.
(* addition in a dtype *)
Variable add : dtype -> num -> num -> num.
(* da.full(shape, nodata, dtype): may raise *)
Variable fill : dtype -> num -> res num.
(* np.result_type *)
Variable result_type : list dtype -> dtype.
(* how dask divides a stack of layers, see Mosaic.v *)
Variable chunk : list num -> option (chunked num).
(* r if its grid is the destination grid, else r.reproject(grid) *)
Variable to_grid : raster -> raster.

(* _mosaic.py:104-117; np.iinfo raises for bool *)
Definition paint_extremum (d : dtype) (nodata : num) (better : num -> num -> bool) (sentinel : Z) (l : list num) : res num :=
  match d with
  | BOOL => Err ValueError
  | _ =>
      let filled := map (fun v => if missing nodata v then (if is_float_dtype d then NaN else of_Z sentinel) else v) l in
      Ok (if forallb (missing nodata) l then nodata else extremum better filled)
  end.
(* _mosaic.py:118-126 *)
Definition paint_sum (d : dtype) (nodata : num) (l : list num) : res num :=
  let data := map (fun v => if missing nodata v then of_Z 0 else v) l in
  Ok (if forallb (missing nodata) l then nodata else fold_left (add d) data (of_Z 0)).
(* _mosaic.py:79-128 _paint *)
Definition paint (m : method) (d : dtype) (nodata : num) (l : list num) : res num :=
  match m with
  | First => paint_first (missing nodata) chunk l
  | Last => paint_last (missing nodata) chunk l
  | Min => paint_extremum d nodata (fun v a => num_ltb v a) (int_max d) l
  | Max => paint_extremum d nodata (fun v a => num_ltb a v) (int_min d) l
  | Sum => paint_sum d nodata l
  | Other => Err ValueError
  end.

(* the bands of r at cell c *)
Definition column (c : Z) (r : raster) : res (list num) := traverse (fun row => get row c) (r_data r).
(* _mosaic.py:155-171 _mosaic at cell c: a value for each band *)
Definition mosaic_cell (m : method) (d : dtype) (nodata : num) (rs : list raster) (c : Z) : res (list num) :=
  let* columns := traverse (column c) rs in
  Mosaic.mosaic nodata (paint m d nodata) columns.
Definition mosaic_data (m : method) (d : dtype) (nodata : num) (nc : Z) (rs : list raster) : res (arr2 num) :=
  let nbands := fold_right Z.max 0 (map (fun r => len (r_data r)) rs) in
  traverse (fun b => traverse (fun c => let* cell := mosaic_cell m d nodata rs c in get cell b) (zrange 0 nc)) (zrange 0 nbands).

(* _mosaic.py:278-292 dtype and null value of the result *)
Definition out_dtype (rs : list raster) (dt : option dtype) : dtype :=
  match dt with Some d => d | None => result_type (map r_dtype rs) end.
Definition out_null (rs : list raster) (d : dtype) (null_value : option num) : num :=
  match null_value with
  | Some v => v
  | None =>
      match flat_map (fun r => match r_nv r with Some v => [v] | None => [] end) rs with
      | v :: _ => v
      | [] => default_null d
      end
  end.
(* _mosaic.py:178-330 mosaic.  An error of da.full is raised when the result is
   computed; here it is the result. *)
Definition mosaic (nc : Z) (rs : list raster) (m : method) (dt : option dtype) (null_value : option num) : res raster :=
  match rs, m with
  | [], _ => Err ValueError
  | _, Other => Err ValueError
  | _, _ =>
      let d := out_dtype rs dt in
      let nodata := out_null rs d null_value in
      let* sources := traverse (fun r => astype cast reconcile_other (to_grid r) d (Some nodata)) rs in
      let* nodata := fill d nodata in
      let* data := mosaic_data m d nodata nc sources in
      data_to_raster d data None (Some nodata) false
  end.
End Whole.
