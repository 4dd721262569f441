(* Model of opening netCDF and GRIB datasets: io.py:476-596 (_get_valid_variables,
   _build_raster, _get_affine, open_dataset).
   Simplified: a file is the list of its variables as xarray decodes them, and the transform
   that rioxarray finds for the whole dataset (or its failure); coordinates are exact; CRSs,
   the check for installed backends and bool variables are left out.  DimensionsError and
   AffineEncodingError are TypeError here. *)
From Coq Require Import QArith String.
From Verif Require Import Base Scalars Arr2 Bands MapBlocks Blocks Normalize Ingest WriteOptions.
Open Scope Z_scope.

(* v_shape: all dimensions; v_y, v_x, v_data: of the variable without dimensions of size one
   (a variable of two dimensions is one band); v_fill: attrs["_FillValue"]; v_nodata:
   rio.nodata *)
Record variable := Variable_ {
  v_name : string; v_shape : list Z; v_dtype : dtype; v_fill : option num; v_nodata : option num;
  v_y : list Q; v_x : list Q; v_data : arr3 num }.
Record file := File { f_vars : list variable; f_affine : res affine }.

(* squeeze().ndim *)
Definition squeezed_ndim (shape : list Z) : Z := len (filter (fun n => negb (n =? 1)) shape).
(* io.py:476-497 _get_valid_variables *)
Fixpoint valid_variables (ignore : bool) (vs : list variable) : res (list variable) :=
  match vs with
  | [] => Ok []
  | v :: vs =>
      let n := squeezed_ndim (v_shape v) in
      if 3 <? n then if ignore then valid_variables ignore vs else Err TypeError
      else if (n =? 2) || (n =? 3) then let* rest := valid_variables ignore vs in Ok (v :: rest)
      else Err TypeError
  end.
Definition get_valid_variables (ignore : bool) (vs : list variable) : res (list variable) :=
  let* valid := valid_variables ignore vs in
  match valid with [] => Err ValueError | _ => Ok valid end.

(* _grids.py:9-25 build_x_coord, build_y_coord *)
Definition x_coords_of (t : affine) (ny nx : Z) : list Q := map (fun j => fst (gb_coord (GeoBox ny nx t) 0 j)) (zrange 0 nx).
Definition y_coords_of (t : affine) (ny nx : Z) : list Q := map (fun i => snd (gb_coord (GeoBox ny nx t) i 0)) (zrange 0 ny).
(* raster.py:2015-2089 set_null_value with the default null value of the raster's own dtype,
   which keeps the dtype (see C24 for other values) *)
Definition set_default_null (d : dtype) (ds : raster_ds) : raster_ds :=
  let '(nv, xdata, xmask) := ds in
  let v := default_null d in
  let temp := map3 (is_null (Some v)) (r_data xdata) in
  let mask := match nv with Some _ => map3 (fun p => fst p || snd p) (zip3 (r_data xmask) temp) | None => temp end in
  (Some v, with_data xdata (where3 mask v (r_data xdata)), with_data xmask mask).
(* io.py:500-514 _build_raster.  data_to_raster is given coordinates and a transform; it
   takes the transform (raster.py:737-756). *)
Definition build_raster (t : affine) (v : variable) : res raster_ds :=
  let nv := match v_fill v with Some f => Some f | None => v_nodata v end in
  let '(_, ny, nx) := size3 (v_data v) in
  let* ds := data_to_xr_raster_ds (v_dtype v) (v_data v) None (Normalize.Affine (x_coords_of t ny nx) (y_coords_of t ny nx)) nv false in
  Ok (match nv with
      | None => set_default_null (v_dtype v) ds
      | Some n => if is_nan n then set_default_null (v_dtype v) ds else ds
      end).
(* io.py:529-596 open_dataset: the dict of rasters and the caller's keyword arguments
   afterwards *)
Definition open_dataset (open_file : dict -> res file) (ignore : bool) (xarray_kwargs : option dict)
  : res (list (string * raster_ds)) * option dict :=
  let kwargs := dput "decode_coords" (VStr "all") (match xarray_kwargs with None => [] | Some k => k end) in
  (let* f := open_file kwargs in
   let* vs := get_valid_variables ignore (f_vars f) in
   let* t := f_affine f in
   traverse (fun v => let* r := build_raster t v in Ok (v_name v, r)) vs,
   match xarray_kwargs with None => None | Some _ => Some kwargs end).
