(* Model of saving a raster to a file and opening it, raster.py:1624-1734 (Raster.save),
   raster.py:1283-1286 (Raster of a path) and io.py:90-205, 343-470.

   What GDAL and rasterio do is given by parameters: which dtypes can be written, and the
   null value that is read back from a file.  The cells themselves are read back as they
   were written.  Compression, tiling and overviews (they leave the cells alone),
   coordinates, chunks, warnings and extra GDAL options are left out; NotImplementedError
   is given as ValueError.  Opening is that of files opened lazily by rioxarray. *)
From Coq Require Import QArith Qabs String.
From Verif Require Import Base Scalars Arr2 Dtypes Reconcile Raster.
Open Scope Z_scope.

(* a raster file: dtype, null value and bands *)
Record file := File { f_dtype : dtype; f_nodata : option num; f_data : arr2 num }.

(* io.py:58-72; extensions are in lower case *)
Definition write_not_implemented : list string :=
  [".cdf"; ".nc"; ".nc4"; ".hdf"; ".h4"; ".hdf4"; ".he2"; ".h5"; ".hdf5"; ".he5"; ".grib"; ".grib2"; ".grb"; ".grb2"; ".gb"; ".gb2"]%string.
(* io.py:166-169 _resolve_driver *)
Definition resolve_driver (ext : string) (driver : option string) : option string :=
  match driver with
  | Some d => Some d
  | None => if existsb (String.eqb ext) [".tif"; ".tiff"]%string then Some "GTiff"%string else None
  end.

Section Saving.
Variable cast : dtype -> num -> num.
Variable float_dtype : num -> dtype.
Variable reconcile_other : num -> dtype -> num * bool.
(* rasterio.dtypes.check_dtype, and dtypes the driver can write *)
Variable gdal_has : dtype -> bool.
(* the null value read from a file of the dtype that was written with the null value *)
Variable gdal_nodata : dtype -> num -> num.

(* io.py:178-191 _supports_native_int64 *)
Definition supports_native_int64 (driver : option string) : bool :=
  match driver with Some d => existsb (String.eqb d) ["GTiff"; "COG"]%string && gdal_has I64 | None => false end.
(* io.py:371 *)
Definition null_preservable (nv : option num) : bool :=
  match nv with None => true | Some v => num_leb (of_Z (- 2 ^ 53)) v && num_leb v (of_Z (2 ^ 53)) end.
(* io.py:343-470 write_raster *)
Definition write_raster (ext : string) (driver : option string) (r : raster) : res file :=
  if existsb (String.eqb ext) write_not_implemented then Err ValueError
  else
    let resolved := resolve_driver ext driver in
    let '(d, data) :=
      match r_dtype r with
      | I64 => if negb (supports_native_int64 resolved) || negb (null_preservable (r_nv r)) then (F64, map2 (cast F64) (r_data r))
               else (I64, r_data r)
      | BOOL => (U8, map2 (cast U8) (r_data r))
      | d => (d, r_data r)
      end in
    if gdal_has d then Ok (File d (option_map (gdal_nodata d) (r_nv r)) data) else Err TypeError.

(* raster.py:1699-1733, before Raster(path) *)
Definition save (ext : string) (driver : option string) (null_value no_data_value : option scalar) (r : raster) : res file :=
  match null_value, no_data_value with
  | Some _, Some _ => Err TypeError
  | _, _ =>
      let null_value := match no_data_value with Some v => Some v | None => null_value end in
      let* rs := match null_value with Some v => set_null_value cast float_dtype r (Some v) | None => Ok r end in
      let* rs :=
        match r_dtype rs with
        | BOOL => if masked rs then let* u := astype cast reconcile_other rs U8 None in set_null_value cast float_dtype u (Some (SInt 255)) else Ok rs
        | _ => Ok rs
        end in
      write_raster ext driver rs
  end.

(* io.py:93-103 normalize_null_value; taking int() of an integral float leaves the value
   alone *)
Definition isclose_esri (v : num) : bool := match v with Fin q => allclose q (- float32_max) | _ => false end.
Definition normalize_null_value (nv : option num) (d : dtype) : option num :=
  match nv with
  | Some v => Some (if dtype_eqb d F32 && isclose_esri v then cast F32 v else v)
  | None => None
  end.
(* raster.py:1176-1204 _try_to_get_null_value_xarray (C62) of a lazy array *)
Definition file_null_value (f : file) : option num :=
  match f_nodata f with Some v => Some v | None => if is_float_dtype (f_dtype f) then Some NaN else None end.
(* io.py:106-156 open_raster_from_path_or_url and raster.py:1283-1286 *)
Definition open_raster (f : file) : res raster :=
  data_to_raster (f_dtype f) (f_data f) None (normalize_null_value (file_null_value f) (f_dtype f)) false.
(* Raster.save: the raster at the saved location *)
Definition save_raster (ext : string) (driver : option string) (null_value no_data_value : option scalar) (r : raster) : res raster :=
  let* f := save ext driver null_value no_data_value r in open_raster f.
(* raster.py:1826-1846, one file of Raster.save_chunks (the names and chunks are those of
   C17 and C18): tile_chunks are the chunks of each band at one place *)
Definition save_tile (ext : string) (driver : option string) (null_value no_data_value : option scalar) (tile_chunks : list raster) : res raster :=
  let* tile := match tile_chunks with [chunk] => Ok chunk | _ => stack_bands cast reconcile_other tile_chunks None None end in
  (* raster.py:1788-1796 *)
  let null_value := match no_data_value, null_value with Some v, None => Some v | _, _ => null_value end in
  save_raster ext driver null_value None tile.
End Saving.
