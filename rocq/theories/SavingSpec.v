(* What saving and opening a raster should keep. *)
From Coq Require Import QArith Qabs String.
From Verif Require Import Base Scalars Raster FocalSpec RasterSpec ReconcileSpec Saving.
Open Scope Z_scope.

(* NumPy's conversions leave values of the dtype alone, and round integers to doubles *)
Definition casts (cast : dtype -> num -> num) : Prop :=
  (forall d v, value_of d v -> cast d v = v) /\ (forall v, value_of I64 v -> rounded_to F64 v (cast F64 v)).
(* between -2^53 and 2^53 *)
Definition moderate (v : num) : Prop := num_leb (of_Z (- 2 ^ 53)) v = true /\ num_leb v (of_Z (2 ^ 53)) = true.
(* GDAL keeps the null value in a double: it gives floats and integers up to 2^53 back,
   and takes the nearest double of others in files of doubles *)
Definition gdal_ok (cast : dtype -> num -> num) (gdal_nodata : dtype -> num -> num) : Prop :=
  (forall d v, value_of d v -> is_float_dtype d = true \/ moderate v -> gdal_nodata d v = v)
  /\ (forall v, value_of I64 v -> gdal_nodata F64 v = cast F64 v).
(* the file can hold int64 *)
Definition native_int64 (gdal_has : dtype -> bool) (ext : string) (driver : option string) : Prop :=
  (driver = Some "GTiff" \/ driver = Some "COG" \/ driver = None /\ (ext = ".tif" \/ ext = ".tiff"))%string /\ gdal_has I64 = true.
Definition large_null (r : raster) : Prop := exists v, r_nv r = Some v /\ ~ moderate v.
(* the dtype of the file: bool is saved as uint8; int64 as float64 if the file cannot hold
   int64 or the null value *)
Definition file_dtype (native : Prop) (r : raster) (d : dtype) : Prop :=
  match r_dtype r with
  | BOOL => d = U8
  | I64 => (native /\ ~ large_null r) /\ d = I64 \/ (~ native \/ large_null r) /\ d = F64
  | d0 => d = d0
  end.
(* the null value of the raster opened from the file *)
Definition file_null (cast : dtype -> num -> num) (r : raster) (d : dtype) : option num :=
  match r_nv r with
  | Some v => Some (match r_dtype r with BOOL => of_Z 255 | _ => cast d v end)
  | None => if is_float_dtype d then Some NaN else None
  end.
(* a raster of values of its dtype *)
Definition typed_raster (nb nc : Z) (r : raster) : Prop :=
  (forall b c, in_raster nb nc b c -> value_of (r_dtype r) (value r b c)) /\ (forall v, r_nv r = Some v -> value_of (r_dtype r) v).
(* strictly between -2^53 and 2^53 *)
Definition exact_double (v : num) : Prop := num_ltb (of_Z (- 2 ^ 53)) v = true /\ num_ltb v (of_Z (2 ^ 53)) = true.
(* extensions of the formats that cannot be written: NetCDF, HDF and GRIB *)
Definition no_ext (ext : string) : Prop :=
  ~ In ext [".cdf"; ".nc"; ".nc4"; ".hdf"; ".h4"; ".hdf4"; ".he2"; ".h5"; ".hdf5"; ".he5"; ".grib"; ".grib2"; ".grb"; ".grb2"; ".gb"; ".gb2"]%string.
(* up to a hundred-thousandth the lowest single precision number *)
Definition near_lowest (v : num) : Prop :=
  exists q, v = Fin q /\ let low := (- inject_Z ((2 ^ 24 - 1) * 2 ^ 104))%Q in (Qabs (q - low) <= (1 # 100000000) + (1 # 100000) * Qabs low)%Q.
(* the bands of a raster, each as a raster *)
Definition bands_of (r : raster) : list raster :=
  map (fun p => Raster (r_dtype r) (r_nv r) [fst p] [snd p]) (combine (r_data r) (r_mask r)).
