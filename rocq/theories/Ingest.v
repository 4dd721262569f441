(* Model of making rasters from arrays and xarray objects, raster.py:1081-1125,
   1156-1275. *)
From Coq Require Import QArith String.
From Verif Require Import Base Scalars Arr2 BlockArgs Bands MapBlocks Normalize Reconcile.
Open Scope Z_scope.

(* a scalar and its dtype *)
Definition typed := (dtype * num)%type.
(* What is recorded about null values in a DataArray: attrs["_FillValue"] (absent, None
   or a value), rio.nodata and rio.encoded_nodata; whether the data is lazy (dask); its
   dtype. *)
Record source := Source { s_fill : option (option typed); s_nodata : option typed; s_encoded : option typed; s_lazy : bool; s_dtype : dtype }.
Definition any_nan (b : body num) : bool :=
  match b with
  | Body2 a => existsb (existsb is_nan) a
  | Body3 a => existsb (existsb (existsb is_nan)) a
  end.
(* raster.py:1176-1204 _try_to_get_null_value_xarray *)
Definition unset {A} (o : option A) : bool := match o with None => true | Some _ => false end.
Definition try_to_get_null_value (s : source) (data : body num) : option typed :=
  if match s_fill s with Some None => true | _ => false end && unset (s_nodata s) && unset (s_encoded s) && negb (s_lazy s) then None
  else match s_fill s with
       | Some (Some null) => Some null
       | _ =>
           match s_nodata s, s_encoded s with
           | None, None => if is_float_dtype (s_dtype s) then if s_lazy s || any_nan data then Some (F64, NaN) else None else None
           | Some nv1, Some _ => Some nv1
           | Some nv1, None => Some nv1
           | None, Some nv2 => Some nv2
           end
       end.

(* a raster Dataset: null value, values and mask *)
Definition raster_ds := (option num * raster_array num * raster_array bool)%type.
Definition of_raster {A} (r : raster_array A) : xarray A :=
  XArray ["band"; "y"; "x"]%string [("band", Coord false (map inject_Z (r_band r))); ("y", Coord true (r_y r)); ("x", Coord true (r_x r))]%string (Body3 (r_data r)).
Definition with_data {A B} (r : raster_array A) (data : arr3 B) : raster_array B := RasterArray (r_band r) (r_y r) (r_x r) data.

Section Ingest.
(* the dimensions found by name, see Normalize.v *)
Variable spatial : list string -> option (string * string).
(* raster.py:1081-1119 dataarray_to_xr_raster_ds, with a mask *)
Definition dataarray_to_xr_raster_ds (nv : option num) (xdata : raster_array num) (xmask : raster_array bool) : res raster_ds :=
  let* xdata := normalize_xarray_data spatial (of_raster xdata) in
  let* xmask := normalize_xarray_data spatial (of_raster xmask) in
  Ok (nv, xdata, xmask).
(* np.isnan(orig_nv) or orig_nv != nv *)
Definition changed (orig : option typed) (nv : num) : bool :=
  match orig with Some (_, o) => is_nan o || negb (num_eqb o nv) | None => false end.
(* raster.py:1156-1173 _array_input_to_raster_ds; data has three dimensions *)
Definition array_input_to_raster_ds (d : dtype) (lazy : bool) (data : arr3 num) : res raster_ds :=
  let has_nan := if lazy then is_float_dtype d else is_float_dtype d && any_nan (Body3 data) in
  let orig := if has_nan then Some (F64, NaN) else None in
  let* '(_, xdata, xmask) := data_to_xr_raster_ds d data None Default (option_map snd orig) false in
  let nv := reconcile_nullvalue_with_dtype orig d in
  match nv with
  | Some n => if changed orig n then Ok (nv, with_data xdata (where3 (r_data xmask) n (r_data xdata)), xmask)
              else Ok (option_map snd orig, xdata, xmask)
  | None => Ok (option_map snd orig, xdata, xmask)
  end.
(* raster.py:1207-1219 _dataarray_input_to_raster_ds *)
Definition dataarray_input_to_raster_ds (s : source) (x : xarray num) : res raster_ds :=
  let orig := try_to_get_null_value s (x_body x) in
  let* xdata := normalize_xarray_data spatial x in
  let mask := map3 (is_null (option_map snd orig)) (r_data xdata) in
  let nv := reconcile_nullvalue_with_dtype orig (s_dtype s) in
  let data := match nv with Some n => if changed orig n then where3 mask n (r_data xdata) else r_data xdata | None => r_data xdata end in
  dataarray_to_xr_raster_ds nv (with_data xdata data) (with_data xdata mask).
(* raster.py:1222-1265 _dataset_to_raster_ds of a Dataset with variables raster and
   mask.  lazy_all: both are dask arrays; same: equal chunks and coordinate systems. *)
Inductive made := Same | Made (ds : raster_ds).
Fixpoint strings_eqb (a b : list string) : bool :=
  match a, b with [], [] => true | x :: a, y :: b => String.eqb x y && strings_eqb a b | _, _ => false end.
Definition standard_dims : list string := ["band"; "y"; "x"]%string.
Definition dataset_to_raster_ds (s : source) (x : xarray num) (m : xarray bool) (mask_is_bool lazy_all same : bool) : res made :=
  if lazy_all && mask_is_bool && strings_eqb (x_dims x) standard_dims && strings_eqb (x_dims m) standard_dims && same then Ok Same
  else if negb mask_is_bool then Err TypeError
  else
    let* xdata := normalize_xarray_data spatial x in
    let* xmask := normalize_xarray_data spatial m in
    if negb (same_shape3 (r_data xdata) (r_data xmask)) then Err ValueError
    else
      let found := try_to_get_null_value s (Body3 (r_data xdata)) in
      let nv := match found with None => Some (default_null (s_dtype s)) | Some _ => reconcile_nullvalue_with_dtype found (s_dtype s) end in
      let data := match nv with Some n => where3 (r_data xmask) n (r_data xdata) | None => r_data xdata end in
      let* ds := dataarray_to_xr_raster_ds nv (with_data xdata data) xmask in
      Ok (Made ds).
End Ingest.
