(* Coercion of inputs to rasters and the small methods of rasters (raster.py). *)
From Coq Require Import QArith Qround.
From Verif Require Import Base Scalars Arr2 Dtypes Raster.
Open Scope Z_scope.

(* np.rint of an exact number: to the nearest integer, halves to the even one *)
Definition rint (q : Q) : Z :=
  let f := Qfloor q in
  match ((q - inject_Z f) ?= 1 # 2)%Q with
  | Lt => f
  | Gt => f + 1
  | Eq => if Z.even f then f else f + 1
  end.
(* np.round: scaled by a power of ten, rint, scaled back; exact here, where NumPy rounds
   each step to a float *)
Definition round_q (decimals : Z) (q : Q) : Q :=
  (inject_Z (rint (q * inject_Z 10 ^ decimals)) / inject_Z 10 ^ decimals)%Q.

Section Coerce.
(* x.astype(d) *)
Variable cast : dtype -> num -> num.

(* integers are returned as they are unless decimals is negative; else the result of the
   calculation with floats is cast to the dtype *)
Definition round_num (d : dtype) (decimals : Z) (x : num) : num :=
  if is_int_dtype d && (0 <=? decimals) then x
  else match x with Fin q => cast d (Fin (round_q decimals q)) | _ => x end.

(* raster.py:2469-2498 Raster.round.  The null value has the dtype of the data
   (rioxarray's write_nodata casts it), so xr.where keeps the dtype.  Bool rasters, which
   numpy rounds to half precision floats, are left out. *)
Definition round (r : raster) (decimals : Z) : raster :=
  let data := map2 (round_num (r_dtype r) decimals) (r_data r) in
  match r_nv r with
  | Some nv => Raster (r_dtype r) (Some nv) (fill_where (r_mask r) nv data) (r_mask r)
  | None => Raster (r_dtype r) None data (r_mask r)
  end.

(* raster.py:2165-2182 Raster.to_null_mask *)
Definition to_null_mask (r : raster) : raster :=
  Raster BOOL None (map2 (fun b : bool => of_Z (if b then 1 else 0)) (r_mask r)) (map2 (fun _ => false) (r_mask r)).

(* raster.py:2184-2203 Raster.replace_null; None: not a scalar *)
Variable float_dtype : num -> dtype.
Definition replace_null (r : raster) (value : option scalar) : res raster :=
  match value with
  | None => Err TypeError
  | Some v => set_null_value cast float_dtype r (Some v)
  end.

(* The input of get_raster: a Raster, a str or PathLike, or something else.  Raster(path)
   and Raster(object) are parameters; RasterDataError and RasterIOError are ValueError. *)
Inductive source (P O : Type) := SRaster (r : raster) | SPath (p : P) | SOther (o : O).
Arguments SRaster {P O} r.
Arguments SPath {P O} p.
Arguments SOther {P O} o.

(* raster.py:3207-3213, the part for null_to_nan.  The attributes, and with them the null
   value, are those of the copy; the mask is too.  Assigning to rs.xdata.data changes the
   variable of rs: DataArrays of a Dataset share their variables with it. *)
Definition nulls_to_nan (r : raster) : raster :=
  let d := promote_dtype_to_float (r_dtype r) in
  let data := if dtype_eqb d (r_dtype r) then r_data r else map2 (cast d) (r_data r) in
  Raster d (r_nv r) (fill_where (r_mask r) NaN data) (r_mask r).

Section Get.
Variables (P O : Type) (open_path : P -> res raster) (convert : O -> res raster).
(* raster.py:3166-3214 get_raster *)
Definition get_raster (src : source P O) (strict null_to_nan : bool) : res raster :=
  let* rs :=
    match src with
    | SRaster r => Ok r
    | SPath p => open_path p
    | SOther o =>
        if strict then Err TypeError
        else match convert o with
             | Ok r => Ok r
             | Err ValueError | Err TypeError => Err ValueError
             | Err e => Err e
             end
    end in
  Ok (if null_to_nan && masked rs then nulls_to_nan rs else rs).
End Get.
End Coerce.
Arguments SRaster {P O} r.
Arguments SPath {P O} p.
Arguments SOther {P O} o.
