(* Model of creation.py: rasters like a template. *)
From Coq Require Import QArith String.
From Verif Require Import Base Scalars Arr2 Bands MapBlocks Normalize Ingest.
Open Scope Z_scope.

(* A template: the coordinates of the cells of a GeoBox, or a raster and its dtype.
   Coordinate systems and chunks are left out. *)
Inductive template := GeoBox (xs ys : list Q) | Like (d : dtype) (ds : raster_ds).

(* creation.py:43-57 _coalesce_template *)
Definition coalesce_template (template_ raster_template : option template) : res template :=
  match raster_template, template_ with
  | Some _, Some _ => Err TypeError
  | Some r, None => Ok r
  | None, Some t => Ok t
  | None, None => Err TypeError
  end.
(* creation.py:60-79 _resolve_template: the raster and the (ny, nx) shape *)
Definition resolve_template (t : template) : option (dtype * raster_ds) * (Z * Z) :=
  match t with
  | GeoBox xs ys => (None, (len ys, len xs))
  | Like d ds => let '(_, xdata, _) := ds in
                 let '(_, ny, nx) := size3 (r_data xdata) in (Some (d, ds), (ny, nx))
  end.
(* creation.py:82-84 _check_copy_mask *)
Definition check_copy_mask {A} (rst : option A) (copy_mask : bool) : res unit :=
  match rst with None => if copy_mask then Err ValueError else Ok tt | Some _ => Ok tt end.
(* creation.py:87-97 _get_bands; None: int(bands) fails *)
Definition get_bands (bands : option Z) : res Z :=
  match bands with
  | None => Err TypeError
  | Some n => if n <? 1 then Err ValueError else Ok n
  end.
(* creation.py:100-108 _get_dtype; Some None: not a dtype *)
Definition get_dtype (d : option (option dtype)) : res (option dtype) :=
  match d with None => Ok None | Some None => Err ValueError | Some (Some d) => Ok (Some d) end.

(* creation.py:121-126 _copy_mask *)
Definition copied_mask (mask : arr3 bool) (out_bands : Z) : res (arr3 bool) :=
  if out_bands =? len mask then Ok mask
  else let* m := get mask 0 in Ok (full out_bands m).

(* raster.py:889-945 data_to_xr_raster_ds_like of arrays with three dimensions, without
   chunks.  d: the dtype of data; da.where's conversion of data to the common dtype of
   data and nv is left out. *)
Definition yx_shape {A} (a : arr3 A) : Z * Z := let '(_, ny, nx) := size3 a in (ny, nx).
Definition data_to_xr_raster_ds_like (d : dtype) (data : arr3 num) (xlike : raster_array num)
  (mask : option (arr3 bool)) (nv : option num) (burn : bool) : res raster_ds :=
  let '(ny, nx) := yx_shape data in
  let '(ny', nx') := yx_shape (r_data xlike) in
  if negb ((ny =? ny') && (nx =? nx')) then Err ValueError
  else
    let* nv :=
      match mask with
      | None => Ok nv
      | Some mask => if negb (same_shape3 mask data) then Err ValueError
                     else Ok (match nv with None => Some (default_null d) | Some _ => nv end)
      end in
    data_to_xr_raster_ds d data mask (Given (r_x xlike) (r_y xlike)) nv burn.

(* creation.py:129-142 _build_result *)
Definition build_result (t : template) (d : dtype) (data : arr3 num) (nbands : Z) (copy_mask copy_nv : bool) : res raster_ds :=
  match t with
  | GeoBox xs ys => data_to_xr_raster_ds d data None (Affine xs ys) None false
  | Like _ (null_value, xdata, xmask) =>
      match null_value, copy_mask with
      | Some v, true =>
          let* mask := copied_mask (r_data xmask) nbands in
          let nv := if copy_nv then v else default_null d in
          data_to_xr_raster_ds_like d data xdata (Some mask) (Some nv) true
      | _, _ => data_to_xr_raster_ds_like d data xdata None None false
      end
  end.

(* dtype is None or np.dtype(dtype) == rst.dtype *)
Definition copy_null (rst : option (dtype * raster_ds)) (d : option dtype) : bool :=
  match rst, d with
  | None, _ => false
  | Some _, None => true
  | Some (rd, _), Some d => dtype_eqb d rd
  end.

Section Creation.
(* np.full(shape, value, dtype=d): value converted to d *)
Variable cast : dtype -> num -> res num.

(* creation.py:301-361 full_like.  value: its dtype (int64 for an int, float64 for a
   float) and number; None: missing; Some None: float(value) fails.  The result: its dtype
   and the raster. *)
Definition full_like (template_ raster_template : option template) (value : option (option typed)) (bands : option Z)
  (dtype_ : option (option dtype)) (copy_mask : bool) : res (dtype * raster_ds) :=
  let* t := coalesce_template template_ raster_template in
  match value with
  | None => Err TypeError
  | Some value =>
      let '(rst, (ny, nx)) := resolve_template t in
      let* _ := check_copy_mask rst copy_mask in
      let* bands := get_bands bands in
      match value with
      | None => Err TypeError
      | Some (vd, v) =>
          let* dt := get_dtype dtype_ in
          let d := match dt with None => vd | Some d => d end in
          let* v := cast d v in
          let* r := build_result t d (full bands (full ny (full nx v))) bands copy_mask (copy_null rst dt) in
          Ok (d, r)
      end
  end.
(* creation.py:364-407, 410-448, 451-489 *)
Definition constant_raster t rt (value : option typed) bands dtype_ copy_mask :=
  full_like t rt (Some value) bands dtype_ copy_mask.
Definition zeros_like t rt bands dtype_ copy_mask := full_like t rt (Some (Some (I64, of_Z 0))) bands dtype_ copy_mask.
Definition ones_like t rt bands dtype_ copy_mask := full_like t rt (Some (Some (I64, of_Z 1))) bands dtype_ copy_mask.

(* creation.py:254-298 empty_like.  junk: what da.empty returns *)
Definition empty_like (junk : Z -> Z -> Z -> arr3 num) (template_ raster_template : option template) (bands : option Z)
  (dtype_ : option (option dtype)) (copy_mask : bool) : res (dtype * raster_ds) :=
  let* t := coalesce_template template_ raster_template in
  let '(rst, (ny, nx)) := resolve_template t in
  let* _ := check_copy_mask rst copy_mask in
  let* bands := get_bands bands in
  let* dt := get_dtype dtype_ in
  let d := match dt with None => F64 | Some d => d end in
  let* r := build_result t d (junk bands ny nx) bands copy_mask (copy_null rst dt) in
  Ok (d, r).

(* creation.py:145-251 random_raster.  draw: what dask.array.random returns for a
   distribution, parameters and shape, and its dtype.  dist: distribution.lower(). *)
Inductive distribution := Normal | Poisson | Binomial | Weibull | Uniform.
Definition distribution_of (dist : string) : option distribution :=
  if String.eqb dist "n" || String.eqb dist "normal" then Some Normal
  else if String.eqb dist "p" || String.eqb dist "poisson" then Some Poisson
  else if String.eqb dist "b" || String.eqb dist "binomial" then Some Binomial
  else if String.eqb dist "w" || String.eqb dist "weibull" then Some Weibull
  else if String.eqb dist "u" || String.eqb dist "uniform" then Some Uniform
  else None.
Definition random_raster {P} (draw : distribution -> list P -> Z -> Z -> Z -> dtype * arr3 num)
  (template_ raster_template : option template) (dist : string) (bands : option Z) (params : option (list P)) (copy_mask : bool)
  : res (dtype * raster_ds) :=
  let* t := coalesce_template template_ raster_template in
  let '(rst, (ny, nx)) := resolve_template t in
  let* _ := check_copy_mask rst copy_mask in
  let* bands := get_bands bands in
  match params with
  | None => Err TypeError
  | Some params =>
      match distribution_of dist with
      | None => Err ValueError
      | Some k =>
          let need := match k with Normal | Binomial => 2 | Poisson | Weibull => 1 | Uniform => 0 end in
          if len params <? need then Err ValueError
          else
            let '(d, data) := draw k params bands ny nx in
            let* r := build_result t d data bands copy_mask false in
            Ok (d, r)
      end
  end.
End Creation.
