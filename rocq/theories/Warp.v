(* Model of warp.reproject (warp.py:14-120) with dataarray_to_xr_raster_ds
   (raster.py:1081-1119) for its result.
   Simplified: grids and coordinate systems are abstract; GDAL's warp (odc.reproject of one
   band) is a parameter that sees the values, the source's null value and the null value for
   the new cells; the renaming of longitude and latitude is left out. *)
From Coq Require Import QArith String.
From Verif Require Import Base Scalars Arr2 Raster.
Open Scope Z_scope.

Section Warp.
Context {G C : Type}.
Record wraster := WRaster { w_dtype : dtype; w_nv : option num; w_grid : G; w_bands : list (arr2 num * arr2 bool) }.
(* crs_or_geobox: None, a coordinate system, a GeoBox *)
Inductive target := ToNone | ToCrs (c : C) | ToGrid (g : G).
(* resolution: None, a number, a tuple *)
Inductive resolution := ResNone | ResNumber (v : num) | ResTuple (x y : num).

Variable supported : string -> bool.
Variable to_crs : G -> C -> res G.
Variable zoom_to : G -> num -> res G.
Variable grid_eqb : G -> G -> bool.
Variable warp : string -> dtype -> G -> G -> option num -> num -> arr2 num -> arr2 num.

(* resolution <= 0; a tuple cannot be compared with a number *)
Definition not_positive (v : num) : bool :=
  match v with Fin q => Qle_bool q 0 | MInf => true | PInf | NaN => false end.
(* warp.py:85-99 the grid of the result *)
Definition target_grid (r : wraster) (t : target) (s : resolution) : res G :=
  let* g := match t with
            | ToNone => match s with ResNone => Err ValueError | _ => Ok (w_grid r) end
            | ToCrs c => to_crs (w_grid r) c
            | ToGrid g => Ok g
            end in
  match s with
  | ResNone => Ok g
  | ResNumber v => if not_positive v then Err ValueError else zoom_to g v
  | ResTuple _ _ => Err TypeError
  end.
(* warp.py:76-120 *)
Definition reproject (r : wraster) (t : target) (m : string) (s : resolution) : res wraster :=
  if negb (supported m) then Err ValueError
  else
    let* g := target_grid r t s in
    if grid_eqb g (w_grid r) then Ok r
    else
      let nv := match w_nv r with Some v => v | None => default_null (w_dtype r) end in
      let band (b : arr2 num * arr2 bool) :=
        let data := warp m (w_dtype r) (w_grid r) g (w_nv r) nv (fst b) in (data, mask_from_data data (Some nv)) in
      Ok (WRaster (w_dtype r) (Some nv) g (map band (w_bands r))).
End Warp.
Arguments wraster : clear implicits.
Arguments target : clear implicits.
