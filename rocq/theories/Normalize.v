(* Model of the normalisation of arrays to rasters (raster.py:508-946, 1081-1270): three
   dimensions band, y, x; bands counted from 1; x increasing and y decreasing. *)
From Coq Require Import QArith String.
From Verif Require Import Base Scalars Arr2 BlockArgs Bands Vectors MapBlocks.
Open Scope Z_scope.

(* coordinates along a dimension and whether their dtype is a float *)
Record coordinate := Coord { c_float : bool; c_values : list Q }.
(* an xarray.DataArray: names of the dimensions, coordinates by name, values.  Other
   coordinates than those of dimensions, attributes and chunks are left out. *)
Inductive body (A : Type) := Body2 (a : arr2 A) | Body3 (a : arr3 A).
Arguments Body2 {A} _. Arguments Body3 {A} _.
Record xarray (A : Type) := XArray { x_dims : list string; x_coords : list (string * coordinate); x_body : body A }.
Arguments XArray {A} _ _ _. Arguments x_dims {A} _. Arguments x_coords {A} _. Arguments x_body {A} _.

Fixpoint find_coord (l : list (string * coordinate)) (name : string) : option coordinate :=
  match l with [] => None | (k, c) :: l => if String.eqb k name then Some c else find_coord l name end.
Definition has (name : string) (l : list string) : bool := existsb (String.eqb name) l.
(* xarray's rename: of dimensions and their coordinates; two dimensions of one name
   are refused *)
Definition renamed (m : list (string * string)) (name : string) : string :=
  match find (fun p => String.eqb (fst p) name) m with Some (_, new) => new | None => name end.
Fixpoint distinct (l : list string) : bool := match l with [] => true | a :: l => negb (has a l) && distinct l end.
Definition rename {A} (m : list (string * string)) (x : xarray A) : res (xarray A) :=
  let dims := map (renamed m) (x_dims x) in
  if distinct dims then Ok (XArray dims (map (fun '(k, c) => (renamed m k, c)) (x_coords x)) (x_body x)) else Err ValueError.

(* utils.py:19-24 is_strictly_increasing, is_strictly_decreasing: of coordinates; the
   sign of a difference is the order of the two *)
Definition Qlt_bool (a b : Q) : bool := negb (Qle_bool b a).
Fixpoint steps (r : Q -> Q -> bool) (l : list Q) : bool :=
  match l with [] => true | a :: t => match t with [] => true | b :: _ => r a b && steps r t end end.
Definition is_strictly_increasing (l : list Q) : bool := (1 <? len l) && steps Qlt_bool l.
Definition is_strictly_decreasing (l : list Q) : bool := (1 <? len l) && steps (fun a b => Qlt_bool b a) l.

(* a normalised array: dimensions band, y, x *)
Record raster_array (A : Type) := RasterArray { r_band : list Z; r_y : list Q; r_x : list Q; r_data : arr3 A }.
Arguments RasterArray {A} _ _ _ _. Arguments r_band {A} _. Arguments r_y {A} _. Arguments r_x {A} _. Arguments r_data {A} _.

Section Normalize.
(* the (y, x) dimensions that rioxarray (obj.rio.y_dim, x_dim) or odc-geo
   (spatial_dims(relaxed=True)) find from the names and attributes *)
Variable spatial : list string -> option (string * string).

(* raster.py:559-582 find_spatial_dims *)
Definition band_names : list string := ["band"; "bands"; "time"; "wavelength"; "wavelengths"]%string.
Definition find_spatial_dims {A} (x : xarray A) : res (option (string * string)) :=
  match spatial (x_dims x) with
  | Some s => Ok (Some s)
  | None =>
      match rev (filter (fun d => negb (has d band_names)) (x_dims x)) with
      | dim2 :: dim1 :: _ =>
          match find_coord (x_coords x) dim1, find_coord (x_coords x) dim2 with
          | Some c1, Some c2 => Ok (if negb (c_float c1) || negb (c_float c2) then Some (dim1, dim2) else None)
          | _, _ => Err KeyError
          end
      | _ => Err IndexError
      end
  end.
(* transpose("band", "y", "x"): the element at b, i, j of the result is the one whose
   index along each dimension is that of the dimension's name *)
Definition axis (d : string) (b i j : Z) : Z := if String.eqb d "band" then b else if String.eqb d "y" then i else j.
Definition size_along {A} (dims : list string) (a : list (list (list A))) (name : string) : res Z :=
  let* n0 := Ok (len a) in
  let* a0 := get a 0 in let n1 := len a0 in
  let* a1 := get a0 0 in let n2 := len a1 in
  match dims with
  | [d0; d1; d2] => if String.eqb d0 name then Ok n0 else if String.eqb d1 name then Ok n1 else if String.eqb d2 name then Ok n2 else Err ValueError
  | _ => Err ValueError
  end.
Definition get3r {A} (a : list (list (list A))) (i j k : Z) : res A := let* p := get a i in let* q := get p j in get q k.
Definition transpose3 {A} (dims : list string) (a : arr3 A) : res (arr3 A) :=
  let* nb := size_along dims a "band" in
  let* ny := size_along dims a "y" in
  let* nx := size_along dims a "x" in
  match dims with
  | [d0; d1; d2] =>
      traverse (fun b => traverse (fun i => traverse (fun j => get3r a (axis d0 b i j) (axis d1 b i j) (axis d2 b i j))
        (zrange 0 nx)) (zrange 0 ny)) (zrange 0 nb)
  | _ => Err ValueError
  end.

(* raster.py:585-664 normalize_xarray_data, without chunks and the transform *)
Definition expand {A} (x : xarray A) : res (xarray A) :=
  match x_body x with
  | Body3 _ => Ok x
  | Body2 a => if has "band" (x_dims x) then Err ValueError
               else Ok (XArray ("band" :: x_dims x)%string (("band"%string, Coord false [1%Q]) :: x_coords x) (Body3 [a]))
  end.
Definition first_names (dims : list string) : list (string * string) :=
  filter (fun p => has (fst p) dims) [("time", "band"); ("lon", "x"); ("lat", "y")]%string.
Definition orient {A} (nb : Z) (ys xs : list Q) (a : arr3 A) : raster_array A :=
  let '(xs, a) := if is_strictly_decreasing xs then (rev xs, map (map (@rev A)) a) else (xs, a) in
  let '(ys, a) := if is_strictly_increasing ys then (rev ys, map (@rev (list A)) a) else (ys, a) in
  RasterArray (zrange 1 (nb + 1)) ys xs a.
Definition normalize_xarray_data {A} (x : xarray A) : res (raster_array A) :=
  let* x := expand x in
  let* x := rename (first_names (x_dims x)) x in
  let* s := find_spatial_dims x in
  let* x :=
    match s with
    | None =>
        (* dims.remove("band") of a tuple is an AttributeError (as TypeError here) *)
        if has "band" (x_dims x) then Err TypeError
        else match x_dims x with
             | [d0; d1; d2] => rename [(d0, "band"); (d1, "y"); (d2, "x")]%string x
             | _ => Err ValueError
             end
    | Some (y_dim, x_dim) =>
        match filter (fun d => negb (String.eqb d y_dim) && negb (String.eqb d x_dim)) (x_dims x) with
        | [band_dim] => rename [(y_dim, "y"); (x_dim, "x"); (band_dim, "band")]%string x
        | _ => Err KeyError
        end
    end in
  match x_body x with
  | Body2 _ => Err ValueError
  | Body3 a =>
      let* a := transpose3 (x_dims x) a in
      match find_coord (x_coords x) "y", find_coord (x_coords x) "x" with
      | Some cy, Some cx => Ok (orient (len a) (c_values cy) (c_values cx) a)
      | _, _ => Err ValueError
      end
  end.

(* raster.py:676-696 is_normalized, of an array with dimensions band, y, x in chunks of
   one band *)
Fixpoint ints_eqb (a b : list Z) : bool :=
  match a, b with [], [] => true | x :: a, y :: b => (x =? y) && ints_eqb a b | _, _ => false end.
Definition is_normalized {A} (r : raster_array A) : bool :=
  ints_eqb (r_band r) (zrange 1 (len (r_band r) + 1)) && is_strictly_increasing (r_x r) && is_strictly_decreasing (r_y r).

(* raster.py:699-764 data_to_xr_raster; coordinates are numpy arrays *)
Inductive placement := Given (xs ys : list Q) | OnlyOne | Default | Affine (xs ys : list Q).
Definition size3 {A} (a : arr3 A) : Z * Z * Z :=
  match a with (row :: rest) :: t => (len a, len (row :: rest), len row) | [] :: t => (len a, 0, 0) | [] => (0, 0, 0) end.
Definition data_to_xr_raster {A} (data : arr3 A) (p : placement) : res (raster_array A) :=
  let '(nb, ny, nx) := size3 data in
  let* '(xs, ys) :=
    match p with
    | Default => Ok (map (fun i => inject_Z i + (1 # 2))%Q (zrange 0 nx), rev (map (fun i => inject_Z i + (1 # 2))%Q (zrange 0 ny)))
    | OnlyOne => Err ValueError
    | Given xs ys => if (len ys =? ny) && (len xs =? nx) then Ok (xs, ys) else Err ValueError
    | Affine xs ys => Ok (xs, ys)
    end in
  Ok (orient nb ys xs data).
(* raster.py:830-887 data_to_xr_raster_ds: values and mask *)
Definition data_to_xr_raster_ds (d : dtype) (data : arr3 num) (mask : option (arr3 bool)) (p : placement) (nv : option num) (burn : bool)
  : res (option num * raster_array num * raster_array bool) :=
  let* '(nv, data, mask) :=
    match mask with
    | None => Ok (nv, data, map3 (is_null nv) data)
    | Some mask =>
        if negb (same_shape3 data mask) then Err ValueError
        else let n := match nv with None => default_null d | Some v => v end in
             Ok (Some n, if burn then where3 mask n data else data, mask)
    end in
  let* xdata := data_to_xr_raster data p in
  let* xmask := data_to_xr_raster mask p in
  Ok (nv, xdata, xmask).
End Normalize.
