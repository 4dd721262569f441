(* Model of extract_points_eager, zonal.py:523-625: the cells of a raster under points.

   Coordinates are exact here (C40 has the rounding of doubles).  At least one point is
   assumed; partitions and the dtype of the band column are left out.  The conversion of
   values to float64 and the change of coordinate system are parameters. *)
From Coq Require Import QArith String.
From Verif Require Import Base Scalars Arr2 Grids Vectors Bands Frames.
Open Scope Z_scope.

(* a point, an empty point (its coordinates are NaN), or any other geometry *)
Inductive geometry := GPoint (x y : Q) | GEmpty | GOther.
(* geometry.geom_type == "Point" *)
Definition is_point (g : geometry) : bool := match g with GOther => false | _ => true end.
(* geometry.x, geometry.y (geopandas): ValueError for other geometries *)
Definition coordinates (g : geometry) : res (option (Q * Q)) :=
  match g with GPoint x y => Ok (Some (x, y)) | GEmpty => Ok None | GOther => Err ValueError end.
(* raster.py:2992-2999 for one point: np.floor(nan).astype(int) is the lowest int64 *)
Definition cell_index (t : affine Q) (p : option (Q * Q)) : Z * Z :=
  match p with Some (x, y) => qindex x y t | None => (- 2 ^ 63, - 2 ^ 63) end.
(* a[i] of NumPy and dask: negative indices count from the end *)
Definition get_wrapped {A} (a : list A) (i : Z) : res A := get a (if i <? 0 then i + len a else i).
(* a.vindex[i, r, c] *)
Definition vindex {A} (a : list (list (list A))) (i : Z) (cells : list (Z * Z)) : res (list A) :=
  traverse (fun '(r, c) => let* band := get_wrapped a i in let* row := get_wrapped band r in get_wrapped row c) cells.
(* a[mask] = values *)
Fixpoint put_where {A} (mask : list bool) (values a : list A) : res (list A) :=
  match mask, a with
  | [], [] => match values with [] => Ok [] | _ => Err ValueError end
  | false :: mask, x :: a => let* a := put_where mask values a in Ok (x :: a)
  | true :: mask, _ :: a => match values with v :: values => let* a := put_where mask values a in Ok (v :: a) | [] => Err ValueError end
  | _, _ => Err IndexError
  end.
(* frame[name] = column *)
Fixpoint set_column (cols : list (string * column_data)) (name : string) (c : column_data) : list (string * column_data) :=
  match cols with
  | [] => [(name, c)]
  | (k, old) :: cols => if String.eqb k name then (k, c) :: cols else (k, old) :: set_column cols name c
  end.
Definition append_columns (a b : column_data) : column_data :=
  match a, b with NumCol x, NumCol y => NumCol (x ++ y) | ObjCol x, ObjCol y => ObjCol (x ++ y) | x, _ => x end.
(* dd.concat of frames with the same columns (axis = 0) or the same index (axis = 1) *)
Definition concat_rows (a b : frame) : frame :=
  Frame (index a ++ index b) (map (fun '((k, x), (_, y)) => (k, append_columns x y)) (combine (columns a) (columns b))).
Definition concat_columns (a b : frame) : frame := Frame (index a) (columns a ++ columns b).
Definition concat_frames (axis : Z) (dfs : list frame) : res frame :=
  match dfs with
  | [] => Err ValueError
  | df :: dfs =>
      if axis =? 0 then Ok (fold_left concat_rows dfs df) else if axis =? 1 then Ok (fold_left concat_columns dfs df) else Err ValueError
  end.

Section Extract.
Variable cast : dtype -> num -> num.
(* to_crs, from the coordinate system of the points to that of the raster *)
Variable reproject : Z -> Z -> geometry -> geometry.

(* zonal.py:598-606 *)
Definition extract_band (data : list (list (list num))) (mask : list (list (list bool))) (i n : Z) (valid : list bool) (cells : list (Z * Z)) : res (list num) :=
  let* values := vindex data i (where_true valid cells) in
  let* extracted := put_where valid (map (cast F64) values) (full n NaN) in
  let* nulls := vindex mask i (where_true valid cells) in
  let* exmask := put_where valid nulls (full n false) in
  Ok (map (fun '(m, v) => if m : bool then NaN else v) (combine exmask extracted)).
(* zonal.py:607-621 *)
Definition band_frame (axis i n : Z) (column_name : string) (extracted : list num) : frame :=
  let bnd := i + 1 in
  if axis =? 0 then
    Frame (zrange (n * i) (n * bnd)) (set_column [("band"%string, NumCol (full n (of_Z bnd)))] column_name (NumCol extracted))
  else Frame (zrange 0 n) [(numbered (column_name ++ "_") bnd, NumCol extracted)].
(* zonal.py:531-625 *)
Definition extract_points (raster_crs points_crs : option Z) (points : list geometry) (t : affine Q) (nb nr nc : Z)
    (data : list (list (list num))) (mask : list (list (list bool))) (column_name : string) (skip_validation : bool) (axis : Z) : res frame :=
  if String.eqb column_name "" then Err ValueError
  else if negb skip_validation && negb (forallb is_point points) then Err TypeError
  else
    let* points :=
      match raster_crs with
      | Some rc =>
          match points_crs with
          | Some pc => Ok (if rc =? pc then points else map (reproject pc rc) points)
          | None => Err ValueError
          end
      | None => Ok points
      end in
    let* xy := traverse coordinates points in
    let cells := map (cell_index t) xy in
    let valid := map (fun '(r, c) => (r >=? 0) && (r <? nr) && (c >=? 0) && (c <? nc)) cells in
    let n := len valid in
    let* dfs := traverse (fun i =>
      let* extracted := extract_band data mask i n valid cells in
      Ok (band_frame axis i n column_name extracted)) (zrange 0 nb) in
    concat_frames axis dfs.
End Extract.
