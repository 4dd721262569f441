(* Model of Raster.to_polygons (raster.py:2650-2721, 3111-3163): the areas of equal
   values of a raster as a table of polygons.

   A polygon is the list of the cells it covers.  rio.features.shapes is a parameter; the
   transform of a chunk puts its polygons at the place of the chunk (C17).  The order of
   the table (documented as random) is the order in which the values are met.  Lazy
   evaluation, partitions and coordinate systems are left out. *)
From Coq Require Import QArith.
From Verif Require Import Base Scalars Arr2 Chunks.
Open Scope Z_scope.

Record polygon := Polygon { pg_value : num; pg_band : Z; pg_cells : list (Z * Z) }.

(* raster.py:3111-3125 _get_rio_shapes_dtype *)
Definition rio_shapes_dtype (d : dtype) : dtype :=
  match d with
  | I16 | I32 | U8 | U16 | F32 => d
  | BOOL => U8
  | I8 => I16
  | I64 | U32 | U64 => I32
  | F16 | F64 => F32
  end.

(* the chunk a[y0:y1, x0:x1] *)
Definition cut {A} (ys xs : Z * Z) (a : arr2 A) : arr2 A := map (fun row => slice row (fst xs) (snd xs)) (slice a (fst ys) (snd ys)).

Section Polygons.
Variable cast : dtype -> num -> num.
(* rio.features.shapes(chunk, mask, connectivity): cells and value of every polygon *)
Variable shapes : arr2 num -> arr2 bool -> Z -> list (list (Z * Z) * num).

(* raster.py:3128-3163 _shapes_delayed; the chunk begins at row y0 and column x0 *)
Definition shapes_delayed (d : dtype) (chunk : arr2 num) (mask : arr2 bool) (neighbors y0 x0 band : Z) : list polygon :=
  let working := rio_shapes_dtype d in
  let chunk :=
    if dtype_eqb working d then chunk
    else map (fun '(row, mrow) => map (fun '(v, m) => cast working (if m : bool then of_Z 0 else v)) (combine row mrow)) (combine chunk mask) in
  let mask := map (map negb) mask in
  map (fun '(cells, value) =>
    Polygon (if dtype_eqb working d then value else cast d value) band (map (fun '(r, c) => (y0 + r, x0 + c)) cells))
    (shapes chunk mask neighbors).
(* dissolve(by="value").reset_index() of geopandas: the first band of every group; NaN is
   not a group *)
Fixpoint dissolve_into (groups : list polygon) (p : polygon) : list polygon :=
  match groups with
  | [] => [p]
  | g :: groups =>
      if num_eqb (pg_value g) (pg_value p) then Polygon (pg_value g) (pg_band g) (pg_cells g ++ pg_cells p) :: groups
      else g :: dissolve_into groups p
  end.
Definition dissolve (ps : list polygon) : list polygon := fold_left dissolve_into (filter (fun p => negb (is_nan (pg_value p))) ps) [].
(* raster.py:2681-2721 *)
Definition to_polygons (d : dtype) (nbands : Z) (ycs xcs : list Z) (data : arr3 num) (mask : arr3 bool) (neighbors : Z) : res (list polygon) :=
  if negb (existsb (Z.eqb neighbors) [4; 8]) then Err ValueError
  else
    let* bands := traverse (fun iband =>
      let* bd := get data iband in
      let* bm := get mask iband in
      Ok (dissolve (flat_map (fun ys => flat_map (fun xs =>
        shapes_delayed d (cut ys xs bd) (cut ys xs bm) neighbors (fst ys) (fst xs) (iband + 1))
        (chunks_to_array_locations xcs)) (chunks_to_array_locations ycs)))) (zrange 0 nbands) in
    Ok (concat bands).
End Polygons.
