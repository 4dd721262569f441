(* Model of Raster.get_chunk_bounding_boxes (raster.py:2851-2929) with rioxarray's bounds.
   Simplified: exact coordinates; a box is its four edges; the table is a list of rows. *)
From Coq Require Import QArith Qminmax.
From Verif Require Import Base Blocks.
Open Scope Z_scope.

Record bbox := BBox { b_west : Q; b_south : Q; b_east : Q; b_north : Q }.
(* the coordinates of a grid: Raster.x, Raster.y *)
Definition xs_of (g : geobox) : list Q := map (fun j => fst (gb_coord g 0 j)) (zrange 0 (gb_nx g)).
Definition ys_of (g : geobox) : list Q := map (fun i => snd (gb_coord g i 0)) (zrange 0 (gb_ny g)).
(* rio.bounds() of an array with these coordinates and no stored transform: the resolution
   comes from the first and last coordinate; one row or column raises OneDimensionalRaster,
   here ValueError, which Base has; numpy's IndexError for none *)
Definition ends (l : list Q) : res (Q * Q) :=
  let* a := get l 0 in let* b := get l (len l - 1) in Ok (a, b).
Definition rio_bounds (x y : list Q) : res bbox :=
  if (len x =? 1) || (len y =? 1) then Err ValueError
  else
    let* '(left_, right_) := ends x in
    let* '(top, bottom) := ends y in
    let rx := ((right_ - left_) / inject_Z (len x - 1))%Q in
    let ry := ((bottom - top) / inject_Z (len y - 1))%Q in
    let x0 := (left_ - rx / 2)%Q in let x1 := (right_ + rx / 2)%Q in
    let y0 := (top - ry / 2)%Q in let y1 := (bottom + ry / 2)%Q in
    Ok (BBox (Qmin x0 x1) (Qmin y0 y1) (Qmax x0 x1) (Qmax y0 y1)).

(* 2891-2907: the loops; j starts at 0 in every row *)
Fixpoint box_row (x y : list Q) (row col j : Z) (xchunks : list Z) : res (list (Z * Z * bbox)) :=
  match xchunks with
  | [] => Ok []
  | xc :: xchunks =>
      let* b := rio_bounds (slice x j (j + xc)) y in
      let* rest := box_row x y row (col + 1) (j + xc) xchunks in
      Ok ((row, col, b) :: rest)
  end.
Fixpoint box_rows (x y : list Q) (row i : Z) (ychunks xchunks : list Z) : res (list (Z * Z * bbox)) :=
  match ychunks with
  | [] => Ok []
  | yc :: ychunks =>
      let* here := box_row x (slice y i (i + yc)) row 0 0 xchunks in
      let* rest := box_rows x y (row + 1) (i + yc) ychunks xchunks in
      Ok (here ++ rest)
  end.
Definition chunk_boxes (g : geobox) (ychunks xchunks : list Z) : res (list (Z * Z * bbox)) :=
  box_rows (xs_of g) (ys_of g) 0 0 ychunks xchunks.
(* 2914-2928 include_band=True: the list repeated nbands times, band i beside its i-th
   repetition *)
Definition chunk_boxes_bands (nbands : Z) (g : geobox) (ychunks xchunks : list Z) : res (list (Z * (Z * Z * bbox))) :=
  let* t := chunk_boxes g ychunks xchunks in
  let bands := flat_map (fun i => full (len ychunks * len xchunks) i) (zrange 0 nbands) in
  Ok (combine bands (concat (full nbands t))).
