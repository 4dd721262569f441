(* Model of Raster.to_points (raster.py:2758-2805, 3039-3108): the cells of a
   raster that are not null as a table of points. *)
From Verif Require Import Base Arr2 Chunks F64 Grids GridsF64.
Open Scope Z_scope.

Record point (A : Type) := Point { p_index : Z; p_value : A; p_band : Z; p_row : Z; p_col : Z; p_x : f64; p_y : f64 }.
Arguments Point {A}. Arguments p_index {A}. Arguments p_value {A}. Arguments p_band {A}. Arguments p_row {A}. Arguments p_col {A}.
Arguments p_x {A}. Arguments p_y {A}.

Section Points.
Context {A : Type}.
(* what np.empty holds *)
Variable junk : A * Z * f64 * f64.
(* the x (y) coordinate of column (row) j of a block whose first column (row) is
   the first argument: GeoBox.coordinates of odc-geo *)
Variables xcoord ycoord : Z -> Z -> f64.
(* the parent raster *)
Variable t : affine f64.
Variables nb ny nx : Z.

(* raster.py:3039-3078 _extract up to the matrix product; the arrays values, bands
   and xy1 are one array of n entries, filled with the same k *)
Definition extract (data : arr3 A) (mask : arr3 bool) (shape : Z * Z * Z) (band : list Z) (x y : list f64) : res (list (A * Z * f64 * f64)) :=
  let cells := concat (concat mask) in
  let n := len cells - len (filter (fun b => b) cells) in
  if n =? 0 then Ok []
  else
    let '(sb, sy, sx) := shape in
    let* '(_, out) :=
      foldM (fun '(k, out) '(b, i, j) =>
        let* m := get3 mask b i j in
        if m : bool then Ok (k, out)
        else
          let* v := get3 data b i j in
          let* bb := get band b in
          let* yy := get y i in
          let* xx := get x j in
          let* out := set out k (v, bb, xx, yy) in
          Ok (k + 1, out)) (ndindex3 sb sy sx) (0, full n junk) in
    Ok out.
(* raster.py:3065-3078 the matrix product with the inverse transform and the floors, and
   3082-3107 _vectorize: np.ravel_multi_index rejects what is outside *)
Definition vectorize_point (p : A * Z * f64 * f64) : res (point A) :=
  let '(v, b, x, y) := p in
  let '(row, col) := findex x y t in
  if (0 <=? b) && (b <? nb) && (0 <=? row) && (row <? ny) && (0 <=? col) && (col <? nx)
  then Ok (Point ((b * ny + row) * nx + col) v (b + 1) row col x y)
  else Err ValueError.
Definition vectorize (data : arr3 A) (mask : arr3 bool) (bs rs cs : Z * Z) : res (list (point A)) :=
  let x := map (xcoord (fst cs)) (zrange 0 (snd cs - fst cs)) in
  let y := map (ycoord (fst rs)) (zrange 0 (snd rs - fst rs)) in
  let* cells := extract data mask (snd bs - fst bs, snd rs - fst rs, snd cs - fst cs) (zrange (fst bs) (snd bs)) x y in
  traverse vectorize_point cells.
(* raster.py:2776-2805 Raster.to_points: one partition per chunk, in the order of the chunks *)
Definition to_points (bcs ycs xcs : list Z) (data : arr3 A) (mask : arr3 bool) : res (list (list (point A))) :=
  traverse (fun '(bs, rs, cs) => vectorize (slice3 data bs rs cs) (slice3 mask bs rs cs) bs rs cs)
    (flat_map (fun bs => flat_map (fun rs => map (fun cs => (bs, rs, cs)) (chunks_to_array_locations xcs))
       (chunks_to_array_locations ycs)) (chunks_to_array_locations bcs)).
End Points.
