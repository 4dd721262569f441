(* Pieces of a raster put together again: Raster.to_quadrants and get_chunk_rasters
   (Chunks.v), then mosaic (MosaicWhole.v, Combine.v).

   mosaic brings every raster to the common grid with Raster.reproject
   (_mosaic.py:303-309).  Here the cells of the piece are cells of that grid, so that a
   cell gets the value of the cell of the piece with the same centre (nearest), and
   the null value where the piece has none (C83). *)
From Coq Require Import QArith.
From Verif Require Import Base Scalars Arr2 Raster Grids Chunks.
Open Scope Z_scope.

(* the position of a coordinate *)
Fixpoint find_coord (l : list Q) (x : Q) : option Z :=
  match l with
  | [] => None
  | y :: l => if Qeq_bool y x then Some 0 else option_map (Z.add 1) (find_coord l x)
  end.
(* the piece's entry at the cell with number c of the grid, row by row *)
Definition entry {T} (p : Chunks.raster num Q) (ys xs : list Q) (a : arr3 T) (other : T) (b c : Z) : T :=
  match get ys (c / len xs), get xs (c mod len xs) with
  | Ok y, Ok x =>
      match find_coord (r_y p) y, find_coord (r_x p) x with
      | Some i, Some j => match get3 a b i j with Ok v => v | Err _ => other end
      | _, _ => other
      end
  | _, _ => other
  end.
(* a piece of dtype d with the null value nv on the grid with the coordinates ys, xs *)
Definition place (d : dtype) (nv : num) (ys xs : list Q) (p : Chunks.raster num Q) : Raster.raster :=
  let nc := len ys * len xs in
  Raster.Raster d (Some nv)
    (map (fun b => map (entry p ys xs (r_data p) nv b) (zrange 0 nc)) (zrange 0 (len (r_data p))))
    (map (fun b => map (entry p ys xs (r_mask p) true b) (zrange 0 nc)) (zrange 0 (len (r_mask p)))).

(* the grid of rows y0 .. y1 - 1 and columns x0 .. x1 - 1 *)
Definition subgrid (g : grid) (y0 y1 x0 x1 : Z) : grid :=
  let t := g_affine g in
  Grid (g_crs g) (y1 - y0) (x1 - x0)
    (Affine (aa t) (ab t) (aa t * inject_Z x0 + ab t * inject_Z y0 + ac t)
            (ad t) (ae t) (ad t * inject_Z x0 + ae t * inject_Z y0 + af t))%Q.
