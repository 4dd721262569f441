(* A raster turned into vectors and back: Raster.to_polygons (Polygons.v) and then
   rasterize (RasterizeRaster.v), Raster.to_points (Points.v) and then extract_points
   (Extract.v).

   The lattice of RasterizeRaster.v is the raster itself.  A polygon touches exactly the
   cells it is made of: GDAL without all_touched, which takes the cells whose centre is
   inside (the default, all_touched=True, also takes cells that only share an edge). *)
From Coq Require Import QArith String.
From Verif Require Import Base Scalars Polygons RasterizeRaster.
Open Scope Z_scope.

Definition crs_eqb (a b : option Z) : bool := match a, b with Some x, Some y => x =? y | None, None => true | _, _ => false end.
Definition same_cell (a b : Z * Z) : bool := (fst a =? fst b) && (snd a =? snd b).
(* row number i of the table: columns value and band (raster.py:2686-2693) *)
Definition polygon_feature (crs : option Z) (i : Z) (p : polygon) : gfeature :=
  GFeature i (fun name => if String.eqb name "value" then pg_value p else of_Z (pg_band p))
    (fun c row col => crs_eqb c crs && existsb (same_cell (row, col)) (pg_cells p)).
(* raster.py:2717-2721: numbered from 0, one partition; then t[t.band == band] *)
Definition polygon_table (d : dtype) (crs : option Z) (ps : list polygon) (band : Z) : table :=
  Table [map (fun '(i, p) => polygon_feature crs i p) (filter (fun '(_, p) => pg_band p =? band) (combine (zrange 0 (len ps)) ps))]
    None crs [("value"%string, Some d); ("band"%string, Some I64)].
(* band iband of a raster of dtype d as polygons, and these rasterised onto like *)
Definition through_polygons cast shapes fd sb (d : dtype) (crs : option Z) (nb : Z) (ycs xcs : list Z) data mask (neighbors iband : Z) (like : grid) m invert nva aware :=
  let* ps := to_polygons cast shapes d nb ycs xcs data mask neighbors in
  let* '(out, _) := rasterize cast fd sb (polygon_table d crs ps (iband + 1)) like (FieldName "value"%string) (Some m) false invert nva aware in
  Ok out.
