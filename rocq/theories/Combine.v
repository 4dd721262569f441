(* Model of _grids.py:71-140 (combining grids), on top of Grids.v.

   Reprojecting a grid (warp.reproject of a dummy raster) is a parameter.  Boxes are
   the bounds of the grids' extents, and reprojected grids are axis-aligned.
   GeoBox.from_bbox with tight=True is odc-geo's: the first column starts at the
   left, the first row at the top, and the number of cells is rounded up unless it is
   within 1/100 of a whole number.  Coordinates are exact. *)
From Coq Require Import QArith Qabs Qround String.
From Verif Require Import Base Grids.
Open Scope Z_scope.

Record bounds := Bounds { x0 : Q; y0 : Q; x1 : Q; y1 : Q }.
Definition qmin (a b : Q) : Q := if Qle_bool a b then a else b.
Definition qmax (a b : Q) : Q := if Qle_bool a b then b else a.

(* _grids.py:76-81 get_grid_bbox, get_grid_bounds: of the four corners *)
Definition grid_bounds (g : grid) : bounds :=
  let t := g_affine g in
  let nx := inject_Z (g_nx g) in
  let ny := inject_Z (g_ny g) in
  let xs := (ac t, aa t * nx + ac t, ab t * ny + ac t, aa t * nx + ab t * ny + ac t)%Q in
  let ys := (af t, ad t * nx + af t, ae t * ny + af t, ad t * nx + ae t * ny + af t)%Q in
  let least q := let '(a, b, c, d) := q in qmin (qmin a b) (qmin c d) in
  let most q := let '(a, b, c, d) := q in qmax (qmax a b) (qmax c d) in
  Bounds (least xs) (least ys) (most xs) (most ys).

(* GeoSeries.total_bounds *)
Definition join_bounds (a b : bounds) : bounds := Bounds (qmin (x0 a) (x0 b)) (qmin (y0 a) (y0 b)) (qmax (x1 a) (x1 b)) (qmax (y1 a) (y1 b)).
(* the bounds of shapely's intersection of two boxes; None if it is empty.  Boxes
   that touch share a line or a point, which is not empty *)
Definition meet_bounds (a b : bounds) : option bounds :=
  let m := Bounds (qmax (x0 a) (x0 b)) (qmax (y0 a) (y0 b)) (qmin (x1 a) (x1 b)) (qmin (y1 a) (y1 b)) in
  if Qle_bool (x0 m) (x1 m) && Qle_bool (y0 m) (y1 m) then Some m else None.
Fixpoint meet_all (a : bounds) (l : list bounds) : option bounds :=
  match l with
  | [] => Some a
  | b :: l => match meet_bounds a b with Some m => meet_all m l | None => None end
  end.

(* odc.geo.math.maybe_int with tol = 0.01 *)
Definition maybe_int (x : Q) : Q :=
  let n := inject_Z (Qfloor (x + (1 # 2))) in
  if Qle_bool (1 # 100) (Qabs (x - n)) then x else n.
(* odc.geo.math.snap_grid without snapping: the number of cells *)
Definition cells_over (lo hi r : Q) : Z := Z.max 1 (Qceiling (maybe_int ((hi - lo) / r))).
(* GeoBox.from_bbox(bounds, crs, resolution=r, tight=True) *)
Definition from_bounds (b : bounds) (crs : Z) (r : Q) : grid :=
  Grid crs (cells_over (y0 b) (y1 b) r) (cells_over (x0 b) (x1 b) r) (Affine r 0 (x0 b) 0 (- r) (y1 b))%Q.

Section Combine.
(* Raster.reproject(crs, resolution=resolution).geobox *)
Variable reproject_to : grid -> Z -> option Q -> res grid.

(* _grids.py:71-73 reproject_grid; warp.py:98-100 refuses resolutions that are not
   positive *)
Definition reproject_grid (g : grid) (crs : Z) (resolution : option Q) : res grid :=
  match resolution with
  | Some r => if Qle_bool r 0 then Err ValueError else reproject_to g crs (Some r)
  | None => reproject_to g crs None
  end.
Fixpoint reproject_all (gs : list grid) (crs : Z) (r : Q) : res (list grid) :=
  match gs with
  | [] => Ok []
  | g :: gs => let* h := reproject_grid g crs (Some r) in let* hs := reproject_all gs crs r in Ok (h :: hs)
  end.

(* _grids.py:84-140 combine_grids *)
Definition combine_grids (grids : list grid) (how : option string) (dst_crs : option Z) (resolution : option Q) : res grid :=
  if match how with Some h => negb (String.eqb h "intersection" || String.eqb h "union") | None => false end then Err ValueError
  else
    let union := match how with Some h => String.eqb h "union" | None => true end in
    match grids with
    | [] => Err IndexError
    | first :: _ =>
        if are_all_grids_same grids then
          match dst_crs, resolution with
          | None, None => Ok first
          | _, _ => reproject_grid first (match dst_crs with Some c => c | None => g_crs first end) resolution
          end
        else
          let crs := match dst_crs with Some c => c | None => g_crs first end in
          let r := match resolution with Some r => r | None => Qabs (aa (g_affine first)) end in
          let* dst := reproject_all grids crs r in
          match map grid_bounds dst with
          | [] => Err IndexError
          | b :: bs =>
              if union then Ok (from_bounds (fold_left join_bounds bs b) crs r)
              else match meet_all b bs with
                   | Some m => Ok (from_bounds m crs r)
                   | None => Err ValueError
                   end
          end
    end.
End Combine.
