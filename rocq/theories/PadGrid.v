(* Model of padding a raster to bounds: _padding.py:35-203 with rioxarray's pad_box and
   pad_xy, which find the numbers of new rows and columns.  What the new cells hold is in
   Pad.v (C30).
   Simplified: coordinates and bounds are exact (rational numbers, infinities, NaN);
   the resolution is that of the grid (rioxarray computes it from the coordinates, or from
   the stored transform when there is one row or column); CRSs are numbers. *)
From Coq Require Import QArith Qabs Qround Qminmax String.
From Verif Require Import Base Scalars Arr2 Raster Blocks Pad.
Open Scope Z_scope.

(* a raster on its grid *)
Record praster := PRaster { p_dtype : dtype; p_nv : option num; p_bands : list (arr2 num * arr2 bool); p_box : geobox; p_crs : option Z }.
Inductive item := Number (v : num) | NotNumber.
Inductive target := TBox (g : geobox) (crs : option Z) | TRaster (r : praster) | TPath (s : string) | TSequence (l : list item) | TOther.
Record bounds := Bounds { minx : num; miny : num; maxx : num; maxy : num }.

(* GeoBox.boundingbox: around the four corners *)
Definition corners (g : geobox) : list (Q * Q) :=
  let p j i := apply (gb_affine g) (inject_Z j) (inject_Z i) in
  [p 0 0; p (gb_nx g) 0; p 0 (gb_ny g); p (gb_nx g) (gb_ny g)].
Definition qmins (l : list Q) : Q := match l with [] => 0%Q | x :: l => fold_left Qmin l x end.
Definition qmaxs (l : list Q) : Q := match l with [] => 0%Q | x :: l => fold_left Qmax l x end.
Definition boundingbox (g : geobox) : bounds :=
  let xs := map fst (corners g) in let ys := map snd (corners g) in
  Bounds (Fin (qmins xs)) (Fin (qmins ys)) (Fin (qmaxs xs)) (Fin (qmaxs ys)).
(* raster.py:1444-1449 Raster.bounds: the upper left corner of the first and the lower
   right corner of the last cell *)
Definition bounds_of (g : geobox) : bounds :=
  let '(x0, y1) := apply (gb_affine g) (inject_Z 0) (inject_Z 0) in
  let '(x1, y0) := apply (gb_affine g) (inject_Z (gb_nx g - 1) + 1) (inject_Z (gb_ny g - 1) + 1) in
  Bounds (Fin x0) (Fin y0) (Fin x1) (Fin y1).
(* both CRSs known and different *)
Definition crs_differ (a b : option Z) : bool :=
  match a, b with Some a, Some b => negb (a =? b) | _, _ => false end.
Definition is_number (i : item) : bool := match i with Number _ => true | NotNumber => false end.
Definition to_num (i : item) : num := match i with Number v => v | NotNumber => NaN end.
(* _padding.py:35-77 _resolve_bounds.  open_raster: get_raster of a path *)
Definition resolve_bounds (open_raster : string -> res praster) (r : praster) (t : target) : res bounds :=
  let of_raster (other : praster) := if crs_differ (p_crs r) (p_crs other) then Err ValueError else Ok (bounds_of (p_box other)) in
  match t with
  | TBox g crs => if crs_differ (p_crs r) crs then Err ValueError else Ok (boundingbox g)
  | TRaster other => of_raster other
  | TPath s => let* other := open_raster s in of_raster other
  | TSequence l =>
      if negb (len l =? 4) || negb (forallb is_number l) then Err ValueError
      else let n k := nth k (map to_num l) NaN in Ok (Bounds (n 0%nat) (n 1%nat) (n 2%nat) (n 3%nat))
  | TOther => Err TypeError
  end.

(* np.arange(start, stop, step) with finite start and step: its length.  A stop of
   infinity raises ValueError ("Maximum allowed size exceeded"); NaN does not occur *)
Definition arange (start : Q) (stop : num) (step : Q) : res Z :=
  match stop with Fin s => Ok (Z.max 0 (Qceiling ((s - start) / step))) | _ => Err ValueError end.
Definition shift_num (v : num) (q : Q) : num := match v with Fin p => Fin (p + q) | v => v end.
Record padding := Padding { before_y : Z; after_y : Z; before_x : Z; after_x : Z; new_box : geobox }.
(* rioxarray raster_array.py pad_xy: the coordinates are extended upwards, then downwards,
   to the left, to the right *)
Definition pad_xy (g : geobox) (b : bounds) : res padding :=
  let rx := af_a (gb_affine g) in let ry := af_e (gb_affine g) in
  let '(lft, top) := gb_coord g 0 0 in
  let '(rgt, bottom) := gb_coord g (gb_ny g - 1) (gb_nx g - 1) in
  let* '(y_before, ny, top) :=
    if num_ltb (Fin (top - ry)) (maxy b) then
      let* n := arange bottom (maxy b) (- ry) in Ok (n - gb_ny g, n, (bottom + (inject_Z n - 1) * - ry)%Q)
    else Ok (0, gb_ny g, top) in
  let* '(y_after, ny) :=
    if num_ltb (miny b) (Fin (bottom + ry)) then let* n := arange top (miny b) ry in Ok (n - ny, n) else Ok (0, ny) in
  let* '(x_before, nx, lft) :=
    if num_ltb (minx b) (Fin (lft - rx)) then
      let* n := arange rgt (minx b) (- rx) in Ok (n - gb_nx g, n, (rgt + (inject_Z n - 1) * - rx)%Q)
    else Ok (0, gb_nx g, lft) in
  let* '(x_after, nx) :=
    if num_ltb (Fin (rgt + rx)) (maxx b) then let* n := arange lft (maxx b) rx in Ok (n - nx, n) else Ok (0, nx) in
  Ok (Padding y_before y_after x_before x_after (GeoBox ny nx (Affine rx 0 (lft - rx * (1 # 2)) 0 ry (top - ry * (1 # 2))))).
(* rioxarray pad_box: half a cell more on each side *)
Definition pad_box_xy (g : geobox) (b : bounds) : res padding :=
  let hx := (Qabs (af_a (gb_affine g)) * (1 # 2))%Q in let hy := (Qabs (af_e (gb_affine g)) * (1 # 2))%Q in
  pad_xy g (Bounds (shift_num (minx b) (- hx)) (shift_num (miny b) (- hy)) (shift_num (maxx b) hx) (shift_num (maxy b) hy)).

(* _padding.py:115-203 pad *)
Definition pad_to (cast : dtype -> num -> num) (open_raster : string -> res praster) (r : praster) (t : target) (f : fill) : res praster :=
  let* b := resolve_bounds open_raster r t in
  let* _ := validate_fill_values (len (p_bands r)) (p_nv r) (p_dtype r) f in
  let* p := pad_box_xy (p_box r) b in
  let* '(bands, nv) := pad (cast (p_dtype r)) (p_dtype r) (p_nv r) (gb_nx (p_box r)) (p_bands r) (before_y p) (after_y p) (before_x p) (after_x p) f in
  Ok (PRaster (p_dtype r) nv bands (new_box p) (p_crs r)).
