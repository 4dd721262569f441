(* What extracting the values under points has to give. *)
From Coq Require Import QArith String.
From Verif Require Import Base Scalars Grids FocalSpec BandsSpec Extract.
Open Scope Z_scope.

(* cell (r, c) of the grid has the corners t * (c, r) and t * (c + 1, r + 1) *)
Definition in_cell (t : affine Q) (x y : Q) (r c : Z) : Prop :=
  exists u v, (0 <= u < 1)%Q /\ (0 <= v < 1)%Q
    /\ (x == aa t * (inject_Z c + u) + ab t * (inject_Z r + v) + ac t)%Q
    /\ (y == ad t * (inject_Z c + u) + ae t * (inject_Z r + v) + af t)%Q.
(* the columns and rows of the grid are not parallel *)
Definition proper (t : affine Q) : Prop := ~ (aa t * ae t == ab t * ad t)%Q.
(* what is extracted in one band: the value of the cell of the point, NaN if it is null;
   NaN for points outside and empty points *)
Definition value_under (cast : dtype -> num -> num) (t : affine Q) (nr nc : Z) (data : list (list num)) (mask : list (list bool)) (g : geometry) (v : num) : Prop :=
  match g with
  | GPoint x y =>
      (forall r c, 0 <= r < nr -> 0 <= c < nc -> in_cell t x y r c ->
         (at2 mask r c true -> v = NaN) /\ (forall w, at2 mask r c false -> at2 data r c w -> v = cast F64 w))
      /\ ((forall r c, 0 <= r < nr -> 0 <= c < nc -> ~ in_cell t x y r c) -> v = NaN)
  | _ => v = NaN
  end.
Definition points_only (gs : list geometry) : Prop := ~ In GOther gs.
(* the points are in the coordinate system of the raster *)
Definition same_crs (raster_crs points_crs : option Z) : Prop := raster_crs = None \/ raster_crs = points_crs.
