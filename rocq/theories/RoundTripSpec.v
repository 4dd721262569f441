(* What must come back after the detour through vectors. *)
From Coq Require Import QArith Qreals Reals.
From Flocq Require Import Core BinarySingleNaN.
From Verif Require Import Base Scalars FocalSpec BandsSpec RasterSpec F64 Grids Extract Points.
Open Scope Z_scope.

(* out, a band with nx columns, has the values and nulls of band b *)
Definition same_band (data : list (list (list num))) (mask : list (list (list bool))) (b ny nx : Z) (out : Raster.raster) : Prop :=
  forall r c, 0 <= r < ny -> 0 <= c < nx ->
    (at3 mask b r c true -> null out 0 (r * nx + c) = true)
    /\ forall v, at3 mask b r c false -> at3 data b r c v -> null out 0 (r * nx + c) = false /\ num_eqb (value out 0 (r * nx + c)) v = true.
(* the valid cells of a band are numbers other than the null value *)
Definition apart (data : list (list (list num))) (mask : list (list (list bool))) (b : Z) (fill : num) : Prop :=
  forall r c v, at3 mask b r c false -> at3 data b r c v -> is_nan v = false /\ num_eqb v fill = false.
(* the same number *)
Definition exactly (q : Q) (f : f64) : Prop := Q2R q = B2R f.
Definition exact_grid (q : affine Q) (t : affine f64) : Prop :=
  exactly (aa q) (aa t) /\ exactly (ab q) (ab t) /\ exactly (ac q) (ac t) /\ exactly (ad q) (ad t) /\ exactly (ae q) (ae t) /\ exactly (af q) (af t).
(* the geometry of a row of the table *)
Definition geometry_of (p : point num) (g : geometry) : Prop := exists x y, g = GPoint x y /\ exactly x (p_x p) /\ exactly y (p_y p).
