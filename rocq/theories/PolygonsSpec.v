(* What turning a raster into polygons has to give. *)
From Coq Require Import QArith.
From Verif Require Import Base Scalars FocalSpec BandsSpec FocalResults RasterSpec ReconcileSpec Polygons.
Open Scope Z_scope.

(* The polygons of a chunk cover its valid cells, with their values.  (Nothing is said of
   NaN, and nothing of which cells share a polygon.) *)
Definition covers (shapes : list (list num) -> list (list bool) -> Z -> list (list (Z * Z) * num)) : Prop :=
  forall ny nx chunk valid neighbors, shaped2 ny nx chunk -> shaped2 ny nx valid -> neighbors = 4 \/ neighbors = 8 ->
  (forall cells v, In (cells, v) (shapes chunk valid neighbors) -> cells <> []
     /\ forall r c, In (r, c) cells -> at2 valid r c true /\ exists w, at2 chunk r c w /\ same_value w v = true)
  /\ (forall r c, at2 valid r c true -> exists cells v, In (cells, v) (shapes chunk valid neighbors) /\ In (r, c) cells).
(* equal values are converted to equal values *)
Definition respects (cast : dtype -> num -> num) : Prop := forall d v w, same_value v w = true -> same_value (cast d v) (cast d w) = true.
(* what becomes of a value: it goes through the dtype used for the polygons *)
Definition through_dtype (d : dtype) : option dtype :=
  match d with
  | BOOL => Some U8
  | I8 => Some I16
  | U32 | I64 | U64 => Some I32
  | F16 | F64 => Some F32
  | U8 | U16 | I16 | I32 | F32 => None
  end.
Definition converted (cast : dtype -> num -> num) (d : dtype) (v : num) : num :=
  match through_dtype d with Some w => cast d (cast w v) | None => v end.
(* cell (r, c) of the band is valid and has the value v (after conversion) *)
Definition has_value (cast : dtype -> num -> num) (d : dtype) (data : list (list (list num))) (mask : list (list (list bool))) (b r c : Z) (v : num) : Prop :=
  at3 mask b r c false /\ exists w, at3 data b r c w /\ num_eqb (converted cast d w) v = true.
(* One polygon for each value of each band, and it covers the cells with this value. *)
Definition polygons_of (cast : dtype -> num -> num) (d : dtype) (data : list (list (list num))) (mask : list (list (list bool))) (ps : list polygon) : Prop :=
  (forall p, In p ps -> pg_cells p <> [] /\ forall r c, In (r, c) (pg_cells p) <-> has_value cast d data mask (pg_band p - 1) r c (pg_value p))
  /\ (forall b r c v, has_value cast d data mask b r c v -> exists p, In p ps /\ pg_band p = b + 1 /\ In (r, c) (pg_cells p))
  /\ (forall i j p q, get ps i = Ok p -> get ps j = Ok q -> pg_band p = pg_band q -> num_eqb (pg_value p) (pg_value q) = true -> i = j).
(* the same polygon: band, value and cells *)
Definition same_polygon (p q : polygon) : Prop :=
  pg_band p = pg_band q /\ num_eqb (pg_value p) (pg_value q) = true /\ forall cell, In cell (pg_cells p) <-> In cell (pg_cells q).
(* values of the dtype are converted to themselves *)
Definition keeps (cast : dtype -> num -> num) : Prop := forall d v, value_of d v -> same_value (cast d v) v = true.
(* the valid cells have values of their dtype, and of the one used for the polygons *)
Definition representable (d : dtype) (data : list (list (list num))) (mask : list (list (list bool))) : Prop :=
  forall b r c v, at3 mask b r c false -> at3 data b r c v -> value_of d v /\ match through_dtype d with Some w => value_of w v | None => True end.
