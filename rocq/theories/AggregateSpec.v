(* What aggregation has to compute. *)
From Coq Require Import QArith.
From Verif Require Import Base Scalars FocalSpec.
Open Scope Z_scope.

(* the raster cells under cell (j, k) of the result, in row-major order *)
Definition cells_under (fy fx j k : Z) : list (Z * Z) :=
  map (fun '(a, b) => (j * fy + a, k * fx + b)) (cells fy fx).
(* the values there, NaN for null *)
Definition window_values (data : list (list num)) (null : Z -> Z -> bool) (fy fx j k : Z) : list num :=
  map (fun '(y, x) => if null y x then NaN else val2 NaN data y x) (cells_under fy fx j k).
Definition all_null (null : Z -> Z -> bool) (fy fx j k : Z) : bool :=
  forallb (fun '(y, x) => null y x) (cells_under fy fx j k).
Definition null_of (mask : option (list (list bool))) (y x : Z) : bool :=
  match mask with Some m => val2 true m y x | None => false end.
