(* Model of the direction of a target from a cell, in the real numbers (float
   rounding is left out; the great circle distance is in GreatCircle.v). *)
From Coq Require Import ZArith Reals.
From Verif Require Import SurfaceSpec.
Open Scope R_scope.

(* the operator % of floats with a positive right operand *)
Definition modulo (x m : R) : R := x - m * IZR (Int_part (x / m)).

(* proximity.py:111-140 _direction: (x1, y1) is the cell, (x2, y2) the target.
   57.29577951308232 (line 134) stands for 180 / PI; np.arctan2 is SurfaceSpec.angle. *)
Definition compass (x1 y1 x2 y2 : R) : R :=
  if Req_EM_T x1 x2 then
    if Req_EM_T y1 y2 then 0 else
    let th := modulo (angle (- (y2 - y1)) (x2 - x1) * (180 / PI) + 90 + 360) 360 in
    if Req_EM_T th 0 then 360 else th
  else
    let th := modulo (angle (- (y2 - y1)) (x2 - x1) * (180 / PI) + 90 + 360) 360 in
    if Req_EM_T th 0 then 360 else th.
