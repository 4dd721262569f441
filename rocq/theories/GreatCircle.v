(* Model of the great circle distance and of the overlap computed from it, in the
   real numbers (float rounding is left out). *)
From Coq Require Import ZArith Reals List.
From Flocq Require Import Core.
Import ListNotations.
Open Scope R_scope.

Definition radians (d : R) : R := d * (PI / 180).

(* proximity.py:69-83 _haversine_dist_sqr, the distance itself (line 82) *)
Definition haversine (x1 y1 x2 y2 : R) : R :=
  let x1 := radians x1 in let y1 := radians y1 in
  let x2 := radians x2 in let y2 := radians y2 in
  let sinlat := sin ((y2 - y1) / 2) in
  let sinlon := sin ((x2 - x1) / 2) in
  let h := sinlat * sinlat + cos y1 * cos y2 * sinlon * sinlon in
  2 * 6371009 * asin (sqrt h).

(* proximity.py:526-531 _estimate_min_resolution, the width: lat is not empty, step
   is the distance of two columns in degrees *)
Definition lat_max (lat : list R) : R := fold_left Rmax (tl lat) (hd 0 lat).
Definition min_width (lon0 step : R) (lat : list R) : R :=
  haversine lon0 (lat_max lat) (lon0 + step) (lat_max lat).

(* proximity.py:587: the overlap in columns *)
Definition xdepth (lon0 step : R) (lat : list R) (max_distance : R) : Z :=
  Zceil (max_distance / Rabs (min_width lon0 step lat)).
