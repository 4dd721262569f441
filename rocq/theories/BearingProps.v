(* C93: directions and great circle distances, in the real numbers. *)
From Coq Require Import ZArith Reals Lra.
From Verif Require Import GreatCircle Bearing BearingSpec BearingProofs.
Open Scope R_scope.

(* The value of _direction is the direction of the target on a compass, and no other value is. *)
Theorem C93_direction x1 y1 x2 y2 d : is_direction x1 y1 x2 y2 d <-> compass x1 y1 x2 y2 = d.
Proof. exact (conj (from_spec x1 y1 x2 y2 d) (fun E => eq_ind _ (is_direction x1 y1 x2 y2) (compass_direction x1 y1 x2 y2) d E)). Qed.
Print Assumptions C93_direction.

(* 0 is kept for targets; north is 360, east 90, south 180, west 270. *)
Theorem C93_points x1 y1 x2 y2 :
  (compass x1 y1 x2 y2 = 0 <-> x1 = x2 /\ y1 = y2)
  /\ (compass x1 y1 x2 y2 = 360 <-> x2 = x1 /\ y1 < y2)
  /\ (compass x1 y1 x2 y2 = 90 <-> x1 < x2 /\ y2 = y1)
  /\ (compass x1 y1 x2 y2 = 180 <-> x2 = x1 /\ y2 < y1)
  /\ (compass x1 y1 x2 y2 = 270 <-> x2 < x1 /\ y2 = y1).
Proof. exact (conj (compass_here x1 y1 x2 y2) (compass_points x1 y1 x2 y2)). Qed.
Print Assumptions C93_points.

(* The way back is the opposite direction. *)
Theorem C93_back x1 y1 x2 y2 : x1 <> x2 \/ y1 <> y2 ->
  compass x2 y2 x1 y1 = compass x1 y1 x2 y2 + 180 \/ compass x2 y2 x1 y1 = compass x1 y1 x2 y2 - 180.
Proof. exact (compass_back x1 y1 x2 y2). Qed.
Print Assumptions C93_back.

(* A target to the north east. *)
Example north_east : compass 10 20 13 23 = 45.
Proof.
  apply from_spec. right. split; [lra|]. exists (3 * sqrt 2). pose proof (sqrt_lt_R0 2 ltac:(lra)) as P.
  replace (deg 45) with (PI / 4) by (unfold deg; field). rewrite sin_PI4, cos_PI4.
  split; [lra|]. split; field; lra.
Qed.

(* _haversine_dist_sqr is (the square of) the angle between the points seen from
   the centre of the earth times its radius, for all coordinates. *)
Theorem C93_great_circle x1 y1 x2 y2 d :
  is_great_circle 6371009 (point x1 y1) (point x2 y2) d <-> haversine x1 y1 x2 y2 = d.
Proof.
  exact (conj (fun H => great_circle_unique _ _ _ _ _ (haversine_angle x1 y1 x2 y2) H)
              (fun E => eq_ind _ (is_great_circle 6371009 (point x1 y1) (point x2 y2)) (haversine_angle x1 y1 x2 y2) d E)).
Qed.
Print Assumptions C93_great_circle.

(* It is a metric on the sphere, at most half a turn, and does not depend on whole turns of the longitude. *)
Theorem C93_metric x1 y1 x2 y2 x3 y3 k :
  0 <= haversine x1 y1 x2 y2 <= 6371009 * PI
  /\ (haversine x1 y1 x2 y2 = 0 <-> point x1 y1 = point x2 y2)
  /\ haversine x1 y1 x2 y2 = haversine x2 y2 x1 y1
  /\ haversine x1 y1 x3 y3 <= haversine x1 y1 x2 y2 + haversine x2 y2 x3 y3
  /\ haversine x1 y1 (x2 + 360 * IZR k) y2 = haversine x1 y1 x2 y2.
Proof.
  exact (conj (great_circle_range 6371009 _ _ _ ltac:(lra) (haversine_angle x1 y1 x2 y2))
        (conj (haversine_zero x1 y1 x2 y2) (conj (haversine_sym x1 y1 x2 y2)
        (conj (haversine_triangle x1 y1 x2 y2 x3 y3) (haversine_turn x1 y1 x2 y2 k))))).
Qed.
Print Assumptions C93_metric.

(* Sixty degrees apart on the sphere. *)
Example sixty : haversine 0 45 90 45 = 6371009 * (PI / 3).
Proof. exact (proj2 (proj2 parallel)). Qed.

(* With the great circle distance the direction is that in which the shortest
   way starts along meridians and along the equator (up to half way round). *)
Theorem C93_meridian_partial x y1 y2 : -90 <= y1 <= 90 -> -90 <= y2 <= 90 -> y1 <> y2 -> Rabs (y1 - y2) < 180 ->
  starts x y1 x y2 (compass x y1 x y2).
Proof. exact (meridian x y1 y2). Qed.
Print Assumptions C93_meridian_partial.
Theorem C93_equator_partial x1 x2 : x1 <> x2 -> Rabs (x1 - x2) < 180 -> starts x1 0 x2 0 (compass x1 0 x2 0).
Proof. exact (equator x1 x2). Qed.
Print Assumptions C93_equator_partial.
Example along_equator : starts 10 0 40 0 90 /\ starts 10 40 10 5 180.
Proof.
  destruct (compass_points 10 0 40 0) as (_ & E & _). destruct (compass_points 10 40 10 5) as (_ & _ & S & _).
  rewrite <- (proj2 E) at 1 by (split; lra). rewrite <- (proj2 S) at 1 by (split; lra). split.
  - apply equator; [lra|]. rewrite Rabs_left; lra.
  - apply meridian; [lra..|]. rewrite Rabs_pos_eq; lra.
Qed.

(* Elsewhere it is not, even between points less than a quarter of a turn apart: from
   (0, 45) to (90, 45) it gives east, and the shortest way starts north of east. *)
Theorem C93_sphere_refuted :
  ~ (forall x1 y1 x2 y2,
       -180 <= x1 <= 180 -> -90 <= y1 <= 90 -> -180 <= x2 <= 180 -> -90 <= y2 <= 90 -> Rabs (x1 - x2) <= 90 ->
       0 < haversine x1 y1 x2 y2 < 6371009 * PI ->
       starts x1 y1 x2 y2 (compass x1 y1 x2 y2)).
Proof. exact over_half_refuted. Qed.
Print Assumptions C93_sphere_refuted.

(* Across the antimeridian it is the opposite: the target 2 degrees to the east, at
   the distance of 2 degrees, gets west. *)
Theorem C93_antimeridian_refuted :
  ~ (forall x1 y1 x2 y2,
       -180 <= x1 <= 180 -> -90 <= y1 <= 90 -> -180 <= x2 <= 180 -> -90 <= y2 <= 90 -> point x1 y1 <> point x2 y2 ->
       0 < haversine x1 y1 x2 y2 < 6371009 * PI ->
       starts x1 y1 x2 y2 (compass x1 y1 x2 y2))
  /\ compass 179 0 (-179) 0 = 270 /\ starts 179 0 (-179) 0 90
  /\ haversine 179 0 (-179) 0 = haversine 179 0 181 0 /\ compass 179 0 181 0 = 90.
Proof. exact (conj over_sphere_refuted antimeridian). Qed.
Print Assumptions C93_antimeridian_refuted.
