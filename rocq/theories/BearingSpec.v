(* What the direction and the great circle distance should be.  Uses no definition of the model. *)
From Coq Require Import Reals.
Open Scope R_scope.

(* one degree *)
Definition deg (a : R) : R := a * PI / 180.

(* d is the direction of (x2, y2) from (x1, y1) on a compass: going r > 0 in that
   direction leads there; north is 360, and 0 means that there is nowhere to go *)
Definition is_direction (x1 y1 x2 y2 d : R) : Prop :=
  (x1 = x2 /\ y1 = y2 /\ d = 0) \/
  (0 < d <= 360 /\ exists r, 0 < r /\ x2 = x1 + r * sin (deg d) /\ y2 = y1 + r * cos (deg d)).

(* the point of the unit sphere at a longitude and a latitude *)
Definition point (lon lat : R) : R * R * R :=
  (cos (deg lat) * cos (deg lon), cos (deg lat) * sin (deg lon), sin (deg lat)).
Definition dot (u v : R * R * R) : R :=
  let '(a, b, c) := u in let '(x, y, z) := v in a * x + b * y + c * z.
(* the distance on a sphere of radius r: the angle at the centre times r *)
Definition is_great_circle (r : R) (p q : R * R * R) (d : R) : Prop :=
  exists a, 0 <= a <= PI /\ cos a = dot p q /\ d = r * a.

(* the direction in which the shortest way over the sphere starts, near a point at
   latitude lat: its part to the east and its part to the north *)
Definition east (lon lat : R) : R * R * R := (- sin (deg lon), cos (deg lon), 0).
Definition north (lon lat : R) : R * R * R :=
  (- (sin (deg lat) * cos (deg lon)), - (sin (deg lat) * sin (deg lon)), cos (deg lat)).
Definition starts (x1 y1 x2 y2 d : R) : Prop :=
  exists r, 0 < r /\ dot (east x1 y1) (point x2 y2) = r * sin (deg d)
                  /\ dot (north x1 y1) (point x2 y2) = r * cos (deg d).
