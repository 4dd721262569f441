(* C102: aggregate with max or min may be done in steps *)
From Coq Require Import QArith Lia List.
From Verif Require Import Base BaseFacts Scalars NumFacts Arr2 Stats StatsSpec Chunks Focal FocalSpec FocalResults Zonal ZonalSpec ZonalProofs ZonalStats Aggregate AggregateSpec AggregateProofs TwoStepsSpec TwoStepsProofs.
Import ListNotations.
Open Scope Z_scope.

(* Aggregating by (ay, ax) and the result by (by, bx) gives the cells of aggregating by
   (ay * by, ax * bx), null cells included, for every raster, with or without a mask and
   incomplete windows at the edges, and whatever the chunks.  promote is the conversion to floats
   in the first step, promote' that of the second step. *)
Theorem C102_max : forall promote promote' nv nv' nv'' ny nx ay ax by' bx ycs xcs ycs' xcs' ycs'' xcs'' data mask,
  1 <= ay -> 1 <= ax -> ~ (ay = 1 /\ ax = 1) -> 1 <= by' -> 1 <= bx -> ~ (by' = 1 /\ bx = 1) -> 0 <= ny -> 0 <= nx ->
  cuts (ny / ay) ycs -> cuts (nx / ax) xcs -> xcs <> [] ->
  cuts (ny / ay / by') ycs' -> cuts (nx / ax / bx) xcs' -> xcs' <> [] ->
  cuts (ny / (ay * by')) ycs'' -> cuts (nx / (ax * bx)) xcs'' -> xcs'' <> [] ->
  shaped2 ny nx data -> match mask with Some m => shaped2 ny nx m | None => True end ->
  (forall y x, 0 <= y < ny -> 0 <= x < nx -> mask <> None -> null_of mask y x = false -> promote (val2 NaN data y x) = val2 NaN data y x /\ promote' (val2 NaN data y x) = val2 NaN data y x) ->
  promote' NaN = NaN ->
  exists o1 m1 o2 m2 o m,
    aggregate promote nv (Builtin (extreme fmax)) ny nx ay ax ycs xcs data mask = Ok (o1, m1)
    /\ aggregate promote' nv' (Builtin (extreme fmax)) (ny / ay) (nx / ax) by' bx ycs' xcs' o1 m1 = Ok (o2, m2)
    /\ aggregate promote nv'' (Builtin (extreme fmax)) ny nx (ay * by') (ax * bx) ycs'' xcs'' data mask = Ok (o, m)
    /\ ny / ay / by' = ny / (ay * by') /\ nx / ax / bx = nx / (ax * bx)
    /\ shaped2 (ny / (ay * by')) (nx / (ax * bx)) o2 /\ shaped2 (ny / (ay * by')) (nx / (ax * bx)) o
    /\ (m2 = None <-> m = None)
    /\ forall j k, 0 <= j < ny / (ay * by') -> 0 <= k < nx / (ax * bx) ->
       null_of m2 j k = null_of m j k /\ (null_of m j k = false -> same_num (val2 NaN o2 j k) (val2 NaN o j k)).
Proof. exact two_steps_max. Qed.
Print Assumptions C102_max.
Theorem C102_min : forall promote promote' nv nv' nv'' ny nx ay ax by' bx ycs xcs ycs' xcs' ycs'' xcs'' data mask,
  1 <= ay -> 1 <= ax -> ~ (ay = 1 /\ ax = 1) -> 1 <= by' -> 1 <= bx -> ~ (by' = 1 /\ bx = 1) -> 0 <= ny -> 0 <= nx ->
  cuts (ny / ay) ycs -> cuts (nx / ax) xcs -> xcs <> [] ->
  cuts (ny / ay / by') ycs' -> cuts (nx / ax / bx) xcs' -> xcs' <> [] ->
  cuts (ny / (ay * by')) ycs'' -> cuts (nx / (ax * bx)) xcs'' -> xcs'' <> [] ->
  shaped2 ny nx data -> match mask with Some m => shaped2 ny nx m | None => True end ->
  (forall y x, 0 <= y < ny -> 0 <= x < nx -> mask <> None -> null_of mask y x = false -> promote (val2 NaN data y x) = val2 NaN data y x /\ promote' (val2 NaN data y x) = val2 NaN data y x) ->
  promote' NaN = NaN ->
  exists o1 m1 o2 m2 o m,
    aggregate promote nv (Builtin (extreme fmin)) ny nx ay ax ycs xcs data mask = Ok (o1, m1)
    /\ aggregate promote' nv' (Builtin (extreme fmin)) (ny / ay) (nx / ax) by' bx ycs' xcs' o1 m1 = Ok (o2, m2)
    /\ aggregate promote nv'' (Builtin (extreme fmin)) ny nx (ay * by') (ax * bx) ycs'' xcs'' data mask = Ok (o, m)
    /\ ny / ay / by' = ny / (ay * by') /\ nx / ax / bx = nx / (ax * bx)
    /\ shaped2 (ny / (ay * by')) (nx / (ax * bx)) o2 /\ shaped2 (ny / (ay * by')) (nx / (ax * bx)) o
    /\ (m2 = None <-> m = None)
    /\ forall j k, 0 <= j < ny / (ay * by') -> 0 <= k < nx / (ax * bx) ->
       null_of m2 j k = null_of m j k /\ (null_of m j k = false -> same_num (val2 NaN o2 j k) (val2 NaN o j k)).
Proof. exact two_steps_min. Qed.
Print Assumptions C102_min.
(* and the cells lie at the same place (either axis) *)
Theorem C102_coords : forall a b n x0 r coords, 1 <= a -> 1 <= b -> 0 <= n -> len coords = n ->
  (forall i c, get coords i = Ok c -> (c == x0 + r * (inject_Z i + (1 # 2)))%Q) ->
  len (coarsen_coords b (n / a) (coarsen_coords a n coords)) = len (coarsen_coords (a * b) n coords)
  /\ forall k c c', get (coarsen_coords b (n / a) (coarsen_coords a n coords)) k = Ok c -> get (coarsen_coords (a * b) n coords) k = Ok c' -> (c == c')%Q.
Proof. exact two_steps_coords. Qed.
Print Assumptions C102_coords.

(* ---- example: 5 x 9 cells by (2, 1) and then (1, 4), and by (2, 4) ---- *)
Definition grid : list (list num) :=
  map (map of_Z) [[1; 2; 2; 9; 9; 0; 0; 0; 0]; [3; 2; 1; 9; 9; 0; 0; 0; 0]; [0; 0; 0; 9; 0; 0; 0; 0; 0]; [0; 4; 0; 9; 0; 0; 0; 0; 0]; [9; 9; 9; 9; 9; 9; 9; 9; 9]].
Definition nulls : list (list bool) :=
  [[false; false; false; true; true; true; true; true; true]; [false; false; false; true; false; false; false; false; false];
   [false; false; false; false; true; true; true; true; true]; [false; false; false; true; true; true; true; true; true]; full 9 false].
Example C102_example :
  aggregate (fun v => v) (of_Z (-1)) (Builtin (extreme fmax)) 5 9 2 1 [1; 1] [4; 5] grid (Some nulls)
  = Ok (map (map of_Z) [[3; 2; 2; -1; 9; 0; 0; 0; 0]; [0; 4; 0; 9; -1; -1; -1; -1; -1]],
        Some [[false; false; false; true; false; false; false; false; false]; [false; false; false; false; true; true; true; true; true]])
  /\ aggregate (fun v => v) (of_Z (-1)) (Builtin (extreme fmax)) 2 9 1 4 [2] [1; 1]
       (map (map of_Z) [[3; 2; 2; -1; 9; 0; 0; 0; 0]; [0; 4; 0; 9; -1; -1; -1; -1; -1]])
       (Some [[false; false; false; true; false; false; false; false; false]; [false; false; false; false; true; true; true; true; true]])
  = Ok (map (map of_Z) [[3; 9]; [9; -1]], Some [[false; false]; [false; true]])
  /\ aggregate (fun v => v) (of_Z (-1)) (Builtin (extreme fmax)) 5 9 2 4 [1; 1] [2] grid (Some nulls)
  = Ok (map (map of_Z) [[3; 9]; [9; -1]], Some [[false; false]; [false; true]]).
Proof. vm_compute. auto. Qed.
Example C102_hypotheses : shaped2 5 9 grid /\ shaped2 5 9 nulls /\ cuts (5 / 2) [1; 1] /\ cuts (9 / 1) [4; 5] /\ cuts (5 / 2 / 1) [2] /\ cuts (9 / 1 / 4) [1; 1]
  /\ cuts (5 / (2 * 1)) [1; 1] /\ cuts (9 / (1 * 4)) [2].
Proof. repeat split; repeat constructor; cbn; lia. Qed.

(* ---- not so for mean and mode ---- *)
Definition mean (w : list num) : num :=
  let qs := flat_map (fun v => match v with Fin q => [q] | _ => [] end) w in
  match qs with [] => NaN | _ => Fin (Qred (fold_left Qplus qs 0 / inject_Z (len qs)))%Q end.
(* the mean of the cells 1, null, 4, 10 is 5; that of the means of the halves is 4 *)
Theorem C102_mean_refuted : exists o1 m1,
  aggregate (fun v => v) (of_Z 0) (Builtin mean) 1 4 1 2 [1] [2] [map of_Z [1; 0; 4; 10]] (Some [[false; true; false; false]]) = Ok (o1, m1)
  /\ aggregate (fun v => v) (of_Z 0) (Builtin mean) 1 2 1 2 [1] [1] o1 m1 = Ok ([[of_Z 4]], Some [[false]])
  /\ aggregate (fun v => v) (of_Z 0) (Builtin mean) 1 4 1 4 [1] [1] [map of_Z [1; 0; 4; 10]] (Some [[false; true; false; false]]) = Ok ([[of_Z 5]], Some [[false]]).
Proof. eexists. eexists. split; [vm_compute; reflexivity|]. vm_compute. auto. Qed.
Print Assumptions C102_mean_refuted.
Theorem C102_mode_refuted : exists o1 m1,
  aggregate (fun v => v) (of_Z 0) SMode 1 9 1 3 [1] [3] [map of_Z [1; 1; 2; 3; 3; 2; 2; 2; 2]] None = Ok (o1, m1)
  /\ aggregate (fun v => v) (of_Z 0) SMode 1 3 1 3 [1] [1] o1 m1 = Ok ([[of_Z 1]], None)
  /\ aggregate (fun v => v) (of_Z 0) SMode 1 9 1 9 [1] [1] [map of_Z [1; 1; 2; 3; 3; 2; 2; 2; 2]] None = Ok ([[of_Z 2]], None).
Proof. eexists. eexists. split; [vm_compute; reflexivity|]. vm_compute. auto. Qed.
Print Assumptions C102_mode_refuted.
