(* C66: proximity analysis of whole rasters. *)
From Coq Require Import ZArith Bool Reals List.
From Flocq Require Import Core BinarySingleNaN.
From Verif Require Import Base BaseFacts F64 F64Exact FocalSpec FocalResults BandsSpec Bands BlockArgs Proximity ProximitySpec ProximityTaxi
  ProximityWhole ProximityWholeSpec ProximityWholeProofs ProximityWholeMain GreatCircle GreatCircleProofs.
Import ListNotations.
Open Scope Z_scope.

(* Every metric, every chunking, every band: the three tools fail in the same way or
   describe, cell by cell, one target of the band; proximity is null exactly where
   there is none. *)
Theorem C66_one_target {A O} m hav st (target : A -> bool) targets_finite boundary cached xc yc M bcs ycs xcs bands junk nb ny nx
  bearing (cast : A -> O) eqb nodata nodata_alloc (nodata2 : O) nodata3 to_dir :
  input nb ny nx xc yc (bcs, ycs, xcs) bands -> target boundary = false -> st = single \/ st = double ->
  fleb (f64_of 1 (-511)) M = true -> allocates junk -> fltb nodata fzero = true ->
  let P := pa_proximity m hav st target targets_finite boundary cached xc yc M (bcs, ycs, xcs) bands junk nodata in
  let L := pa_allocation m hav st target targets_finite boundary cached xc yc M (bcs, ycs, xcs) bands junk cast eqb nodata_alloc nodata2 in
  let D := pa_direction m hav st target targets_finite boundary cached xc yc M (bcs, ycs, xcs) bands junk bearing to_dir nodata3 in
  (exists e, P = Err e /\ L = Err e /\ D = Err e)
  \/ exists prox pnull alloc anull dir dnull, P = Ok (prox, pnull) /\ L = Ok (alloc, anull) /\ D = Ok (dir, dnull)
    /\ shaped3 nb ny nx prox /\ shaped3 nb ny nx alloc /\ shaped3 nb ny nx dir
    /\ forall b band i j, get bands b = Ok band -> 0 <= i < ny -> 0 <= j < nx ->
       exists p a d, at3 prox b i j p /\ at3 alloc b i j a /\ at3 dir b i j d
         /\ at3 anull b i j (eqb a nodata2) /\ at3 dnull b i j (feqb d nodata3)
         /\ ((at3 pnull b i j true /\ p = nodata /\ a = nodata2 /\ d = nodata3)
             \/ (at3 pnull b i j false
                 /\ exists ti tj v, target_at target band ti tj v
                  /\ proximity_to target xc yc band (metric_dist_sqr hav m) (st_round st) M i j ti tj p
                  /\ a = cast v
                  /\ exists c, direction_to xc yc (direction bearing) i j ti tj c /\ d = to_dir c)).
Proof.
  intros IN TB ST HM HJ HN.
  exact (all_tools m hav st target targets_finite boundary cached xc yc M bcs ycs xcs bands junk nb ny nx IN TB ST HM HJ
    bearing cast eqb nodata nodata_alloc nodata2 nodata3 to_dir HN).
Qed.
Print Assumptions C66_one_target.

(* Taxi-cab and Chebyshev metric on a regular grid: the distance to the nearest target
   of the band, null exactly when none is within max_distance, if max_distance covers
   the raster or is not longer than one of its sides. *)
Theorem C66_taxi_nearest {A} hav st (target : A -> bool) boundary cached xc yc M bcs ycs xcs bands junk nb ny nx e x0 dx y0 dy K B nodata :
  input nb ny nx xc yc (bcs, ycs, xcs) bands -> target boundary = false -> allocates junk -> dx <> 0 -> dy <> 0 ->
  (st = double /\ -500 <= e <= 400 /\ K = 2 ^ 26) \/ (st = single /\ -63 <= e <= 30 /\ K = 2 ^ 24) ->
  (forall j x, get xc j = Ok x -> scaled e x (x0 + j * dx) /\ 4 * Z.abs (x0 + j * dx) <= K) ->
  (forall i y, get yc i = Ok y -> scaled e y (y0 + i * dy) /\ 4 * Z.abs (y0 + i * dy) <= K) ->
  (nx = 1 \/ ny = 1 -> exists rx ry, cached = Some (rx, ry) /\ scaled e rx dx /\ scaled e ry dy) ->
  fltb nodata fzero = true ->
  M = finf \/ (scaled e M B /\ 0 < B <= 2 ^ 26) ->
  M = finf \/ (ny - 1) * Z.abs dy + (nx - 1) * Z.abs dx <= B \/ (B <= ny * Z.abs dy /\ B <= nx * Z.abs dx) ->
  exists prox null, pa_proximity Taxi hav st target true boundary cached xc yc M (bcs, ycs, xcs) bands junk nodata = Ok (prox, null)
    /\ shaped3 nb ny nx prox
    /\ forall b band i j, get bands b = Ok band -> 0 <= i < ny -> 0 <= j < nx ->
       exists p, at3 prox b i j p
         /\ ((at3 null b i j false
              /\ exists ti tj v, target_at target band ti tj v /\ scaled e p (taxi dx dy i j ti tj)
                 /\ forall ti' tj' v', target_at target band ti' tj' v' -> taxi dx dy i j ti tj <= taxi dx dy i j ti' tj')
             \/ (at3 null b i j true /\ p = nodata
                 /\ forall ti tj v, target_at target band ti tj v -> M <> finf /\ B < taxi dx dy i j ti tj)).
Proof.
  intros IN TB HJ NZx NZy HS XS YS ONE.
  exact (whole_nearest false hav st target boundary cached xc yc M bcs ycs xcs bands junk nb ny nx e x0 dx y0 dy K B IN TB HJ NZx NZy HS XS YS ONE nodata).
Qed.
Print Assumptions C66_taxi_nearest.

Theorem C66_chebyshev_nearest {A} hav st (target : A -> bool) boundary cached xc yc M bcs ycs xcs bands junk nb ny nx e x0 dx y0 dy K B nodata :
  input nb ny nx xc yc (bcs, ycs, xcs) bands -> target boundary = false -> allocates junk -> dx <> 0 -> dy <> 0 ->
  (st = double /\ -500 <= e <= 400 /\ K = 2 ^ 26) \/ (st = single /\ -63 <= e <= 30 /\ K = 2 ^ 24) ->
  (forall j x, get xc j = Ok x -> scaled e x (x0 + j * dx) /\ 4 * Z.abs (x0 + j * dx) <= K) ->
  (forall i y, get yc i = Ok y -> scaled e y (y0 + i * dy) /\ 4 * Z.abs (y0 + i * dy) <= K) ->
  (nx = 1 \/ ny = 1 -> exists rx ry, cached = Some (rx, ry) /\ scaled e rx dx /\ scaled e ry dy) ->
  fltb nodata fzero = true ->
  M = finf \/ (scaled e M B /\ 0 < B <= 2 ^ 26) ->
  M = finf \/ Z.max ((ny - 1) * Z.abs dy) ((nx - 1) * Z.abs dx) <= B \/ (B <= ny * Z.abs dy /\ B <= nx * Z.abs dx) ->
  exists prox null, pa_proximity Chebyshev hav st target true boundary cached xc yc M (bcs, ycs, xcs) bands junk nodata = Ok (prox, null)
    /\ shaped3 nb ny nx prox
    /\ forall b band i j, get bands b = Ok band -> 0 <= i < ny -> 0 <= j < nx ->
       exists p, at3 prox b i j p
         /\ ((at3 null b i j false
              /\ exists ti tj v, target_at target band ti tj v /\ scaled e p (chebyshev dx dy i j ti tj)
                 /\ forall ti' tj' v', target_at target band ti' tj' v' -> chebyshev dx dy i j ti tj <= chebyshev dx dy i j ti' tj')
             \/ (at3 null b i j true /\ p = nodata
                 /\ forall ti tj v, target_at target band ti tj v -> M <> finf /\ B < chebyshev dx dy i j ti tj)).
Proof.
  intros IN TB HJ NZx NZy HS XS YS ONE.
  exact (whole_nearest true hav st target boundary cached xc yc M bcs ycs xcs bands junk nb ny nx e x0 dx y0 dy K B IN TB HJ NZx NZy HS XS YS ONE nodata).
Qed.
Print Assumptions C66_chebyshev_nearest.

(* Refused: targets that are not finite, a max_distance that is not positive. *)
Theorem C66_refused {A} m hav st (target : A -> bool) targets_finite boundary cached xc yc M chunks bands junk nodata :
  targets_finite = false \/ fleb M fzero = true ->
  pa_proximity m hav st target targets_finite boundary cached xc yc M chunks bands junk nodata = Err ValueError.
Proof. exact (refused m hav st target targets_finite boundary cached xc yc M chunks bands junk nodata). Qed.
Print Assumptions C66_refused.

(* Also refused, by dask: a max_distance within the raster that is longer than one of
   its sides. *)
Theorem C66_long_side {A} hav st (target : A -> bool) boundary cached xc yc M bcs ycs xcs bands junk nb ny nx e x0 dx y0 dy K B nodata :
  input nb ny nx xc yc (bcs, ycs, xcs) bands -> target boundary = false -> dx <> 0 -> dy <> 0 ->
  (st = double /\ -500 <= e <= 400 /\ K = 2 ^ 26) \/ (st = single /\ -63 <= e <= 30 /\ K = 2 ^ 24) ->
  (forall j x, get xc j = Ok x -> scaled e x (x0 + j * dx) /\ 4 * Z.abs (x0 + j * dx) <= K) ->
  (forall i y, get yc i = Ok y -> scaled e y (y0 + i * dy) /\ 4 * Z.abs (y0 + i * dy) <= K) ->
  (nx = 1 \/ ny = 1 -> exists rx ry, cached = Some (rx, ry) /\ scaled e rx dx /\ scaled e ry dy) ->
  scaled e M B -> 0 < B <= 2 ^ 26 -> B < (ny - 1) * Z.abs dy + (nx - 1) * Z.abs dx ->
  (ny + 1) * Z.abs dy <= B \/ (nx + 1) * Z.abs dx <= B ->
  pa_proximity Taxi hav st target true boundary cached xc yc M (bcs, ycs, xcs) bands junk nodata = Err ValueError.
Proof.
  intros IN TB NZx NZy HS XS YS ONE.
  exact (whole_refused false hav st target boundary cached xc yc M bcs ycs xcs bands junk nb ny nx e x0 dx y0 dy K B IN TB NZx NZy HS XS YS ONE nodata).
Qed.
Print Assumptions C66_long_side.

(* ---------------- examples ---------------- *)

(* two bands, chunks of one row and of one and two columns, which the overlap of
   two columns and one row merges *)
Definition ex_bands : list (list (list Z)) := [[[0; 0; 5]; [7; 0; 0]]; [[0; 0; 0]; [0; 0; 9]]].
Definition ex_x : list f64 := map f64_of_Z [10; 20; 30].
Definition ex_y : list f64 := map f64_of_Z [80; 60].
Definition ex_t : Z -> bool := is_target Z.eqb (fun v => negb (v =? 0)) [].
Definition ex_empty (n m : Z) : list (list f64) := full n (full m fzero).
Definition null (n : Z) : f64 := f64_of_Z (-9).
Definition ex_chunks : chunks3 := ([1; 1], [1; 1], [1; 2]).
Definition ex_hav : distance := fun _ _ _ _ => fzero.
Definition shown (r : res (list (list (list f64)) * list (list (list bool)))) : res (list (list (list SpecFloat.spec_float)) * list (list (list bool))) :=
  let* '(a, n) := r in Ok (map (map (map B2SF)) a, n).
Definition z (n : Z) : SpecFloat.spec_float := B2SF (f64_of_Z n).

Example C66_example :
  shown (pa_proximity Taxi ex_hav double ex_t true 0 None ex_x ex_y (f64_of_Z 20) ex_chunks ex_bands ex_empty (f64_of_Z (-9)))
  = Ok ([[[z 20; z 10; z 0]; [z 0; z 10; z 20]]; [[z (-9); z (-9); z 20]; [z 20; z 10; z 0]]],
        [[[false; false; false]; [false; false; false]]; [[true; true; false]; [false; false; false]]])
  /\ pa_allocation Taxi ex_hav double ex_t true 0 None ex_x ex_y (f64_of_Z 20) ex_chunks ex_bands ex_empty (fun v => v) Z.eqb (f64_of_Z (-9)) (-1)
  = Ok ([[[5; 5; 5]; [7; 7; 5]]; [[-1; -1; 9]; [9; 9; 9]]],
        [[[false; false; false]; [false; false; false]]; [[true; true; false]; [false; false; false]]])
  /\ pa_depth Taxi taxi_dist_sqr None ex_x ex_y (f64_of_Z 20) = Ok (Some (1, 2)).
Proof. split; [|split]; vm_compute; reflexivity. Qed.

Example C66_example_input : input 2 2 3 ex_x ex_y ex_chunks ex_bands /\ allocates ex_empty.
Proof. exact ex_input. Qed.

(* ---------------- findings ---------------- *)

(* A raster of one row: max_distance of two cells is refused. *)
Theorem C66_result_refuted :
  ~ (forall hav st (target : Z -> bool) boundary cached xc yc M bcs ycs xcs bands junk nb ny nx nodata,
       input nb ny nx xc yc (bcs, ycs, xcs) bands -> target boundary = false -> st = double -> allocates junk ->
       fltb fzero M = true -> fltb nodata fzero = true -> cached <> None ->
       exists r, pa_proximity Taxi hav st target true boundary cached xc yc M (bcs, ycs, xcs) bands junk nodata = Ok r).
Proof. exact result_refuted. Qed.
Print Assumptions C66_result_refuted.

(* A target whose value is the default null value of the dtype (255 in an unmasked
   raster of 8-bit integers) is null in the allocation. *)
Theorem C66_allocation_null_refuted :
  ~ (forall hav st (target : Z -> bool) boundary cached xc yc M bcs ycs xcs bands junk nb ny nx nodata nodata2 alloc anull b band i j v,
       input nb ny nx xc yc (bcs, ycs, xcs) bands -> target boundary = false -> st = double -> allocates junk ->
       pa_allocation Taxi hav st target true boundary cached xc yc M (bcs, ycs, xcs) bands junk (fun v => v) Z.eqb nodata nodata2
         = Ok (alloc, anull) ->
       get bands b = Ok band -> target_at target band i j v -> at3 anull b i j false).
Proof. exact allocation_null_refuted. Qed.
Print Assumptions C66_allocation_null_refuted.

(* An unmasked raster of 32-bit integers: dask pads it with NaN cast to the smallest
   integer, which is a target when every cell but zero is, at the coordinate 0. *)
Theorem C66_no_target_refuted :
  ~ (forall hav st (target : Z -> bool) boundary cached xc yc M bcs ycs xcs bands junk nb ny nx nodata prox null b band i j,
       input nb ny nx xc yc (bcs, ycs, xcs) bands -> st = double -> allocates junk -> fltb nodata fzero = true ->
       pa_proximity Taxi hav st target true boundary cached xc yc M (bcs, ycs, xcs) bands junk nodata = Ok (prox, null) ->
       get bands b = Ok band -> (forall ti tj v, ~ target_at target band ti tj v) -> 0 <= i < ny -> 0 <= j < nx ->
       at3 null b i j true).
Proof. exact no_target_refuted. Qed.
Print Assumptions C66_no_target_refuted.

(* Great circle distances: the estimated width of a cell is at most that of any cell in
   the northern hemisphere. *)
Theorem C66_min_width_north (lon0 step : R) (lat : list R) :
  lat <> [] -> (forall y, In y lat -> (0 <= y <= 90)%R) ->
  forall x y, In y lat -> (min_width lon0 step lat <= haversine x y (x + step) y)%R.
Proof. exact (north lon0 step lat). Qed.
Print Assumptions C66_min_width_north.

(* Not in the southern hemisphere. *)
Theorem C66_min_width_refuted :
  ~ (forall (lon0 step : R) (lat : list R), lat <> [] -> (forall y, In y lat -> (-90 <= y <= 90)%R) ->
       forall x y, In y lat -> (min_width lon0 step lat <= haversine x y (x + step) y)%R).
Proof. exact min_width_refuted. Qed.
Print Assumptions C66_min_width_refuted.

(* The overlap of the chunks does not cover max_distance: c columns are within
   max_distance and beyond the overlap, in the south ... *)
Theorem C66_overlap_south_refuted :
  ~ (forall (lon0 step M : R) (lat : list R) (y : R) (c : Z), (0 < M)%R -> (forall y, In y lat -> (-90 <= y <= 90)%R) -> In y lat ->
       (haversine lon0 y (lon0 + IZR c * step) y <= M)%R -> c <= xdepth lon0 step lat M).
Proof. exact overlap_south_refuted. Qed.
Print Assumptions C66_overlap_south_refuted.

(* ... and, past the pole, in the north. *)
Theorem C66_overlap_north_refuted :
  ~ (forall (lon0 step M : R) (lat : list R) (y : R) (c : Z), (0 < M)%R -> (forall y, In y lat -> (0 <= y <= 90)%R) -> In y lat ->
       (lon0 + IZR c * step <= 360)%R ->
       (haversine lon0 y (lon0 + IZR c * step) y <= M)%R -> c <= xdepth lon0 step lat M).
Proof. exact overlap_north_refuted. Qed.
Print Assumptions C66_overlap_north_refuted.
