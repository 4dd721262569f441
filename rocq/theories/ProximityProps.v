(* C10, C11, C51: proximity analysis. *)
From Verif Require Import BaseFacts F64 F64Facts F64Exact F32 Proximity ProximityProofs ProximitySpec
  ProximityChunk ProximityTaxi.
From Coq Require Import Lia.
Open Scope Z_scope.

(* ---------------- C10 ---------------- *)

(* One chunk of pa_proximity: every reported value is the distance to a real
   target (of the raster, not of the padding), at most max_distance, and 0 at a
   target. *)
Theorem C10_proximity_sound {A} (target : A -> bool) boundary xc yc src ny nx depth k st hav met M
  nodata junk :
  target boundary = false -> grid ny nx src -> len xc = nx -> len yc = ny ->
  0 <= fst depth /\ 0 <= snd depth ->
  0 <= k_r0 k <= k_r1 k /\ k_r1 k <= ny /\ 0 <= k_c0 k <= k_c1 k /\ k_c1 k <= nx ->
  rounding (st_round st) -> fleb (f64_of 1 (-511)) M = true ->
  grid (k_ny depth k) (k_nx depth k) junk ->
  exists prox,
    run_proximity (f64_arith st (metric_dist_sqr hav met) M) target boundary xc yc src depth k junk
      nodata = Ok prox
    /\ forall i j, k_r0 k <= i < k_r1 k -> k_c0 k <= j < k_c1 k ->
       exists p, at2 prox (i - k_r0 k) (j - k_c0 k) p
         /\ (p = nodata
             \/ exists ti tj v, target_at target src ti tj v
                  /\ proximity_to target xc yc src (metric_dist_sqr hav met) (st_round st) M i j ti tj p).
Proof. exact (sound target boundary xc yc src ny nx depth k st hav met M nodata junk). Qed.
Print Assumptions C10_proximity_sound.

(* Cells of a float raster: the padding (NaN) is never a target. *)
Theorem C10_nan_is_no_target targets :
  is_target feqb (fun v => negb (feqb v fzero) && BinarySingleNaN.is_finite v) targets fnan = false.
Proof. exact (nan_no_target targets). Qed.
Print Assumptions C10_nan_is_no_target.

(* Target cells report 0. *)
Theorem C10_target_zero {A} (target : A -> bool) boundary xc yc src ny nx depth k st hav met M
  nodata junk i j v :
  target boundary = false -> grid ny nx src -> len xc = nx -> len yc = ny ->
  0 <= fst depth /\ 0 <= snd depth ->
  0 <= k_r0 k <= k_r1 k /\ k_r1 k <= ny /\ 0 <= k_c0 k <= k_c1 k /\ k_c1 k <= nx ->
  rounding (st_round st) -> fleb (f64_of 1 (-511)) M = true ->
  grid (k_ny depth k) (k_nx depth k) junk ->
  k_r0 k <= i < k_r1 k -> k_c0 k <= j < k_c1 k -> target_at target src i j v ->
  exists prox,
    run_proximity (f64_arith st (metric_dist_sqr hav met) M) target boundary xc yc src depth k junk
      nodata = Ok prox
    /\ at2 prox (i - k_r0 k) (j - k_c0 k) fzero.
Proof. exact (target_zero target boundary xc yc src ny nx depth k st hav met M nodata junk i j v). Qed.
Print Assumptions C10_target_zero.

(* max_distance = inf: no cell is skipped. *)
Theorem C10_no_cell_skipped {A} (target : A -> bool) boundary xc yc src ny nx depth k st hav met
  nodata junk ti0 tj0 v0 :
  target boundary = false -> grid ny nx src -> len xc = nx -> len yc = ny ->
  0 <= fst depth /\ 0 <= snd depth ->
  k = mkChunk 0 ny 0 nx ->
  rounding (st_round st) ->
  (forall ti tj v i j x1 y1 x2 y2, target_at target src ti tj v ->
     centre xc yc ti tj x1 y1 -> centre xc yc i j x2 y2 ->
     fltb (metric_dist_sqr hav met x1 y1 x2 y2) finf = true) ->
  grid (k_ny depth k) (k_nx depth k) junk -> target_at target src ti0 tj0 v0 ->
  exists prox,
    run_proximity (f64_arith st (metric_dist_sqr hav met) finf) target boundary xc yc src depth k junk
      nodata = Ok prox
    /\ forall i j, 0 <= i < ny -> 0 <= j < nx ->
       exists p ti tj v, at2 prox i j p /\ target_at target src ti tj v
         /\ proximity_to target xc yc src (metric_dist_sqr hav met) (st_round st) finf i j ti tj p.
Proof. exact (complete target boundary xc yc src ny nx depth k st hav met nodata junk ti0 tj0 v0). Qed.
Print Assumptions C10_no_cell_skipped.

(* The documentation promises the distance to the nearest source cell.  With
   the Euclidean metric the scan can miss it: 4 x 4 cells, three targets; at
   (0, 0) it reports 3 instead of sqrt 8. *)
Theorem C10_nearest_refuted :
  ~ (forall (src : list (list Z)) (xc yc : list f64) ny nx, grid ny nx src -> len xc = nx -> len yc = ny ->
       forall prox, run_proximity (f64_arith double euclidean_dist_sqr finf) (fun v => v =? 1) 0 xc yc src
                      (0, 0) (mkChunk 0 ny 0 nx) (full ny (full nx fzero)) (f64_of_Z (-999999)) = Ok prox ->
       forall i j p ti tj v x1 y1 x2 y2, at2 prox i j p -> target_at (fun v => v =? 1) src ti tj v ->
         centre xc yc ti tj x1 y1 -> centre xc yc i j x2 y2 ->
         fleb p (fsqrt (euclidean_dist_sqr x1 y1 x2 y2)) = true).
Proof. exact nearest_refuted. Qed.
Print Assumptions C10_nearest_refuted.

(* For a raster of integer dtype without a mask the padding is not NaN but
   whatever NaN is cast to, INT64_MIN: a non-zero value, so the padding is a
   target.  A raster without any target then reports distances. *)
Theorem C10_integer_padding_refuted :
  ~ (forall (boundary : Z) (src : list (list Z)) (xc yc : list f64) ny nx depth M,
       grid ny nx src -> len xc = nx -> len yc = ny -> 0 <= fst depth /\ 0 <= snd depth ->
       (forall i j v, ~ target_at (is_target Z.eqb (fun v => negb (v =? 0)) []) src i j v) ->
       forall prox, run_proximity (f64_arith double euclidean_dist_sqr M)
                      (is_target Z.eqb (fun v => negb (v =? 0)) []) boundary xc yc src depth
                      (mkChunk 0 ny 0 nx)
                      (full (ny + 2 * fst depth) (full (nx + 2 * snd depth) fzero))
                      (f64_of_Z (-999999)) = Ok prox ->
       forall i j p, at2 prox i j p -> fltb p fzero = true).
Proof. exact integer_padding_refuted. Qed.
Print Assumptions C10_integer_padding_refuted.

(* ---------------- C11 ---------------- *)

(* The three tools describe the same target, cell by cell, or are all null. *)
Theorem C11_one_target {A O} (target : A -> bool) boundary bearing xc yc src ny nx depth k st hav met M
  (cast : A -> O) nodata nodata_alloc (nodata2 : O) nodata3 to_dir junk :
  target boundary = false -> grid ny nx src -> len xc = nx -> len yc = ny ->
  0 <= fst depth /\ 0 <= snd depth ->
  0 <= k_r0 k <= k_r1 k /\ k_r1 k <= ny /\ 0 <= k_c0 k <= k_c1 k /\ k_c1 k <= nx ->
  rounding (st_round st) -> fleb (f64_of 1 (-511)) M = true ->
  grid (k_ny depth k) (k_nx depth k) junk ->
  let ar := f64_arith st (metric_dist_sqr hav met) M in
  exists prox alloc dir,
    run_proximity ar target boundary xc yc src depth k junk nodata = Ok prox
    /\ run_allocation ar target boundary xc yc src depth k cast junk nodata_alloc nodata2 = Ok alloc
    /\ run_direction ar target boundary bearing xc yc src depth k to_dir junk nodata3 = Ok dir
    /\ forall i j, k_r0 k <= i < k_r1 k -> k_c0 k <= j < k_c1 k ->
       exists p a d, at2 prox (i - k_r0 k) (j - k_c0 k) p
         /\ at2 alloc (i - k_r0 k) (j - k_c0 k) a
         /\ at2 dir (i - k_r0 k) (j - k_c0 k) d
         /\ ((p = nodata /\ a = nodata2 /\ d = nodata3)
             \/ exists ti tj v, target_at target src ti tj v
                  /\ proximity_to target xc yc src (metric_dist_sqr hav met) (st_round st) M i j ti tj p
                  /\ a = cast v
                  /\ exists b, direction_to xc yc (direction bearing) i j ti tj b /\ d = to_dir b).
Proof.
  intros TB SRC XC YC DP KI RO HM SJ.
  exact (chunk_run target boundary TB bearing xc yc src ny nx SRC XC YC depth DP k KI st
    (metric_dist_sqr hav met) M RO (metric_nonneg hav met) HM cast nodata nodata_alloc nodata2 nodata3
    to_dir junk SJ).
Qed.
Print Assumptions C11_one_target.

(* ---------------- C51 ---------------- *)

(* Taxi-cab metric, regular grid, any chunking with enough overlap: the reported
   value is exactly the distance to the nearest target, and a cell is null
   exactly when no target is within max_distance. *)
Theorem C51_taxi_nearest {A} (target : A -> bool) boundary xc yc src ny nx depth k st M
  e x0 dx y0 dy K B nodata junk :
  target boundary = false -> grid ny nx src -> len xc = nx -> len yc = ny ->
  0 <= fst depth /\ 0 <= snd depth ->
  0 <= k_r0 k <= k_r1 k /\ k_r1 k <= ny /\ 0 <= k_c0 k <= k_c1 k /\ k_c1 k <= nx ->
  (st = double /\ -500 <= e <= 400 /\ K = 2 ^ 26) \/ (st = single /\ -63 <= e <= 30 /\ K = 2 ^ 24) ->
  (forall j x, get xc j = Ok x -> scaled e x (x0 + j * dx) /\ 4 * Z.abs (x0 + j * dx) <= K) ->
  (forall i y, get yc i = Ok y -> scaled e y (y0 + i * dy) /\ 4 * Z.abs (y0 + i * dy) <= K) ->
  M = finf \/ (scaled e M B /\ 0 < B <= 2 ^ 26) ->
  reach ny nx depth k M dx dy B ->
  grid (k_ny depth k) (k_nx depth k) junk ->
  exists prox, run_proximity (f64_arith st taxi_dist_sqr M) target boundary xc yc src depth k junk nodata
      = Ok prox
    /\ forall i j, k_r0 k <= i < k_r1 k -> k_c0 k <= j < k_c1 k ->
       exists p, at2 prox (i - k_r0 k) (j - k_c0 k) p
         /\ ((exists ti tj v, target_at target src ti tj v
                /\ scaled e p (taxi dx dy i j ti tj)
                /\ forall ti' tj' v', target_at target src ti' tj' v' ->
                     taxi dx dy i j ti tj <= taxi dx dy i j ti' tj')
             \/ (p = nodata /\ forall ti tj v, target_at target src ti tj v ->
                   M <> finf /\ B < taxi dx dy i j ti tj)).
Proof.
  exact (taxi_nearest target boundary xc yc src ny nx depth k st M e x0 dx y0 dy K B nodata junk).
Qed.
Print Assumptions C51_taxi_nearest.

(* The same for the Chebyshev metric, cells of any width and height. *)
Theorem C51_chebyshev_nearest {A} (target : A -> bool) boundary xc yc src ny nx depth k st M
  e x0 dx y0 dy K B nodata junk :
  dx <> 0 -> dy <> 0 ->
  target boundary = false -> grid ny nx src -> len xc = nx -> len yc = ny ->
  0 <= fst depth /\ 0 <= snd depth ->
  0 <= k_r0 k <= k_r1 k /\ k_r1 k <= ny /\ 0 <= k_c0 k <= k_c1 k /\ k_c1 k <= nx ->
  (st = double /\ -500 <= e <= 400 /\ K = 2 ^ 26) \/ (st = single /\ -63 <= e <= 30 /\ K = 2 ^ 24) ->
  (forall j x, get xc j = Ok x -> scaled e x (x0 + j * dx) /\ 4 * Z.abs (x0 + j * dx) <= K) ->
  (forall i y, get yc i = Ok y -> scaled e y (y0 + i * dy) /\ 4 * Z.abs (y0 + i * dy) <= K) ->
  M = finf \/ (scaled e M B /\ 0 < B <= 2 ^ 26) ->
  reach ny nx depth k M dx dy B ->
  grid (k_ny depth k) (k_nx depth k) junk ->
  exists prox, run_proximity (f64_arith st chebyshev_dist_sqr M) target boundary xc yc src depth k junk nodata
      = Ok prox
    /\ forall i j, k_r0 k <= i < k_r1 k -> k_c0 k <= j < k_c1 k ->
       exists p, at2 prox (i - k_r0 k) (j - k_c0 k) p
         /\ ((exists ti tj v, target_at target src ti tj v
                /\ scaled e p (chebyshev dx dy i j ti tj)
                /\ forall ti' tj' v', target_at target src ti' tj' v' ->
                     chebyshev dx dy i j ti tj <= chebyshev dx dy i j ti' tj')
             \/ (p = nodata /\ forall ti tj v, target_at target src ti tj v ->
                   M <> finf /\ B < chebyshev dx dy i j ti tj)).
Proof.
  exact (chebyshev_nearest target boundary xc yc src ny nx depth k st M e x0 dx y0 dy K B nodata junk).
Qed.
Print Assumptions C51_chebyshev_nearest.

(* ---------------- examples ---------------- *)

(* A raster cut into two chunks with one cell of overlap, targets 5 and 7. *)
Definition ex_src : list (list Z) := [[0; 0; 5; 0]; [7; 0; 0; 0]].
Definition ex_xc : list f64 := map f64_of_Z [10; 20; 30; 40].
Definition ex_yc : list f64 := map f64_of_Z [80; 70].
Definition ex_t : Z -> bool := is_target Z.eqb (fun v => negb (v =? 0)) [].
Definition ex_junk : list (list f64) := full 4 (full 4 fzero).
Definition sf (r : res (list (list f64))) : res (list (list SpecFloat.spec_float)) :=
  let* a := r in Ok (map (map BinarySingleNaN.B2SF) a).
Definition z (n : Z) : SpecFloat.spec_float := BinarySingleNaN.B2SF (f64_of_Z n).

Example ex_chunk1 :
  sf (run_proximity (f64_arith double taxi_dist_sqr (f64_of_Z 10)) ex_t 0 ex_xc ex_yc ex_src (1, 1)
        (mkChunk 0 2 0 2) ex_junk (f64_of_Z (-9)))
  = Ok [[z 10; z 10]; [z 0; z 10]].
Proof. vm_compute. reflexivity. Qed.

Example ex_chunk2 :
  sf (run_proximity (f64_arith single taxi_dist_sqr (f64_of_Z 10)) ex_t 0 ex_xc ex_yc ex_src (1, 1)
        (mkChunk 0 2 2 4) ex_junk (f64_of_Z (-9)))
  = Ok [[z 0; z 10]; [z 10; z (-9)]].
Proof. vm_compute. reflexivity. Qed.

Example ex_alloc :
  run_allocation (f64_arith single taxi_dist_sqr (f64_of_Z 10)) ex_t 0 ex_xc ex_yc ex_src (1, 1)
        (mkChunk 0 2 2 4) (fun v => v) ex_junk (f64_of_Z (-9)) (-1)
  = Ok [[5; 5]; [5; -1]].
Proof. vm_compute. reflexivity. Qed.

Example ex_chebyshev :
  sf (run_proximity (f64_arith double chebyshev_dist_sqr (f64_of_Z 10)) ex_t 0 ex_xc ex_yc ex_src (1, 1)
        (mkChunk 0 2 2 4) ex_junk (f64_of_Z (-9)))
  = Ok [[z 0; z 10]; [z 10; z 10]].
Proof. vm_compute. reflexivity. Qed.

Lemma scaled_of k : Z.abs k <= 2 ^ 53 -> scaled 0 (f64_of_Z k) k.
Proof. intros. apply f64_of_exact; lia. Qed.

(* the hypotheses of the theorems hold for it *)
Example ex_hypotheses :
  ex_t 0 = false /\ grid 2 4 ex_src
  /\ (forall j x, get ex_xc j = Ok x -> scaled 0 x (10 + j * 10) /\ 4 * Z.abs (10 + j * 10) <= 2 ^ 26)
  /\ (forall i y, get ex_yc i = Ok y -> scaled 0 y (80 + i * -10) /\ 4 * Z.abs (80 + i * -10) <= 2 ^ 26)
  /\ scaled 0 (f64_of_Z 10) 10
  /\ reach 2 4 (1, 1) (mkChunk 0 2 2 4) (f64_of_Z 10) 10 (-10) 10
  /\ grid (k_ny (1, 1) (mkChunk 0 2 2 4)) (k_nx (1, 1) (mkChunk 0 2 2 4)) ex_junk
  /\ fleb (f64_of 1 (-511)) (f64_of_Z 10) = true
  /\ rounding (st_round single) /\ rounding (st_round double).
Proof.
  split; [reflexivity|]. split.
  { split; [reflexivity|]. intros i row G. pose proof (get_ok_range _ _ _ G) as R. unfold len in R. cbn in R.
    assert (i = 0 \/ i = 1) as [->| ->] by lia; vm_compute in G; injection G as <-; reflexivity. }
  split.
  { intros j x G. pose proof (get_ok_range _ _ _ G) as R. unfold ex_xc in R, G. rewrite len_map in R.
    rewrite get_map_eq in G. unfold len in R. cbn in R.
    assert (j = 0 \/ j = 1 \/ j = 2 \/ j = 3) as [->|[->|[->| ->]]] by lia;
    match type of G with context [get ?l ?i] => let v := eval vm_compute in (get l i) in change (get l i) with v in G end;
    cbv iota beta delta [rbind] in G; apply (f_equal (fun r => match r with Ok y => y | Err _ => fzero end)) in G; subst x;
    (split; [apply scaled_of; lia|lia]). }
  split.
  { intros j x G. pose proof (get_ok_range _ _ _ G) as R. unfold ex_yc in R, G. rewrite len_map in R.
    rewrite get_map_eq in G. unfold len in R. cbn in R.
    assert (j = 0 \/ j = 1) as [->| ->] by lia;
    match type of G with context [get ?l ?i] => let v := eval vm_compute in (get l i) in change (get l i) with v in G end;
    cbv iota beta delta [rbind] in G; apply (f_equal (fun r => match r with Ok y => y | Err _ => fzero end)) in G; subst x;
    (split; [apply scaled_of; lia|lia]). }
  split; [apply scaled_of; lia|]. split.
  { right. split; [intros E; discriminate (f_equal BinarySingleNaN.is_finite E)|].
    split; [discriminate|]. split; [discriminate|]. split; reflexivity. }
  split.
  { split; [reflexivity|]. intros i row G. pose proof (get_ok_range _ _ _ G) as R. unfold len in R. cbn in R.
    assert (i = 0 \/ i = 1 \/ i = 2 \/ i = 3) as [->|[->|[->| ->]]] by (change (0 <= i < 4) in R; lia); injection G as <-; reflexivity. }
  split; [vm_compute; reflexivity|]. split; [apply single_rounding|apply double_rounding].
Qed.
