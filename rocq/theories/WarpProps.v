(* C83: reprojecting (warp.reproject). *)
From Coq Require Import QArith String Lia.
From Verif Require Import Base Scalars Arr2 Arr2Facts FocalSpec FocalValues Raster RasterSpec Warp WarpSpec WarpProofs.
Open Scope Z_scope.

(* the cells: made of the valid source cells only; without one, null *)
Theorem C83_cells : forall G C (size : G -> Z * Z) sources resample supported to_crs zoom_to grid_eqb warp, warps size sources resample warp ->
  forall (r : wraster G) (t : target G C) m s g, consistent size r -> supported m = true -> target_grid to_crs zoom_to r t s = Ok g -> grid_eqb g (w_grid r) = false ->
  exists r', reproject supported to_crs zoom_to grid_eqb warp r t m s = Ok r' /\ w_grid r' = g /\ w_dtype r' = w_dtype r /\ w_nv r' = Some (null_value_of r) /\ len (w_bands r') = len (w_bands r)
  /\ forall k data mask, get (w_bands r) k = Ok (data, mask) -> exists data' mask', get (w_bands r') k = Ok (data', mask')
     /\ shaped2 (fst (size g)) (snd (size g)) data' /\ forall i j, 0 <= i < fst (size g) -> 0 <= j < snd (size g) ->
        match valid_cells data mask (sources m (w_grid r) g i j) with
        | [] => val2 NaN data' i j = null_value_of r /\ val2 false mask' i j = true
        | l => val2 NaN data' i j = resample m (w_dtype r) l /\ val2 false mask' i j = same_value (resample m (w_dtype r) l) (null_value_of r)
        end.
Proof. exact @reproject_ok. Qed.
Print Assumptions C83_cells.

(* null exactly where no valid source cell is seen: for rasters with a null value and methods
   that choose one of the values *)
Theorem C83_nulls_partial : forall G C (size : G -> Z * Z) sources resample supported to_crs zoom_to grid_eqb warp, warps size sources resample warp ->
  forall (r : wraster G) (t : target G C) m s g r' k data mask data' mask', consistent size r -> w_nv r <> None -> picks resample m -> target_grid to_crs zoom_to r t s = Ok g -> grid_eqb g (w_grid r) = false ->
  reproject supported to_crs zoom_to grid_eqb warp r t m s = Ok r' -> get (w_bands r) k = Ok (data, mask) -> get (w_bands r') k = Ok (data', mask') ->
  forall i j, 0 <= i < fst (size g) -> 0 <= j < snd (size g) -> (val2 false mask' i j = true <-> valid_cells data mask (sources m (w_grid r) g i j) = []).
Proof. exact @reproject_picks. Qed.
Print Assumptions C83_nulls_partial.

(* the grid of the result *)
Theorem C83_grid : forall G C to_crs zoom_to (r : wraster G) (c : C) g v, num_leb v (of_Z 0) = false ->
  target_grid to_crs zoom_to r (ToCrs c) ResNone = to_crs (w_grid r) c /\ target_grid (C := C) to_crs zoom_to r (ToGrid g) ResNone = Ok g
  /\ target_grid (C := C) to_crs zoom_to r ToNone (ResNumber v) = zoom_to (w_grid r) v /\ target_grid (C := C) to_crs zoom_to r (ToGrid g) (ResNumber v) = zoom_to g v
  /\ forall g', to_crs (w_grid r) c = Ok g' -> target_grid to_crs zoom_to r (ToCrs c) (ResNumber v) = zoom_to g' v.
Proof. exact @reproject_grid. Qed.
Print Assumptions C83_grid.

(* the same grid: the raster itself *)
Theorem C83_same_grid : forall G C supported to_crs zoom_to grid_eqb warp (r : wraster G) (t : target G C) m s g,
  supported m = true -> target_grid to_crs zoom_to r t s = Ok g -> grid_eqb g (w_grid r) = true -> reproject supported to_crs zoom_to grid_eqb warp r t m s = Ok r.
Proof. exact @reproject_same. Qed.
Print Assumptions C83_same_grid.

Theorem C83_refused : forall G C supported to_crs zoom_to grid_eqb warp (r : wraster G) (t : target G C) m s,
  (supported m = false -> reproject supported to_crs zoom_to grid_eqb warp r t m s = Err ValueError)
  /\ (supported m = true -> reproject supported to_crs zoom_to grid_eqb warp r ToNone m ResNone = Err ValueError)
  /\ (supported m = true -> forall v, num_leb v (of_Z 0) = true -> (forall c, t = ToCrs c -> exists g, to_crs (w_grid r) c = Ok g) -> reproject supported to_crs zoom_to grid_eqb warp r t m (ResNumber v) = Err ValueError)
  /\ (supported m = true -> forall c e, to_crs (w_grid r) c = Err e -> reproject supported to_crs zoom_to grid_eqb warp r (ToCrs c) m s = Err e).
Proof. exact @reproject_refused. Qed.
Print Assumptions C83_refused.

(* "a tuple gives the resolution of both axes": it is always refused *)
Theorem C83_tuple_refuted : forall G C supported to_crs zoom_to grid_eqb warp (r : wraster G) (t : target G C) m x y,
  supported m = true -> (forall c, t = ToCrs c -> exists g, to_crs (w_grid r) c = Ok g) -> reproject supported to_crs zoom_to grid_eqb warp r t m (ResTuple x y) = Err TypeError.
Proof. exact @reproject_tuple. Qed.
Print Assumptions C83_tuple_refuted.

(* ---------------- an example: grids of one row and three columns, placed by their first
   column; the nearest cell ---------------- *)
Definition ex_size (_ : Z) : Z * Z := (1, 3).
Definition ex_sources (_ : string) (g g' i j : Z) : list (Z * Z) :=
  let c := j + g' - g in if (0 <=? c) && (c <? 3) then [(i, c)] else [].
Definition ex_resample (_ : string) (_ : dtype) (l : list (Z * Z * num)) : num := match l with p :: _ => snd p | [] => NaN end.
Definition ex_warp (m : string) (d : dtype) (g g' : Z) (nv : option num) (nodata : num) (data : arr2 num) : arr2 num :=
  tab2 1 3 (fun i j => match seen nv data (ex_sources m g g' i j) with [] => nodata | l => ex_resample m d l end).
Example ex_warps : warps ex_size ex_sources ex_resample ex_warp.
Proof.
  intros m d g g' nv nodata data S. unfold ex_size, ex_warp. cbn [fst snd]. split; [apply rect_tab2; lia|]. intros i j I J. now rewrite val2_tab by lia.
Qed.
Example ex_picks : picks ex_resample "nearest".
Proof. intros d [|[c v] l] H; [contradiction|]. exists c. now left. Qed.
Definition ex_reproject (r : wraster Z) (g : Z) : res (wraster Z) :=
  reproject (C := unit) (fun m => String.eqb m "nearest") (fun _ _ => Err ValueError) (fun _ _ => Err ValueError) Z.eqb ex_warp r (ToGrid g) "nearest" ResNone.
Definition ex_row (l : list Z) : arr2 num := [map of_Z l].
Definition ex_raster : wraster Z := WRaster U8 (Some (of_Z 0)) 10 [(ex_row [5; 0; 7], [[false; true; false]])].
Example ex_consistent : consistent ex_size ex_raster.
Proof.
  repeat constructor; cbn [fst snd w_nv ex_raster]; intros i j. unfold val2.
  assert (D : i = 0 \/ i <> 0) by lia. destruct D as [->|D].
  - change (get [[false; true; false]] 0) with (Ok [false; true; false]). change (get (ex_row [5; 0; 7]) 0) with (Ok (map of_Z [5; 0; 7])).
    assert (E : j = 0 \/ j = 1 \/ j = 2 \/ (j < 0 \/ 2 < j)) by lia. destruct E as [->|[->|[->|E]]]; [reflexivity|reflexivity|reflexivity|].
    destruct (get [false; true; false] j) eqn:G1; [apply BaseFacts.get_ok_range in G1; unfold len in G1; cbn in G1; lia|].
    destruct (get (map of_Z [5; 0; 7]) j) eqn:G2; [apply BaseFacts.get_ok_range in G2; unfold len in G2; cbn in G2; lia|]. reflexivity.
  - destruct (get [[false; true; false]] i) eqn:G1; [apply BaseFacts.get_ok_range in G1; unfold len in G1; cbn in G1; lia|].
    destruct (get (ex_row [5; 0; 7]) i) eqn:G2; [apply BaseFacts.get_ok_range in G2; unfold len in G2; cbn in G2; lia|]. reflexivity.
Qed.
Example ex_result : ex_reproject ex_raster 11 = Ok (WRaster U8 (Some (of_Z 0)) 11 [(ex_row [0; 7; 0], [[true; false; true]])]).
Proof. vm_compute. reflexivity. Qed.

(* "valid source cells give valid cells": a raster without null value gets the default one,
   and its cells that hold it become null *)
Definition ex_plain : wraster Z := WRaster U8 None 10 [(ex_row [5; 255; 7], [[false; false; false]])].
Theorem C83_valid_refuted :
  valid_cells (ex_row [5; 255; 7]) [[false; false; false]] (ex_sources "nearest" 10 11 0 0) = [((0, 1), of_Z 255)]
  /\ ex_reproject ex_plain 11 = Ok (WRaster U8 (Some (of_Z 255)) 11 [(ex_row [255; 7; 255], [[true; false; true]])]).
Proof. vm_compute. split; reflexivity. Qed.
Print Assumptions C83_valid_refuted.
(* a method that calculates: the mean of valid 0 and 2 is the null value 1 *)
Definition mean_sources (_ : string) (g g' i j : Z) : list (Z * Z) := [(0, 0); (0, 2)].
Definition mean_of (_ : string) (_ : dtype) (l : list (Z * Z * num)) : num :=
  match l with [(_, Fin a); (_, Fin b)] => Fin (Qred ((a + b) / 2)) | _ => NaN end.
Definition mean_warp (m : string) (d : dtype) (g g' : Z) (nv : option num) (nodata : num) (data : arr2 num) : arr2 num :=
  tab2 1 3 (fun i j => match seen nv data (mean_sources m g g' i j) with [] => nodata | l => mean_of m d l end).
Theorem C83_mean_refuted :
  reproject (C := unit) (fun _ => true) (fun _ _ => Err ValueError) (fun _ _ => Err ValueError) Z.eqb mean_warp
    (WRaster U8 (Some (of_Z 1)) 10 [(ex_row [0; 1; 2], [[false; true; false]])]) (ToGrid 11) "average" ResNone
  = Ok (WRaster U8 (Some (of_Z 1)) 11 [(ex_row [1; 1; 1], [[true; true; true]])]).
Proof. vm_compute. reflexivity. Qed.
Print Assumptions C83_mean_refuted.
