(* C67: rasters made like a template. *)
From Coq Require Import QArith String.
From Verif Require Import Base Scalars FocalSpec BandsSpec Bands Normalize NormalizeSpec Ingest Creation CreationSpec CreationProofs.
Open Scope Z_scope.

(* full_like (constant_raster, zeros_like, ones_like) of a raster: its grid, the value in
   the dtype in every cell; with copy_mask its mask and null value. *)
Theorem C67_full : forall cast t td nb0 ys xs bands d' copy_mask vd v x, is_raster nb0 ys xs t -> north_up ys xs -> 0 < bands ->
  let d := match d' with None => vd | Some d => d end in
  cast d v = Ok x ->
  exists r, full_like cast (Some (Like td t)) None (Some (Some (vd, v))) (Some bands) (option_map Some d') copy_mask = Ok (d, r)
    /\ created copy_mask t (d' = None \/ d' = Some td) d nb0 bands ys xs (fun _ _ _ w => w = x) r.
Proof. intros. exact (full_like_raster cast t td nb0 ys xs (vd, v) bands d' copy_mask vd v x H H0 H1 eq_refl H2). Qed.
Print Assumptions C67_full.

(* of a GeoBox: its grid, no null values *)
Theorem C67_geobox : forall cast xs ys bands d' vd v x, 0 < len ys -> 0 < len xs -> 0 < bands ->
  let d := match d' with None => vd | Some d => d end in
  cast d v = Ok x ->
  exists r, full_like cast (Some (GeoBox xs ys)) None (Some (Some (vd, v))) (Some bands) (option_map Some d') false = Ok (d, r)
    /\ created_on bands ys xs (fun _ _ _ w => w = x) r.
Proof. exact full_like_geobox. Qed.
Print Assumptions C67_geobox.

(* empty_like: the same with any values *)
Theorem C67_empty : forall junk t td nb0 ys xs bands d' copy_mask, is_raster nb0 ys xs t -> north_up ys xs -> 0 < bands ->
  (forall n m k, 0 < n -> 0 < m -> 0 < k -> shaped3 n m k (junk n m k)) ->
  let d := match d' with None => F64 | Some d => d end in
  exists r, empty_like junk (Some (Like td t)) None (Some bands) (option_map Some d') copy_mask = Ok (d, r)
    /\ created copy_mask t (d' = None \/ d' = Some td) d nb0 bands ys xs (at3 (junk bands (len ys) (len xs))) r.
Proof. exact empty_like_raster. Qed.
Print Assumptions C67_empty.

(* random_raster: the values drawn, with the default null value of their dtype *)
Theorem C67_random : forall {P} (draw : distribution -> list P -> Z -> Z -> Z -> dtype * arr3 num) t td nb0 ys xs bands dist k params copy_mask,
  is_raster nb0 ys xs t -> north_up ys xs -> 0 < bands ->
  (forall k p n m l, 0 < n -> 0 < m -> 0 < l -> shaped3 n m l (snd (draw k p n m l))) ->
  distribution_of dist = Some k -> (match k with Normal | Binomial => 2 | Poisson | Weibull => 1 | Uniform => 0 end) <= len params ->
  let '(d, data) := draw k params bands (len ys) (len xs) in
  exists r, random_raster draw (Some (Like td t)) None dist (Some bands) (Some params) copy_mask = Ok (d, r)
    /\ created copy_mask t False d nb0 bands ys xs (at3 data) r.
Proof.
  intros P draw t td nb0 ys xs bands dist k params copy_mask T N HB J D L.
  pose proof (random_like draw t td nb0 ys xs bands dist k params copy_mask T N HB J D L) as R.
  destruct (draw k params bands (len ys) (len xs)). exact R.
Qed.
Print Assumptions C67_random.

(* Refused: no template or two, no value or one that is not a number, copy_mask with a
   GeoBox, bands that is not a number or less than one, an unknown dtype. *)
Theorem C67_refused : forall cast t rt value bands d' copy_mask,
  (t = None /\ rt = None) \/ (t <> None /\ rt <> None) \/ value = None
  \/ (exists xs ys, (t = Some (GeoBox xs ys) \/ rt = Some (GeoBox xs ys)) /\ copy_mask = true)
  \/ bands = None \/ (exists n, bands = Some n /\ n < 1) \/ value = Some None \/ d' = Some None ->
  exists e, full_like cast t rt value bands d' copy_mask = Err e /\ (e = TypeError \/ e = ValueError).
Proof. exact refused. Qed.
Print Assumptions C67_refused.

(* ---- examples ---- *)
Definition ex_ys : list Q := [3#2; 1#2]%Q.
Definition ex_xs : list Q := [1#2; 3#2; 5#2]%Q.
Definition ex_mask : list (list (list bool)) := [[[true; false; false]; [false; false; true]]].
Definition ex_data : list (list (list num)) := [[[of_Z 0; of_Z 4; of_Z 5]; [of_Z 6; of_Z 7; of_Z 0]]].
Definition ex_t : raster_ds := (Some (of_Z 0), RasterArray [1] ex_ys ex_xs ex_data, RasterArray [1] ex_ys ex_xs ex_mask).
Definition ex_cast (d : dtype) (v : num) : res num := Ok v.

Example C67_example_template : is_raster 1 ex_ys ex_xs ex_t /\ north_up ex_ys ex_xs.
Proof. exact ex_template. Qed.
(* two bands of 8-bit ones: both have the mask, and the null value of the dtype *)
Example C67_example :
  ones_like ex_cast (Some (Like F32 ex_t)) None (Some 2) (Some (Some U8)) true
  = Ok (U8, (Some (of_Z 255),
      RasterArray [1; 2] ex_ys ex_xs [[[of_Z 255; of_Z 1; of_Z 1]; [of_Z 1; of_Z 1; of_Z 255]]; [[of_Z 255; of_Z 1; of_Z 1]; [of_Z 1; of_Z 1; of_Z 255]]],
      RasterArray [1; 2] ex_ys ex_xs (ex_mask ++ ex_mask)))
  /\ zeros_like ex_cast (Some (GeoBox [1#2]%Q [1#2; 3#2]%Q)) None (Some 1) None false
  = Ok (I64, (None, RasterArray [1] [3#2; 1#2]%Q [1#2]%Q [[[of_Z 0]; [of_Z 0]]], RasterArray [1] [3#2; 1#2]%Q [1#2]%Q [[[false]; [false]]]))
  /\ zeros_like ex_cast (Some (GeoBox [1#2]%Q [1#2; 3#2]%Q)) None (Some 1) None true = Err ValueError
  /\ zeros_like ex_cast (Some (Like F32 ex_t)) None (Some 0) None true = Err ValueError.
Proof. repeat split. Qed.

(* ---- finding ---- *)
(* zeros_like with copy_mask of a raster whose null value is 0: the cells that are not
   null hold the null value too. *)
Theorem C67_valid_null_refuted :
  ~ (forall cast t td nb0 ys xs bands d r b i j w n, is_raster nb0 ys xs t -> north_up ys xs -> 0 < bands ->
       zeros_like cast (Some (Like td t)) None (Some bands) None true = Ok (d, r) ->
       masked r b i j false -> cell r b i j w -> null_value r = Some n -> num_eqb w n = false).
Proof. exact valid_null_refuted. Qed.
Print Assumptions C67_valid_null_refuted.
