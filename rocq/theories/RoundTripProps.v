(* C95: a raster turned into polygons or points gives the raster back. *)
From Coq Require Import QArith Qreals Reals String.
From Flocq Require Import Core BinarySingleNaN.
From Verif Require Import Base Scalars FocalSpec FocalResults BandsSpec Raster RasterSpec ReconcileSpec F64 Grids GridsFloat Vectors Frames
  Polygons PolygonsSpec Rasterize RasterizeRaster RasterizeRasterSpec Points PointsSpec Extract ExtractSpec RoundTrip RoundTripSpec RoundTripProofs RoundTripPoints.
From Verif Require PolygonsProps PointsProps ExtractProps.
Open Scope Z_scope.

(* The polygons of a band, rasterised by value: the values and nulls of the band, for
   every chunking of the raster and of like, every way of resolving overlaps, every
   choice of polygons within the chunks.  The null value asked for must not be the value
   of a valid cell, and the values must survive the dtype used for polygons (C72). *)
Theorem C95_polygons : forall cast shapes fd sb d crs nb ny nx ycs xcs data mask neighbors b like m invert nva aware fill,
  PolygonsSpec.covers shapes -> respects cast -> keeps cast -> cuts ny ycs -> cuts nx xcs -> shaped3 nb ny nx data -> shaped3 nb ny nx mask -> neighbors = 4 \/ neighbors = 8 ->
  representable d data mask -> 0 <= b < nb -> apart data mask b fill -> is_nan fill = false ->
  grid_of ny nx like -> thick like -> k_row like = 0 -> k_col like = 0 -> k_crs like = crs ->
  (aware = true -> forall p, RasterizeRasterSpec.covers crs (grid_box like) p (sb crs p)) ->
  match nva with NvNone => fill = default_null d | NvScalar s => fill = scalar_num s | NvOther => False end ->
  exists out, through_polygons cast shapes fd sb d crs nb ycs xcs data mask neighbors b like m invert nva aware = Ok out
  /\ wf 1 (ny * nx) out /\ r_dtype out = d /\ r_nv out = Some fill /\ same_band data mask b ny nx out.
Proof. exact polygons_back. Qed.
Print Assumptions C95_polygons.

(* The values extracted at the points of a raster are the values of the points, in the
   column of their band (as float64). *)
Theorem C95_points : forall cast reproject junk xcoord ycoord t q raster_crs points_crs nb ny nx bcs ycs xcs (data : list (list (list num))) mask name skip,
  plain_grid t -> centres t ny nx xcoord ycoord -> exact_grid q t -> 0 < nb -> 0 <= ny <= 2 ^ 40 -> 0 <= nx <= 2 ^ 40 ->
  cuts nb bcs -> cuts ny ycs -> cuts nx xcs -> shaped3 nb ny nx data -> shaped3 nb ny nx mask -> same_crs raster_crs points_crs -> name <> ""%string ->
  exists parts, to_points junk xcoord ycoord t nb ny nx bcs ycs xcs data mask = Ok parts
  /\ forall gs, Forall2 geometry_of (concat parts) gs ->
     exists cols, extract_points cast reproject raster_crs points_crs gs q nb ny nx data mask name skip 1 = Ok (Frame (zrange 0 (len gs)) cols) /\ len cols = nb
     /\ forall k p, get (concat parts) k = Ok p -> exists values, get cols (p_band p - 1) = Ok (numbered (name ++ "_") (p_band p), NumCol values) /\ get values k = Ok (cast F64 (p_value p)).
Proof. exact points_back. Qed.
Print Assumptions C95_points.

(* ---- examples ---- *)
Definition z := of_Z.
Definition ex_data := [[[z 5; z 5; z 7]; [z 5; z 9; z 7]]; [[z 1; z 2; z 3]; [z 1; z 1; z 1]]].
Definition ex_mask := [[[false; false; false]; [false; true; false]]; [[false; false; true]; [false; false; false]]].
Definition ex_like : grid := Grid [2] [3] 0 0 (Some 5070).
Definition all_boxes (c : option Z) (p : list gfeature) : region := fun _ => true.
Definition ex_back (b : Z) nva := through_polygons PolygonsProps.ex_cast PolygonsProps.ex_shapes (fun _ => F64) all_boxes U8 (Some 5070) 2 [1; 1] [2; 1] ex_data ex_mask 4 b ex_like Last false nva false.
Example C95_example :
  ex_back 0 (NvScalar (SInt 9)) = Ok (Raster U8 (Some (z 9)) [[z 5; z 5; z 7; z 5; z 9; z 7]] [[false; false; false; false; true; false]])
  /\ ex_back 1 (NvScalar (SInt 9)) = Ok (Raster U8 (Some (z 9)) [[z 1; z 2; z 9; z 1; z 1; z 1]] [[false; false; true; false; false; false]]).
Proof. vm_compute. auto. Qed.
Example C95_hypotheses : representable U8 ex_data ex_mask /\ apart ex_data ex_mask 0 (z 9) /\ thick ex_like /\ grid_of 2 3 ex_like.
Proof.
  assert (V : forall b r c v, at3 ex_data b r c v -> at3 ex_mask b r c false -> exists n, v = z n /\ 1 <= n <= 7).
  { intros b r c v (s & G1 & row & G2 & G3) (s' & H1 & row' & H2 & H3). pose proof (BaseFacts.get_ok_range _ _ _ G1) as Rb. change (0 <= b < 2) in Rb.
    assert (b = 0 \/ b = 1) as [-> | ->] by lia; cbn in G1, H1; injection G1 as <-; injection H1 as <-;
    pose proof (BaseFacts.get_ok_range _ _ _ G2) as Rr; change (0 <= r < 2) in Rr; assert (r = 0 \/ r = 1) as [-> | ->] by lia; cbn in G2, H2; injection G2 as <-; injection H2 as <-;
    pose proof (BaseFacts.get_ok_range _ _ _ G3) as Rc; change (0 <= c < 3) in Rc; assert (c = 0 \/ c = 1 \/ c = 2) as [-> | [-> | ->]] by lia; cbn in G3, H3; try discriminate H3; injection G3 as <-; eexists; (split; [reflexivity|lia]). }
  split; [|split; [|split]].
  - intros b r c v M D. destruct (V b r c v D M) as (n & -> & R). split; [|exact I]. exists n. split; [cbn; lia|reflexivity].
  - intros r c v M D. destruct (V 0 r c v D M) as (n & -> & R). split; [reflexivity|]. unfold z, of_Z, inject_Z, num_eqb. destruct (Qeq_bool (n # 1) (9 # 1)) eqn:E; [|reflexivity]. apply Qeq_bool_iff in E. unfold Qeq in E. cbn in E. lia.
  - split; repeat constructor; lia.
  - split; [|split; [|split; [discriminate|lia]]]; split; repeat constructor; lia.
Qed.
(* the points of PointsProps.v: 5 valid cells in 2 bands *)
Definition q30 : affine Q := (Affine 30 0 500000 0 (-30) 4000000)%Q.
Example C95_points_example : exact_grid q30 PointsProps.t30
  /\ extract_points ExtractProps.ex_cast (fun _ _ g => g) None None [GPoint 500015 3999985; GPoint 500075 3999985; GPoint 500075 3999955] q30 2 2 3
       (map (map (map of_Z)) PointsProps.data30) PointsProps.mask30 "v" false 1
     = Ok (Frame [0; 1; 2] [("v_1"%string, NumCol [z 1; z 3; NaN]); ("v_2"%string, NumCol [z 7; NaN; z 12])]).
Proof.
  split.
  - destruct (sized_of_Z 30 ltac:(discriminate) ltac:(lia)) as (_ & Ea & _). destruct (sized_of_Z 500000 ltac:(discriminate) ltac:(lia)) as (_ & Ec & _).
    destruct (sized_of_Z (-30) ltac:(discriminate) ltac:(lia)) as (_ & Ee & _). destruct (sized_of_Z 4000000 ltac:(discriminate) ltac:(lia)) as (_ & Ef & _).
    unfold exact_grid, exactly, q30, PointsProps.t30. cbn [aa ab ac ad ae af]. rewrite Ea, Ec, Ee, Ef. change (B2R fzero) with 0%R. unfold Q2R. cbn. repeat split; field.
  - vm_compute. reflexivity.
Qed.

(* Finding: with the default null value (here 255) valid cells that hold it are lost. *)
Theorem C95_default_null_refuted : ~ (forall cast shapes fd sb d crs nb ny nx ycs xcs data mask neighbors b like m invert aware out,
  PolygonsSpec.covers shapes -> respects cast -> cuts ny ycs -> cuts nx xcs -> shaped3 nb ny nx data -> shaped3 nb ny nx mask ->
  grid_of ny nx like -> thick like -> 0 <= b < nb ->
  through_polygons cast shapes fd sb d crs nb ycs xcs data mask neighbors b like m invert NvNone aware = Ok out -> same_band data mask b ny nx out).
Proof.
  intros H. set (data := [[[z 255; z 1]; [z 1; z 1]]]). set (mask := [[[false; false]; [false; false]]]).
  specialize (H PolygonsProps.ex_cast PolygonsProps.ex_shapes (fun _ => F64) all_boxes U8 None 1 2 2 [2] [2] data mask 4 0 (Grid [2] [2] 0 0 None) Last false false
    (Raster U8 (Some (z 255)) [[z 255; z 1; z 1; z 1]] [[true; false; false; false]]) PolygonsProps.ex_covers PolygonsProps.ex_respects).
  assert (C : cuts 2 [2]) by (split; repeat constructor; lia).
  destruct (H C C ltac:(repeat constructor) ltac:(repeat constructor) ltac:(split; [exact C|split; [exact C|split; [discriminate|lia]]]) ltac:(split; repeat constructor; lia) ltac:(lia) ltac:(vm_compute; reflexivity) 0 0 ltac:(lia) ltac:(lia)) as [_ K].
  destruct (K (z 255)) as [K0 _]; [| |discriminate K0].
  - exists [[false; false]; [false; false]]. split; [reflexivity|]. exists [false; false]. auto.
  - exists [[z 255; z 1]; [z 1; z 1]]. split; [reflexivity|]. exists [z 255; z 1]. auto.
Qed.
Print Assumptions C95_default_null_refuted.
