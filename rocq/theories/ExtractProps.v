(* C71: the values of a raster under points. *)
From Coq Require Import QArith String.
From Verif Require Import Base Scalars RasterSpec Grids FocalSpec BandsSpec Vectors Frames Reconcile Extract ExtractSpec ExtractProofs.
Open Scope Z_scope.

(* axis = 0: one row for each band and point, the bands one after the other *)
Theorem C71_rows : forall cast reproject raster_crs points_crs points t nb nr nc data mask name skip_validation,
  same_crs raster_crs points_crs -> points_only points -> name <> ""%string -> name <> "band"%string ->
  0 < nb -> proper t -> shaped3 nb nr nc data -> shaped3 nb nr nc mask ->
  exists bands values, extract_points cast reproject raster_crs points_crs points t nb nr nc data mask name skip_validation 0
    = Ok (Frame (zrange 0 (nb * len points)) [("band"%string, NumCol bands); (name, NumCol values)])
  /\ len bands = nb * len points /\ len values = nb * len points
  /\ forall i k g bd bm, get data i = Ok bd -> get mask i = Ok bm -> get points k = Ok g ->
     get bands (i * len points + k) = Ok (of_Z (i + 1)) /\ exists v, get values (i * len points + k) = Ok v /\ value_under cast t nr nc bd bm g v.
Proof. exact rows. Qed.
Print Assumptions C71_rows.

(* axis = 1: one row for each point, one column for each band *)
Theorem C71_columns : forall cast reproject raster_crs points_crs points t nb nr nc data mask name skip_validation,
  same_crs raster_crs points_crs -> points_only points -> name <> ""%string ->
  0 < nb -> proper t -> shaped3 nb nr nc data -> shaped3 nb nr nc mask ->
  exists cols, extract_points cast reproject raster_crs points_crs points t nb nr nc data mask name skip_validation 1 = Ok (Frame (zrange 0 (len points)) cols) /\ len cols = nb
  /\ forall i bd bm, get data i = Ok bd -> get mask i = Ok bm ->
     exists values, get cols i = Ok (numbered (name ++ "_") (i + 1), NumCol values) /\ len values = len points
     /\ forall k g, get points k = Ok g -> exists v, get values k = Ok v /\ value_under cast t nr nc bd bm g v.
Proof. exact columns_spec. Qed.
Print Assumptions C71_columns.

(* points in another coordinate system are brought to that of the raster *)
Theorem C71_crs : forall cast reproject raster_crs points_crs points t nb nr nc data mask name skip_validation axis,
  raster_crs <> points_crs -> (forall g, In g points -> is_point (reproject points_crs raster_crs g) = is_point g) ->
  extract_points cast reproject (Some raster_crs) (Some points_crs) points t nb nr nc data mask name skip_validation axis
  = extract_points cast reproject (Some raster_crs) (Some raster_crs) (map (reproject points_crs raster_crs) points) t nb nr nc data mask name skip_validation axis.
Proof. exact other_crs. Qed.
Print Assumptions C71_crs.

Theorem C71_refused : forall cast reproject raster_crs points_crs points t nb nr nc data mask name skip_validation axis,
  extract_points cast reproject raster_crs points_crs points t nb nr nc data mask "" skip_validation axis = Err ValueError
  /\ (name <> ""%string -> ~ points_only points -> extract_points cast reproject raster_crs points_crs points t nb nr nc data mask name false axis = Err TypeError)
  /\ (name <> ""%string -> ~ points_only points -> same_crs raster_crs points_crs -> extract_points cast reproject raster_crs points_crs points t nb nr nc data mask name true axis = Err ValueError)
  /\ (name <> ""%string -> points_only points -> raster_crs <> None -> extract_points cast reproject raster_crs None points t nb nr nc data mask name skip_validation axis = Err ValueError)
  /\ (name <> ""%string -> points_only points -> same_crs raster_crs points_crs -> shaped3 nb nr nc data -> shaped3 nb nr nc mask -> axis <> 0 -> axis <> 1 ->
      extract_points cast reproject raster_crs points_crs points t nb nr nc data mask name skip_validation axis = Err ValueError).
Proof. exact extract_refused. Qed.
Print Assumptions C71_refused.

(* ---- examples ---- *)
Definition z := of_Z.
Definition ex_cast (d : dtype) (v : num) : num := let w := round_to d v in if RasterSpec.same_value w v then v else w.
Definition ex_grid : affine Q := (Affine 30 0 100 0 (-30) 200)%Q.
Definition ex_data := [[[z 1; z 2; z 3]; [z 4; z 5; z 6]]; [[z 10; z 20; z 30]; [z 40; z 50; z 60]]].
Definition ex_mask := [[[false; false; false]; [false; true; false]]; [[false; false; true]; [false; false; false]]].
(* the cell (0, 2), a corner of (1, 1), a point outside, an empty point *)
Definition ex_points := [GPoint 161 199; GPoint 130 170; GPoint 99 170; GEmpty].
Definition ex_extract := extract_points ex_cast (fun _ _ g => g) (Some 5070) (Some 5070) ex_points ex_grid 2 2 3 ex_data ex_mask.
Example C71_example :
  ex_extract "v" true 0 = Ok (Frame [0; 1; 2; 3; 4; 5; 6; 7] [("band"%string, NumCol [z 1; z 1; z 1; z 1; z 2; z 2; z 2; z 2]); ("v"%string, NumCol [z 3; NaN; NaN; NaN; NaN; z 50; NaN; NaN])])
  /\ ex_extract "v" true 1 = Ok (Frame [0; 1; 2; 3] [("v_1"%string, NumCol [z 3; NaN; NaN; NaN]); ("v_2"%string, NumCol [NaN; z 50; NaN; NaN])]).
Proof. vm_compute. auto. Qed.
Example C71_hypotheses : same_crs (Some 5070) (Some 5070) /\ points_only ex_points /\ proper ex_grid /\ shaped3 2 2 3 ex_data /\ shaped3 2 2 3 ex_mask
  /\ in_cell ex_grid 161 199 0 2 /\ in_cell ex_grid 130 170 1 1.
Proof.
  split; [now right|]. split; [intros H; repeat (destruct H as [H|H]; [discriminate H|]); exact H|]. split; [intros H; discriminate H|].
  split; [split; [reflexivity|repeat constructor]|]. split; [split; [reflexivity|repeat constructor]|].
  split; [exists (1 # 30)%Q, (1 # 30)%Q|exists 0%Q, 0%Q]; repeat split; try reflexivity; discriminate.
Qed.

(* ---- findings ---- *)
(* With column_name = "band" the values replace the band column. *)
Theorem C71_band_refuted : ex_extract "band" true 0 = Ok (Frame [0; 1; 2; 3; 4; 5; 6; 7] [("band"%string, NumCol [z 3; NaN; NaN; NaN; NaN; z 50; NaN; NaN])]).
Proof. vm_compute. reflexivity. Qed.
Print Assumptions C71_band_refuted.
(* 64-bit integers are rounded to doubles *)
Theorem C71_int64_refuted :
  ~ (forall v w, extract_points ex_cast (fun _ _ g => g) None None [GPoint 101 199] ex_grid 1 1 1 [[[v]]] [[[false]]] "v" true 1
     = extract_points ex_cast (fun _ _ g => g) None None [GPoint 101 199] ex_grid 1 1 1 [[[w]]] [[[false]]] "v" true 1 -> v = w).
Proof.
  intros H. assert (K : z (2 ^ 53 + 1) = z (2 ^ 53)); [|vm_compute in K; discriminate K].
  apply H. assert (E : forall v, ex_cast F64 v = z (2 ^ 53) -> extract_points ex_cast (fun _ _ g => g) None None [GPoint 101 199] ex_grid 1 1 1 [[[v]]] [[[false]]] "v" true 1
    = Ok (Frame [0] [("v_1"%string, NumCol [z (2 ^ 53)])])).
  { intros v Ev. rewrite <- Ev. vm_compute (zrange _ _). reflexivity. }
  rewrite !E; vm_compute; reflexivity.
Qed.
Print Assumptions C71_int64_refuted.
