(* C97: what save_chunks writes *)
From Coq Require Import QArith Ascii String.
From Verif Require Import Base Scalars Chunks ChunksProofs Dtypes Raster FocalSpec RasterSpec Reconcile ReconcileSpec Saving SavingSpec SavingProofs SavingProps.
From Verif Require Import WriteOptions WriteOptionsSpec SaveChunks SaveChunksSpec SaveChunksProofs SaveChunksMain.
Open Scope Z_scope.

(* every chunk is in the file of its name at the end: none is written over by another *)
Theorem C97_bands : forall cast float_dtype reconcile_other gdal_has gdal_nodata table kw prefix ext e nb ny nx chunk fs out fs' v,
  file_ext table ext (k_driver kw) e -> asked kw v ->
  save_chunks cast float_dtype reconcile_other gdal_has gdal_nodata table kw prefix true ext nb ny nx chunk fs = Ok (out, fs') ->
  Forall2 (fun '(b, r, c) o => let path := name_band prefix (str e) (width nb) (width ny) (width nx) b r c in
    exists f, holds fs' path f
      /\ save cast float_dtype reconcile_other gdal_has gdal_nodata (get_extension (unstr path)) (k_driver kw) v None (chunk b r c) = Ok f /\ open_raster cast f = Ok o)
    (ndindex3 nb ny nx) out
  /\ forall p f, ~ In p (save_names prefix (str e) true nb ny nx) -> (holds fs' p f <-> holds fs p f).
Proof. exact bands_written. Qed.
Print Assumptions C97_bands.
Theorem C97_tiles : forall cast float_dtype reconcile_other gdal_has gdal_nodata table kw prefix ext e nb ny nx chunk fs out fs' v,
  file_ext table ext (k_driver kw) e -> asked kw v ->
  save_chunks cast float_dtype reconcile_other gdal_has gdal_nodata table kw prefix false ext nb ny nx chunk fs = Ok (out, fs') ->
  Forall2 (fun '(r, c) o => let path := name_tile prefix (str e) (width ny) (width nx) r c in
    exists t f, holds fs' path f
      /\ (nb = 1 /\ t = chunk 0 r c \/ nb <> 1 /\ stack_bands cast reconcile_other (map (fun b => chunk b r c) (zrange 0 nb)) None None = Ok t)
      /\ save cast float_dtype reconcile_other gdal_has gdal_nodata (get_extension (unstr path)) (k_driver kw) v None t = Ok f /\ open_raster cast f = Ok o)
    (ndindex2 ny nx) out
  /\ forall p f, ~ In p (save_names prefix (str e) false nb ny nx) -> (holds fs' p f <-> holds fs p f).
Proof. exact tiles_written. Qed.
Print Assumptions C97_tiles.

(* the files give the cells of the chunks back *)
Theorem C97_bands_kept : forall cast float_dtype reconcile_other gdal_has gdal_nodata table, casts cast -> gdal_ok cast gdal_nodata ->
  forall driver prefix ext e nb ny nx chunk fs (size : Z -> Z -> Z), file_ext table ext driver e -> plain_ext e -> no_ext (lower e) ->
  (forall b r c, 0 <= b < nb -> 0 <= r < ny -> 0 <= c < nx -> kept gdal_has (lower e) driver 1 (size r c) (chunk b r c)) ->
  exists out fs', save_chunks cast float_dtype reconcile_other gdal_has gdal_nodata table (Kwargs false None None driver) prefix true ext nb ny nx chunk fs = Ok (out, fs')
  /\ Forall2 (fun '(b, r, c) o => (exists f, holds fs' (name_band prefix (str e) (width nb) (width ny) (width nx) b r c) f /\ open_raster cast f = Ok o)
       /\ same_cells 1 (size r c) (chunk b r c) o) (ndindex3 nb ny nx) out.
Proof. exact bands_kept. Qed.
Print Assumptions C97_bands_kept.
Theorem C97_tiles_kept : forall cast float_dtype reconcile_other gdal_has gdal_nodata table, casts cast -> gdal_ok cast gdal_nodata ->
  forall driver prefix ext e nb ny nx chunk fs (size : Z -> Z -> Z) (tile : Z -> Z -> raster), file_ext table ext driver e -> plain_ext e -> no_ext (lower e) ->
  (forall r c, 0 <= r < ny -> 0 <= c < nx -> kept gdal_has (lower e) driver nb (size r c) (tile r c) /\ (1 < nb -> r_nv (tile r c) <> None)
     /\ bands_of (tile r c) = map (fun b => chunk b r c) (zrange 0 nb)) ->
  exists out fs', save_chunks cast float_dtype reconcile_other gdal_has gdal_nodata table (Kwargs false None None driver) prefix false ext nb ny nx chunk fs = Ok (out, fs')
  /\ Forall2 (fun '(r, c) o => (exists f, holds fs' (name_tile prefix (str e) (width ny) (width nx) r c) f /\ open_raster cast f = Ok o)
       /\ same_cells nb (size r c) (tile r c) o) (ndindex2 ny nx) out.
Proof. exact tiles_kept. Qed.
Print Assumptions C97_tiles_kept.

(* which extension the files get, and what save makes of it *)
Theorem C97_extension : forall table ext driver e, file_ext table ext driver e <-> tile_ext table ext driver = e.
Proof. exact file_ext_iff. Qed.
Print Assumptions C97_extension.
Theorem C97_path_extension : forall prefix e per_band n ny nx p, plain_ext e -> In p (save_names prefix (str e) per_band n ny nx) -> get_extension (unstr p) = lower e.
Proof. exact names_ext. Qed.
Print Assumptions C97_path_extension.
(* without one, nothing in the prefix is taken for one that matters *)
Theorem C97_no_extension : forall prefix per_band n ny nx p, In p (save_names prefix [] per_band n ny nx) ->
  no_ext (get_extension (unstr p)) /\ resolve_driver (get_extension (unstr p)) None = None.
Proof. exact names_no_ext. Qed.
Print Assumptions C97_no_extension.

(* refusals *)
Theorem C97_path_refused : forall cast float_dtype reconcile_other gdal_has gdal_nodata table kw prefix per_band ext nb ny nx chunk fs, k_path kw = true ->
  save_chunks cast float_dtype reconcile_other gdal_has gdal_nodata table kw prefix per_band ext nb ny nx chunk fs = Err TypeError.
Proof. exact chunks_refused. Qed.
Print Assumptions C97_path_refused.
Theorem C97_bands_error : forall cast float_dtype reconcile_other gdal_has gdal_nodata table kw prefix ext e nb ny nx chunk fs v x, k_path kw = false -> file_ext table ext (k_driver kw) e -> asked kw v ->
  save_chunks cast float_dtype reconcile_other gdal_has gdal_nodata table kw prefix true ext nb ny nx chunk fs = Err x ->
  exists b r c, (0 <= b < nb /\ 0 <= r < ny /\ 0 <= c < nx)
  /\ save_raster cast float_dtype reconcile_other gdal_has gdal_nodata (get_extension (unstr (name_band prefix (str e) (width nb) (width ny) (width nx) b r c))) (k_driver kw) v None (chunk b r c) = Err x.
Proof. exact bands_error. Qed.
Print Assumptions C97_bands_error.
Theorem C97_tiles_error : forall cast float_dtype reconcile_other gdal_has gdal_nodata table kw prefix ext e nb ny nx chunk fs v x, k_path kw = false -> file_ext table ext (k_driver kw) e -> asked kw v ->
  save_chunks cast float_dtype reconcile_other gdal_has gdal_nodata table kw prefix false ext nb ny nx chunk fs = Err x ->
  exists r c, (0 <= r < ny /\ 0 <= c < nx)
  /\ let stacked := stack_bands cast reconcile_other (map (fun b => chunk b r c) (zrange 0 nb)) None None in
     (nb <> 1 /\ stacked = Err x
      \/ exists t, (nb = 1 /\ t = chunk 0 r c \/ nb <> 1 /\ stacked = Ok t)
         /\ save_raster cast float_dtype reconcile_other gdal_has gdal_nodata (get_extension (unstr (name_tile prefix (str e) (width ny) (width nx) r c))) (k_driver kw) v None t = Err x).
Proof. exact tiles_error. Qed.
Print Assumptions C97_tiles_error.

(* ---- examples ---- *)
Definition ex_table : list (string * string) := [("tif", "GTiff"); ("png", "PNG"); ("asc", "AAIGrid"); ("tiff", "GTiff")]%string.
Definition ex_chunks := save_chunks ex_cast (fun _ => F64) (fun v d => (v, false)) (fun d => negb (dtype_eqb d F16)) ex_nodata ex_table.
(* two bands, one row and two columns of chunks; the second chunk is narrower *)
Definition ex_chunk (b r c : Z) : raster :=
  if c =? 0 then Raster I16 (Some (z (-1))) [[z (10 * b); z (-1); z (10 * b + 2)]] [[false; true; false]] else Raster I16 (Some (z (-1))) [[z (10 * b + 7)]] [[false]].
Example C97_example :
  match ex_chunks (Kwargs false None None None) (str "t/dem") false None 2 1 2 ex_chunk [] with
  | Ok (out, fs) => out = [Raster I16 (Some (z (-1))) [[z 0; z (-1); z 2]; [z 10; z (-1); z 12]] [[false; true; false]; [false; true; false]];
                           Raster I16 (Some (z (-1))) [[z 7]; [z 17]] [[false]; [false]]]
      /\ map (fun p => unstr (fst p)) fs = ["t/dem_0_1.tif"; "t/dem_0_0.tif"]%string
  | Err _ => False
  end
  /\ match ex_chunks (Kwargs false None (Some (SInt 5)) (Some "PNG"%string)) (str "a.b/d") true None 2 1 2 ex_chunk [] with
     | Ok (out, fs) => map r_nv out = [Some (z 5); Some (z 5); Some (z 5); Some (z 5)] /\ map (fun p => unstr (fst p)) fs = ["a.b/d_b1_0_1.png"; "a.b/d_b1_0_0.png"; "a.b/d_b0_0_1.png"; "a.b/d_b0_0_0.png"]%string
     | Err _ => False
     end
  /\ ex_chunks (Kwargs false None None None) (str "d") true (Some "nc"%string) 2 1 2 ex_chunk [] = Err ValueError
  /\ map (fun e => tile_ext ex_table e (Some "GTiff"%string)) [None; Some ""; Some "TIF"; Some ".x"]%string = [".tif"; ""; ".TIF"; ".x"]%string.
Proof. vm_compute. repeat split; reflexivity. Qed.
Definition ex_tile (r c : Z) : raster :=
  if c =? 0 then Raster I16 (Some (z (-1))) [[z 0; z (-1); z 2]; [z 10; z (-1); z 12]] [[false; true; false]; [false; true; false]]
  else Raster I16 (Some (z (-1))) [[z 7]; [z 17]] [[false]; [false]].
Lemma cells6 b c : in_raster 2 3 b c -> (b = 0 \/ b = 1) /\ (c = 0 \/ c = 1 \/ c = 2). Proof. unfold in_raster. lia. Qed.
Lemma cells2 b c : in_raster 2 1 b c -> (b = 0 \/ b = 1) /\ c = 0. Proof. unfold in_raster. lia. Qed.
Example C97_hypotheses : file_ext ex_table None None ".tif" /\ plain_ext ".tif" /\ no_ext (lower ".tif") /\ asked (Kwargs false None (Some (SInt 5)) None) (Some (SInt 5))
  /\ (forall r c, 0 <= r < 1 -> 0 <= c < 2 -> kept (fun d => negb (dtype_eqb d F16)) (lower ".tif") None 2 (if c =? 0 then 3 else 1) (ex_tile r c) /\ (1 < 2 -> r_nv (ex_tile r c) <> None)
     /\ bands_of (ex_tile r c) = map (fun b => ex_chunk b r c) (zrange 0 2)).
Proof.
  split; [constructor; constructor|]. split; [exists "tif"%string; split; [reflexivity|split; cbn; intros H; repeat (destruct H as [H|H]; [discriminate H|]); exact H]|].
  split; [cbn; intros H; repeat (destruct H as [H|H]; [discriminate H|]); exact H|]. split; [reflexivity|].
  intros r c Hr Hc. assert (D : c = 0 \/ c = 1) by lia. destruct D as [-> | ->]; unfold ex_tile; cbn [Z.eqb].
  - split; [|split; [discriminate|reflexivity]]. split; [split; [lia|split; [lia|split; [split; [reflexivity|repeat constructor]|split; [split; [reflexivity|repeat constructor]|discriminate]]]]|].
    split. { split; [|discriminate]. intros b k I. destruct (cells6 b k I) as [[-> | ->] [-> |[-> | ->]]]; cbn; intros H; (discriminate H || reflexivity). }
    split. { split; [intros b k I; destruct (cells6 b k I) as [[-> | ->] [-> |[-> | ->]]]|intros v E; injection E as <-]; eexists; (split; [|reflexivity]); cbn; lia. }
    split; [discriminate|]. split; [exists I16; split; [reflexivity|split; [reflexivity|discriminate]]|].
    split; [|discriminate]. intros b k I. destruct (cells6 b k I) as [[-> | ->] [-> |[-> | ->]]]; cbn; intros H; (discriminate H || reflexivity).
  - split; [|split; [discriminate|reflexivity]]. split; [split; [lia|split; [lia|split; [split; [reflexivity|repeat constructor]|split; [split; [reflexivity|repeat constructor]|discriminate]]]]|].
    split. { split; [|discriminate]. intros b k I. destruct (cells2 b k I) as [[-> | ->] ->]; cbn; intros H; (discriminate H || reflexivity). }
    split. { split; [intros b k I; destruct (cells2 b k I) as [[-> | ->] ->]|intros v E; injection E as <-]; eexists; (split; [|reflexivity]); cbn; lia. }
    split; [discriminate|]. split; [exists I16; split; [reflexivity|split; [reflexivity|discriminate]]|].
    split; [|discriminate]. intros b k I. destruct (cells2 b k I) as [[-> | ->] ->]; cbn; intros H; (discriminate H || reflexivity).
Qed.

(* ---- findings ---- *)
(* Keywords are not forwarded verbatim: Raster.save refuses null_value together with
   no_data_value, save_chunks drops no_data_value. *)
Theorem C97_both_refuted :
  ~ (forall kw nb ny nx chunk v w, k_null_value kw = Some v -> k_no_data_value kw = Some w -> 0 < nb -> 0 < ny -> 0 < nx ->
       exists e, ex_chunks kw (str "d") true None nb ny nx chunk [] = Err e).
Proof.
  intros H. destruct (H (Kwargs false (Some (SInt 3)) (Some (SInt 4)) None) 1 1 1 ex_chunk (SInt 3) (SInt 4) eq_refl eq_refl eq_refl eq_refl eq_refl) as (e & E). vm_compute in E. discriminate E.
Qed.
Print Assumptions C97_both_refuted.
(* The driver's name is compared with its case, which GDAL ignores: files of driver "png"
   get the extension .tif. *)
Theorem C97_driver_case_refuted :
  ~ (forall table d d' e, d <> "COG"%string -> In (e, d) table -> lower d = lower d' -> exists e', In (e', d) table /\ tile_ext table None (Some d') = String dot e').
Proof.
  intros H. destruct (H ex_table "PNG" "png" "png")%string as (e & I & E); [discriminate|cbn; auto|reflexivity|]. vm_compute in E. injection E as <-.
  cbn in I. repeat (destruct I as [I|I]; [discriminate I|]). exact I.
Qed.
Print Assumptions C97_driver_case_refuted.
