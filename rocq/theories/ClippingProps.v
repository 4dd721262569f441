(* C74: clipping whole rasters with features. *)
From Coq Require Import QArith.
From Verif Require Import Base Scalars Dtypes Raster FocalSpec FocalResults RasterSpec Rasterize RasterizeRaster RasterizeRasterSpec Clipping ClippingSpec ClippingProofs.
Open Scope Z_scope.

(* clip_box keeps the cells of the window as they are, at their place. *)
Theorem C74_clip_box : forall rw nb ny nx l bounds b, located_ok nb ny nx l -> len bounds = 4 -> rw (l_grid l) bounds = Some b -> is_window ny nx b ->
  exists out, clip_box rw l bounds = Ok out /\ located_ok nb (r1 b - r0 b) (c1 b - c0 b) out /\ r_dtype (l_raster out) = r_dtype (l_raster l) /\ r_nv (l_raster out) = r_nv (l_raster l)
  /\ k_crs (l_grid out) = k_crs (l_grid l) /\ k_row (l_grid out) = k_row (l_grid l) + r0 b /\ k_col (l_grid out) = k_col (l_grid l) + c0 b
  /\ forall d row col, 0 <= d < nb -> has_cell (r1 b - r0 b) (c1 b - c0 b) out row col ->
     value_at out (c1 b - c0 b) d row col = value_at l nx d row col /\ null_at out (c1 b - c0 b) d row col = null_at l nx d row col.
Proof. exact (box_cells (fun _ v => v)). Qed.
Print Assumptions C74_clip_box.

(* clip: the window of the bounds; a cell stays if a feature touches it, in all
   bands, and is null otherwise.  For every chunking and partitioning, and whatever
   was done with the features before.  The window must not take a single row or
   column out of a chunk; there is no result then (C74_thin). *)
Theorem C74_clip : forall cast fd sb rw tb nb ny nx l t crs c' bounds b, located_ok nb ny nx l -> k_crs (l_grid l) = Some crs -> t_crs t = Some c' ->
  len (used_bounds tb t crs bounds) = 4 -> rw (l_grid l) (used_bounds tb t crs bounds) = Some b -> is_window ny nx b -> thick_window b (l_grid l) ->
  exists out, clip cast fd sb rw tb t l bounds = Ok out
  /\ k_row (l_grid out) = k_row (l_grid l) + r0 b /\ k_col (l_grid out) = k_col (l_grid l) + c0 b
  /\ left_of nb nx (c1 b - c0 b) (r1 b - r0 b) l out (touched t crs).
Proof. exact clip_ok. Qed.
Print Assumptions C74_clip.
(* erase: the other cells of the window *)
Theorem C74_erase : forall cast fd sb rw tb nb ny nx l t crs c' bounds b, located_ok nb ny nx l -> k_crs (l_grid l) = Some crs -> t_crs t = Some c' ->
  len (used_bounds tb t crs bounds) = 4 -> rw (l_grid l) (used_bounds tb t crs bounds) = Some b -> is_window ny nx b -> thick_window b (l_grid l) ->
  exists out, erase cast fd sb rw tb t l bounds = Ok out
  /\ k_row (l_grid out) = k_row (l_grid l) + r0 b /\ k_col (l_grid out) = k_col (l_grid l) + c0 b
  /\ left_of nb nx (c1 b - c0 b) (r1 b - r0 b) l out (fun row col => negb (touched t crs row col)).
Proof. exact erase_ok. Qed.
Print Assumptions C74_erase.
(* envelope: all cells of the window *)
Theorem C74_envelope : forall cast fd sb rw tb nb ny nx l t crs c' b, located_ok nb ny nx l -> k_crs (l_grid l) = Some crs -> t_crs t = Some c' ->
  len (used_bounds tb t crs None) = 4 -> rw (l_grid l) (used_bounds tb t crs None) = Some b -> is_window ny nx b -> thick_window b (l_grid l) ->
  exists out, envelope cast fd sb rw tb t l = Ok out
  /\ k_row (l_grid out) = k_row (l_grid l) + r0 b /\ k_col (l_grid out) = k_col (l_grid l) + c0 b
  /\ left_of nb nx (c1 b - c0 b) (r1 b - r0 b) l out (fun _ _ => true).
Proof. exact envelope_ok. Qed.
Print Assumptions C74_envelope.
(* mask: the whole raster, inside or outside of the features *)
Theorem C74_mask : forall cast fd sb rw tb nb ny nx l t crs c' invert, located_ok nb ny nx l -> k_crs (l_grid l) = Some crs -> t_crs t = Some c' -> thick (l_grid l) ->
  exists out, mask cast fd sb rw tb t l invert = Ok out /\ l_grid out = l_grid l
  /\ left_of nb nx nx ny l out (fun row col => xorb invert (touched t crs row col)).
Proof. exact mask_all. Qed.
Print Assumptions C74_mask.

(* clip and erase divide the cells of clip_box among them. *)
Theorem C74_complement : forall cast fd sb rw tb nb ny nx l t crs c' bounds b, located_ok nb ny nx l -> k_crs (l_grid l) = Some crs -> t_crs t = Some c' ->
  len (used_bounds tb t crs bounds) = 4 -> rw (l_grid l) (used_bounds tb t crs bounds) = Some b -> is_window ny nx b -> thick_window b (l_grid l) ->
  exists o1 o2 o3, clip cast fd sb rw tb t l bounds = Ok o1 /\ erase cast fd sb rw tb t l bounds = Ok o2 /\ clip_box rw l (used_bounds tb t crs bounds) = Ok o3
  /\ forall d i, 0 <= d < nb -> 0 <= i < (r1 b - r0 b) * (c1 b - c0 b) ->
     null (l_raster o3) d i = null (l_raster o1) d i && null (l_raster o2) d i
     /\ null (l_raster o1) d i || null (l_raster o2) d i = true
     /\ (null (l_raster o1) d i = false -> value (l_raster o1) d i = value (l_raster o3) d i)
     /\ (null (l_raster o2) d i = false -> value (l_raster o2) d i = value (l_raster o3) d i).
Proof. exact complement. Qed.
Print Assumptions C74_complement.

(* Chunks and partitions do not matter. *)
Theorem C74_same : forall cast fd sb rw tb nb ny nx l1 l2 t1 t2 crs c1' c2' bounds b env inv, located_ok nb ny nx l1 -> located_ok nb ny nx l2 ->
  l_raster l1 = l_raster l2 -> k_row (l_grid l1) = k_row (l_grid l2) -> k_col (l_grid l1) = k_col (l_grid l2) -> k_crs (l_grid l1) = Some crs -> k_crs (l_grid l2) = Some crs ->
  t_crs t1 = Some c1' -> t_crs t2 = Some c2' -> concat (t_parts t1) = concat (t_parts t2) -> env && inv = false ->
  len bounds = 4 -> rw (l_grid l1) bounds = Some b -> rw (l_grid l2) bounds = Some b -> is_window ny nx b -> thick_window b (l_grid l1) -> thick_window b (l_grid l2) ->
  exists o1 o2, clip_with cast fd sb rw tb t1 l1 inv true (Some bounds) env = Ok o1 /\ clip_with cast fd sb rw tb t2 l2 inv true (Some bounds) env = Ok o2
  /\ same_cells nb ((r1 b - r0 b) * (c1 b - c0 b)) o1 o2.
Proof. exact same_results. Qed.
Print Assumptions C74_same.

(* Where the chunks that are rasterised onto have one row or column, there is no
   result. *)
Theorem C74_thin : forall cast fd sb rw tb t l inv bounds b env crs, k_crs (l_grid l) = Some crs -> rw (l_grid l) (used_bounds tb t crs bounds) = Some b -> ~ thick_window b (l_grid l) ->
  forall out, clip_with cast fd sb rw tb t l inv true bounds env <> Ok out.
Proof. exact thin_window. Qed.
Print Assumptions C74_thin.
Theorem C74_thin_mask : forall cast fd sb rw tb t l inv, ~ thick (l_grid l) -> forall out, mask cast fd sb rw tb t l inv <> Ok out.
Proof. exact thin_mask. Qed.
Print Assumptions C74_thin_mask.

(* Refusals; KeyError stands for RuntimeError. *)
Theorem C74_refused : forall cast fd sb rw tb t l inv trim bounds env, env && inv = false ->
  (k_crs (l_grid l) = None -> clip_with cast fd sb rw tb t l inv trim bounds env = Err ValueError)
  /\ (forall b, bounds = Some b -> len b <> 4 -> clip_with cast fd sb rw tb t l inv trim bounds env = Err ValueError)
  /\ (t_crs t = None -> clip_with cast fd sb rw tb t l inv trim bounds env = Err ValueError)
  /\ (forall crs c', k_crs (l_grid l) = Some crs -> t_crs t = Some c' -> trim = true -> len (used_bounds tb t crs bounds) = 4 -> rw (l_grid l) (used_bounds tb t crs bounds) = None ->
      clip_with cast fd sb rw tb t l inv trim bounds env = Err KeyError)
  /\ (forall b, len b <> 4 -> clip_box rw l b = Err ValueError) /\ (forall b, len b = 4 -> rw (l_grid l) b = None -> clip_box rw l b = Err KeyError).
Proof. exact refusals. Qed.
Print Assumptions C74_refused.

(* ---- an example: a raster of 2 bands without a null value at row 10, column 20 ---- *)
Definition ex_on (cells : list (Z * Z)) (crs : option Z) (r c : Z) : bool := existsb (fun p => (fst p =? r) && (snd p =? c)) cells.
Definition ex_features : table := Table [[GFeature 0 (fun _ => NaN) (ex_on [(11, 21); (11, 22)])]; []; [GFeature 0 (fun _ => NaN) (ex_on [(12, 22); (5, 5)])]] None (Some 7) [].
Definition ex_data : located := Located (Raster I16 None [map of_Z [1; 2; 3; 4; 5; 6; 7; 8; 9; 10; 11; 12]; map of_Z [21; 22; 23; 24; 25; 26; 27; 28; 29; 30; 31; 32]]
  [full 12 false; full 12 false]) (Grid [1; 2] [4] 10 20 (Some 4)).
Definition ex_rw (k : grid) (b : list Q) : option box := match b with _ :: _ => Some (Box 1 3 1 4) | [] => None end.
Definition ex_tb (t : table) : list Q := [0; 0; 1; 1]%Q.
Definition ex_clip := clip (fun _ v => v) (fun _ => F64) (fun _ _ _ => true) ex_rw ex_tb ex_features ex_data None.
Definition ex_erase := erase (fun _ v => v) (fun _ => F64) (fun _ _ _ => true) ex_rw ex_tb ex_features ex_data None.
Example C74_example :
  (let* o := ex_clip in Ok (r_mask (l_raster o), k_ychunks (l_grid o), k_xchunks (l_grid o), (k_row (l_grid o), k_col (l_grid o))))
    = Ok ([[false; false; true; true; false; true]; [false; false; true; true; false; true]], [2], [3], (11, 21))
  /\ (let* o := ex_clip in Ok (r_nv (l_raster o), r_data (l_raster o))) = Ok (Some (of_Z (-32768)), [map of_Z [6; 7; -32768; -32768; 11; -32768]; map of_Z [26; 27; -32768; -32768; 31; -32768]])
  /\ (let* o := ex_erase in Ok (r_data (l_raster o))) = Ok [map of_Z [-32768; -32768; 8; 10; -32768; 12]; map of_Z [-32768; -32768; 28; 30; -32768; 32]].
Proof. vm_compute. repeat split. Qed.
Example C74_hypotheses : located_ok 2 3 4 ex_data /\ k_crs (l_grid ex_data) = Some 4 /\ t_crs ex_features = Some 7
  /\ len (used_bounds ex_tb ex_features 4 None) = 4 /\ ex_rw (l_grid ex_data) (used_bounds ex_tb ex_features 4 None) = Some (Box 1 3 1 4) /\ is_window 3 4 (Box 1 3 1 4) /\ thick_window (Box 1 3 1 4) (l_grid ex_data).
Proof.
  split; [|split; [easy|split; [easy|split; [easy|split; [easy|split; [easy|]]]]]]. 2:{ split; apply slice_chunks_thick; repeat constructor; easy. }
  split.
  - split; [easy|]. split; [easy|]. split; [split; [reflexivity|repeat constructor]|]. split; [split; [reflexivity|repeat constructor]|].
    intros _ b c [Hb Hc]. unfold null. cbn [ex_data l_raster r_mask]. assert (B : b = 0 \/ b = 1) by lia. assert (C : c = 0 \/ c = 1 \/ c = 2 \/ c = 3 \/ c = 4 \/ c = 5 \/ c = 6 \/ c = 7 \/ c = 8 \/ c = 9 \/ c = 10 \/ c = 11) by lia.
    destruct B as [-> | ->]; repeat (destruct C as [-> | C]; [reflexivity|]); subst; reflexivity.
  - split; [|split; [|split; [discriminate|reflexivity]]]; unfold cuts; repeat split; repeat constructor; easy.
Qed.
(* Finding: a raster of chunks of 2 rows and columns, clipped so that one row of a
   chunk is left, is refused; in one chunk it is clipped. *)
Definition ex_chunks (y x : list Z) : located := Located (Raster I16 None [map of_Z [1; 2; 3; 4; 5; 6; 7; 8; 9; 10; 11; 12; 13; 14; 15; 16]] [full 16 false]) (Grid y x 10 20 (Some 4)).
Theorem C74_chunks_refuted : ~ (forall cast fd sb rw tb nb ny nx l1 l2 t bounds o1, located_ok nb ny nx l1 -> located_ok nb ny nx l2 -> thick (l_grid l1) -> thick (l_grid l2) ->
  l_raster l1 = l_raster l2 -> k_row (l_grid l1) = k_row (l_grid l2) -> k_col (l_grid l1) = k_col (l_grid l2) -> k_crs (l_grid l1) = k_crs (l_grid l2) -> (forall k1 k2 b, rw k1 b = rw k2 b) ->
  clip cast fd sb rw tb t l1 bounds = Ok o1 -> exists o2, clip cast fd sb rw tb t l2 bounds = Ok o2).
Proof.
  intros H. set (go l := clip (fun _ v => v) (fun _ => F64) (fun _ _ _ => true) ex_rw ex_tb ex_features l None).
  assert (OK : forall y x, cuts 4 y -> cuts 4 x -> x <> [] -> located_ok 1 4 4 (ex_chunks y x)).
  { intros y x Y X N. split; [|split; [exact Y|split; [exact X|split; [exact N|reflexivity]]]]. split; [easy|]. split; [easy|]. split; [split; [reflexivity|repeat constructor]|]. split; [split; [reflexivity|repeat constructor]|].
    intros _ b c [Hb Hc]. unfold null. cbn [ex_chunks l_raster r_mask]. replace b with 0 by lia. unfold val2. change (get [full 16 false] 0) with (Ok (full 16 false)). cbn [rbind]. rewrite BaseFacts.get_full by lia. reflexivity. }
  destruct (go (ex_chunks [4] [4])) as [o1|] eqn:E1; [|vm_compute in E1; discriminate].
  destruct (H (fun _ v => v) (fun _ => F64) (fun _ _ _ => true) ex_rw ex_tb 1 4 4 (ex_chunks [4] [4]) (ex_chunks [2; 2] [2; 2]) ex_features None o1) as (o2 & E2).
  - apply OK; [| |discriminate]; unfold cuts; repeat split; repeat constructor; easy.
  - apply OK; [| |discriminate]; unfold cuts; repeat split; repeat constructor; easy.
  - split; repeat constructor; easy.
  - split; repeat constructor; easy.
  - reflexivity.
  - reflexivity.
  - reflexivity.
  - reflexivity.
  - intros k1 k2 b. reflexivity.
  - exact E1.
  - vm_compute in E2. discriminate.
Qed.
Print Assumptions C74_chunks_refuted.
