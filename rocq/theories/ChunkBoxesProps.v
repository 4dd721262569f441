(* C82: the bounding boxes of the chunks (Raster.get_chunk_bounding_boxes). *)
From Coq Require Import QArith.
From Verif Require Import Base Chunks ChunksSpec Blocks PadGridSpec ChunkBoxes ChunkBoxesSpec ChunkBoxesProofs.
Open Scope Z_scope.

(* chunks of two or more rows and columns: one row per chunk, in row-major order, with the
   area of the chunk's cells *)
Theorem C82_boxes_partial : forall g, north_up g -> forall ycs xcs, sum ycs = gb_ny g -> sum xcs = gb_nx g ->
  Forall (fun c => 2 <= c) ycs -> Forall (fun c => 2 <= c) xcs ->
  exists t, chunk_boxes g ycs xcs = Ok t
  /\ map fst t = flat_map (fun row => map (fun col => (row, col)) (zrange 0 (len xcs))) (zrange 0 (len ycs))
  /\ forall row col b, In (row, col, b) t -> exists ylo yhi xlo xhi, spans ycs row ylo yhi /\ spans xcs col xlo xhi /\ area_of g ylo yhi xlo xhi b.
Proof. exact boxes_ok. Qed.
Print Assumptions C82_boxes_partial.

(* every cell lies in the box of one chunk only *)
Theorem C82_tile_partial : forall g ycs xcs t, north_up g -> sum ycs = gb_ny g -> sum xcs = gb_nx g ->
  Forall (fun c => 2 <= c) ycs -> Forall (fun c => 2 <= c) xcs -> chunk_boxes g ycs xcs = Ok t ->
  forall i j, 0 <= i < gb_ny g -> 0 <= j < gb_nx g ->
  exists row col b, In (row, col, b) t /\ inside b (fst (gb_coord g i j)) (snd (gb_coord g i j))
  /\ forall row' col' b', In (row', col', b') t -> inside b' (fst (gb_coord g i j)) (snd (gb_coord g i j)) -> row' = row /\ col' = col.
Proof. exact boxes_tile. Qed.
Print Assumptions C82_tile_partial.

(* the other cuttings: a chunk of one row or of one column refuses the whole table *)
Theorem C82_thin_refused : forall g ycs xcs, sum ycs = gb_ny g -> sum xcs = gb_nx g ->
  Forall (fun c => 1 <= c) ycs -> Forall (fun c => 1 <= c) xcs -> ycs <> [] -> xcs <> [] ->
  In 1 ycs \/ In 1 xcs -> chunk_boxes g ycs xcs = Err ValueError.
Proof. exact boxes_refused. Qed.
Print Assumptions C82_thin_refused.

(* include_band: the table once for every band *)
Theorem C82_bands : forall nbands g ycs xcs t, 0 <= nbands -> north_up g -> sum ycs = gb_ny g -> sum xcs = gb_nx g ->
  Forall (fun c => 2 <= c) ycs -> Forall (fun c => 2 <= c) xcs -> chunk_boxes g ycs xcs = Ok t ->
  chunk_boxes_bands nbands g ycs xcs = Ok (flat_map (fun i => map (fun b => (i, b)) t) (zrange 0 nbands)).
Proof. exact boxes_bands. Qed.
Print Assumptions C82_bands.

(* ---------------- an example ---------------- *)
(* 5 rows of height 2, 4 columns of width 1 *)
Definition small : geobox := GeoBox 5 4 (Affine 1 0 10 0 (-2) 100).
Example small_ok : north_up small /\ sum [2; 3] = gb_ny small /\ sum [2; 2] = gb_nx small.
Proof. repeat split; reflexivity || discriminate. Qed.
Example small_boxes : exists t, chunk_boxes small [2; 3] [2; 2] = Ok t
  /\ map (fun p => (fst p, map Qred [b_west (snd p); b_south (snd p); b_east (snd p); b_north (snd p)])) t
     = [((0, 0), [10; 96; 12; 100]%Q); ((0, 1), [12; 96; 14; 100]%Q); ((1, 0), [10; 90; 12; 96]%Q); ((1, 1), [12; 90; 14; 96]%Q)].
Proof. eexists. split; vm_compute; reflexivity. Qed.

(* ---------------- refutations ---------------- *)
(* "every raster has the boxes of its chunks": not with 5 columns in chunks of 4 *)
Definition wide : geobox := GeoBox 4 5 (Affine 1 0 10 0 (-1) 100).
Theorem C82_all_rasters_refuted : ~ (forall g ycs xcs, north_up g -> sum ycs = gb_ny g -> sum xcs = gb_nx g ->
  Forall (fun c => 1 <= c) ycs -> Forall (fun c => 1 <= c) xcs -> exists t, chunk_boxes g ycs xcs = Ok t).
Proof.
  intros H. destruct (H wide [4] [4; 1]) as [t E]; [repeat split; reflexivity || discriminate|reflexivity|reflexivity|repeat constructor; discriminate|repeat constructor; discriminate|].
  vm_compute in E. discriminate.
Qed.
Print Assumptions C82_all_rasters_refuted.
(* "chunk_band is the position of a chunk of the data": three bands in one chunk are given
   positions 0, 1 and 2 *)
Theorem C82_band_position_refuted : ~ (forall bchunks g ycs xcs t band p, north_up g -> sum ycs = gb_ny g -> sum xcs = gb_nx g ->
  Forall (fun c => 1 <= c) bchunks -> chunk_boxes_bands (sum bchunks) g ycs xcs = Ok t -> In (band, p) t -> 0 <= band < len bchunks).
Proof.
  intros H. destruct (chunk_boxes_bands 3 small [5] [4]) as [t|] eqn:E; [|vm_compute in E; discriminate].
  assert (IN : exists p, In (2, p) t). { vm_compute in E. injection E as <-. eexists. right. right. left. reflexivity. }
  destruct IN as [p IN]. assert (X : 0 <= 2 < len [3]).
  { apply (H [3] small [5] [4] t 2 p); [repeat split; reflexivity || discriminate|reflexivity|reflexivity|repeat constructor; discriminate|exact E|exact IN]. }
  vm_compute in X. destruct X as [_ X]. discriminate.
Qed.
Print Assumptions C82_band_position_refuted.
