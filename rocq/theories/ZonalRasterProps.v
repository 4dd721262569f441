(* C77: zonal_stats as a whole. *)
From Coq Require Import QArith String Permutation Sorted Lia.
From Verif Require Import Base BaseFacts Scalars Dtypes FocalSpec FocalResults Raster RasterSpec StatsSpec Zonal ZonalSpec Rasterize RasterizeSpec RasterizeRaster RasterizeRasterSpec ZonalRaster ZonalRasterSpec ZonalRasterProofs ZonalRasterCells ZonalRasterMain ZonalRasterCalls.
Open Scope Z_scope.

(* Zones from a raster.  The frame has one row for each zone that has a cell, and
   for each band and statistic the statistic of the valid values of that band in
   the cells of the zone: for every chunking, every order of the cells in the
   partitions and every tree of aggregations.  Both rasters hold their null value
   exactly in their null cells.  When the data has several bands, the raster of
   zones must have the chunks dask chooses (see C77_several_bands_refuted). *)
Theorem C77_raster : forall cast fd sb auto_chunks partition tree_of result_parts other, (forall v, is_nan (cast F64 v) = is_nan v) -> partitions_cells partition -> (forall parts, flat_map leaves (tree_of parts) = concat parts) ->
  (forall name x y, Permutation x y -> other name x = other name y) -> chunks_fit auto_chunks ->
  forall nb ny nx p data names field, lies 1 ny nx p -> lies nb ny nx data -> k_crs (p_grid p) = k_crs (p_grid data) -> is_int_dtype (r_dtype (p_raster p)) = true ->
  names <> [] -> Forall (fun s => In s stat_names) names -> (forall i, 0 <= i < ny * nx -> is_nan (value (p_raster p) 0 i) = false) ->
  (nb = 1 \/ (k_ychunks (p_grid p), k_xchunks (p_grid p)) = auto_chunks ny nx) ->
  exists f, zonal_stats cast fd sb auto_chunks partition tree_of result_parts other (FeatRaster p) data (StatList names) field true false = Ok (Wide f, FeatRaster p)
  /\ frame_of cast other names (zone_raster (p_raster p)) (ny * nx) nb (p_raster data) f.
Proof. exact (fun cast fd sb ac pt tr rp ot H1 H2 H3 H4 H5 => raster_ok cast fd sb ac pt tr rp ot H1 H2 H3 H4 H5). Qed.
Print Assumptions C77_raster.

(* Zones from features: a cell belongs to the last feature of the table that touches
   it; zones are named by the field, or by the index plus 1.  dask's choice of chunks
   must not have a chunk of one row or column; there is no result then (C77_thin). *)
Theorem C77_features : forall cast fd sb auto_chunks partition tree_of result_parts other, (forall v, is_nan (cast F64 v) = is_nan v) -> partitions_cells partition -> (forall parts, flat_map leaves (tree_of parts) = concat parts) ->
  (forall name x y, Permutation x y -> other name x = other name y) -> chunks_fit auto_chunks ->
  forall nb ny nx t in_memory data names field d fill, lies nb ny nx data -> big_chunks (auto_chunks ny nx) -> can_transform t (p_grid data) -> (in_memory = false -> spatial_right t (p_grid data)) ->
  (forall crs p, covers crs (grid_box (p_grid data)) p (sb crs p)) -> zones_ok t field d fill -> names <> [] -> Forall (fun s => In s stat_names) names ->
  exists f t', zonal_stats cast fd sb auto_chunks partition tree_of result_parts other (FeatTable t in_memory) data (StatList names) field true false = Ok (Wide f, FeatTable t' in_memory)
  /\ (in_memory = true -> t' = t) /\ frame_of cast other names (zone_table t (p_grid data) field nx) (ny * nx) nb (p_raster data) f.
Proof. exact (fun cast fd sb ac pt tr rp ot H1 H2 H3 H4 H5 => table_ok cast fd sb ac pt tr rp ot H1 H2 H3 H4 H5). Qed.
Print Assumptions C77_features.

Theorem C77_thin : forall cast fd sb auto_chunks partition tree_of result_parts other, chunks_fit auto_chunks ->
  forall nb ny nx t in_memory data s field wide overlap, lies nb ny nx data -> ~ big_chunks (auto_chunks ny nx) ->
  forall r, zonal_stats cast fd sb auto_chunks partition tree_of result_parts other (FeatTable t in_memory) data s field wide overlap <> Ok r.
Proof. exact thin_stats. Qed.
Print Assumptions C77_thin.

(* handle_overlap: the rows of each feature on its own, over all cells it touches. *)
Theorem C77_overlap : forall cast fd sb auto_chunks partition tree_of result_parts other, (forall v, is_nan (cast F64 v) = is_nan v) -> partitions_cells partition -> (forall parts, flat_map leaves (tree_of parts) = concat parts) ->
  (forall name x y, Permutation x y -> other name x = other name y) -> chunks_fit auto_chunks ->
  forall nb ny nx t in_memory data names field d fill, lies nb ny nx data -> big_chunks (auto_chunks ny nx) -> can_transform t (p_grid data) ->
  (forall crs p, covers crs (grid_box (p_grid data)) p (sb crs p)) -> zones_ok t field d fill -> names <> [] -> Forall (fun s => In s stat_names) names -> concat (t_parts t) <> [] ->
  exists f fs, zonal_stats cast fd sb auto_chunks partition tree_of result_parts other (FeatTable t in_memory) data (StatList names) field true true = Ok (Wide f, FeatTable t in_memory)
  /\ Forall2 (fun g fg => frame_of cast other names (zone_feature (cells_crs t (p_grid data)) g (p_grid data) field nx) (ny * nx) nb (p_raster data) fg) (concat (t_parts t)) fs
  /\ f_columns f = columns_of nb names /\ f_rows f = concat (map f_rows fs).
Proof. exact (fun cast fd sb ac pt tr rp ot H1 H2 H3 H4 H5 => overlap_ok cast fd sb ac pt tr rp ot H1 H2 H3 H4 H5). Qed.
Print Assumptions C77_overlap.

(* The long format: for each partition of the wide frame one row for each zone and
   band, ordered by the label of the band and the zone. *)
Theorem C77_long : forall cast fd sb auto_chunks partition tree_of result_parts other f data names field fr f' zone n nb dr, 0 <= nb -> names <> [] -> Forall (fun s => In s stat_names) names ->
  (forall rows, concat (result_parts rows) = rows) ->
  zonal_stats cast fd sb auto_chunks partition tree_of result_parts other f data (StatList names) field true false = Ok (Wide fr, f') -> frame_of cast other names zone n nb dr fr ->
  exists parts, zonal_stats cast fd sb auto_chunks partition tree_of result_parts other f data (StatList names) field false false = Ok (Long (concat parts), f')
  /\ Forall2 (fun rows part => Permutation part (long_rows nb (len names) rows) /\ StronglySorted label_order part) (result_parts (f_rows fr)) parts.
Proof. exact long_ok. Qed.
Print Assumptions C77_long.
Theorem C77_overlap_long : forall cast fd sb auto_chunks partition tree_of result_parts other, (forall v, is_nan (cast F64 v) = is_nan v) -> partitions_cells partition -> (forall parts, flat_map leaves (tree_of parts) = concat parts) ->
  (forall name x y, Permutation x y -> other name x = other name y) -> chunks_fit auto_chunks ->
  forall nb ny nx t in_memory data names field d fill, (forall rows, concat (result_parts rows) = rows) -> lies nb ny nx data -> big_chunks (auto_chunks ny nx) -> can_transform t (p_grid data) ->
  (forall crs p, covers crs (grid_box (p_grid data)) p (sb crs p)) -> zones_ok t field d fill -> names <> [] -> Forall (fun s => In s stat_names) names -> concat (t_parts t) <> [] ->
  exists ls, zonal_stats cast fd sb auto_chunks partition tree_of result_parts other (FeatTable t in_memory) data (StatList names) field false true = Ok (Long (concat ls), FeatTable t in_memory)
  /\ Forall2 (fun g l => exists fg parts, frame_of cast other names (zone_feature (cells_crs t (p_grid data)) g (p_grid data) field nx) (ny * nx) nb (p_raster data) fg
       /\ l = concat parts /\ Forall2 (fun rows part => Permutation part (long_rows nb (len names) rows) /\ StronglySorted label_order part) (result_parts (f_rows fg)) parts) (concat (t_parts t)) ls.
Proof. exact (fun cast fd sb ac pt tr rp ot H1 H2 H3 H4 H5 => overlap_long_ok cast fd sb ac pt tr rp ot H1 H2 H3 H4 H5). Qed.
Print Assumptions C77_overlap_long.
(* one name instead of a list *)
Theorem C77_name : forall cast fd sb auto_chunks partition tree_of result_parts other f data s field wide overlap,
  zonal_stats cast fd sb auto_chunks partition tree_of result_parts other f data (StatName s) field wide overlap = zonal_stats cast fd sb auto_chunks partition tree_of result_parts other f data (StatList [s]) field wide overlap.
Proof. reflexivity. Qed.
Print Assumptions C77_name.

(* Refusals. *)
Theorem C77_refused : forall cast fd sb auto_chunks partition tree_of result_parts other, chunks_fit auto_chunks -> forall nb ny nx data s field wide overlap, lies nb ny nx data ->
  let call f := zonal_stats cast fd sb auto_chunks partition tree_of result_parts other f data s field wide overlap in
  call FeatOther = Err TypeError
  /\ (forall p, is_int_dtype (r_dtype (p_raster p)) = false -> call (FeatRaster p) = Err TypeError)
  /\ (forall p, is_int_dtype (r_dtype (p_raster p)) = true -> 1 < len (r_data (p_raster p)) -> call (FeatRaster p) = Err ValueError)
  /\ (forall t m, bad_stats s -> call (FeatTable t m) = Err ValueError)
  /\ (forall p, is_int_dtype (r_dtype (p_raster p)) = true -> bad_stats s \/ overlap = true \/ k_crs (p_grid p) <> k_crs (p_grid data) \/ grid_ny (p_grid p) <> ny \/ grid_nx (p_grid p) <> nx -> call (FeatRaster p) = Err ValueError)
  /\ (forall t m name, ~ bad_stats s -> field = Some name -> lookup name (t_columns t) = None -> concat (t_parts t) <> [] -> call (FeatTable t m) = Err KeyError)
  /\ (forall t m, ~ bad_stats s -> overlap = true -> concat (t_parts t) = [] -> call (FeatTable t m) = Err ValueError)
  /\ (forall p, lies 1 ny nx p -> nb <> 1 -> (k_ychunks (p_grid p), k_xchunks (p_grid p)) <> auto_chunks ny nx -> is_int_dtype (r_dtype (p_raster p)) = true -> k_crs (p_grid p) = k_crs (p_grid data) ->
       call (FeatRaster p) = Err ValueError).
Proof. exact refusals. Qed.
Print Assumptions C77_refused.

(* ---- an example: 2 x 3 cells ---- *)
Definition z_cast (d : dtype) (v : num) : num := v.
Definition z_fd (v : num) : dtype := F64.
Definition z_sb (c : option Z) (p : list gfeature) : region := fun _ => true.
Definition z_auto (ny nx : Z) : list Z * list Z := ([ny], [nx]).
Definition z_partition (ys xs : list Z) : list (list Z) := [[]; rev (zrange 0 (RasterizeRaster.total ys * RasterizeRaster.total xs))].
Definition z_tree (parts : list (list row)) : list (Zonal.tree (list row)) := [Node (map Leaf parts)].
Definition z_parts (rows : list (num * list num)) : list (list (num * list num)) := [rows].
Definition z_other (name : string) (x : list num) : num := of_Z (fold_right (fun v a => match v with Fin q => Qnum q + a | _ => a end) 0 x).
Definition z_stats := zonal_stats z_cast z_fd z_sb z_auto z_partition z_tree z_parts z_other.
Definition zones : placed := Placed (Raster I32 (Some (of_Z 0)) [map of_Z [1; 1; 2; 0; 2; 1]] [[false; false; false; true; false; false]]) (Grid [2] [1; 2] 0 0 (Some 7)).
Definition one_band : placed := Placed (Raster I16 (Some (of_Z (-9))) [map of_Z [4; 5; 6; 7; -9; 4]] [[false; false; false; false; true; false]]) (Grid [1; 1] [3] 0 0 (Some 7)).
Definition two_bands : placed := Placed (Raster F64 None [map of_Z [4; 5; 6; 7; 8; 4]; map of_Z [1; 2; 3; 4; 5; 6]] [full 6 false; full 6 false]) (Grid [1; 1] [3] 0 0 (Some 7)).
Definition z_feature (i v : Z) (cells : list (Z * Z)) : gfeature := GFeature i (fun _ => of_Z v) (fun _ r c => existsb (fun p => (fst p =? r) && (snd p =? c)) cells).
Definition z_table : table := Table [[z_feature 0 30 [(0, 0); (0, 1)]]; [z_feature 1 20 [(0, 1); (0, 2)]]] None (Some 7) [("id"%string, Some I32)].
Definition z_names : list string := ["count"; "median"; "max"]%string.
Definition no_features {A B} (r : res (A * B)) : res A := let* x := r in Ok (fst x).
Definition row_is (z : Z) (vals : list Z) : num * list num := (of_Z z, map of_Z vals).
(* zone 1: cells 0, 1 and 5; zone 2: cell 2 (cell 4 is null) *)
Example C77_example : no_features (z_stats (FeatRaster zones) one_band (StatList z_names) None true false)
  = Ok (Wide (ZFrame [("band_1", "count"); ("band_1", "median"); ("band_1", "max")]%string [row_is 1 [3; 13; 5]; row_is 2 [1; 6; 6]])).
Proof. vm_compute. reflexivity. Qed.
Example C77_example_features : no_features (z_stats (FeatTable z_table true) two_bands (StatList ["size"; "min"]%string) (Some "id"%string) true false)
  = Ok (Wide (ZFrame [("band_1", "size"); ("band_1", "min"); ("band_2", "size"); ("band_2", "min")]%string [row_is 20 [2; 5; 2; 2]; row_is 30 [1; 4; 1; 1]]))
  /\ no_features (z_stats (FeatTable z_table true) two_bands (StatList ["size"; "min"]%string) (Some "id"%string) true true)
  = Ok (Wide (ZFrame [("band_1", "size"); ("band_1", "min"); ("band_2", "size"); ("band_2", "min")]%string [row_is 30 [2; 4; 2; 1]; row_is 20 [2; 5; 2; 2]]))
  /\ no_features (z_stats (FeatTable z_table true) two_bands (StatList ["size"; "min"]%string) (Some "id"%string) false false)
  = Ok (Long [LongRow (of_Z 20) 1 (map of_Z [2; 5]); LongRow (of_Z 30) 1 (map of_Z [1; 4]); LongRow (of_Z 20) 2 (map of_Z [2; 2]); LongRow (of_Z 30) 2 (map of_Z [1; 1])]).
Proof. vm_compute. auto. Qed.
Lemma cuts_total n l : cuts n l -> RasterizeRaster.total l = n.
Proof. apply total_cuts. Qed.
Example C77_hypotheses : (forall v, is_nan (z_cast F64 v) = is_nan v) /\ partitions_cells z_partition /\ (forall parts, flat_map leaves (z_tree parts) = concat parts)
  /\ (forall name x y, Permutation x y -> z_other name x = z_other name y) /\ chunks_fit z_auto /\ (forall rows, concat (z_parts rows) = rows)
  /\ lies 1 2 3 zones /\ lies 1 2 3 one_band /\ Forall (fun s => In s stat_names) z_names /\ (forall i, 0 <= i < 2 * 3 -> is_nan (value (p_raster zones) 0 i) = false)
  /\ lies 2 2 3 two_bands /\ zones_ok z_table (Some "id"%string) I32 (default_null I32) /\ (forall crs p, covers crs (grid_box (p_grid two_bands)) p (z_sb crs p)) /\ can_transform z_table (p_grid two_bands) /\ big_chunks (z_auto 2 3).
Proof.
  split; [reflexivity|]. split; [|split; [|split; [|split; [|split; [|split; [|split; [|split; [|split; [|split; [|split; [|split]]]]]]]]]]].
  - intros ny nx ys xs Hy Hx. unfold z_partition. rewrite (cuts_total _ _ Hy), (cuts_total _ _ Hx). cbn [concat app]. rewrite app_nil_r. symmetry. apply Permutation_rev.
  - intros parts. cbn. rewrite app_nil_r. induction parts as [|p parts IH]; [reflexivity|]. cbn. now rewrite IH.
  - intros name x y P. unfold z_other. f_equal. induction P as [|v x y P IH|v w x|x y w P1 IH1 P2 IH2]; cbn; [reflexivity|now rewrite IH|destruct v, w; lia|congruence].
  - intros ny nx Hy Hx. cbn. repeat split; try discriminate; repeat constructor; cbn; lia.
  - intros rows. cbn. apply app_nil_r.
  - repeat split; try discriminate; try (repeat constructor; cbn; lia); try reflexivity. intros b i [Hb Hi]. assert (X : b = 0) by lia. subst. assert (Y : i = 0 \/ i = 1 \/ i = 2 \/ i = 3 \/ i = 4 \/ i = 5) by lia. intuition (subst; reflexivity).
  - repeat split; try discriminate; try (repeat constructor; cbn; lia); try reflexivity. intros b i [Hb Hi]. assert (X : b = 0) by lia. subst. assert (Y : i = 0 \/ i = 1 \/ i = 2 \/ i = 3 \/ i = 4 \/ i = 5) by lia. intuition (subst; reflexivity).
  - unfold z_names, stat_names. repeat apply Forall_cons; try apply Forall_nil; cbn [In]; tauto.
  - intros i Hi. assert (Y : i = 0 \/ i = 1 \/ i = 2 \/ i = 3 \/ i = 4 \/ i = 5) by lia. intuition (subst; reflexivity).
  - repeat split; try discriminate; try (repeat constructor; cbn; lia); try reflexivity.
    + intros _ b i [Hb Hi]. assert (X : b = 0 \/ b = 1) by lia. assert (Y : i = 0 \/ i = 1 \/ i = 2 \/ i = 3 \/ i = 4 \/ i = 5) by lia. intuition (subst; reflexivity).
    + intros b i [Hb Hi]. assert (X : b = 0 \/ b = 1) by lia. assert (Y : i = 0 \/ i = 1 \/ i = 2 \/ i = 3 \/ i = 4 \/ i = 5) by lia. intuition (subst; reflexivity).
  - split; [split; reflexivity|]. split; [reflexivity|]. intros g [<-|[<-|[]]]; split; reflexivity.
  - intros crs p f b r c _ _ _ _. reflexivity.
  - split; [discriminate|]. split; repeat constructor; easy.
Qed.

(* Finding: data with several bands and a raster of zones with other chunks than
   dask's choice for float64: zonal.py:234 rechunks the zones, one band, with the
   chunks of all bands of the data, which dask refuses. *)
Theorem C77_several_bands_refuted : ~ (forall nb ny nx p data names, lies 1 ny nx p -> lies nb ny nx data -> k_crs (p_grid p) = k_crs (p_grid data) -> is_int_dtype (r_dtype (p_raster p)) = true ->
  names <> [] -> Forall (fun s => In s stat_names) names -> exists f, z_stats (FeatRaster p) data (StatList names) None true false = Ok (Wide f, FeatRaster p)).
Proof.
  intros H. destruct C77_hypotheses as (_ & _ & _ & _ & _ & _ & H1 & _ & H3 & _ & H4 & _).
  destruct (H 2 2 3 zones two_bands z_names H1 H4 eq_refl eq_refl ltac:(discriminate) H3) as [f E]. vm_compute in E. discriminate.
Qed.
Print Assumptions C77_several_bands_refuted.
(* Finding: without a field the zones are named by the index plus 1, not by the
   index, as zonal.py:359 says. *)
Theorem C77_index_refuted : ~ (forall t data names f t', t_parts t <> [] -> z_stats (FeatTable t true) data (StatList names) None true false = Ok (Wide f, t') ->
  forall z vals, In (z, vals) (f_rows f) -> exists g, In g (concat (t_parts t)) /\ num_eqb z (of_Z (g_index g)) = true).
Proof.
  intros H. destruct (z_stats (FeatTable z_table true) one_band (StatList ["size"%string]) None true false) as [[[f|] t']|] eqn:E; [|vm_compute in E; discriminate..].
  assert (X : f_rows f = [row_is 2 [2]; row_is 1 [1]]).
  { assert (Y : no_features (z_stats (FeatTable z_table true) one_band (StatList ["size"%string]) None true false) = Ok (Wide (ZFrame [("band_1", "size")]%string [row_is 2 [2]; row_is 1 [1]]))) by (vm_compute; reflexivity).
    rewrite E in Y. cbn [no_features rbind fst] in Y. assert (Z : f = ZFrame [("band_1", "size")]%string [row_is 2 [2]; row_is 1 [1]]) by congruence. now rewrite Z. }
  destruct (H z_table one_band ["size"%string] f t' ltac:(discriminate) E (of_Z 2) [of_Z 2]) as (g & [<-|[<-|[]]] & B); [rewrite X; now left|vm_compute in B; discriminate..].
Qed.
Print Assumptions C77_index_refuted.
(* Finding: the null mask is not looked at; valid cells that hold the null value
   (an int16 raster where an operation gave -9) are left out. *)
Definition unclean : placed := Placed (Raster I16 (Some (of_Z (-9))) [map of_Z [4; 5; 6; 7; -9; -9]] [[false; false; false; false; true; false]]) (Grid [2] [3] 0 0 (Some 7)).
Theorem C77_mask_refuted : ~ (forall ny nx p data f f', lies 1 ny nx p -> wf 1 (ny * nx) (p_raster data) -> RasterSpec.burned 1 (ny * nx) (p_raster data) ->
  z_stats (FeatRaster p) data (StatList ["count"%string]) None true false = Ok (Wide f, f') ->
  forall z e, In (z, [e]) (f_rows f) -> e = of_Z (len (valid_values z_cast (p_raster data) 0 (cells_of (zone_raster (p_raster p)) (ny * nx) z)))).
Proof.
  intros H. destruct (z_stats (FeatRaster zones) unclean (StatList ["count"%string]) None true false) as [[[f|] t']|] eqn:E; [|vm_compute in E; discriminate..].
  assert (X : f_rows f = [row_is 1 [2]; row_is 2 [1]]).
  { assert (Y : no_features (z_stats (FeatRaster zones) unclean (StatList ["count"%string]) None true false) = Ok (Wide (ZFrame [("band_1", "count")]%string [row_is 1 [2]; row_is 2 [1]]))) by (vm_compute; reflexivity).
    rewrite E in Y. cbn [no_features rbind fst] in Y. assert (Z : f = ZFrame [("band_1", "count")]%string [row_is 1 [2]; row_is 2 [1]]) by congruence. now rewrite Z. }
  specialize (H 2 3 zones unclean f t' (proj1 (proj2 (proj2 (proj2 (proj2 (proj2 (proj2 C77_hypotheses)))))))). 
  assert (W : wf 1 (2 * 3) (p_raster unclean)) by (repeat split; try discriminate; try (repeat constructor; cbn; lia); reflexivity).
  assert (B : RasterSpec.burned 1 (2 * 3) (p_raster unclean)).
  { split; [|discriminate]. intros b i [Hb Hi]. assert (b = 0) by lia. subst. assert (Y : i = 0 \/ i = 1 \/ i = 2 \/ i = 3 \/ i = 4 \/ i = 5) by lia. intuition (subst; try discriminate; reflexivity). }
  specialize (H W B E (of_Z 1) (of_Z 2)). rewrite X in H. specialize (H (or_introl eq_refl)). vm_compute in H. discriminate.
Qed.
Print Assumptions C77_mask_refuted.
(* Finding: the long format orders the bands by their labels, "band_10" before
   "band_2". *)
Definition ten_bands : placed := Placed (Raster I16 None (map (fun b => [of_Z b]) (zrange 0 10)) (full 10 [false])) (Grid [1] [1] 0 0 (Some 7)).
Definition one_zone : placed := Placed (Raster I16 (Some (of_Z 0)) [[of_Z 1]] [[false]]) (Grid [1] [1] 0 0 (Some 7)).
Theorem C77_band_order_refuted : ~ (forall p data names rows f', z_stats (FeatRaster p) data (StatList names) None false false = Ok (Long rows, f') -> StronglySorted Z.le (map l_band rows)).
Proof.
  intros H. destruct (z_stats (FeatRaster one_zone) ten_bands (StatList ["max"%string]) None false false) as [[[f|rows] t']|] eqn:E; [vm_compute in E; discriminate| |vm_compute in E; discriminate].
  assert (X : map l_band rows = [1; 10; 2; 3; 4; 5; 6; 7; 8; 9]).
  { assert (Y : (let* r := z_stats (FeatRaster one_zone) ten_bands (StatList ["max"%string]) None false false in match fst r with Long rows => Ok (map l_band rows) | Wide _ => Err KeyError end) = Ok [1; 10; 2; 3; 4; 5; 6; 7; 8; 9]) by (vm_compute; reflexivity).
    rewrite E in Y. cbn [rbind fst] in Y. congruence. }
  specialize (H _ _ _ _ _ E). rewrite X in H. apply StronglySorted_inv in H as [H _]. apply StronglySorted_inv in H as [_ H]. inversion H; lia.
Qed.
Print Assumptions C77_band_order_refuted.
(* Finding: with a lazy table the first call leaves made-up spatial partitions in
   it (C73_again_refuted); a second call for a raster elsewhere finds no zones. *)
Definition elsewhere : placed := Placed (p_raster one_band) (Grid [2] [3] 20 20 (Some 7)).
Definition z_table2 : table := Table [[z_feature 0 30 [(0, 0); (21, 21)]]] None (Some 7) [].
Theorem C77_again_refuted : ~ (forall t d1 d2 names f1 g1 f2 g2 f3 g3, t_spatial t = None -> z_stats (FeatTable t false) d1 (StatList names) None true false = Ok (Wide f1, g1) ->
  z_stats g1 d2 (StatList names) None true false = Ok (Wide f2, g2) -> z_stats (FeatTable t false) d2 (StatList names) None true false = Ok (Wide f3, g3) -> len (f_rows f2) = len (f_rows f3)).
Proof.
  intros H. set (names := ["size"%string]) in *.
  assert (A : exists f1 g1 f2 g2, z_stats (FeatTable z_table2 false) one_band (StatList names) None true false = Ok (Wide f1, g1) /\ z_stats g1 elsewhere (StatList names) None true false = Ok (Wide f2, g2) /\ len (f_rows f2) = 0).
  { destruct (z_stats (FeatTable z_table2 false) one_band (StatList names) None true false) as [[[f1|] g1]|] eqn:E1; [|vm_compute in E1; discriminate..].
    assert (Y : (let* r := z_stats (FeatTable z_table2 false) one_band (StatList names) None true false in let* q := z_stats (snd r) elsewhere (StatList names) None true false in match fst q with Wide f => Ok (len (f_rows f)) | Long _ => Err KeyError end) = Ok 0) by (vm_compute; reflexivity).
    rewrite E1 in Y. cbn [rbind snd] in Y. destruct (z_stats g1 elsewhere (StatList names) None true false) as [[[f2|] g2]|] eqn:E2; cbn [rbind fst] in Y; try discriminate.
    exists f1, g1, f2, g2. split; [reflexivity|]. split; [exact E2|]. congruence. }
  destruct A as (f1 & g1 & f2 & g2 & E1 & E2 & L).
  destruct (z_stats (FeatTable z_table2 false) elsewhere (StatList names) None true false) as [[[f3|] g3]|] eqn:E3; [|vm_compute in E3; discriminate..].
  specialize (H z_table2 one_band elsewhere names f1 g1 f2 g2 f3 g3 eq_refl E1 E2 E3).
  assert (Y : (let* q := z_stats (FeatTable z_table2 false) elsewhere (StatList names) None true false in match fst q with Wide f => Ok (len (f_rows f)) | Long _ => Err KeyError end) = Ok 1) by (vm_compute; reflexivity).
  rewrite E3 in Y. cbn [rbind fst] in Y. assert (len (f_rows f3) = 1) by congruence. lia.
Qed.
Print Assumptions C77_again_refuted.
(* Finding: raster zones work for data of one row, features do not (C77_thin). *)
Definition one_row : placed := Placed (Raster I16 None [map of_Z [4; 5; 6]] [full 3 false]) (Grid [1] [3] 0 0 (Some 7)).
Theorem C77_one_row_refuted : ~ (forall nb ny nx t data names d fill, lies nb ny nx data -> can_transform t (p_grid data) -> zones_ok t None d fill -> names <> [] -> Forall (fun s => In s stat_names) names ->
  exists r, z_stats (FeatTable t true) data (StatList names) None true false = Ok r).
Proof.
  intros H. destruct (H 1 1 3 z_table one_row ["max"%string] I64 (of_Z 0)) as [r E].
  - repeat split; try discriminate; try (repeat constructor; cbn; lia); try reflexivity.
    + intros _ b i [Hb Hi]. assert (X : b = 0) by lia. assert (Y : i = 0 \/ i = 1 \/ i = 2) by lia. intuition (subst; reflexivity).
    + intros b i [Hb Hi]. assert (X : b = 0) by lia. assert (Y : i = 0 \/ i = 1 \/ i = 2) by lia. intuition (subst; reflexivity).
  - discriminate.
  - split; [split; reflexivity|]. split; [reflexivity|]. intros g [<-|[<-|[]]]; split; reflexivity.
  - discriminate.
  - unfold stat_names. repeat apply Forall_cons; try apply Forall_nil; cbn [In]; tauto.
  - vm_compute in E. discriminate.
Qed.
Print Assumptions C77_one_row_refuted.
