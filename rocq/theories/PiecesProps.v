(* C96: a raster cut into pieces is put together again by mosaic. *)
From Coq Require Import QArith Qabs Lia Lqa String.
From Verif Require Import Base BaseFacts Scalars Dtypes Raster RasterSpec Mosaic MosaicWhole MosaicWholeSpec Grids Combine CombineSpec Chunks ChunksSpec Pieces PiecesSpec PiecesProofs PiecesGrid PiecesCombine PiecesMain.
From Verif Require MosaicWholeProps CombineProps CombineProofs.
Open Scope Z_scope.

(* Any pieces that cover the raster, overlapping or not and in any order, give it back
   with the methods first, last, min and max; with sum if they do not overlap. *)
Theorem C96_pieces : forall cast reconcile_other add fill result_type chunk d nv b0 nb n ny nx r ks ps,
  well_shaped n ny nx r -> usable cast reconcile_other fill result_type d nv r -> 0 <= b0 -> 0 < nb -> b0 + nb <= n ->
  Forall (box_in ny nx) ks -> Forall2 (piece_of b0 nb r) ks ps -> ks <> [] -> covering ny nx ks -> chunk_ok chunk ->
  puts_together add (fun m => mosaic cast reconcile_other add fill result_type chunk (fun x => x) (ny * nx) (map (place d nv (r_y r) (r_x r)) ps) m None None)
    (tiling ny nx ks) d nv b0 nb r.
Proof. exact pieces_back. Qed.
Print Assumptions C96_pieces.

(* The quadrants of a raster with square cells: mosaic makes the grid of the raster of
   theirs, and the raster itself, with each method. *)
Theorem C96_quadrants : forall cast reconcile_other add fill result_type chunk reproject_to d nv n g r q,
  well_shaped n (g_ny g) (g_nx g) r -> 0 < n -> 2 <= g_ny g -> 2 <= g_nx g -> usable cast reconcile_other fill result_type d nv r -> chunk_ok chunk ->
  square q g -> (0 < q)%Q -> (forall h p, square p h -> g_crs h = g_crs g -> reproject_to h (g_crs g) (Some p) = Ok h) ->
  (exists out, combine_grids reproject_to (map (sub_of g) (quad_boxes (g_ny g) (g_nx g))) None None None = Ok out /\ same_grid out g)
  /\ puts_together add (fun m => mosaic cast reconcile_other add fill result_type chunk (fun x => x) (g_ny g * g_nx g) (map (place d nv (r_y r) (r_x r)) (to_quadrants r (g_ny g) (g_nx g))) m None None) True d nv 0 n r.
Proof. exact quadrants_back. Qed.
Print Assumptions C96_quadrants.

(* The rasters that get_chunk_rasters makes of the chunks of a band, likewise. *)
Theorem C96_chunks : forall cast reconcile_other add fill result_type chunk reproject_to d nv bcs ycs xcs g r q,
  well_shaped (sum bcs) (sum ycs) (sum xcs) r -> Forall (fun c => c = 1) bcs -> Forall (fun c => 0 < c) ycs -> Forall (fun c => 0 < c) xcs -> g_ny g = sum ycs -> g_nx g = sum xcs ->
  usable cast reconcile_other fill result_type d nv r -> chunk_ok chunk ->
  square q g -> (0 < q)%Q -> (forall h p, square p h -> g_crs h = g_crs g -> reproject_to h (g_crs g) (Some p) = Ok h) ->
  (exists out, combine_grids reproject_to (map (sub_of g) (grid_boxes ycs xcs)) None None None = Ok out /\ same_grid out g)
  /\ exists tiles, get_chunk_rasters r bcs ycs xcs = Ok tiles
     /\ forall b, 0 <= b < sum bcs -> exists ps, Forall2 (fun k p => get3 tiles b (fst k) (snd k) = Ok (Some p)) (ndindex2 (len ycs) (len xcs)) ps
        /\ puts_together add (fun m => mosaic cast reconcile_other add fill result_type chunk (fun x => x) (sum ycs * sum xcs) (map (place d nv (r_y r) (r_x r)) ps) m None None) True d nv b 1 r.
Proof. exact chunks_back. Qed.
Print Assumptions C96_chunks.

(* ---- examples ---- *)
Definition z := of_Z.
Definition ex_r : Chunks.raster num Q := mkRaster
  [[[z 1; z 2; z 9; z 4]; [z 5; z 9; z 7; z 8]; [z 9; z 0; z 1; z 2]]; [[z 3; z 3; z 3; z 3]; [z 9; z 9; z 9; z 9]; [z 4; z 4; z 9; z 4]]]
  [[[false; false; true; false]; [false; true; false; false]; [true; false; false; false]]; [[false; false; false; false]; [true; true; true; true]; [false; false; true; false]]]
  [1; 2] [25; 15; 5]%Q [105; 115; 125; 135]%Q.
Definition ex_g : Grids.grid := Grids.Grid 7 3 4 (Affine 10 0 100 0 (-10) 30)%Q.
Definition ex_run ps m := mosaic MosaicWholeProps.ex_cast MosaicWholeProps.ex_reconcile MosaicWholeProps.ex_add MosaicWholeProps.ex_fill MosaicWholeProps.ex_result_type MosaicWholeProps.ex_chunk (fun x => x) 12
  (map (place U8 (z 9) (r_y ex_r) (r_x ex_r)) ps) m None None.
Definition ex_whole : Raster.raster := Raster.Raster U8 (Some (z 9))
  [[z 1; z 2; z 9; z 4; z 5; z 9; z 7; z 8; z 9; z 0; z 1; z 2]; [z 3; z 3; z 3; z 3; z 9; z 9; z 9; z 9; z 4; z 4; z 9; z 4]]
  [[false; false; true; false; false; true; false; false; true; false; false; false]; [false; false; false; false; true; true; true; true; false; false; true; false]].
Example C96_example :
  ex_run (to_quadrants ex_r 3 4) First = Ok ex_whole /\ ex_run (to_quadrants ex_r 3 4) Last = Ok ex_whole
  /\ ex_run (to_quadrants ex_r 3 4) Min = Ok ex_whole /\ ex_run (to_quadrants ex_r 3 4) Sum = Ok ex_whole
  /\ combine_grids CombineProps.zoom (map (sub_of ex_g) (quad_boxes 3 4)) None None None = Ok ex_g.
Proof. vm_compute. auto 10. Qed.
Example C96_chunks_example :
  match get_chunk_rasters ex_r [1; 1] [2; 1] [3; 1] with
  | Ok tiles =>
      let ps := flat_map (fun k => match get3 tiles 0 (fst k) (snd k) with Ok (Some p) => [p] | _ => [] end) (ndindex2 2 2) in
      len ps = 4 /\ ex_run ps Max = Ok (Raster.Raster U8 (Some (z 9)) (firstn 1 (Raster.r_data ex_whole)) (firstn 1 (Raster.r_mask ex_whole)))
  | Err _ => False
  end.
Proof. vm_compute. auto. Qed.
(* some pieces are not the raster *)
Example C96_one_piece : ex_run (firstn 3 (to_quadrants ex_r 3 4)) First <> Ok ex_whole.
Proof. vm_compute. discriminate. Qed.
Lemma ex_distinct l : forallb (fun i => forallb (fun j => match get l i, get l j with Ok x, Ok y => negb (Qeq_bool x y) || (i =? j) | _, _ => true end) (zrange 0 (len l))) (zrange 0 (len l)) = true -> distinct l.
Proof.
  intros H i j x y Gi Gj E. rewrite forallb_forall in H. pose proof (get_ok_range _ _ _ Gi). pose proof (get_ok_range _ _ _ Gj). specialize (H i ltac:(apply zrange_in; lia)). rewrite forallb_forall in H. specialize (H j ltac:(apply zrange_in; lia)).
  rewrite Gi, Gj in H. apply Qeq_bool_iff in E. rewrite E in H. cbn in H. lia.
Qed.
Example C96_hypotheses : well_shaped 2 3 4 ex_r /\ usable MosaicWholeProps.ex_cast MosaicWholeProps.ex_reconcile MosaicWholeProps.ex_fill MosaicWholeProps.ex_result_type U8 (z 9) ex_r
  /\ square 10 ex_g /\ 2 <= g_ny ex_g /\ 2 <= g_nx ex_g.
Proof.
  split; [repeat (split || constructor)|]. split; [|repeat split; try reflexivity; discriminate].
  split; [apply ex_distinct; vm_compute; reflexivity|]. split; [apply ex_distinct; vm_compute; reflexivity|]. split.
  - intros b i j v m G M. destruct (get_shape (Chunks.r_data ex_r) 2 3 4 b i j v ltac:(repeat (split || constructor)) G) as (Rb & Ri & Rj).
    assert (b = 0 \/ b = 1) as [-> | ->] by lia; assert (i = 0 \/ i = 1 \/ i = 2) as [-> | [-> | ->]] by lia; assert (j = 0 \/ j = 1 \/ j = 2 \/ j = 3) as [-> | [-> | [-> | ->]]] by lia;
    cbn in G, M; injection G as <-; injection M as <-; (split; [reflexivity|split; [eexists; split; [reflexivity|cbn; lia]|reflexivity]]).
  - split; [|split; [reflexivity|]].
    + split; [eexists; split; [reflexivity|cbn; lia]|]. split; [reflexivity|]. split; [reflexivity|]. intros v H. exact H.
    + intros k K. unfold full. replace (Z.to_nat k) with (S (Z.to_nat (k - 1))) by lia. cbn [repeat MosaicWholeProps.ex_result_type]. induction (Z.to_nat (k - 1)); [reflexivity|]. cbn [repeat fold_left]. exact IHn.
Qed.

(* ---- finding: cells that are not square ---- *)
(* The grid of the pieces has square cells (C87), so a raster with cells of 1 x 2 does
   not come back. *)
Theorem C96_cells_refuted : ~ (forall g, upright g -> 2 <= g_ny g -> 2 <= g_nx g ->
  exists out, combine_grids CombineProps.zoom (map (sub_of g) (quad_boxes (g_ny g) (g_nx g))) None None None = Ok out /\ same_grid out g).
Proof.
  intros H. destruct (H CombineProps.tall ltac:(repeat split; discriminate) ltac:(discriminate) ltac:(discriminate)) as (out & E & _ & EY & _).
  vm_compute in E. injection E as <-. vm_compute in EY. discriminate.
Qed.
Print Assumptions C96_cells_refuted.
