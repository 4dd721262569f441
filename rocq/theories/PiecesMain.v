From Coq Require Import QArith Qabs Lia Lqa String.
From Verif Require Import Base BaseFacts Scalars Dtypes Raster RasterSpec Mosaic MosaicWhole MosaicWholeSpec Grids Combine CombineSpec Chunks ChunksSpec ChunksProofs Pieces PiecesSpec PiecesProofs PiecesGrid PiecesCombine.
Open Scope Z_scope.

Lemma pieces_back cast reconcile_other add fill result_type chunk d nv b0 nb n ny nx r ks ps :
  well_shaped n ny nx r -> usable cast reconcile_other fill result_type d nv r -> 0 <= b0 -> 0 < nb -> b0 + nb <= n ->
  Forall (box_in ny nx) ks -> Forall2 (piece_of b0 nb r) ks ps -> ks <> [] -> covering ny nx ks -> chunk_ok chunk ->
  puts_together add (fun m => mosaic cast reconcile_other add fill result_type chunk (fun x => x) (ny * nx) (map (place d nv (r_y r) (r_x r)) ps) m None None)
    (tiling ny nx ks) d nv b0 nb r.
Proof.
  intros W (DY & DX & CL & NV & CN & RT) B1 B2 B3 KS PS NE CV CK m HM. destruct W as (S1 & S2 & S3 & LY & LX). assert (W : well_shaped n ny nx r) by (repeat split; try assumption; try apply S1; apply S2). rewrite LY, LX.
  destruct HM as [-> | [-> | [[HM ND] | (-> & HI & HA & TL)]]].
  - apply (together cast reconcile_other add fill result_type chunk d nv b0 nb ny nx n r W (conj B1 (conj B2 B3)) DY DX CL NV CN RT ks ps KS PS NE First CV); auto.
  - apply (together cast reconcile_other add fill result_type chunk d nv b0 nb ny nx n r W (conj B1 (conj B2 B3)) DY DX CL NV CN RT ks ps KS PS NE Last CV); auto.
  - apply (together cast reconcile_other add fill result_type chunk d nv b0 nb ny nx n r W (conj B1 (conj B2 B3)) DY DX CL NV CN RT ks ps KS PS NE m CV); auto.
  - apply (together_sum cast reconcile_other add fill result_type chunk d nv b0 nb ny nx n r W (conj B1 (conj B2 B3)) DY DX CL NV CN RT ks ps KS PS NE TL HI HA).
Qed.
Lemma sums_weaker add run (P Q : Prop) d nv b0 nb r : P -> puts_together add run P d nv b0 nb r -> puts_together add run Q d nv b0 nb r.
Proof. intros HP H m HM. apply H. tauto. Qed.
Lemma quadrants_back cast reconcile_other add fill result_type chunk reproject_to d nv n g r q :
  well_shaped n (g_ny g) (g_nx g) r -> 0 < n -> 2 <= g_ny g -> 2 <= g_nx g -> usable cast reconcile_other fill result_type d nv r -> chunk_ok chunk ->
  square q g -> (0 < q)%Q -> (forall h p, square p h -> g_crs h = g_crs g -> reproject_to h (g_crs g) (Some p) = Ok h) ->
  (exists out, combine_grids reproject_to (map (sub_of g) (quad_boxes (g_ny g) (g_nx g))) None None None = Ok out /\ same_grid out g)
  /\ puts_together add (fun m => mosaic cast reconcile_other add fill result_type chunk (fun x => x) (g_ny g * g_nx g) (map (place d nv (r_y r) (r_x r)) (to_quadrants r (g_ny g) (g_nx g))) m None None) True d nv 0 n r.
Proof.
  intros W N NY NX U CK SQ Q0 KEEP. pose proof (quad_tiling _ _ NY NX) as TL. pose proof (tiling_covers _ _ _ TL) as CV. split.
  - apply (pieces_grid reproject_to g q SQ Q0 KEEP (quad_boxes (g_ny g) (g_nx g)) (quad_in _ _ NY NX)); [|exact CV|now left].
    pose proof (half _ NY). pose proof (half _ NX). unfold quad_boxes, thick_box. repeat constructor; cbn [PiecesSpec.y0 PiecesSpec.y1 PiecesSpec.x0 PiecesSpec.x1]; lia.
  - apply (sums_weaker _ _ _ _ _ _ _ _ _ TL). apply (pieces_back _ _ _ _ _ _ _ _ _ _ n); try assumption; try lia; [now apply quad_in|now apply quad_pieces|discriminate].
Qed.
Lemma chunks_back cast reconcile_other add fill result_type chunk reproject_to d nv bcs ycs xcs g r q :
  well_shaped (sum bcs) (sum ycs) (sum xcs) r -> Forall (fun c => c = 1) bcs -> Forall (fun c => 0 < c) ycs -> Forall (fun c => 0 < c) xcs -> g_ny g = sum ycs -> g_nx g = sum xcs ->
  usable cast reconcile_other fill result_type d nv r -> chunk_ok chunk ->
  square q g -> (0 < q)%Q -> (forall h p, square p h -> g_crs h = g_crs g -> reproject_to h (g_crs g) (Some p) = Ok h) ->
  (exists out, combine_grids reproject_to (map (sub_of g) (grid_boxes ycs xcs)) None None None = Ok out /\ same_grid out g)
  /\ exists tiles, get_chunk_rasters r bcs ycs xcs = Ok tiles
     /\ forall b, 0 <= b < sum bcs -> exists ps, Forall2 (fun k p => get3 tiles b (fst k) (snd k) = Ok (Some p)) (ndindex2 (len ycs) (len xcs)) ps
        /\ puts_together add (fun m => mosaic cast reconcile_other add fill result_type chunk (fun x => x) (sum ycs * sum xcs) (map (place d nv (r_y r) (r_x r)) ps) m None None) True d nv b 1 r.
Proof.
  intros W B1 FY FX EY EX U CK SQ Q0 KEEP. pose proof (grid_tiling ycs xcs FY FX) as TL. pose proof (tiling_covers _ _ _ TL) as CV.
  assert (NE : grid_boxes ycs xcs <> []).
  { destruct SQ as (_ & _ & _ & _ & NX & NY). destruct (CV 0 0 ltac:(lia) ltac:(lia)) as (k & I & _). intros E. rewrite E in I. destruct I. }
  split.
  - apply (pieces_grid reproject_to g q SQ Q0 KEEP (grid_boxes ycs xcs)); [rewrite EY, EX; now apply grid_in| |now rewrite EY, EX|now left].
    apply Forall_forall. intros k H. unfold grid_boxes in H. apply in_map_iff in H. destruct H as ([ky kx] & <- & H). apply ndindex2_in in H. destruct H as [Hy Hx].
    destruct (span_get ycs ky FY Hy) as (_ & Y & _). destruct (span_get xcs kx FX Hx) as (_ & X & _). unfold thick_box, chunk_box. cbn [PiecesSpec.y0 PiecesSpec.y1 PiecesSpec.x0 PiecesSpec.x1 fst snd]. lia.
  - destruct (chunk_pieces ycs xcs FY FX bcs r W B1) as (tiles & E & P). exists tiles. split; [exact E|]. intros b Rb. destruct (P b Rb) as (ps & F1 & F2). exists ps. split; [exact F1|].
    apply (sums_weaker _ _ _ _ _ _ _ _ _ TL). apply (pieces_back _ _ _ _ _ _ _ _ _ _ (sum bcs)); try assumption; try lia. now apply grid_in.
Qed.
