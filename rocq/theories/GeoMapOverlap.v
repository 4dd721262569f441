(* geo_map_overlap. *)
From Coq Require Import QArith Lqa Lia ZifyBool ZifyNat.
From Verif Require Import Base BaseFacts Scalars Arr2 Arr2Facts Chunks ChunksProofs FocalSpec FocalResults Bands BandsSpec BandsProofs BlockArgs BlockArgsSpec BlockArgsProofs
  Grids Blocks BlocksSpec BlocksProofs MapBlocks MapBlocksSpec MapBlocksProofs MapOverlap MapOverlapSpec MapOverlapProofs MapOverlapMain GeoMap GeoMapSpec GeoMapProofs.
Open Scope Z_scope.

Lemma grow_positive d cs out : 0 <= d -> cs <> [] -> Forall (fun c => 0 < c) cs -> grow d cs = Ok out -> Forall (fun c => 0 < c) out.
Proof.
  intros H N F G. assert (F0 : Forall (fun c => 0 <= c) cs) by (eapply Forall_impl; [|exact F]; cbn; intros; lia).
  destruct (Z.eq_dec d 0) as [->|D]; [cbn in G; injection G as <-; exact F|]. destruct (grow_spec _ _ _ H N F0 G) as (A & _). eapply Forall_impl; [|exact A]. cbn. intros; lia.
Qed.
Lemma grow_one d n cs out : 0 <= d <= n -> cuts n cs -> len cs = 1 -> grow d cs = Ok out -> out = cs.
Proof.
  intros H C L G. destruct (cuts_sum _ _ C) as [F S]. destruct cs as [|c [|]]; unfold len in L; cbn in L; try lia. rewrite sum_cons in S. change (ChunksSpec.sum []) with 0 in S.
  apply (grow_spec d [c] out); try assumption; try lia; [discriminate|]. repeat constructor. lia.
Qed.
Lemma grow_again d out : 0 <= d -> out <> [] -> Forall (fun c => 0 <= c) out -> Forall (fun c => d <= c) out -> forall o, grow d out = Ok o -> o = out.
Proof. intros H N F G o E. now apply (grow_spec d out o). Qed.
Lemma even_margins k d cs cs' n ky : even k d cs -> sides d -> depth_for_axis d <= n -> cuts n cs -> grow (depth_for_axis d) cs = Ok cs' -> 0 <= ky < len cs' ->
  (if bare k && (ky =? 0) then 0 else before d) = (if bare k && (ky =? len cs' - 1) then 0 else after d).
Proof.
  intros E S L C G K. destruct E as [(q & -> & [E|E])|[-> E]].
  - replace (bare k) with false by (destruct k; try reflexivity; contradiction). reflexivity.
  - subst q. cbn. destruct (bare k && (ky =? 0)), (bare k && (ky =? len cs' - 1)); reflexivity.
  - destruct (sides_max d S) as (M & _). rewrite (grow_one (depth_for_axis d) n cs cs') in * by (try assumption; lia). rewrite E in *. replace ky with 0 by lia. reflexivity.
Qed.

Section GeoOverlap.
Variables (cast : dtype -> num -> num) (f : gfunc) (r0 : georaster) (rest : list georaster) (nb ny nx : Z) (depth : py) (dy dx : axdepth) (bnd : boundary) (k : kind).
Variables (dt meta : option dtype) (inf : dtype) (nva : nvarg) (nv : option num).
Let rs := map gr (r0 :: rest).
Hypothesis (Hb : 0 <= nb) (Hy : 0 <= ny) (Hx : 0 <= nx).
Hypothesis (WF : Forall (raster_of_shape nb ny nx) rs) (OG : on_grid ny nx r0) (NE : no_empty_chunk (gr r0)).
Hypothesis (SAME : are_all_grids_same (map grid_of (r0 :: rest)) = true).
Hypothesis (AG : check_dtype_meta_agree dt meta = Ok tt).
Hypothesis (DM : depth_means depth dy dx) (BM : boundary_means bnd k) (FY : fits dy ny) (FX : fits dx nx).
Hypothesis (SY : k <> Unpadded -> symmetric dy /\ symmetric dx).
Hypothesis (EY : even k dy (snd (fst (b_chunks (gr r0))))) (EX : even k dx (snd (b_chunks (gr r0)))).
Hypothesis (NV : final_nv dt meta inf nva (b_dtype (gr r0)) (b_nv (gr r0)) (len rs) = Ok nv).
Let given := if g_wants_out_nv f then Some nv else None.

Definition regrown (c : chunks3) (r : georaster) : braster := rechunk (gr r) c.
Definition F (c : chunks3) : func := geo_wrapped true (gr_crs r0) (table_of (geo_rechunk c r0)) f.

Lemma unfold_overlap : exists bcs ycs xcs, let c := (bcs, ycs, xcs) in
  (forall rm, geo_map_overlap cast f (r0 :: rest) depth bnd dt meta inf nva rm = map_overlap cast (F c) (map (regrown c) (r0 :: rest)) depth bnd dt meta inf nva rm)
  /\ Forall (raster_of_shape nb ny nx) (map (regrown c) (r0 :: rest))
  /\ Forall (fun c => 0 < c) bcs /\ Forall (fun c => 0 < c) ycs /\ Forall (fun c => 0 < c) xcs /\ cuts nb bcs /\ cuts ny ycs /\ cuts nx xcs
  /\ (forall o, grow (depth_for_axis dy) ycs = Ok o -> o = ycs) /\ (forall o, grow (depth_for_axis dx) xcs = Ok o -> o = xcs)
  /\ (forall ky, 0 <= ky < len ycs -> (if bare k && (ky =? 0) then 0 else before dy) = (if bare k && (ky =? len ycs - 1) then 0 else after dy))
  /\ (forall kx, 0 <= kx < len xcs -> (if bare k && (kx =? 0) then 0 else before dx) = (if bare k && (kx =? len xcs - 1) then 0 else after dx)).
Proof.
  destruct (depth_sides _ _ _ DM) as [SDy SDx]. destruct (sides_max dy SDy) as (My & _). destruct (sides_max dx SDx) as (Mx & _).
  pose proof (fits_depth _ _ FY) as LY. pose proof (fits_depth _ _ FX) as LX.
  assert (W0 : raster_of_shape nb ny nx (gr r0)) by (now inversion WF). unfold no_empty_chunk in NE.
  assert (SH : forallb (fun r => same_shape3 (b_data (gr r)) (b_data (gr r0))) (r0 :: rest) = true).
  { apply forallb_forall. intros r Hr. rewrite Forall_forall in WF. destruct (WF (gr r)) as (S1 & _); [now apply in_map|]. destruct W0 as (S2 & _). eapply same_shape_ok; eassumption. }
  assert (EC : map (fun r => b_chunks (gr r)) (r0 :: rest) = b_chunks (gr r0) :: map (fun r => b_chunks (gr r)) rest) by reflexivity.
  destruct W0 as (_ & _ & CH). destruct (b_chunks (gr r0)) as [[bcs ycs] xcs]. destruct CH as (Cb & Cy & Cx & Nb & Ny & Nx). destruct NE as (N1 & N2 & N3). cbn [fst snd] in EY, EX.
  destruct (grow_ok dy ny ycs SDy LY Cy Ny) as (yo & Ey & Gy & Cy' & Ny'). destruct (grow_ok dx nx xcs SDx LX Cx Nx) as (xo & Ex & Gx & Cx' & Nx').
  pose proof (grow_positive _ _ _ My Ny N2 Ey) as Py. pose proof (grow_positive _ _ _ Mx Nx N3 Ex) as Px.
  exists bcs, yo, xo. cbv zeta. split; [|split; [|repeat split]]; auto; try (now destruct Cb); try (now destruct Cy'); try (now destruct Cx').
  - intros rm. unfold geo_map_overlap. rewrite AG. cbn [rbind]. rewrite SH. cbn [negb]. rewrite SAME. cbn [negb].
    rewrite (proj2 (depth_spec depth dy dx) DM). cbn [rbind]. rewrite (asymmetric_ok bnd k dy dx BM SY). cbn [rbind].
    rewrite EC. unfold ensure_chunks_for_overlap. rewrite Ey. cbn [rbind]. rewrite Ex. cbn [rbind].
    assert (MP : forall l : list chunks3, map (fun r => if chunks3_eqb r (bcs, yo, xo) then r else (bcs, yo, xo)) l = map (fun _ => (bcs, yo, xo)) l).
    { intros l. apply map_ext. intros r. destruct (chunks3_eqb r (bcs, yo, xo)) eqn:E; [now apply chunks3_eqb_eq|reflexivity]. }
    rewrite MP. assert (CM : forall l : list georaster, map (fun '(r, c) => geo_rechunk c r) (combine l (map (fun _ => (bcs, yo, xo)) (map (fun r => b_chunks (gr r)) l))) = map (geo_rechunk (bcs, yo, xo)) l).
    { induction l as [|a l IH]; [reflexivity|]. cbn [map combine]. f_equal. exact IH. }
    cbn [map combine]. cbn [map] in CM. rewrite CM. cbn [gr_crs geo_rechunk]. rewrite map_map. reflexivity.
  - rewrite Forall_forall in *. intros r Hr. apply in_map_iff in Hr. destruct Hr as (r' & <- & Hr). destruct (WF (gr r') (in_map gr _ _ Hr)) as (S1 & S2 & _).
    split; [exact S1|]. split; [exact S2|]. cbn. tauto.
  - intros o E. eapply grow_again; [exact My|exact Ny'|apply Cy'|exact Gy|exact E].
  - intros o E. eapply grow_again; [exact Mx|exact Nx'|apply Cx'|exact Gx|exact E].
  - intros ky K. exact (even_margins k dy ycs yo ny ky EY SDy LY Cy Ey K).
  - intros kx K. exact (even_margins k dx xcs xo nx kx EX SDx LX Cx Ex K).
Qed.

Section Run.
Variables (bcs ycs xcs : list Z).
Hypothesis (Pb : Forall (fun c => 0 < c) bcs) (Py : Forall (fun c => 0 < c) ycs) (Cb : cuts nb bcs) (Cy : cuts ny ycs) (Cx : cuts nx xcs).
Hypothesis (Gy : forall o, grow (depth_for_axis dy) ycs = Ok o -> o = ycs) (Gx : forall o, grow (depth_for_axis dx) xcs = Ok o -> o = xcs).
Hypothesis (Ly : forall ky, 0 <= ky < len ycs -> (if bare k && (ky =? 0) then 0 else before dy) = (if bare k && (ky =? len ycs - 1) then 0 else after dy)).
Hypothesis (Lx : forall kx, 0 <= kx < len xcs -> (if bare k && (kx =? 0) then 0 else before dx) = (if bare k && (kx =? len xcs - 1) then 0 else after dx)).
Lemma run_overlap id n m w b y x vs ms o : handed (regrown (bcs, ycs, xcs) r0) dy dx k id n m w b y x -> vs <> [] -> arguments (asks f) (len rs) n m w vs ms ->
  exists p, place_of (gr_box r0) (b, b + n) (y, y + m) (x, x + w) p /\ run (F (bcs, ycs, xcs)) vs ms o id = grun f vs ms o p.
Proof.
  intros (bs & ys & xs & ly & ry & lx & rx & CA & -> & -> & -> & -> & -> & ->) N AR. unfold at_chunk, regrown in CA. cbn [b_chunks rechunk] in CA.
  destruct CA as (yo & xo & Ey & Ex & BA & MG). apply Gy in Ey. apply Gx in Ex. subst yo xo. destruct id as [[kb ky] kx]. destruct MG as (M1 & M2 & M3 & M4). pose proof BA as (B1 & B2 & B3).
  pose proof (block_range bcs ycs xcs nb ny nx _ bs ys xs Cb Cy Cx BA) as R.
  destruct (depth_sides _ _ _ DM) as [[S1 S2] [S3 S4]].
  assert (LL : forall cs q p, get (chunks_to_array_locations cs) q = Ok p -> 0 <= q < len cs).
  { intros cs q p G. apply get_ok_range in G. rewrite locations_eq, locs_len in G. exact G. }
  assert (QY : ly = ry) by (rewrite M1, M2; apply Ly; eapply LL; exact B2). assert (QX : lx = rx) by (rewrite M3, M4; apply Lx; eapply LL; exact B3).
  assert (R1 : 0 <= ly) by (rewrite M1; destruct (bare k && (ky =? 0)); lia). assert (R2 : 0 <= lx) by (rewrite M3; destruct (bare k && (kx =? 0)); lia).
  clear M1 M2 M3 M4. subst ry rx.
  pose proof (location_positive bcs Pb _ _ B1) as P1. pose proof (location_positive ycs Py _ _ B2) as P2.
  pose proof (blocks_shape (asks f) (len rs) (size bs) (size ys + ly + ly) (size xs + lx + lx) vs ms ltac:(unfold size; lia) ltac:(unfold size; lia) AR) as SH.
  destruct (cuts_sum _ _ Cb) as [Fb _]. destruct (cuts_sum _ _ Cy) as [Fy _]. destruct (cuts_sum _ _ Cx) as [Fx _].
  unfold F, geo_wrapped, table_of. cbn [run gr geo_rechunk rechunk b_chunks gr_box b_data].
  destruct (geo_block_infos_spec (gr_box r0) (len (b_data (gr r0))) bcs ycs xcs Fb Fy Fx) as (tbl & ET & _ & LK). rewrite ET. cbn [rbind].
  destruct (LK _ _ _ _ _ _ B1 B2 B3) as (g0 & EL & G1 & G2 & G3 & _ & _ & _ & D0).
  destruct vs as [|v vs]; [contradiction|]. pose proof (Forall_inv SH) as SV. cbv beta in SV. rewrite SV.
  destruct (resolve_spec (gr_box r0) tbl (kb, ky, kx) g0 (size bs) (size ys + ly + ly) (size xs + lx + lx) EL D0 ltac:(unfold size; lia) ltac:(unfold size; lia)) as (g & EG & DG & WG & (OB & _)).
  rewrite EG. cbn [rbind]. pose proof D0 as (D1 & D2 & _). rewrite D1, D2 in WG. unfold win_of at 2 in WG. rewrite G2, G3 in WG. unfold win_grow in WG.
  replace (size ys + ly + ly - (snd ys - fst ys)) with (ly * 2) in WG by (unfold size; lia). replace (size xs + lx + lx - (snd xs - fst xs)) with (lx * 2) in WG by (unfold size; lia).
  rewrite !Z.div_mul in WG by lia. destruct OG as (O1 & O2 & O3 & O4 & O5).
  destruct (place_ok (gr_box r0) (gr_crs r0) g bs (fst ys - ly, snd ys + ly) (fst xs - lx, snd xs + lx) (conj O3 O4) O5 DG) with (blocks := (v :: vs) ++ match ms with Some l => l | None => [] end) as (p & EP & PP).
  { now rewrite OB. }
  { rewrite WG. cbn [fst snd]. repeat apply (f_equal2 pair); lia. }
  { lia. }
  { replace (size (fst ys - ly, snd ys + ly)) with (size ys + ly + ly) by (unfold size; cbn [fst snd]; lia). replace (size (fst xs - lx, snd xs + lx)) with (size xs + lx + lx) by (unfold size; cbn [fst snd]; lia). exact SH. }
  exists p. split; [|rewrite EP; reflexivity].
  replace (fst bs, fst bs + size bs) with bs by (destruct bs; unfold size; cbn [fst snd]; f_equal; lia).
  replace (fst ys - ly, fst ys - ly + (size ys + ly + ly)) with (fst ys - ly, snd ys + ly) by (unfold size; f_equal; lia).
  replace (fst xs - lx, fst xs - lx + (size xs + lx + lx)) with (fst xs - lx, snd xs + lx) by (unfold size; f_equal; lia). exact PP.
Qed.
(* the arguments of g at a cell of the cells handed over *)
Lemma place_cell n m w b y x p i j q : 0 <= n -> 0 <= m -> 0 <= w -> place_of (gr_box r0) (b, b + n) (y, y + m) (x, x + w) p -> 0 <= q < n -> 0 <= i < m -> 0 <= j < w ->
  exists yc xc, get (geo_band p) q = Ok (b + q) /\ get (geo_y p) i = Ok yc /\ get (geo_x p) j = Ok xc
  /\ (yc == snd (gb_coord (gr_box r0) (y + i) (x + j)))%Q /\ (xc == fst (gb_coord (gr_box r0) (y + i) (x + j)))%Q.
Proof.
  intros H1 H2 H3 (P1 & P2 & P3 & P4 & P5 & _) Hq Hi Hj. unfold size in *. cbn [fst snd] in *.
  destruct (get_range (geo_y p) i) as (yc & GY); [lia|]. destruct (get_range (geo_x p) j) as (xc & GX); [lia|]. exists yc, xc.
  split; [apply P4; lia|]. split; [exact GY|]. split; [exact GX|]. apply coordinates_agree. now apply P5.
Qed.
Definition at_place {A B} (g : Z -> Q -> Q -> A -> B) : Z -> Z -> Z -> A -> B := fun b y x => g b (snd (gb_coord (gr_box r0) y x)) (fst (gb_coord (gr_box r0) y x)).
Lemma located_ok g : geo_windowed f (len rs) given (k = Unpadded) dy dx g ->
  located (F (bcs, ycs, xcs)) (len rs) given (handed (regrown (bcs, ycs, xcs) r0) dy dx k) (k = Unpadded) dy dx (at_place g).
Proof.
  intros [RE CW] n m w vs ms id b y x Hn Hm Hw AR HA. assert (NE0 : vs <> []).
  { intros ->. destruct AR as (L & _). unfold rs, len in L. cbn in L. lia. }
  destruct (run_overlap id n m w b y x vs ms given HA NE0 AR) as (p & PP & ER).
  destruct (CW n m w vs ms p Hn Hm Hw AR) as (d & E & S & V); try (destruct PP as (P1 & P2 & P3 & _); unfold size in *; cbn [fst snd] in *; lia).
  exists d. split; [rewrite ER; exact E|]. split; [exact S|]. intros q i j ws ns Hq Hi Hj WI BW BM'.
  destruct (place_cell n m w b y x p i j q Hn Hm Hw PP Hq Hi Hj) as (yc & xc & GB & GY & GX & CY & CX).
  unfold at_place. rewrite <- (RE (b + q) yc _ xc _ ws CY CX). now apply V.
Qed.
Lemma located_masked_ok g : geo_windowed_masked f (len rs) given (k = Unpadded) dy dx g ->
  located_masked (F (bcs, ycs, xcs)) (len rs) given (handed (regrown (bcs, ycs, xcs) r0) dy dx k) (k = Unpadded) dy dx (at_place g).
Proof.
  intros [RE CW] n m w vs ms id b y x Hn Hm Hw AR HA. assert (NE0 : vs <> []).
  { intros ->. destruct AR as (L & _). unfold rs, len in L. cbn in L. lia. }
  destruct (run_overlap id n m w b y x vs ms given HA NE0 AR) as (p & PP & ER).
  destruct (CW n m w vs ms p Hn Hm Hw AR) as (d & o & E & S1 & S2 & V); try (destruct PP as (P1 & P2 & P3 & _); unfold size in *; cbn [fst snd] in *; lia).
  exists d, o. split; [rewrite ER; exact E|]. split; [exact S1|]. split; [exact S2|]. intros q i j ws ns Hq Hi Hj WI BW BM'.
  destruct (place_cell n m w b y x p i j q Hn Hm Hw PP Hq Hi Hj) as (yc & xc & GB & GY & GX & CY & CX).
  unfold at_place. rewrite <- (RE (b + q) yc _ xc _ ws CY CX). now apply V.
Qed.
End Run.

Lemma values_regrown c b y x ws : value_windows cast k dy dx ny nx rs b y x ws <-> value_windows cast k dy dx ny nx (map (regrown c) (r0 :: rest)) b y x ws.
Proof.
  unfold value_windows, rs. generalize (r0 :: rest) as l. intros l. revert ws. induction l as [|r l IH]; intros ws; split; intros H; inversion H as [|? w ? t H1 H2]; subst; cbn [map]; constructor; try exact H1; now apply IH.
Qed.
Lemma nulls_regrown h c b y x ns : null_windows h k dy dx ny nx rs b y x ns <-> null_windows h k dy dx ny nx (map (regrown c) (r0 :: rest)) b y x ns.
Proof.
  unfold null_windows. destruct (wants_masks h); [|tauto]. unfold rs. generalize (r0 :: rest) as l. intros l.
  assert (I : forall t, Forall2 (fun r w => window dy dx (fun di dj => sees (null_at r b) (beyond_null k r) k ny nx (y + di) (x + dj)) w) (map gr l) t
     <-> Forall2 (fun r w => window dy dx (fun di dj => sees (null_at r b) (beyond_null k r) k ny nx (y + di) (x + dj)) w) (map (regrown c) l) t).
  { induction l as [|r l IH]; intros ws; split; intros H; inversion H as [|? w ? t H1 H2]; subst; cbn [map]; constructor; try exact H1; now apply IH. }
  split; intros (t & -> & H); exists t; (split; [reflexivity|]); now apply I.
Qed.

Lemma geo_overlap_cells g : geo_windowed f (len rs) given (k = Unpadded) dy dx g ->
  exists ycs xcs data mask, geo_map_overlap cast f (r0 :: rest) depth bnd dt meta inf nva false
    = Ok (BRaster (out_data_dtype dt meta inf) nv (full nb 1, ycs, xcs) data mask)
  /\ cuts ny ycs /\ cuts nx xcs /\ shaped3 nb ny nx data /\ shaped3 nb ny nx mask
  /\ forall b y x, 0 <= b < nb -> 0 <= y < ny -> 0 <= x < nx ->
       (exists ws ns, value_windows cast k dy dx ny nx rs b y x ws /\ null_windows (asks f) k dy dx ny nx rs b y x ns)
       /\ forall yc xc ws ns, coordinates_of (gr_box r0) y x yc xc -> value_windows cast k dy dx ny nx rs b y x ws -> null_windows (asks f) k dy dx ny nx rs b y x ns ->
          at3 data b y x (g b yc xc ws ns) /\ exists m, at3 mask b y x m /\ (m = true <-> null_value_here nv (g b yc xc ws ns)).
Proof.
  intros CW. destruct unfold_overlap as (bcs & ycs & xcs & EU & WF' & Pb & Py & Px & Cb & Cy & Cx & Gy & Gx & Ly & Lx). set (c := (bcs, ycs, xcs)) in *.
  assert (LR : len (map (regrown c) (r0 :: rest)) = len rs) by (unfold rs; now rewrite !len_map).
  assert (NV' : final_nv dt meta inf nva (b_dtype (regrown c r0)) (b_nv (regrown c r0)) (len (map (regrown c) (r0 :: rest))) = Ok nv) by (rewrite LR; exact NV).
  pose proof (located_ok bcs ycs xcs Pb Py Cb Cy Cx Gy Gx Ly Lx g CW) as LO. fold c in LO. rewrite <- LR in LO.
  destruct (map_overlap_located cast (F c) (regrown c r0) (map (regrown c) rest) nb ny nx depth dy dx bnd k dt meta inf nva nv Hb Hy Hx WF' AG DM BM FY FX SY NV' (at_place g) LO) as (data & mask & E & SD & SM & V).
  exists ycs, xcs, data, mask. split; [rewrite EU; exact E|]. do 4 (split; [assumption|]).
  intros b y x H1 H2 H3. destruct (V b y x H1 H2 H3) as [(ws0 & ns0 & V0 & N0) V']. split.
  - exists ws0, ns0. split; [now apply (values_regrown c)|]. apply (nulls_regrown (asks f) c). exact N0.
  - intros yc xc ws ns CO VW NW. destruct (coordinates_agree _ _ _ _ _ CO) as [Q1 Q2]. destruct CW as [RE _].
    rewrite (RE b yc _ xc _ ws Q1 Q2). apply (V' ws ns); [now apply (values_regrown c)|]. apply (nulls_regrown (asks f) c) in NW. exact NW.
Qed.
Lemma geo_overlap_masked g : (g_wants_out_nv f = false \/ nva <> NvNone \/ out_dtype_hint dt meta <> None) -> geo_windowed_masked f (len rs) given (k = Unpadded) dy dx g ->
  let n := match nv with Some v => v | None => default_null (out_data_dtype dt meta inf) end in
  exists ycs xcs data mask, geo_map_overlap cast f (r0 :: rest) depth bnd dt meta inf nva true
    = Ok (BRaster (out_data_dtype dt meta inf) (Some n) (full nb 1, ycs, xcs) data mask)
  /\ cuts ny ycs /\ cuts nx xcs /\ shaped3 nb ny nx data /\ shaped3 nb ny nx mask
  /\ forall b y x, 0 <= b < nb -> 0 <= y < ny -> 0 <= x < nx ->
       (exists ws ns, value_windows cast k dy dx ny nx rs b y x ws /\ null_windows (asks f) k dy dx ny nx rs b y x ns)
       /\ forall yc xc ws ns v m, coordinates_of (gr_box r0) y x yc xc -> value_windows cast k dy dx ny nx rs b y x ws -> null_windows (asks f) k dy dx ny nx rs b y x ns -> g b yc xc ws ns = (v, m) ->
          at3 mask b y x m /\ at3 data b y x (if m then n else match out_dtype_hint dt meta with Some h => cast h v | None => v end).
Proof.
  intros OK CW n. destruct unfold_overlap as (bcs & ycs & xcs & EU & WF' & Pb & Py & Px & Cb & Cy & Cx & Gy & Gx & Ly & Lx). set (c := (bcs, ycs, xcs)) in *.
  assert (LR : len (map (regrown c) (r0 :: rest)) = len rs) by (unfold rs; now rewrite !len_map).
  assert (NV' : final_nv dt meta inf nva (b_dtype (regrown c r0)) (b_nv (regrown c r0)) (len (map (regrown c) (r0 :: rest))) = Ok nv) by (rewrite LR; exact NV).
  pose proof (located_masked_ok bcs ycs xcs Pb Py Cb Cy Cx Gy Gx Ly Lx g CW) as LO. fold c in LO. rewrite <- LR in LO.
  destruct (map_overlap_located_masked cast (F c) (regrown c r0) (map (regrown c) rest) nb ny nx depth dy dx bnd k dt meta inf nva nv Hb Hy Hx WF' AG DM BM FY FX SY NV' (at_place g) OK LO) as (data & mask & E & SD & SM & V).
  exists ycs, xcs, data, mask. split; [rewrite EU; exact E|]. do 4 (split; [assumption|]).
  intros b y x H1 H2 H3. destruct (V b y x H1 H2 H3) as [(ws0 & ns0 & V0 & N0) V']. split.
  - exists ws0, ns0. split; [now apply (values_regrown c)|]. apply (nulls_regrown (asks f) c). exact N0.
  - intros yc xc ws ns v m CO VW NW EG. destruct (coordinates_agree _ _ _ _ _ CO) as [Q1 Q2]. destruct CW as [RE _].
    rewrite (RE b yc _ xc _ ws Q1 Q2) in EG. apply (V' ws ns v m); [now apply (values_regrown c)| |exact EG]. apply (nulls_regrown (asks f) c) in NW. exact NW.
Qed.
End GeoOverlap.

(* ---- refusals ---- *)
Lemma geo_refused cast auto f dt meta inf nva ob rm depth b :
  (geo_map_blocks cast auto f [] dt meta inf nva ob rm = Err ValueError /\ geo_map_overlap cast f [] depth b dt meta inf nva rm = Err ValueError)
  /\ (forall d m rs, dt = Some d -> meta = Some m -> dtype_eqb d m = false ->
       geo_map_blocks cast auto f rs dt meta inf nva ob rm = Err ValueError /\ geo_map_overlap cast f rs depth b dt meta inf nva rm = Err ValueError)
  /\ (forall rs, are_all_grids_same (map grid_of rs) = false ->
       geo_map_blocks cast auto f rs dt meta inf nva ob rm = Err ValueError /\ geo_map_overlap cast f rs depth b dt meta inf nva rm = Err ValueError).
Proof.
  split; [split; reflexivity|]. split.
  - intros d m rs -> -> E. destruct rs; [split; reflexivity|]. unfold geo_map_blocks, geo_map_overlap. cbn [check_dtype_meta_agree]. rewrite E. split; reflexivity.
  - intros rs E. destruct rs as [|r0 rest]; [split; reflexivity|]. unfold geo_map_blocks, geo_map_overlap. destruct (agree_cases dt meta) as [-> | ->]; [|split; reflexivity]. cbn [rbind].
    rewrite E. cbn [negb]. split; [reflexivity|]. destruct (negb _); reflexivity.
Qed.
