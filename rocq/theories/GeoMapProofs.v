(* geo_map_blocks and geo_map_overlap. *)
From Coq Require Import QArith Lqa Lia ZifyBool ZifyNat.
From Verif Require Import Base BaseFacts Scalars Arr2 Arr2Facts Chunks ChunksProofs FocalSpec FocalResults Bands BandsSpec BandsProofs BlockArgs BlockArgsSpec BlockArgsProofs
  Grids Blocks BlocksSpec BlocksProofs MapBlocks MapBlocksSpec MapBlocksProofs MapOverlap MapOverlapSpec MapOverlapProofs MapOverlapMain GeoMap GeoMapSpec.
Open Scope Z_scope.

(* ---- coordinates ---- *)
Definition aligned (g : geobox) : Prop := (af_b (gb_affine g) == 0)%Q /\ (af_d (gb_affine g) == 0)%Q.
Lemma zrange_len a b : a <= b -> len (zrange a b) = b - a.
Proof. intros H. unfold zrange, len. rewrite map_length, seq_length. lia. Qed.
Lemma get_zrange a b i v : get (zrange a b) i = Ok v -> 0 <= i < b - a /\ v = a + i.
Proof.
  intros G. pose proof (get_ok_range _ _ _ G) as R. unfold zrange, len in R. rewrite map_length, seq_length in R. unfold get, zrange in G. replace (i <? 0) with false in G by lia.
  rewrite nth_error_map, (nth_error_nth' _ 0%nat) in G by (rewrite seq_length; lia). cbn in G. rewrite seq_nth in G by lia. injection G as <-. lia.
Qed.
Lemma get_zrange_ok a b i : 0 <= i < b - a -> get (zrange a b) i = Ok (a + i).
Proof. intros H. destruct (get_range (zrange a b) i) as (v & G); [rewrite zrange_len by lia; lia|]. rewrite G. f_equal. now apply get_zrange in G. Qed.
Lemma block_aligned parent g : aligned parent -> describes parent g -> aligned (g_geobox g).
Proof.
  intros [A1 A2] (_ & _ & _ & D). pose proof (D 0 0) as D00. pose proof (D 0 1) as D01. pose proof (D 1 0) as D10.
  unfold Qpair_eq, gb_coord, apply in *. cbn [fst snd] in *. destruct D00 as [P1 P2], D01 as [P3 P4], D10 as [P5 P6].
  rewrite !inject_Z_plus in *. change (inject_Z 0) with 0%Q in *. change (inject_Z 1) with 1%Q in *.
  set (a := af_a (gb_affine parent)) in *. set (b := af_b (gb_affine parent)) in *. set (d := af_d (gb_affine parent)) in *. set (e := af_e (gb_affine parent)) in *.
  rewrite A1 in P1, P3, P5. rewrite A2 in P2, P4, P6. split; lra.
Qed.
Section Place.
Variables (gb : geobox) (c : crs) (g : gbi) (bs ys xs : Z * Z).
Hypothesis (AL : aligned gb) (NG : forall n, c <> Some (n, true)) (DE : describes gb g) (GB : g_band g = bs) (W : win_of g = (fst ys, snd ys, fst xs, snd xs)).
Hypothesis (Rb : fst bs <= snd bs).
Lemma win_parts : fst (g_rows g) = fst ys /\ snd (g_rows g) = snd ys /\ fst (g_cols g) = fst xs /\ snd (g_cols g) = snd xs.
Proof. unfold win_of in W. injection W. auto. Qed.
Lemma g_shape_is : g_shape g = (size bs, size ys, size xs).
Proof. destruct win_parts as (W1 & W2 & W3 & W4). destruct DE as (D1 & D2 & _). unfold g_shape. rewrite GB, D1, D2, W1, W2, W3, W4. reflexivity. Qed.
Lemma x_name : gbi_x c g = Ok (x_values (g_geobox g)) /\ gbi_y c g = Ok (y_values (g_geobox g)).
Proof. unfold gbi_x, gbi_y, coordinates, find_name, dimensions. destruct c as [[n []]|]; try (split; reflexivity). exfalso. eapply NG. reflexivity. Qed.
Lemma place_ok blocks : Forall (fun x => blk_shape x = (size bs, size ys, size xs)) blocks -> exists p, georeference c g blocks = Ok p /\ place_of gb bs ys xs p.
Proof.
  intros F. unfold georeference. replace (forallb (fun x => shape_eqb (blk_shape x) (g_shape g)) blocks) with true.
  2: { symmetry. apply forallb_forall. rewrite Forall_forall in F. intros x Hx. rewrite (F x Hx), g_shape_is. unfold shape_eqb. lia. }
  cbn [negb]. destruct x_name as [-> ->]. cbn [rbind]. eexists. split; [reflexivity|].
  destruct win_parts as (W1 & W2 & W3 & W4). pose proof DE as (D1 & D2 & D3 & D). pose proof D3 as OK. unfold win_ok, win_of in OK.
  unfold place_of. cbn [geo_band geo_y geo_x geo_info]. unfold gbi_band, y_values, x_values. rewrite !len_map, GB, D1, D2, W1, W2, W3, W4 in *. rewrite !zrange_len by lia.
  unfold size. split; [lia|]. split; [lia|]. split; [lia|]. split; [intros b Hb; now apply get_zrange_ok|]. split; [|split; [exact DE|rewrite <- W; unfold win_of; now rewrite W1, W2, W3, W4]].
  intros i j yc xc Gi Gj. rewrite get_map_eq in Gi, Gj.
  destruct (get (zrange 0 (snd ys - fst ys)) i) as [i'|] eqn:Ei; [|discriminate]. destruct (get (zrange 0 (snd xs - fst xs)) j) as [j'|] eqn:Ej; [|discriminate].
  destruct (get_zrange _ _ _ _ Ei) as [_ E1]. destruct (get_zrange _ _ _ _ Ej) as [_ E2]. replace i' with i in * by lia. replace j' with j in * by lia.
  cbn [rbind] in Gi, Gj. injection Gi as <-. injection Gj as <-. specialize (D i j). unfold coordinates_of. destruct D as [P1 P2].
  destruct (block_aligned gb g AL DE) as [B1 B2]. unfold Qpair_eq. cbn [fst snd]. rewrite <- P1, <- P2. unfold gb_coord, apply. cbn [fst snd]. rewrite B1, B2. split; ring.
Qed.
End Place.
Lemma data_shape n m k x : 0 < n -> 0 < m -> data_blk n m k x -> blk_shape x = (n, m, k).
Proof.
  intros Hn Hm D. destruct x as [a|]; [|contradiction]. destruct D as [L F]. destruct a as [|band a]; [unfold len in L; cbn in L; lia|]. inversion F as [|? ? [L2 F2] _]; subst.
  destruct band as [|row band]; [unfold len in Hm; cbn in Hm; lia|]. inversion F2 as [|? ? L3 _]; subst. reflexivity.
Qed.
Lemma mask_shape n m k x : 0 < n -> 0 < m -> mask_blk n m k x -> blk_shape x = (n, m, k).
Proof.
  intros Hn Hm D. destruct x as [|a]; [contradiction|]. destruct D as [L F]. destruct a as [|band a]; [unfold len in L; cbn in L; lia|]. inversion F as [|? ? [L2 F2] _]; subst.
  destruct band as [|row band]; [unfold len in Hm; cbn in Hm; lia|]. inversion F2 as [|? ? L3 _]; subst. reflexivity.
Qed.
Lemma blocks_shape f count n m k xs ms : 0 < n -> 0 < m -> arguments f count n m k xs ms ->
  Forall (fun x => blk_shape x = (n, m, k)) (xs ++ match ms with Some l => l | None => [] end).
Proof.
  intros Hn Hm (_ & D & M). apply Forall_app. split; [eapply Forall_impl; [|exact D]; cbn; intros; now apply data_shape|].
  destruct (wants_masks f); [|subst; constructor]. destruct M as (l & -> & _ & M). eapply Forall_impl; [|exact M]. cbn. intros. now apply mask_shape.
Qed.
Lemma location_positive cs : Forall (fun c => 0 < c) cs -> forall k p, get (chunks_to_array_locations cs) k = Ok p -> fst p < snd p.
Proof.
  intros F. induction F as [|c cs H F IH]; intros k p G; [apply get_ok_range in G; unfold len in G; cbn in G; lia|]. rewrite locs_cons in G.
  destruct (Z.eq_dec k 0) as [->|K]; [rewrite get_cons0 in G; injection G as <-; cbn; lia|].
  pose proof (get_ok_range _ _ _ G) as R. rewrite get_cons in G by lia. rewrite get_map_eq in G. destruct (get (chunks_to_array_locations cs) (k - 1)) as [[lo hi]|] eqn:E; [|discriminate]. injection G as <-. specialize (IH _ _ E). cbn in *. lia.
Qed.
Lemma coordinates_agree g y x yc xc : coordinates_of g y x yc xc -> (yc == snd (gb_coord g y x))%Q /\ (xc == fst (gb_coord g y x))%Q.
Proof. intros [P1 P2]. cbn in *. split; symmetry; assumption. Qed.

(* ---- geo_map_blocks ---- *)
Section GeoBlocks.
Variables (cast : dtype -> num -> num) (auto : list Z * list Z) (f : gfunc) (r0 : georaster) (rest : list georaster) (nb ny nx : Z).
Variables (dt meta : option dtype) (inf : dtype) (nva : nvarg) (nv : option num).
Let rs := map gr (r0 :: rest).
Hypothesis (Hb : 0 <= nb) (Hy : 0 <= ny) (Hx : 0 <= nx).
Hypothesis (WF : Forall (raster_of_shape nb ny nx) rs) (OG : on_grid ny nx r0) (NE : no_empty_chunk (gr r0)).
Hypothesis (SAME : are_all_grids_same (map grid_of (r0 :: rest)) = true).
Hypothesis (AG : check_dtype_meta_agree dt meta = Ok tt).
Hypothesis (NV : final_nv dt meta inf nva (b_dtype (gr r0)) (b_nv (gr r0)) (len rs) = Ok nv).
Let F := geo_wrapped false (gr_crs r0) (table_of r0) f.
Let given := if g_wants_out_nv f then Some nv else None.

Lemma run_block id bs ys xs vs ms o : block_at (b_chunks (gr r0)) id bs ys xs -> vs <> [] -> arguments (asks f) (len rs) (size bs) (size ys) (size xs) vs ms ->
  exists p, place_of (gr_box r0) bs ys xs p /\ run F vs ms o id = grun f vs ms o p.
Proof.
  intros BA NV0 AR. unfold F, geo_wrapped, table_of. cbn [run]. inversion WF as [|? ? (_ & _ & CH) _]; subst. unfold no_empty_chunk in NE. destruct (b_chunks (gr r0)) as [[bcs ycs] xcs].
  destruct CH as (Cb & Cy & Cx & _). destruct NE as (N1 & N2 & N3). destruct (cuts_sum _ _ Cb) as [Fb _]. destruct (cuts_sum _ _ Cy) as [Fy _]. destruct (cuts_sum _ _ Cx) as [Fx _].
  destruct id as [[kb ky] kx]. destruct BA as (B1 & B2 & B3).
  destruct (geo_block_infos_spec (gr_box r0) (len (b_data (gr r0))) bcs ycs xcs Fb Fy Fx) as (tbl & ET & _ & LK). rewrite ET. cbn [rbind].
  destruct (LK _ _ _ _ _ _ B1 B2 B3) as (g & EL & G1 & G2 & G3 & _ & _ & _ & D).
  destruct vs as [|v vs]; [contradiction|]. rewrite EL. cbn [rbind].
  pose proof (location_positive bcs N1 _ _ B1) as P1. pose proof (location_positive ycs N2 _ _ B2) as P2.
  destruct OG as (O1 & O2 & O3 & O4 & O5).
  destruct (place_ok (gr_box r0) (gr_crs r0) g bs ys xs (conj O3 O4) O5 D G1 ltac:(unfold win_of; now rewrite G2, G3) ltac:(lia) ((v :: vs) ++ match ms with Some l => l | None => [] end)) as (p & EP & PP).
  { apply (blocks_shape (asks f) (len rs)); try (unfold size; lia). exact AR. }
  exists p. split; [exact PP|]. rewrite EP. reflexivity.
Qed.
Lemma unfold_geo ob rm : ob = None -> geo_map_blocks cast auto f (r0 :: rest) dt meta inf nva ob rm = map_blocks cast auto F rs dt meta inf nva ob rm.
Proof. intros ->. unfold geo_map_blocks. rewrite AG. cbn [rbind]. rewrite SAME. reflexivity. Qed.
Lemma geo_blocks :
  (forall id bs ys xs p, block_at (b_chunks (gr r0)) id bs ys xs -> place_of (gr_box r0) bs ys xs p ->
     exists d, grun f (data_blocks rs bs ys xs) (mask_blocks (asks f) rs bs ys xs) given p = Ok (RData d) /\ shaped3 (size bs) (size ys) (size xs) d) ->
  exists data mask, geo_map_blocks cast auto f (r0 :: rest) dt meta inf nva None false
    = Ok (BRaster (out_data_dtype dt meta inf) nv (full nb 1, snd (fst (b_chunks (gr r0))), snd (b_chunks (gr r0))) data mask)
  /\ shaped3 nb ny nx data /\ shaped3 nb ny nx mask
  /\ (forall id bs ys xs, block_at (b_chunks (gr r0)) id bs ys xs -> exists p, place_of (gr_box r0) bs ys xs p
       /\ grun f (data_blocks rs bs ys xs) (mask_blocks (asks f) rs bs ys xs) given p = Ok (RData (slice3 data bs ys xs)))
  /\ (forall b r c v, at3 data b r c v -> exists m, at3 mask b r c m /\ (m = true <-> null_value_here nv v)).
Proof.
  intros H. assert (RB : forall id bs ys xs, block_at (b_chunks (gr r0)) id bs ys xs -> exists p, place_of (gr_box r0) bs ys xs p
     /\ run F (data_blocks rs bs ys xs) (mask_blocks F rs bs ys xs) given id = grun f (data_blocks rs bs ys xs) (mask_blocks (asks f) rs bs ys xs) given p).
  { intros id bs ys xs BA. change (mask_blocks F rs bs ys xs) with (mask_blocks (asks f) rs bs ys xs). apply run_block; [exact BA|discriminate|].
    inversion WF as [|? ? (_ & _ & CH) _]; subst. destruct (b_chunks (gr r0)) as [[bcs ycs] xcs]. destruct CH as (Cb & Cy & Cx & _).
    pose proof (block_range bcs ycs xcs nb ny nx id bs ys xs Cb Cy Cx BA). now apply (arguments_ok (asks f) rs nb ny nx). }
  rewrite unfold_geo by reflexivity.
  destruct (map_blocks_blocks cast auto F (gr r0) (map gr rest) nb ny nx dt meta inf nva Hb Hy Hx WF AG nv NV) as (data & mask & E & S1 & S2 & BL & NU).
  { intros id bs ys xs BA. destruct (RB id bs ys xs BA) as (p & PP & E). destruct (H id bs ys xs p BA PP) as (d & ED & SD). exists d. split; [|exact SD].
    etransitivity; [exact E|exact ED]. }
  exists data, mask. split; [exact E|]. split; [exact S1|]. split; [exact S2|]. split; [|exact NU].
  intros id bs ys xs BA. destruct (RB id bs ys xs BA) as (p & PP & EP). exists p. split; [exact PP|]. rewrite <- EP. exact (BL id bs ys xs BA).
Qed.
Lemma geo_cells g : geo_cellwise f (len rs) given g ->
  exists data mask, geo_map_blocks cast auto f (r0 :: rest) dt meta inf nva None false
    = Ok (BRaster (out_data_dtype dt meta inf) nv (full nb 1, snd (fst (b_chunks (gr r0))), snd (b_chunks (gr r0))) data mask)
  /\ shaped3 nb ny nx data /\ shaped3 nb ny nx mask
  /\ forall b y x yc xc vals nulls, 0 <= b < nb -> 0 <= y < ny -> 0 <= x < nx -> coordinates_of (gr_box r0) y x yc xc ->
       values_at rs b y x vals -> nulls_at (asks f) rs b y x nulls ->
       at3 data b y x (g b yc xc vals nulls) /\ exists m, at3 mask b y x m /\ (m = true <-> null_value_here nv (g b yc xc vals nulls)).
Proof.
  intros [RE CW]. inversion WF as [|? ? (_ & _ & CH) _]; subst.
  assert (RUN : forall id bs ys xs p, block_at (b_chunks (gr r0)) id bs ys xs -> place_of (gr_box r0) bs ys xs p -> exists d,
     grun f (data_blocks rs bs ys xs) (mask_blocks (asks f) rs bs ys xs) given p = Ok (RData d) /\ shaped3 (size bs) (size ys) (size xs) d
     /\ forall b y x yc xc vals nulls, fst bs <= b < snd bs -> fst ys <= y < snd ys -> fst xs <= x < snd xs -> coordinates_of (gr_box r0) y x yc xc ->
          values_at rs b y x vals -> nulls_at (asks f) rs b y x nulls -> at3 d (b - fst bs) (y - fst ys) (x - fst xs) (g b yc xc vals nulls)).
  { intros id bs ys xs p BA (P1 & P2 & P3 & P4 & P5 & _). destruct (b_chunks (gr r0)) as [[bcs ycs] xcs]. destruct CH as (Cb & Cy & Cx & _).
    pose proof (block_range bcs ycs xcs nb ny nx id bs ys xs Cb Cy Cx BA) as R.
    destruct (CW (size bs) (size ys) (size xs) (data_blocks rs bs ys xs) (mask_blocks (asks f) rs bs ys xs) p) as (d & E & S & V); try (unfold size; lia); try assumption.
    { now apply (arguments_ok (asks f) rs nb ny nx). }
    exists d. split; [exact E|]. split; [exact S|]. intros b y x yc xc vals nulls H1 H2 H3 CO VA NA.
    destruct (get_range (geo_y p) (y - fst ys)) as (yc' & GY); [rewrite P2; unfold size; lia|]. destruct (get_range (geo_x p) (x - fst xs)) as (xc' & GX); [rewrite P3; unfold size; lia|].
    pose proof (P5 _ _ _ _ GY GX) as CO'. replace (fst ys + (y - fst ys)) with y in CO' by lia. replace (fst xs + (x - fst xs)) with x in CO' by lia.
    destruct (coordinates_agree _ _ _ _ _ CO) as [Q1 Q2]. destruct (coordinates_agree _ _ _ _ _ CO') as [Q3 Q4].
    rewrite (RE b yc yc' xc xc' vals) by (etransitivity; [eassumption|symmetry; assumption]).
    apply V; auto.
    - rewrite P4 by (unfold size; lia). f_equal. lia.
    - now apply (data_blocks_cells rs nb ny nx).
    - now apply (mask_blocks_cells (asks f) rs nb ny nx). }
  destruct geo_blocks as (data & mask & E & SD & SM & BL & NU).
  { intros id bs ys xs p BA PP. destruct (RUN id bs ys xs p BA PP) as (d & E & S & _). eauto. }
  exists data, mask. split; [exact E|]. split; [exact SD|]. split; [exact SM|].
  intros b y x yc xc vals nulls H1 H2 H3 CO VA NA. assert (A : at3 data b y x (g b yc xc vals nulls)); [|split; [exact A|now apply NU]].
  destruct (b_chunks (gr r0)) as [[bcs ycs] xcs]. destruct CH as (Cb & Cy & Cx & _).
  destruct (block_of bcs ycs xcs nb ny nx b y x Cb Cy Cx H1 H2 H3) as (id & bs & ys & xs & BA & R1 & R2 & R3).
  pose proof (block_range bcs ycs xcs nb ny nx id bs ys xs Cb Cy Cx BA) as R.
  destruct (BL id bs ys xs BA) as (p & PP & EP). destruct (RUN id bs ys xs p BA PP) as (d & E2 & S & V). rewrite EP in E2. injection E2 as <-.
  specialize (V b y x yc xc vals nulls R1 R2 R3 CO VA NA). apply (at3_slice nb ny nx) in V; unfold size; try tauto; try lia.
  replace (fst bs + (b - fst bs)) with b in V by lia. replace (fst ys + (y - fst ys)) with y in V by lia. replace (fst xs + (x - fst xs)) with x in V by lia. exact V.
Qed.
End GeoBlocks.
