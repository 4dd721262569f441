(* C65: geo_map_blocks and geo_map_overlap. *)
From Coq Require Import QArith Lia ZifyBool Ascii.
From Verif Require Import Base BaseFacts Scalars Arr2Facts Chunks ChunksProofs Arr2 FocalSpec FocalResults BandsSpec Bands BandsProofs BlockArgs BlockArgsSpec BlockArgsProofs Grids Blocks BlocksSpec
  MapBlocks MapBlocksSpec MapBlocksProofs MapOverlap MapOverlapSpec MapOverlapProofs MapOverlapMain GeoMap GeoMapSpec GeoMapProofs GeoMapOverlap MapOverlapProps.
Open Scope Z_scope.

(* Every function: it is called once for each chunk with the blocks of all rasters there
   and with the bands and the coordinates of exactly those cells, and its results are
   put where the blocks lie.  For rasters on a grid that is not rotated and not in a
   geographic coordinate system. *)
Theorem C65_blocks : forall cast auto f r0 rest nb ny nx dt meta inf nva nv,
  let rs := map gr (r0 :: rest) in let given := if g_wants_out_nv f then Some nv else None in
  0 <= nb -> 0 <= ny -> 0 <= nx -> Forall (raster_of_shape nb ny nx) rs -> on_grid ny nx r0 -> no_empty_chunk (gr r0) ->
  are_all_grids_same (map grid_of (r0 :: rest)) = true -> check_dtype_meta_agree dt meta = Ok tt ->
  final_nv dt meta inf nva (b_dtype (gr r0)) (b_nv (gr r0)) (len rs) = Ok nv ->
  (forall id bs ys xs p, block_at (b_chunks (gr r0)) id bs ys xs -> place_of (gr_box r0) bs ys xs p ->
     exists d, grun f (data_blocks rs bs ys xs) (mask_blocks (asks f) rs bs ys xs) given p = Ok (RData d) /\ shaped3 (size bs) (size ys) (size xs) d) ->
  exists data mask, geo_map_blocks cast auto f (r0 :: rest) dt meta inf nva None false
    = Ok (BRaster (out_data_dtype dt meta inf) nv (full nb 1, snd (fst (b_chunks (gr r0))), snd (b_chunks (gr r0))) data mask)
  /\ shaped3 nb ny nx data /\ shaped3 nb ny nx mask
  /\ (forall id bs ys xs, block_at (b_chunks (gr r0)) id bs ys xs -> exists p, place_of (gr_box r0) bs ys xs p
       /\ grun f (data_blocks rs bs ys xs) (mask_blocks (asks f) rs bs ys xs) given p = Ok (RData (slice3 data bs ys xs)))
  /\ (forall b r c v, at3 data b r c v -> exists m, at3 mask b r c m /\ (m = true <-> null_value_here nv v)).
Proof. exact geo_blocks. Qed.
Print Assumptions C65_blocks.
(* A function of the band, the coordinates and the values of a cell: the result at each
   cell is its value for that cell, whatever the chunks. *)
Theorem C65_cells : forall cast auto f r0 rest nb ny nx dt meta inf nva nv,
  let rs := map gr (r0 :: rest) in
  0 <= nb -> 0 <= ny -> 0 <= nx -> Forall (raster_of_shape nb ny nx) rs -> on_grid ny nx r0 -> no_empty_chunk (gr r0) ->
  are_all_grids_same (map grid_of (r0 :: rest)) = true -> check_dtype_meta_agree dt meta = Ok tt ->
  final_nv dt meta inf nva (b_dtype (gr r0)) (b_nv (gr r0)) (len rs) = Ok nv ->
  forall g, geo_cellwise f (len rs) (if g_wants_out_nv f then Some nv else None) g ->
  exists data mask, geo_map_blocks cast auto f (r0 :: rest) dt meta inf nva None false
    = Ok (BRaster (out_data_dtype dt meta inf) nv (full nb 1, snd (fst (b_chunks (gr r0))), snd (b_chunks (gr r0))) data mask)
  /\ shaped3 nb ny nx data /\ shaped3 nb ny nx mask
  /\ forall b y x yc xc vals nulls, 0 <= b < nb -> 0 <= y < ny -> 0 <= x < nx -> coordinates_of (gr_box r0) y x yc xc ->
       values_at rs b y x vals -> nulls_at (asks f) rs b y x nulls ->
       at3 data b y x (g b yc xc vals nulls) /\ exists m, at3 mask b y x m /\ (m = true <-> null_value_here nv (g b yc xc vals nulls)).
Proof. exact geo_cells. Qed.
Print Assumptions C65_cells.
(* geo_map_overlap: a function of the band, the coordinates and what it sees within the
   depth around a cell, and as many cells handed over before each chunk as after it. *)
Theorem C65_overlap : forall cast f r0 rest nb ny nx depth dy dx bnd k dt meta inf nva nv,
  let rs := map gr (r0 :: rest) in
  0 <= nb -> 0 <= ny -> 0 <= nx -> Forall (raster_of_shape nb ny nx) rs -> on_grid ny nx r0 -> no_empty_chunk (gr r0) ->
  are_all_grids_same (map grid_of (r0 :: rest)) = true -> check_dtype_meta_agree dt meta = Ok tt ->
  depth_means depth dy dx -> boundary_means bnd k -> fits dy ny -> fits dx nx -> (k <> Unpadded -> symmetric dy /\ symmetric dx) ->
  even k dy (snd (fst (b_chunks (gr r0)))) -> even k dx (snd (b_chunks (gr r0))) ->
  final_nv dt meta inf nva (b_dtype (gr r0)) (b_nv (gr r0)) (len rs) = Ok nv ->
  forall g, geo_windowed f (len rs) (if g_wants_out_nv f then Some nv else None) (k = Unpadded) dy dx g ->
  exists ycs xcs data mask, geo_map_overlap cast f (r0 :: rest) depth bnd dt meta inf nva false
    = Ok (BRaster (out_data_dtype dt meta inf) nv (full nb 1, ycs, xcs) data mask)
  /\ cuts ny ycs /\ cuts nx xcs /\ shaped3 nb ny nx data /\ shaped3 nb ny nx mask
  /\ forall b y x, 0 <= b < nb -> 0 <= y < ny -> 0 <= x < nx ->
       (exists ws ns, value_windows cast k dy dx ny nx rs b y x ws /\ null_windows (asks f) k dy dx ny nx rs b y x ns)
       /\ forall yc xc ws ns, coordinates_of (gr_box r0) y x yc xc -> value_windows cast k dy dx ny nx rs b y x ws -> null_windows (asks f) k dy dx ny nx rs b y x ns ->
          at3 data b y x (g b yc xc ws ns) /\ exists m, at3 mask b y x m /\ (m = true <-> null_value_here nv (g b yc xc ws ns)).
Proof. exact geo_overlap_cells. Qed.
Print Assumptions C65_overlap.
Theorem C65_overlap_return_mask : forall cast f r0 rest nb ny nx depth dy dx bnd k dt meta inf nva nv,
  let rs := map gr (r0 :: rest) in
  0 <= nb -> 0 <= ny -> 0 <= nx -> Forall (raster_of_shape nb ny nx) rs -> on_grid ny nx r0 -> no_empty_chunk (gr r0) ->
  are_all_grids_same (map grid_of (r0 :: rest)) = true -> check_dtype_meta_agree dt meta = Ok tt ->
  depth_means depth dy dx -> boundary_means bnd k -> fits dy ny -> fits dx nx -> (k <> Unpadded -> symmetric dy /\ symmetric dx) ->
  even k dy (snd (fst (b_chunks (gr r0)))) -> even k dx (snd (b_chunks (gr r0))) ->
  final_nv dt meta inf nva (b_dtype (gr r0)) (b_nv (gr r0)) (len rs) = Ok nv ->
  forall g, (g_wants_out_nv f = false \/ nva <> NvNone \/ out_dtype_hint dt meta <> None) ->
  geo_windowed_masked f (len rs) (if g_wants_out_nv f then Some nv else None) (k = Unpadded) dy dx g ->
  let n := match nv with Some v => v | None => default_null (out_data_dtype dt meta inf) end in
  exists ycs xcs data mask, geo_map_overlap cast f (r0 :: rest) depth bnd dt meta inf nva true
    = Ok (BRaster (out_data_dtype dt meta inf) (Some n) (full nb 1, ycs, xcs) data mask)
  /\ cuts ny ycs /\ cuts nx xcs /\ shaped3 nb ny nx data /\ shaped3 nb ny nx mask
  /\ forall b y x, 0 <= b < nb -> 0 <= y < ny -> 0 <= x < nx ->
       (exists ws ns, value_windows cast k dy dx ny nx rs b y x ws /\ null_windows (asks f) k dy dx ny nx rs b y x ns)
       /\ forall yc xc ws ns v m, coordinates_of (gr_box r0) y x yc xc -> value_windows cast k dy dx ny nx rs b y x ws -> null_windows (asks f) k dy dx ny nx rs b y x ns -> g b yc xc ws ns = (v, m) ->
          at3 mask b y x m /\ at3 data b y x (if m then n else match out_dtype_hint dt meta with Some h => cast h v | None => v end).
Proof. exact geo_overlap_masked. Qed.
Print Assumptions C65_overlap_return_mask.
(* Refused: no raster, dtype and meta that disagree, rasters on different grids. *)
Theorem C65_refused : forall cast auto f dt meta inf nva ob rm depth b,
  (geo_map_blocks cast auto f [] dt meta inf nva ob rm = Err ValueError /\ geo_map_overlap cast f [] depth b dt meta inf nva rm = Err ValueError)
  /\ (forall d m rs, dt = Some d -> meta = Some m -> dtype_eqb d m = false ->
       geo_map_blocks cast auto f rs dt meta inf nva ob rm = Err ValueError /\ geo_map_overlap cast f rs depth b dt meta inf nva rm = Err ValueError)
  /\ (forall rs, are_all_grids_same (map grid_of rs) = false ->
       geo_map_blocks cast auto f rs dt meta inf nva ob rm = Err ValueError /\ geo_map_overlap cast f rs depth b dt meta inf nva rm = Err ValueError).
Proof. exact geo_refused. Qed.
Print Assumptions C65_refused.

(* ---- examples ---- *)
(* the y coordinate of each cell *)
Definition ex_y : gfunc := GFunc false false (fun _ _ _ p => Ok (RData (map (fun _ => map (fun y => map (fun _ => Fin (Qred y)) (geo_x p)) (geo_y p)) (geo_band p)))).
Lemma ex_y_ok p b i j band yc xc : get (geo_band p) b = Ok band -> get (geo_y p) i = Ok yc -> get (geo_x p) j = Ok xc ->
  at3 (map (fun _ => map (fun y => map (fun _ => Fin (Qred y)) (geo_x p)) (geo_y p)) (geo_band p)) b i j (Fin (Qred yc)).
Proof.
  intros G1 G2 G3. eexists. split; [rewrite get_map_eq, G1; reflexivity|]. eexists. split; [rewrite get_map_eq, G2; reflexivity|]. rewrite get_map_eq, G3. reflexivity.
Qed.
Lemma ex_y_shape p : shaped3 (len (geo_band p)) (len (geo_y p)) (len (geo_x p)) (map (fun _ => map (fun y => map (fun _ => Fin (Qred y)) (geo_x p)) (geo_y p)) (geo_band p)).
Proof. split; [apply len_map|]. apply Forall_map, Forall_forall. intros b _. split; [apply len_map|]. apply Forall_map, Forall_forall. intros y _. apply len_map. Qed.
Example C65_ex_cellwise : geo_cellwise ex_y 2 None (fun _ y _ _ _ => Fin (Qred y)).
Proof.
  split; [intros a y y' x x' l H _; now rewrite (Qred_complete _ _ H)|]. intros n m k xs ms p _ _ _ _ <- <- <-. eexists. split; [reflexivity|]. split; [apply ex_y_shape|].
  intros. eapply ex_y_ok; eassumption.
Qed.
(* south of 0 the value to the right, elsewhere the value *)
Definition ex_row (yr : Q * list num) : list num := if Qle_bool 0 (fst yr) then snd yr else shift NaN (snd yr).
Definition ex_south : gfunc := GFunc false false (fun xs _ _ p => match xs with
  | [BData a] => Ok (RData (map (fun band => map ex_row (combine (geo_y p) band)) a))
  | _ => Err TypeError end).
Definition ex_g (y : Q) (ws : list (Z -> Z -> option num)) : num := opt NaN (nth 0 ws (fun _ _ => None) 0 (if Qle_bool 0 y then 0 else 1)).
Lemma get_combine {A B} (l : list A) (l' : list B) i a b : get l i = Ok a -> get l' i = Ok b -> get (combine l l') i = Ok (a, b).
Proof.
  unfold get. destruct (i <? 0); [discriminate|]. generalize (Z.to_nat i) as n. intros n. revert l l'. induction n as [|n IH]; intros [|x l] [|y l']; cbn; try discriminate; [congruence|apply IH].
Qed.
Example C65_ex_windowed : geo_windowed ex_south 1 None False (Sym 1) (Sym 1) (fun _ y _ ws _ => ex_g y ws).
Proof.
  assert (QB : forall y y', (y == y')%Q -> Qle_bool 0 y = Qle_bool 0 y').
  { intros y y' H. destruct (Qle_bool 0 y) eqn:E, (Qle_bool 0 y') eqn:E'; auto; exfalso; [rewrite Qle_bool_iff in E|rewrite Qle_bool_iff in E'].
    - assert (X : Qle_bool 0 y' = true) by (apply Qle_bool_iff; now rewrite <- H). congruence.
    - assert (X : Qle_bool 0 y = true) by (apply Qle_bool_iff; now rewrite H). congruence. }
  split; [intros a y y' x x' l H _; unfold ex_g; now rewrite (QB _ _ H)|].
  intros n m k xs ms p Hn Hm Hk (L & D & _) <- LY <-. destruct xs as [|x [|y xs]]; unfold len in L; cbn in L; try lia. inversion D as [|? ? D1 _]; subst. destruct x as [a|]; [|contradiction]. cbn in D1.
  eexists. split; [reflexivity|]. split.
  - destruct D1 as [L1 F]. split; [now rewrite len_map|]. apply Forall_map. eapply Forall_impl; [|exact F]. intros band [L2 F2]. split.
    + rewrite len_map. unfold len in *. rewrite combine_length. lia.
    + apply Forall_map, Forall_forall. intros [y row] I. apply in_combine_r in I. rewrite Forall_forall in F2. specialize (F2 _ I). unfold ex_row. cbn [fst snd]. destruct (Qle_bool 0 y); [exact F2|now rewrite len_shift].
  - intros b i j band yc xc ws ns GB GY GX [[]|W] V _. pose proof (get_ok_range _ _ _ GB) as Rb. pose proof (get_ok_range _ _ _ GY) as Ry. pose proof (get_ok_range _ _ _ GX) as Rx.
    inversion V as [|? w ? ? V1 V']; subst. inversion V'; subst. unfold ex_g. cbn [nth].
    destruct (val3_at NaN _ _ _ a b i j D1 Rb Ry Rx) as (bd & G1 & row & G2 & G3).
    assert (R : at3 (map (fun band => map ex_row (combine (geo_y p) band)) a) b i j (opt NaN (w 0 (if Qle_bool 0 yc then 0 else 1))) <-> get (ex_row (yc, row)) j = Ok (opt NaN (w 0 (if Qle_bool 0 yc then 0 else 1)))).
    { split.
      - intros (bd' & E1 & row' & E2 & E3). rewrite get_map_eq, G1 in E1. cbn in E1. injection E1 as <-. rewrite get_map_eq, (get_combine _ _ _ _ _ GY G2) in E2. cbn in E2. injection E2 as <-. exact E3.
      - intros E. eexists. split; [rewrite get_map_eq, G1; reflexivity|]. eexists. split; [rewrite get_map_eq, (get_combine _ _ _ _ _ GY G2); reflexivity|]. exact E. }
    apply R. clear R. unfold ex_row. cbn [fst snd]. destruct (Qle_bool 0 yc).
    + specialize (V1 0 0 ltac:(cbn; lia) ltac:(cbn; lia)). cbv beta in V1. rewrite !Z.add_0_r in V1. unfold sees, source in V1.
      replace ((0 <=? i) && (i <? len (geo_y p))) with true in V1 by lia. replace ((0 <=? j) && (j <? len (geo_x p))) with true in V1 by lia. destruct V1 as (u & -> & (bd' & E1 & row' & E2 & E3)). cbn [opt]. congruence.
    + specialize (V1 0 1 ltac:(cbn; lia) ltac:(cbn; lia)). cbv beta in V1. rewrite Z.add_0_r in V1. cbn [data_cell] in V1. pose proof (shift3_at NaN _ _ _ a b i j _ D1 Rb Ry Rx V1) as (bd' & E1 & row' & E2 & E3).
      unfold shift3 in E1. rewrite get_map_eq, G1 in E1. cbn in E1. injection E1 as <-. rewrite get_map_eq, G2 in E2. cbn in E2. injection E2 as <-. exact E3.
Qed.
(* one band of 3 x 2 cells of size 10, the rows at 10, 0 and -10; in a projected and in
   a geographic system; in two cuttings *)
Definition ex_box : geobox := {| gb_affine := Blocks.Affine 10 0 0 0 (-10 # 1) 15; gb_ny := 3; gb_nx := 2 |}.
Definition ex_b (chunks : chunks3) : braster := BRaster I16 (Some (of_Z (-1))) chunks
  [[[of_Z 1; of_Z 8]; [of_Z 3; of_Z 4]; [of_Z 5; of_Z 9]]] [[[false; false]; [false; false]; [false; false]]].
Definition ex_geo (c : crs) (chunks : chunks3) : georaster := GeoRaster (ex_b chunks) ex_box c.
Definition utm : crs := Some (32611, false).
Definition wgs84 : crs := Some (4326, true).
Definition ex_whole : chunks3 := ([1], [3], [2]).
Definition ex_cut : chunks3 := ([1], [1; 1; 1], [1; 1]).
Example C65_ex_rasters : Forall (raster_of_shape 1 3 2) [ex_b ex_whole; ex_b ex_cut] /\ on_grid 3 2 (ex_geo utm ex_cut) /\ no_empty_chunk (ex_b ex_cut)
  /\ are_all_grids_same (map grid_of [ex_geo utm ex_cut; ex_geo utm ex_whole]) = true /\ are_all_grids_same (map grid_of [ex_geo utm ex_cut; ex_geo wgs84 ex_whole]) = false
  /\ even Mirrored (Sym 1) [1; 1; 1] /\ even Unpadded (Asym 0 1) [3].
Proof.
  split; [repeat constructor; unfold cuts; cbn; repeat split; try discriminate; repeat constructor; lia|]. split; [unfold on_grid; cbn; repeat split; try reflexivity; discriminate|].
  split; [repeat constructor|]. split; [vm_compute; reflexivity|]. split; [vm_compute; reflexivity|]. split; [left; exists 1; split; [reflexivity|left; discriminate]|right; split; reflexivity].
Qed.
Definition ex_auto : list Z * list Z := ([3], [2]).
Definition ys_result (chunks : chunks3) (a b c : Z) : res braster := Ok (BRaster I16 (Some (of_Z (-1))) chunks
  [[[of_Z a; of_Z a]; [of_Z b; of_Z b]; [of_Z c; of_Z c]]] [[[false; false]; [false; false]; [false; false]]]).
Example C65_ex_blocks : geo_map_blocks keep ex_auto ex_y [ex_geo utm ex_cut; ex_geo utm ex_whole] None None I16 (NvNum (of_Z (-1))) None false = ys_result ex_cut 10 0 (-10).
Proof. vm_compute. reflexivity. Qed.
Example C65_ex_overlap : geo_map_overlap keep ex_south [ex_geo utm ex_cut] (PInt 1) (BStr s_reflect) None None I16 (NvNum (of_Z (-1))) false
  = Ok (BRaster I16 (Some (of_Z (-1))) ex_cut [[[of_Z 1; of_Z 8]; [of_Z 3; of_Z 4]; [of_Z 9; of_Z 9]]] [[[false; false]; [false; false]; [false; false]]]).
Proof. vm_compute. reflexivity. Qed.
(* asymmetric depth, nothing beyond the edges, one chunk *)
Example C65_ex_none : geo_map_overlap keep ex_y [ex_geo utm ex_whole] (PTuple [PInt 0; PTuple [PInt 0; PInt 1]]) BNone None None I16 (NvNum (of_Z (-1))) false = ys_result ex_whole 10 0 (-10).
Proof. vm_compute. reflexivity. Qed.

(* Finding: GeoBlockInfo.x and y look the coordinates up under the names x and y; in a
   geographic system they are called longitude and latitude.  So no function can be
   applied to a raster in such a system. *)
Theorem C65_geographic_refuted :
  geo_map_blocks keep ex_auto ex_y [ex_geo wgs84 ex_whole] None None I16 (NvNum (of_Z (-1))) None false = Err KeyError
  /\ geo_map_overlap keep ex_y [ex_geo wgs84 ex_whole] (PInt 1) (BStr s_reflect) None None I16 (NvNum (of_Z (-1))) false = Err KeyError.
Proof. vm_compute. auto. Qed.
Print Assumptions C65_geographic_refuted.
(* Finding: without boundary the cells of the outer chunks get the coordinates of
   cells half a depth away, so the result depends on the chunks.  The same with a depth
   that differs between the two sides and several chunks. *)
Theorem C65_no_boundary_refuted :
  geo_map_overlap keep ex_y [ex_geo utm ex_whole] (PInt 1) BNone None None I16 (NvNum (of_Z (-1))) false = ys_result ex_whole 10 0 (-10)
  /\ geo_map_overlap keep ex_y [ex_geo utm ex_cut] (PInt 1) BNone None None I16 (NvNum (of_Z (-1))) false <> ys_result ex_cut 10 0 (-10)
  /\ geo_map_overlap keep ex_y [ex_geo utm ex_cut] (PTuple [PTuple [PInt 1; PInt 0]; PInt 0]) BNone None None I16 (NvNum (of_Z (-1))) false <> ys_result ex_cut 10 0 (-10).
Proof. split; [vm_compute; reflexivity|]. split; vm_compute; discriminate. Qed.
Print Assumptions C65_no_boundary_refuted.
