(* zonal_stats: features, overlaps, the long format and refusals. *)
From Coq Require Import QArith String Ascii NArith Lia ZifyBool ZifyNat Permutation Sorted.
From Verif Require Import Base BaseFacts Scalars NumFacts Arr2 Arr2Facts Dtypes ChunksProofs CostPublicProofs ProximityChunk FocalSpec FocalValues FocalResults Raster RasterSpec RasterProofs RasterStack Stats StatsSpec StatsProofs
  Zonal ZonalSpec ZonalProofs ZonalStats Rasterize RasterizeSpec RasterizeRaster RasterizeRasterSpec RasterizeRasterProofs ZonalRaster ZonalRasterSpec ZonalRasterProofs ZonalRasterCells ZonalRasterMain.
Open Scope Z_scope.

Lemma melt_ok nb names part : 0 <= nb -> names <> [] -> (forall r, In r part -> is_nan (fst r) = false /\ len (snd r) = nb * len names) ->
  exists rows, melt_part (columns_of nb names) part = Ok rows /\ Permutation rows (long_rows nb (len names) part) /\ StronglySorted label_order rows.
Proof.
  intros Hb NE H. unfold melt_part.
  assert (E : flat_map (stack_row (columns_of nb names)) part = flat_map (labelled nb (len names)) part).
  { rewrite !flat_map_concat_map. f_equal. apply map_ext_in. intros r Hr. apply stack_ok; auto. now apply H. }
  rewrite E. set (rs := flat_map (labelled nb (len names)) part).
  set (conv := fun r : num * string * list num => LongRow (fst (fst r)) (match parse_band (snd (fst r)) with Ok b => b | Err _ => 0 end) (snd r)).
  assert (IL : forall r, In r rs -> is_nan (fst (fst r)) = false /\ exists b, 1 <= b /\ snd (fst r) = band_label b).
  { intros r Hr. apply in_flat_map in Hr as (q & Hq & Hr). apply in_map_iff in Hr as (b & <- & Hb'). apply zrange_in in Hb'. cbn [fst snd]. split; [now apply H|]. exists (b + 1). split; [lia|reflexivity]. }
  assert (IS : forall r, In r (sort_rows rs) -> is_nan (fst (fst r)) = false /\ exists b, 1 <= b /\ snd (fst r) = band_label b).
  { intros r Hr. apply IL. eapply Permutation_in; [apply sort_rows_perm|exact Hr]. }
  exists (map conv (sort_rows rs)). split; [|split].
  - apply traverse_ok. intros r Hr. destruct (IS r Hr) as (_ & b & Hb' & L). unfold conv. rewrite L, parse_label by lia. reflexivity.
  - assert (X : map conv rs = long_rows nb (len names) part).
    { unfold rs, long_rows. rewrite (flat_map_concat_map (labelled nb (len names))), concat_map, map_map, flat_map_concat_map. f_equal. apply map_ext. intros r.
      unfold labelled. rewrite map_map. apply map_ext_in. intros b Hb'. apply zrange_in in Hb'. unfold conv. cbn [fst snd]. now rewrite parse_label by lia. }
    rewrite <- X. apply Permutation_map, sort_rows_perm.
  - assert (S : StronglySorted (fun a b => row_leb a b = true) (sort_rows rs)) by (apply sort_rows_sorted, Forall_forall; intros r Hr; now apply IL).
    revert IS. induction S as [|r l S IH F]; intros IS; [constructor|]. cbn [map]. constructor; [apply IH; intros; apply IS; now right|].
    apply Forall_forall. intros q Hq. apply in_map_iff in Hq as (x & <- & Hx). rewrite Forall_forall in F. specialize (F x Hx).
    destruct (IS r (or_introl eq_refl)) as (_ & b1 & B1 & L1). destruct (IS x (or_intror Hx)) as (_ & b2 & B2 & L2).
    unfold label_order, conv. cbn [l_band l_zone]. unfold row_leb in F. rewrite L1, L2, !parse_label in * by lia.
    destruct (String.compare (band_label b1) (band_label b2)) eqn:C; [|left; reflexivity|discriminate]. right. split; [|exact F]. apply String.compare_eq_iff in C. apply label_inj in C; lia.
Qed.

Section Calls.
Variables (cast : dtype -> num -> num) (fd : num -> dtype) (sb : option Z -> list gfeature -> region).
Variable auto_chunks : Z -> Z -> list Z * list Z.
Variable partition : list Z -> list Z -> list (list Z).
Variable tree_of : list (list row) -> list (Zonal.tree (list row)).
Variable result_parts : list (num * list num) -> list (list (num * list num)).
Variable other : string -> list num -> num.
Notation zstats := (zonal_stats cast fd sb auto_chunks partition tree_of result_parts other).
Notation zbody := (zonal_body cast fd sb auto_chunks partition tree_of result_parts other).

(* the long format, from the wide one *)
Lemma body_long f data names field fr f' nb : 0 <= nb -> names <> [] -> (forall rows, concat (result_parts rows) = rows) ->
  zbody f data names field true = Ok (Wide fr, f') -> f_columns fr = columns_of nb names -> (forall r, In r (f_rows fr) -> is_nan (fst r) = false /\ len (snd r) = nb * len names) ->
  exists parts, zbody f data names field false = Ok (Long (concat parts), f')
  /\ Forall2 (fun rows part => Permutation part (long_rows nb (len names) rows) /\ StronglySorted label_order part) (result_parts (f_rows fr)) parts.
Proof.
  intros Hb NE RP E C H. unfold zonal_body in E |- *.
  match type of E with rbind ?x _ = _ => destruct x as [u|]; [|discriminate] end. cbn [rbind] in E |- *.
  destruct (auto_chunks (grid_ny (p_grid data)) (grid_nx (p_grid data))) as [ys xs].
  match type of E with rbind ?x _ = _ => destruct x as [d|]; [|discriminate] end. cbn [rbind] in E |- *.
  match type of E with rbind ?x _ = _ => destruct x as [p|]; [|discriminate] end. cbn [rbind] in E |- *.
  match type of E with rbind ?x _ = _ => destruct x as [g|]; [|discriminate] end. cbn [rbind] in E |- *.
  injection E as -> <-. rewrite C.
  assert (G : forall l, (forall part r, In part l -> In r part -> is_nan (fst r) = false /\ len (snd r) = nb * len names) ->
    exists parts, traverse (melt_part (columns_of nb names)) l = Ok parts /\ Forall2 (fun rows part => Permutation part (long_rows nb (len names) rows) /\ StronglySorted label_order part) l parts).
  { induction l as [|part l IH]; intros HL; [exists []; split; [reflexivity|constructor]|]. destruct (melt_ok nb names part Hb NE) as (rows & ER & P). { intros r Hr. apply (HL part); [now left|exact Hr]. }
    destruct IH as (parts & EP & F). { intros part' r Hp. apply HL. now right. }
    exists (rows :: parts). split; [cbn [traverse]; rewrite ER; cbn [rbind]; rewrite EP; reflexivity|]. now constructor. }
  destruct (G (result_parts (f_rows fr))) as (parts & EP & F).
  { intros part r Hp Hr. apply H. rewrite <- (RP (f_rows fr)). apply in_concat. eauto. }
  exists parts. rewrite EP. cbn [rbind]. auto.
Qed.

Hypothesis cast_nan : forall v, is_nan (cast F64 v) = is_nan v.
Hypothesis partition_ok : partitions_cells partition.
Hypothesis tree_ok : forall parts, flat_map leaves (tree_of parts) = concat parts.
Hypothesis other_perm : forall name x y, Permutation x y -> other name x = other name y.
Hypothesis auto_ok : chunks_fit auto_chunks.

(* the data raster with its new chunks *)
Definition new_grid (k : grid) (ny nx : Z) : grid := Grid (fst (auto_chunks ny nx)) (snd (auto_chunks ny nx)) (k_row k) (k_col k) (k_crs k).
Lemma data_rechunk nb ny nx data : lies nb ny nx data ->
  grid_ny (p_grid data) = ny /\ grid_nx (p_grid data) = nx /\
  rechunk data (full (len (r_data (p_raster data))) 1) (fst (auto_chunks ny nx)) (snd (auto_chunks ny nx)) = Ok (Placed (p_raster data) (new_grid (p_grid data) ny nx)).
Proof.
  intros ((Cy & Cx & _ & Hnx) & Hny & W & _). unfold grid_ny, grid_nx, rechunk. rewrite (total_cuts ny _ Cy), (total_cuts nx _ Cx). destruct (auto_ok ny nx Hny Hnx) as (A & B & _).
  rewrite total_full by apply len_nonneg. unfold grid_ny, grid_nx. rewrite (total_cuts ny _ Cy), (total_cuts nx _ Cx), (total_cuts ny _ A), (total_cuts nx _ B), !Z.eqb_refl. auto.
Qed.
Lemma new_grid_of nb ny nx data : lies nb ny nx data -> grid_of ny nx (new_grid (p_grid data) ny nx) /\ grid_box (new_grid (p_grid data) ny nx) = grid_box (p_grid data).
Proof.
  intros ((Cy & Cx & _ & Hnx) & Hny & _). destruct (auto_ok ny nx Hny Hnx) as (A & B & C). split; [now repeat split; try apply A; try apply B|].
  unfold grid_box, new_grid. cbn [k_row k_col k_ychunks k_xchunks]. now rewrite (total_cuts ny _ Cy), (total_cuts nx _ Cx), (total_cuts ny _ A), (total_cuts nx _ B).
Qed.

Lemma crs_eqb_eq a b : crs_eqb a b = true <-> a = b.
Proof. unfold crs_eqb. destruct a, b; split; intros H; try discriminate; try reflexivity; [f_equal; lia|injection H as ->; apply Z.eqb_refl]. Qed.
Lemma body_raster nb ny nx p data names field : lies 1 ny nx p -> lies nb ny nx data -> k_crs (p_grid p) = k_crs (p_grid data) -> names <> [] ->
  (forall i, 0 <= i < ny * nx -> is_nan (value (p_raster p) 0 i) = false) ->
  (nb = 1 \/ (k_ychunks (p_grid p), k_xchunks (p_grid p)) = auto_chunks ny nx) ->
  exists f, zbody (FeatRaster p) data names field true = Ok (Wide f, FeatRaster p) /\ frame_of cast other names (zone_raster (p_raster p)) (ny * nx) nb (p_raster data) f.
Proof.
  intros Lp Ld CR NE NZ CH. destruct (data_rechunk nb ny nx data Ld) as (EY & EX & ER). unfold zonal_body.
  assert (PY : grid_ny (p_grid p) = ny) by (apply total_cuts, Lp). assert (PX : grid_nx (p_grid p) = nx) by (apply total_cuts, Lp).
  apply crs_eqb_eq in CR. rewrite CR, EY, EX, PY, PX, !Z.eqb_refl. cbn [negb andb rbind].
  destruct (auto_chunks ny nx) as [ys xs] eqn:EA. cbn [fst snd] in ER. rewrite ER. cbn [rbind fst snd].
  destruct (frame_ok cast cast_nan partition partition_ok tree_of tree_ok other other_perm nb ny nx p (Placed (p_raster data) (new_grid (p_grid data) ny nx)) names) as (f & EF & FO); auto.
  - apply Ld.
  - apply Ld.
  - apply (proj1 (new_grid_of nb ny nx data Ld)).
  - apply (proj1 (new_grid_of nb ny nx data Ld)).
  - destruct CH as [->|CH]; [now left|right]. unfold new_grid. cbn [p_grid k_ychunks k_xchunks]. rewrite EA. cbn [fst snd]. split; congruence.
  - rewrite EF. cbn [rbind]. exists f. split; [reflexivity|exact FO].
Qed.

Lemma field_option field : field_of (field_of_option field) = field.
Proof. now destruct field. Qed.
Lemma cell_index nx i : 0 < nx -> 0 <= i -> i = i / nx * nx + i mod nx.
Proof. intros H H0. pose proof (Z.div_mod i nx ltac:(lia)). lia. Qed.
Lemma body_table nb ny nx t in_memory data names field d fill : lies nb ny nx data -> big_chunks (auto_chunks ny nx) -> can_transform t (p_grid data) -> (in_memory = false -> spatial_right t (p_grid data)) ->
  (forall crs p, covers crs (grid_box (p_grid data)) p (sb crs p)) -> zones_ok t field d fill -> names <> [] ->
  exists f t', zbody (FeatTable t in_memory) data names field true = Ok (Wide f, FeatTable t' in_memory)
  /\ (in_memory = true -> t' = t) /\ frame_of cast other names (zone_table t (p_grid data) field nx) (ny * nx) nb (p_raster data) f.
Proof.
  intros Ld BC CT SR SB (CH & NF & OKV) NE. destruct (data_rechunk nb ny nx data Ld) as (EY & EX & ER). destruct (new_grid_of nb ny nx data Ld) as (NG & NB).
  assert (Hnx : 0 < nx) by apply Ld. assert (Hny : 0 < ny) by apply Ld.
  unfold zonal_body. cbn [rbind]. rewrite EY, EX. destruct (auto_chunks ny nx) as [ys xs] eqn:EA. cbn [fst snd] in ER. rewrite ER. cbn [rbind p_grid].
  set (k := new_grid (p_grid data) ny nx) in *.
  assert (LK : (match field with Some name => match lookup name (t_columns t) with None => Err KeyError | Some _ => Ok tt end | None => Ok tt end) = Ok tt).
  { destruct field as [name|]; [|reflexivity]. destruct CH as [CH _]. cbn [field_of_option] in CH. now rewrite CH. }
  rewrite LK. cbn [rbind]. set (v := if in_memory then _ else t).
  assert (VP : concat (t_parts v) = concat (t_parts t)) by (unfold v; destruct in_memory; [apply app_nil_r|reflexivity]).
  assert (VC : t_crs v = t_crs t) by (unfold v; now destruct in_memory). assert (VL : t_columns v = t_columns t) by (unfold v; now destruct in_memory).
  assert (CC : cells_crs v k = cells_crs t (p_grid data)) by (unfold cells_crs, k, new_grid; cbn [k_crs]; now rewrite VC).
  fold (field_of_option field).
  destruct (values_ok cast fd sb v k ny nx (field_of_option field) Last false NvNone in_memory d fill) as (out & t' & E & W & D & N & V).
  - exact NG.
  - unfold thick, k, new_grid. rewrite EA. exact BC.
  - unfold can_transform in *. rewrite VC. exact CT.
  - unfold spatial_right. rewrite NB. unfold v. destruct in_memory; [|exact (SR eq_refl)]. cbn [t_spatial t_parts t_crs]. intros regs HR _. injection HR as <-. constructor; [apply SB|constructor].
  - intros _ p _. rewrite NB. apply SB.
  - destruct CH as [C1 C2]. split; [|exact C2]. now rewrite VL.
  - exact NF.
  - intros g Hg. rewrite VP in Hg. rewrite field_option. now apply OKV.
  - rewrite E. cbn [rbind fst snd].
    set (zone := zone_table t (p_grid data) field nx).
    assert (CELL : forall i, 0 <= i < ny * nx -> is_nan (value out 0 i) = false /\ null out 0 i = num_eqb (value out 0 i) fill /\ zone_raster out i = zone i).
    { intros i Hi. assert (Hr : 0 <= i / nx < ny) by (split; [apply Z.div_pos; lia|apply Z.div_lt_upper_bound; lia]). pose proof (Z.mod_pos_bound i nx Hnx) as Hc.
      specialize (V (i / nx) (i mod nx) Hr Hc). cbn zeta in V. rewrite <- (cell_index nx i) in V by lia. rewrite field_option, CC in V.
      unfold zone_raster, zone, zone_table. change (k_row k) with (k_row (p_grid data)) in V. change (k_col k) with (k_col (p_grid data)) in V.
      set (l := touching_cell (cells_crs t (p_grid data)) (t_parts v) (k_row (p_grid data) + i / nx) (k_col (p_grid data) + i mod nx)) in V.
      assert (EL : touching_cell (cells_crs t (p_grid data)) (t_parts t) (k_row (p_grid data) + i / nx) (k_col (p_grid data) + i mod nx) = l) by (unfold l, touching_cell; now rewrite VP). rewrite EL.
      assert (IL : forall g, In g l -> In g (concat (t_parts t))) by (intros g Hg; unfold l, touching_cell in Hg; apply filter_In in Hg; rewrite VP in Hg; tauto).
      clearbody l. destruct l as [|g l]; cbn [map resolves] in V; destruct V as [V1 V2]; rewrite V2, V1.
      - split; [exact NF|]. split; [now rewrite num_eqb_refl|reflexivity].
      - assert (LI : exists h, In h (g :: l) /\ List.last (feature_value field g :: map (feature_value field) l) fill = feature_value field h /\ List.last (map (feature_value field) (g :: l)) NaN = feature_value field h).
        { clear. change (feature_value field g :: map (feature_value field) l) with (map (feature_value field) (g :: l)). revert g. induction l as [|h l IH]; intros g; [exists g; cbn; auto|].
          destruct (IH h) as (x & I & E1 & E2). exists x. split; [now right|]. split; [exact E1|exact E2]. }
        destruct LI as (h & Ih & E1 & E2). rewrite E1, E2. destruct (OKV h (IL h Ih)) as [O1 O2]. rewrite O2. auto. }
    destruct (frame_ok cast cast_nan partition partition_ok tree_of tree_ok other other_perm nb ny nx (Placed out k) (Placed (p_raster data) k) names) as (f & EF & FO); auto.
    + split; [exact NG|]. split; [exact Hny|]. split; [exact W|]. intros b i [Hb Hi]. assert (b = 0) by lia. subst b. destruct (CELL i Hi) as (C1 & C2 & _). cbn [p_raster]. unfold hits. rewrite N, C2. symmetry. now apply same_value_num.
    + apply Ld.
    + apply Ld.
    + apply NG.
    + apply NG.
    + intros i Hi. now apply CELL.
    + exists f, (if in_memory then t else t'). rewrite EF. cbn [rbind]. split; [now destruct in_memory|]. split; [now intros ->|]. eapply frame_ext; [|exact FO]. intros i Hi. now apply CELL.
Qed.

Lemma known_in s : known_stat s = true <-> In s stat_names.
Proof.
  unfold known_stat. rewrite existsb_exists. transitivity (In s (dask_stat_names ++ custom_stat_names)).
  - split; [intros (x & Hx & E)|intros H; exists s; split; [exact H|apply String.eqb_refl]]. apply String.eqb_eq in E. now subst.
  - unfold dask_stat_names, custom_stat_names, stat_names. cbn [app In]. tauto.
Qed.
Lemma known_out s : known_stat s = false <-> ~ In s stat_names.
Proof. rewrite <- known_in. destruct (known_stat s); split; intros H; try discriminate; try reflexivity. now contradiction H. Qed.
Lemma check_ok names : names <> [] -> Forall (fun s => In s stat_names) names -> check_stats (StatList names) = Ok names.
Proof. intros NE F. unfold check_stats. destruct names as [|s l]; [congruence|]. cbn [rbind]. assert (E : forallb known_stat (s :: l) = true) by (apply forallb_forall; intros x Hx; apply known_in; revert x Hx; now apply Forall_forall). now rewrite E. Qed.

(* handle_overlap *)
Lemma wide_concat fs : forall r0, fold_left add_result (map Wide fs) (Wide r0) = Wide (ZFrame (f_columns r0) (f_rows r0 ++ concat (map f_rows fs))).
Proof.
  induction fs as [|g fs IH]; intros r0; cbn [map fold_left concat]; [rewrite app_nil_r; now destruct r0|]. cbn [add_result]. rewrite IH. cbn [f_columns f_rows]. now rewrite <- app_assoc.
Qed.
Lemma overlap_ok nb ny nx t in_memory data names field d fill : lies nb ny nx data -> big_chunks (auto_chunks ny nx) -> can_transform t (p_grid data) ->
  (forall crs p, covers crs (grid_box (p_grid data)) p (sb crs p)) -> zones_ok t field d fill -> names <> [] -> Forall (fun s => In s stat_names) names -> concat (t_parts t) <> [] ->
  exists f fs, zstats (FeatTable t in_memory) data (StatList names) field true true = Ok (Wide f, FeatTable t in_memory)
  /\ Forall2 (fun g fg => frame_of cast other names (zone_feature (cells_crs t (p_grid data)) g (p_grid data) field nx) (ny * nx) nb (p_raster data) fg) (concat (t_parts t)) fs
  /\ f_columns f = columns_of nb names /\ f_rows f = concat (map f_rows fs).
Proof.
  intros Ld BC CT SB ZO NE KN NT. unfold zonal_stats. cbn [check_features rbind]. rewrite (check_ok names NE KN). cbn [rbind].
  set (one := fun g => FeatTable (Table [[g]] None (t_crs t) (t_columns t)) true).
  assert (G : forall gs, (forall g, In g gs -> In g (concat (t_parts t))) -> exists l fs, traverse (fun g => zbody (one g) data names field true) gs = Ok l /\ map fst l = map Wide fs
    /\ Forall2 (fun g fg => frame_of cast other names (zone_feature (cells_crs t (p_grid data)) g (p_grid data) field nx) (ny * nx) nb (p_raster data) fg) gs fs).
  { induction gs as [|g gs IH]; intros IG; [exists [], []; repeat constructor|]. destruct IH as (l & fs & EL & ML & F); [intros; apply IG; now right|].
    destruct ZO as (CH & NF & OKV).
    destruct (body_table nb ny nx (Table [[g]] None (t_crs t) (t_columns t)) true data names field d fill) as (f & t' & E & _ & FO); auto; [discriminate| |].
    - split; [exact CH|]. split; [exact NF|]. cbn [t_parts concat app]. intros h [<-|[]]. apply OKV, IG. now left.
    - exists ((Wide f, FeatTable t' true) :: l), (f :: fs). split; [|split].
      + cbn [traverse]. unfold one at 1. rewrite E. cbn [rbind]. rewrite EL. reflexivity.
      + cbn [map fst]. now rewrite ML.
      + constructor; [|exact F]. eapply frame_ext; [|exact FO]. intros i _. unfold zone_table, zone_feature, touching_cell, cells_crs. cbn [t_parts concat app filter t_crs].
        destruct (g_touches g _ _ _); reflexivity. }
  destruct (G (concat (t_parts t)) (fun g H => H)) as (l & fs & EL & ML & F). unfold one in EL. rewrite EL. cbn [rbind]. rewrite ML.
  destruct F as [|g f gs fs F0 F]; [congruence|]. cbn [map concat_results]. rewrite wide_concat. cbn [rbind]. exists (ZFrame (f_columns f) (f_rows f ++ concat (map f_rows fs))), (f :: fs).
  split; [reflexivity|]. split; [now constructor|]. split; [apply F0|reflexivity].
Qed.
(* rows of a frame *)
Lemma frame_rows names zone n nb dr f : frame_of cast other names zone n nb dr f -> f_columns f = columns_of nb names /\ forall r, In r (f_rows f) -> is_nan (fst r) = false /\ len (snd r) = nb * len names.
Proof.
  intros (A & _ & _ & D). split; [exact A|]. intros [z vals] I. destruct (D z vals I) as (NE & L & _). split; [|exact L]. cbn [fst].
  destruct (cells_of zone n z) as [|i l] eqn:E; [congruence|]. assert (X : In i (cells_of zone n z)) by (rewrite E; now left). apply filter_In in X as [_ X]. unfold in_zone in X.
  destruct (zone i) as [v|]; [|discriminate]. now apply num_eqb_not_nan in X.
Qed.
Lemma long_ok f data names field fr f' zone n nb dr : 0 <= nb -> names <> [] -> Forall (fun s => In s stat_names) names -> (forall rows, concat (result_parts rows) = rows) ->
  zstats f data (StatList names) field true false = Ok (Wide fr, f') -> frame_of cast other names zone n nb dr fr ->
  exists parts, zstats f data (StatList names) field false false = Ok (Long (concat parts), f')
  /\ Forall2 (fun rows part => Permutation part (long_rows nb (len names) rows) /\ StronglySorted label_order part) (result_parts (f_rows fr)) parts.
Proof.
  intros Hb NE KN RP E F. destruct (frame_rows names zone n nb dr fr F) as [A B]. unfold zonal_stats in *. destruct (check_features f); [|discriminate]. cbn [rbind] in *. rewrite (check_ok names NE KN) in *. cbn [rbind] in *.
  now apply (body_long f data names field fr f' nb Hb NE RP E).
Qed.
Lemma long_concat ls : forall r0, fold_left add_result (map Long ls) (Long r0) = Long (r0 ++ concat ls).
Proof. induction ls as [|g ls IH]; intros r0; cbn [map fold_left concat]; [now rewrite app_nil_r|]. cbn [add_result]. rewrite IH. now rewrite <- app_assoc. Qed.
Lemma overlap_long_ok nb ny nx t in_memory data names field d fill : (forall rows, concat (result_parts rows) = rows) -> lies nb ny nx data -> big_chunks (auto_chunks ny nx) -> can_transform t (p_grid data) ->
  (forall crs p, covers crs (grid_box (p_grid data)) p (sb crs p)) -> zones_ok t field d fill -> names <> [] -> Forall (fun s => In s stat_names) names -> concat (t_parts t) <> [] ->
  exists ls, zstats (FeatTable t in_memory) data (StatList names) field false true = Ok (Long (concat ls), FeatTable t in_memory)
  /\ Forall2 (fun g l => exists fg parts, frame_of cast other names (zone_feature (cells_crs t (p_grid data)) g (p_grid data) field nx) (ny * nx) nb (p_raster data) fg
       /\ l = concat parts /\ Forall2 (fun rows part => Permutation part (long_rows nb (len names) rows) /\ StronglySorted label_order part) (result_parts (f_rows fg)) parts) (concat (t_parts t)) ls.
Proof.
  intros RP Ld BC CT SB ZO NE KN NT. unfold zonal_stats. cbn [check_features rbind]. rewrite (check_ok names NE KN). cbn [rbind]. assert (Hb : 0 <= nb) by (destruct Ld as (_ & _ & (H & _) & _); lia).
  assert (G : forall gs, (forall g, In g gs -> In g (concat (t_parts t))) -> exists l ls, traverse (fun g => zbody (FeatTable (Table [[g]] None (t_crs t) (t_columns t)) true) data names field false) gs = Ok l /\ map fst l = map Long ls
    /\ Forall2 (fun g l => exists fg parts, frame_of cast other names (zone_feature (cells_crs t (p_grid data)) g (p_grid data) field nx) (ny * nx) nb (p_raster data) fg
       /\ l = concat parts /\ Forall2 (fun rows part => Permutation part (long_rows nb (len names) rows) /\ StronglySorted label_order part) (result_parts (f_rows fg)) parts) gs ls).
  { induction gs as [|g gs IH]; intros IG; [exists [], []; repeat constructor|]. destruct IH as (l & ls & EL & ML & F); [intros; apply IG; now right|].
    destruct ZO as (CH & NF & OKV).
    destruct (body_table nb ny nx (Table [[g]] None (t_crs t) (t_columns t)) true data names field d fill) as (f & t' & E & _ & FO); auto; [discriminate| |].
    - split; [exact CH|]. split; [exact NF|]. cbn [t_parts concat app]. intros h [<-|[]]. apply OKV, IG. now left.
    - destruct (frame_rows _ _ _ _ _ _ FO) as [A B]. destruct (body_long _ data names field f _ nb Hb NE RP E A B) as (parts & EP & FP).
      exists ((Long (concat parts), FeatTable t' true) :: l), (concat parts :: ls). split; [|split].
      + cbn [traverse]. rewrite EP. cbn [rbind]. rewrite EL. reflexivity.
      + cbn [map fst]. now rewrite ML.
      + constructor; [|exact F]. exists f, parts. split; [|split; [reflexivity|exact FP]]. eapply frame_ext; [|exact FO]. intros i _. unfold zone_table, zone_feature, touching_cell, cells_crs. cbn [t_parts concat app filter t_crs].
        destruct (g_touches g _ _ _); reflexivity. }
  destruct (G (concat (t_parts t)) (fun g H => H)) as (l & ls & EL & ML & F). rewrite EL. cbn [rbind]. rewrite ML.
  destruct F as [|g f gs fs F0 F]; [congruence|]. cbn [map concat_results]. rewrite long_concat. cbn [rbind]. exists (f :: fs). split; [reflexivity|now constructor].
Qed.

(* ---- whole calls ---- *)
Lemma raster_ok nb ny nx p data names field : lies 1 ny nx p -> lies nb ny nx data -> k_crs (p_grid p) = k_crs (p_grid data) -> is_int_dtype (r_dtype (p_raster p)) = true -> names <> [] -> Forall (fun s => In s stat_names) names ->
  (forall i, 0 <= i < ny * nx -> is_nan (value (p_raster p) 0 i) = false) ->
  (nb = 1 \/ (k_ychunks (p_grid p), k_xchunks (p_grid p)) = auto_chunks ny nx) ->
  exists f, zstats (FeatRaster p) data (StatList names) field true false = Ok (Wide f, FeatRaster p) /\ frame_of cast other names (zone_raster (p_raster p)) (ny * nx) nb (p_raster data) f.
Proof.
  intros Lp Ld CR ID NE KN NZ CH. unfold zonal_stats, check_features. rewrite ID. assert (LF : len (r_data (p_raster p)) = 1) by apply Lp. rewrite LF. cbn [negb Z.ltb Z.compare rbind].
  rewrite (check_ok names NE KN). cbn [rbind]. now apply body_raster.
Qed.
Lemma table_ok nb ny nx t in_memory data names field d fill : lies nb ny nx data -> big_chunks (auto_chunks ny nx) -> can_transform t (p_grid data) -> (in_memory = false -> spatial_right t (p_grid data)) ->
  (forall crs p, covers crs (grid_box (p_grid data)) p (sb crs p)) -> zones_ok t field d fill -> names <> [] -> Forall (fun s => In s stat_names) names ->
  exists f t', zstats (FeatTable t in_memory) data (StatList names) field true false = Ok (Wide f, FeatTable t' in_memory)
  /\ (in_memory = true -> t' = t) /\ frame_of cast other names (zone_table t (p_grid data) field nx) (ny * nx) nb (p_raster data) f.
Proof.
  intros Ld BC CT SR SB ZO NE KN. unfold zonal_stats. cbn [check_features rbind]. rewrite (check_ok names NE KN). cbn [rbind]. now apply (body_table nb ny nx t in_memory data names field d fill).
Qed.
(* chunks of one row or column *)
Lemma thin_body nb ny nx t in_memory data names field wide : lies nb ny nx data -> ~ big_chunks (auto_chunks ny nx) -> forall r, zbody (FeatTable t in_memory) data names field wide <> Ok r.
Proof.
  intros Ld NB r H. destruct (data_rechunk nb ny nx data Ld) as (EY & EX & ER). unfold zonal_body in H. cbn [rbind] in H. rewrite EY, EX in H.
  destruct (auto_chunks ny nx) as [ys xs] eqn:EA. cbn [fst snd] in ER. rewrite ER in H. cbn [rbind p_grid] in H.
  match type of H with (let* fr := (let* _ := ?x in _) in _) = _ => destruct x; [|discriminate] end. cbn [rbind] in H.
  match type of H with (let* fr := (let* out := ?x in _) in _) = _ => destruct x eqn:E; [|discriminate] end. apply thin_refused in E; [exact E|].
  intros [T1 T2]. apply NB. unfold new_grid in T1, T2. rewrite EA in T1, T2. split; assumption.
Qed.
Lemma thin_stats nb ny nx t in_memory data s field wide overlap : lies nb ny nx data -> ~ big_chunks (auto_chunks ny nx) -> forall r, zstats (FeatTable t in_memory) data s field wide overlap <> Ok r.
Proof.
  intros Ld NB r H. unfold zonal_stats in H. cbn [check_features rbind] in H. destruct (check_stats s) as [names|]; [|discriminate]. cbn [rbind] in H. destruct overlap.
  - destruct (concat (t_parts t)) as [|g gs]; [discriminate|]. cbn [traverse] in H. match type of H with (let* l := (let* b := ?x in _) in _) = _ => destruct x eqn:E; [|discriminate] end.
    now apply (thin_body nb ny nx) in E.
  - now apply (thin_body nb ny nx) in H.
Qed.

(* ---- refusals ---- *)
Lemma bad_stats_err s : bad_stats s -> check_stats s = Err ValueError.
Proof.
  unfold check_stats. destruct s as [s|l|]; cbn [bad_stats].
  - intros H. apply known_out in H. cbn [rbind forallb]. rewrite H. reflexivity.
  - intros [->|(s & Hs & E)]; [reflexivity|]. destruct l as [|x l]; [destruct Hs|]. cbn [rbind]. destruct (forallb known_stat (x :: l)) eqn:F; [|reflexivity]. rewrite forallb_forall in F. apply known_out in E. rewrite (F s Hs) in E. discriminate.
  - reflexivity.
Qed.
Lemma check_stats_cases s : (exists l, check_stats s = Ok l) \/ check_stats s = Err ValueError.
Proof.
  unfold check_stats. destruct s as [s|[|x l]|]; cbn [rbind]; auto; match goal with |- context [if ?b then _ else _] => destruct b end; eauto.
Qed.
Lemma refusals nb ny nx data s field wide overlap : lies nb ny nx data ->
  zstats FeatOther data s field wide overlap = Err TypeError
  /\ (forall p, is_int_dtype (r_dtype (p_raster p)) = false -> zstats (FeatRaster p) data s field wide overlap = Err TypeError)
  /\ (forall p, is_int_dtype (r_dtype (p_raster p)) = true -> 1 < len (r_data (p_raster p)) -> zstats (FeatRaster p) data s field wide overlap = Err ValueError)
  /\ (forall t m, bad_stats s -> zstats (FeatTable t m) data s field wide overlap = Err ValueError)
  /\ (forall p, is_int_dtype (r_dtype (p_raster p)) = true -> bad_stats s \/ overlap = true \/ k_crs (p_grid p) <> k_crs (p_grid data) \/ grid_ny (p_grid p) <> ny \/ grid_nx (p_grid p) <> nx -> zstats (FeatRaster p) data s field wide overlap = Err ValueError)
  /\ (forall t m name, ~ bad_stats s -> field = Some name -> lookup name (t_columns t) = None -> concat (t_parts t) <> [] -> zstats (FeatTable t m) data s field wide overlap = Err KeyError)
  /\ (forall t m, ~ bad_stats s -> overlap = true -> concat (t_parts t) = [] -> zstats (FeatTable t m) data s field wide overlap = Err ValueError)
  /\ (forall p, lies 1 ny nx p -> nb <> 1 -> (k_ychunks (p_grid p), k_xchunks (p_grid p)) <> auto_chunks ny nx -> is_int_dtype (r_dtype (p_raster p)) = true -> k_crs (p_grid p) = k_crs (p_grid data) ->
       zstats (FeatRaster p) data s field wide overlap = Err ValueError).
Proof.
  intros Ld. destruct (data_rechunk nb ny nx data Ld) as (EY & EX & ER). unfold zonal_stats.
  assert (GOOD : ~ bad_stats s -> exists l, check_stats s = Ok l).
  { intros H. destruct (check_stats_cases s) as [E|E]; [exact E|exfalso]. apply H. unfold check_stats in E. destruct s as [s|[|x l]|]; cbn [rbind bad_stats] in *; auto.
    - cbn [forallb] in E. apply known_out. destruct (known_stat s); [discriminate|reflexivity].
    - right. destruct (forallb known_stat (x :: l)) eqn:F; [discriminate|].
      assert (X : existsb (fun s => negb (known_stat s)) (x :: l) = true). { clear -F. induction (x :: l) as [|a b IH]; [discriminate|]. cbn [forallb existsb] in *. destruct (known_stat a); [cbn in *; auto|reflexivity]. }
      apply existsb_exists in X as (y & Hy & Ey). exists y. split; [exact Hy|]. apply known_out. now destruct (known_stat y). }
  split; [reflexivity|]. split; [|split; [|split; [|split; [|split; [|split]]]]].
  - intros p H. cbn [check_features]. now rewrite H.
  - intros p H1 H2. cbn [check_features]. rewrite H1. cbn [negb]. replace (1 <? len (r_data (p_raster p))) with true by lia. reflexivity.
  - intros t m H. cbn [check_features rbind]. now rewrite (bad_stats_err s H).
  - intros p H1 H. cbn [check_features]. rewrite H1. cbn [negb]. destruct (1 <? len (r_data (p_raster p))); [reflexivity|]. cbn [rbind].
    destruct (check_stats_cases s) as [[l E]|E]; rewrite E; [|reflexivity]. cbn [rbind]. destruct overlap; [reflexivity|]. unfold zonal_body.
    destruct H as [H|[H|H]]; [apply bad_stats_err in H; congruence|discriminate|]. rewrite EY, EX. destruct (crs_eqb (k_crs (p_grid p)) (k_crs (p_grid data))) eqn:C; [|reflexivity]. cbn [negb].
    apply crs_eqb_eq in C. destruct H as [H|[H|H]]; [congruence|replace (grid_ny (p_grid p) =? ny) with false by lia; reflexivity|replace (grid_nx (p_grid p) =? nx) with false by lia; now rewrite andb_false_r].
  - intros t m name GS -> LK NT. cbn [check_features rbind]. destruct (GOOD GS) as [l ->]. cbn [rbind].
    assert (B : forall m' u, t_columns u = t_columns t -> zbody (FeatTable u m') data l (Some name) wide = Err KeyError).
    { intros m' u EU. unfold zonal_body. cbn [rbind]. rewrite EY, EX. destruct (auto_chunks ny nx) as [ys xs]. cbn [fst snd] in ER. rewrite ER. cbn [rbind]. rewrite EU, LK. reflexivity. }
    destruct overlap; [|now apply B]. destruct (concat (t_parts t)) as [|g gs]; [congruence|]. cbn [traverse]. now rewrite B.
  - intros t m GS -> NT. cbn [check_features rbind]. destruct (GOOD GS) as [l ->]. cbn [rbind]. rewrite NT. reflexivity.
  - intros p Lp N1 NC ID CR. assert (LF : len (r_data (p_raster p)) = 1) by apply Lp. cbn [check_features]. rewrite ID, LF. cbn [negb Z.ltb Z.compare rbind].
    destruct (check_stats_cases s) as [[l E]|E]; rewrite E; [|reflexivity]. cbn [rbind]. destruct overlap; [reflexivity|]. unfold zonal_body. apply crs_eqb_eq in CR. rewrite CR.
    assert (PY : grid_ny (p_grid p) = ny) by (apply total_cuts, Lp). assert (PX : grid_nx (p_grid p) = nx) by (apply total_cuts, Lp). rewrite EY, EX, PY, PX, !Z.eqb_refl. cbn [negb andb rbind].
    destruct (auto_chunks ny nx) as [ys xs] eqn:EA. cbn [fst snd] in ER. rewrite ER. cbn [rbind fst snd].
    unfold zonal_frame. destruct (find_problem_stats l) as [st hm]. unfold new_grid. cbn [p_grid p_raster k_ychunks k_xchunks]. rewrite EA. cbn [fst snd]. unfold lists_eqb.
    destruct (list_eqb (k_ychunks (p_grid p)) ys && list_eqb (k_xchunks (p_grid p)) xs) eqn:C.
    + exfalso. apply NC. apply andb_prop in C as [C1 C2]. apply list_eqb_eq in C1, C2. congruence.
    + cbn [negb]. unfold rechunk. rewrite total_full by apply len_nonneg. assert (LB : len (r_data (p_raster data)) = nb) by apply Ld. rewrite LB, LF. replace (nb =? 1) with false by lia. reflexivity.
Qed.
End Calls.
