(* zonal_stats: from partitions to cells. *)
From Coq Require Import QArith String Ascii DecimalString DecimalN NArith Lia ZifyBool ZifyNat Permutation Sorted OrdersEx.
From Verif Require Import Base BaseFacts Scalars NumFacts Arr2 Arr2Facts Dtypes ChunksProofs CostPublicProofs ProximityChunk FocalSpec FocalValues FocalResults Raster RasterSpec RasterProofs RasterStack Stats StatsSpec StatsProofs
  Zonal ZonalSpec ZonalProofs ZonalStats Vectors VectorsProofs Rasterize RasterizeSpec RasterizeRaster RasterizeRasterSpec RasterizeRasterProofs Frames FramesProofs ZonalRaster ZonalRasterSpec ZonalRasterProofs.
Open Scope Z_scope.

Lemma filter_perm {A} (f : A -> bool) l l' : Permutation l l' -> Permutation (filter f l) (filter f l').
Proof.
  induction 1; cbn [filter]; [constructor|destruct (f x); auto|destruct (f x), (f y); auto; constructor|eauto using Permutation_trans].
Qed.
Lemma filter_map {A B} (f : A -> B) (p : B -> bool) l : filter p (map f l) = map f (filter (fun x => p (f x)) l).
Proof. induction l as [|x l IH]; [reflexivity|]. cbn [map filter]. rewrite IH. now destruct (p (f x)). Qed.
Lemma zip_ok {A} (f g : A -> num) parts : zip_parts (map (map f) parts) (map (map g) parts) = Ok (map (map (fun i => (f i, g i))) parts).
Proof.
  induction parts as [|p parts IH]; [reflexivity|]. cbn [map zip_parts]. rewrite !len_map, Z.eqb_refl, IH. cbn [rbind]. apply f_equal. apply (f_equal (fun c => c :: _)).
  induction p as [|x p IHp]; [reflexivity|]. cbn [map combine]. now rewrite IHp.
Qed.
Lemma same_value_num v n : is_nan v = false -> same_value v n = num_eqb v n.
Proof. intros H. destruct v; try discriminate; destruct n; reflexivity. Qed.
Lemma null_to_nan_ok nv v : let h := match nv with Some n => same_value v n | None => false end in
  is_nan (null_to_nan nv v) = (h || is_nan v) /\ (h || is_nan v = false -> null_to_nan nv v = v).
Proof.
  unfold null_to_nan. destruct nv as [n|]; cbn zeta; [|now split].
  destruct (is_nan v) eqn:V; [rewrite orb_true_r; split; [|discriminate]; destruct v; try discriminate; destruct n; reflexivity|].
  rewrite (same_value_num v n V). rewrite orb_false_r. destruct (is_nan n) eqn:N.
  - assert (E : num_eqb v n = false) by (destruct n; try discriminate; now destruct v). rewrite E. now split.
  - destruct (num_eqb v n) eqn:E; [split; [reflexivity|discriminate]|now split].
Qed.

Section Cells.
Variable cast : dtype -> num -> num.
Variable cast_nan : forall v, is_nan (cast F64 v) = is_nan v.
Variable partition : list Z -> list Z -> list (list Z).
Variable partition_ok : partitions_cells partition.
Variable tree_of : list (list row) -> list (Zonal.tree (list row)).
Variable tree_ok : forall parts, flat_map leaves (tree_of parts) = concat parts.
Variable other : string -> list num -> num.
Variable other_perm : forall name x y, Permutation x y -> other name x = other name y.

Lemma series_ok nb ny nx p b : wf nb (ny * nx) (p_raster p) -> cuts ny (k_ychunks (p_grid p)) -> cuts nx (k_xchunks (p_grid p)) -> 0 <= b < nb ->
  ZonalRaster.series partition p b = Ok (map (map (value (p_raster p) b)) (partition (k_ychunks (p_grid p)) (k_xchunks (p_grid p)))).
Proof.
  intros W Cy Cx Hb. pose proof (partition_ok _ _ _ _ Cy Cx) as P. unfold ZonalRaster.series. destruct W as (_ & Hc & [L F] & _).
  destruct (get_range (r_data (p_raster p)) b ltac:(lia)) as [cells EC]. rewrite EC. cbn [rbind].
  assert (LC : len cells = ny * nx) by (rewrite Forall_forall in F; apply F; eapply get_in; exact EC).
  apply traverse_ok. intros part Hp. apply traverse_ok. intros i Hi.
  assert (Ri : In i (zrange 0 (ny * nx))). { eapply Permutation_in; [exact P|]. apply in_concat. eauto. }
  apply zrange_in in Ri. unfold value, val2. rewrite EC. destruct (get_range cells i ltac:(lia)) as [v ->]. reflexivity.
Qed.

(* the rows of band b, in the order of cells *)
Definition cell_row (fr dr : raster) (b i : Z) : row := (value fr 0 i, band_value cast dr (value dr b i)).
Section Rasters.
Variables (fr dr : raster) (nb n : Z).
Hypothesis Cf : clean 1 n fr.
Hypothesis Cd : clean nb n dr.
Lemma band_value_ok b i : in_raster nb n b i -> is_nan (band_value cast dr (value dr b i)) = (null dr b i || is_nan (value dr b i))
  /\ (null dr b i || is_nan (value dr b i) = false -> band_value cast dr (value dr b i) = to_float64 cast dr (value dr b i)).
Proof.
  intros H. rewrite (Cd b i H). unfold hits. destruct (null_to_nan_ok (r_nv dr) (value dr b i)) as [A B]. unfold band_value, to_float64. split.
  - rewrite <- A. destruct (dtype_eqb (r_dtype dr) F64); [reflexivity|apply cast_nan].
  - intros E. rewrite (B E). now destruct (r_dtype dr).
Qed.
Lemma zone_kept z i : 0 <= i < n -> num_eqb z (value fr 0 i) && negb (is_null (r_nv fr) (value fr 0 i)) = in_zone (zone_raster fr) z i.
Proof.
  intros Hi. assert (IR : in_raster 1 n 0 i) by (split; lia). unfold in_zone, zone_raster. rewrite (Cf 0 i IR). unfold hits, is_null.
  destruct (is_nan (value fr 0 i)) eqn:N.
  - assert (E : num_eqb z (value fr 0 i) = false) by (destruct (value fr 0 i); try discriminate; now destruct z). rewrite E. destruct (r_nv fr) as [v|]; [destruct (same_value (value fr 0 i) v)|]; rewrite ?E; reflexivity.
  - cbn [orb]. destruct (r_nv fr) as [v|]; [|now rewrite andb_true_r]. rewrite (same_value_num _ _ N). destruct (num_eqb (value fr 0 i) v); [now rewrite andb_false_r|now rewrite andb_true_r].
Qed.
Section Order.
Variable order : list Z.
Hypothesis order_perm : Permutation order (zrange 0 n).
Lemma order_in i : In i order -> 0 <= i < n.
Proof. intros H. apply zrange_in. eapply Permutation_in; eassumption. Qed.
Lemma zone_cells_order b z : zone_cells (r_nv fr) (map (cell_row fr dr b) order) z = map (cell_row fr dr b) (filter (in_zone (zone_raster fr) z) order).
Proof.
  unfold zone_cells. rewrite filter_map. apply (f_equal (map (cell_row fr dr b))). apply filter_ext_in. intros i Hi. apply order_in in Hi. cbn [cell_row fst]. now apply zone_kept.
Qed.
Lemma cells_perm z : Permutation (filter (in_zone (zone_raster fr) z) order) (cells_of (zone_raster fr) n z).
Proof. now apply filter_perm. Qed.
Lemma zone_valid_order b z : 0 <= b < nb ->
  zone_valid (r_nv fr) None (map (cell_row fr dr b) order) z = valid_values cast dr b (filter (in_zone (zone_raster fr) z) order).
Proof.
  intros Hb. unfold zone_valid. rewrite zone_cells_order, map_map. cbn [cell_row snd]. unfold valid_values. rewrite filter_map.
  assert (F : forall l, (forall i, In i l -> 0 <= i < n) ->
    map (fun x => band_value cast dr (value dr b x)) (filter (fun x => negb (is_null None (band_value cast dr (value dr b x)))) l)
    = map (fun i => to_float64 cast dr (value dr b i)) (filter (fun i => negb (null dr b i || is_nan (value dr b i))) l)).
  { induction l as [|i l IH]; intros R; [reflexivity|]. cbn [filter]. assert (IR : in_raster nb n b i) by (split; [exact Hb|apply R; now left]).
    destruct (band_value_ok b i IR) as [A B]. unfold is_null. rewrite A, orb_false_r. destruct (null dr b i || is_nan (value dr b i)) eqn:E; cbn [negb map].
    - apply IH. intros; apply R; now right.
    - rewrite (B eq_refl). f_equal. apply IH. intros; apply R; now right. }
  apply F. intros i Hi. apply filter_In in Hi as [Hi _]. now apply order_in.
Qed.
Lemma stat_cells b z name e : 0 <= b < nb ->
  stat_of other name (len (zone_cells (r_nv fr) (map (cell_row fr dr b) order) z)) (zone_valid (r_nv fr) None (map (cell_row fr dr b) order) z) e ->
  stat_of other name (len (cells_of (zone_raster fr) n z)) (valid_values cast dr b (cells_of (zone_raster fr) n z)) e.
Proof.
  intros Hb H. rewrite zone_valid_order, zone_cells_order, len_map in H by exact Hb. pose proof (cells_perm z) as P.
  replace (len (filter (in_zone (zone_raster fr) z) order)) with (len (cells_of (zone_raster fr) n z)) in H by (unfold len; now rewrite (Permutation_length P)).
  eapply stat_of_perm; [exact other_perm| |exact H]. unfold valid_values. now apply Permutation_map, filter_perm.
Qed.
End Order.
End Rasters.

Lemma list_eqb_eq a : forall b, list_eqb a b = true <-> a = b.
Proof.
  induction a as [|x a IH]; intros [|y b]; cbn [list_eqb]; split; intros H; try discriminate; try reflexivity.
  - apply andb_prop in H as [H1 H2]. apply IH in H2. f_equal; [lia|exact H2].
  - injection H as -> ->. rewrite Z.eqb_refl. cbn. now apply IH.
Qed.
Lemma total_full n : 0 <= n -> RasterizeRaster.total (full n 1) = n.
Proof.
  intros H. unfold full. rewrite <- (Z2Nat.id n H) at 2. induction (Z.to_nat n) as [|k IH]; [reflexivity|]. cbn [repeat RasterizeRaster.total]. lia.
Qed.
Lemma total_cuts n l : cuts n l -> RasterizeRaster.total l = n.
Proof. intros H. apply cuts_sum in H as [_ H]. now rewrite total_sum. Qed.
Lemma names_split names : forall s, In s names -> In s (fst (find_problem_stats names)) \/ (s = "median"%string /\ snd (find_problem_stats names) = true).
Proof.
  intros s H. unfold find_problem_stats. cbn [fst snd]. destruct (String.eqb s "median") eqn:E.
  - right. apply String.eqb_eq in E. split; [exact E|]. apply existsb_exists. exists s. split; [exact H|]. subst. apply String.eqb_refl.
  - left. apply filter_In. split; [exact H|]. now rewrite E.
Qed.
Lemma no_median names : existsb (String.eqb "median") names = false -> filter (fun s => negb (String.eqb s "median")) names = names.
Proof.
  induction names as [|s names IH]; [reflexivity|]. cbn [existsb filter]. intros H. apply orb_false_elim in H as [H1 H2]. rewrite String.eqb_sym, H1. cbn [negb]. now rewrite IH.
Qed.

(* _zonal_stats *)
Lemma frame_ok nb ny nx features data names : lies 1 ny nx features -> wf nb (ny * nx) (p_raster data) -> clean nb (ny * nx) (p_raster data) -> cuts ny (k_ychunks (p_grid data)) -> cuts nx (k_xchunks (p_grid data)) ->
  names <> [] -> (forall i, 0 <= i < ny * nx -> is_nan (value (p_raster features) 0 i) = false) -> (nb = 1 \/ k_ychunks (p_grid features) = k_ychunks (p_grid data) /\ k_xchunks (p_grid features) = k_xchunks (p_grid data)) ->
  exists f, zonal_frame cast partition tree_of other features data names = Ok f /\ frame_of cast other names (zone_raster (p_raster features)) (ny * nx) nb (p_raster data) f.
Proof.
  intros (GF & Hny & Wf & Cf) Wd Cd Cy Cx NE NZ CH. destruct GF as (Fy & Fx & _ & Hnx).
  assert (LB : len (r_data (p_raster data)) = nb) by apply Wd. assert (Hb : 0 < nb) by apply Wd. assert (LF : len (r_data (p_raster features)) = 1) by apply Wf.
  unfold zonal_frame. destruct (find_problem_stats names) as [stats has_median] eqn:FP. rewrite LB.
  set (ys := k_ychunks (p_grid data)) in *. set (xs := k_xchunks (p_grid data)) in *.
  set (parts := partition ys xs).
  assert (S : exists fp, (if negb (lists_eqb (k_ychunks (p_grid features)) ys && lists_eqb (k_xchunks (p_grid features)) xs) then rechunk features (full nb 1) ys xs else Ok features) = Ok fp
    /\ p_raster fp = p_raster features /\ k_ychunks (p_grid fp) = ys /\ k_xchunks (p_grid fp) = xs).
  { unfold lists_eqb. destruct (list_eqb (k_ychunks (p_grid features)) ys && list_eqb (k_xchunks (p_grid features)) xs) eqn:E; cbn [negb].
    - apply andb_prop in E as [E1 E2]. apply list_eqb_eq in E1, E2. exists features. auto.
    - destruct CH as [->|[E1 E2]].
      + unfold rechunk, grid_ny, grid_nx. rewrite LF, total_full, !(total_cuts ny), !(total_cuts nx), !Z.eqb_refl by (auto; lia). eexists. split; [reflexivity|]. auto.
      + apply list_eqb_eq in E1, E2. rewrite E1, E2 in E. discriminate. }
  destruct S as (fp & -> & PR & PY & PX). cbn [rbind].
  rewrite (series_ok 1 ny nx fp 0) by (rewrite ?PR, ?PY, ?PX; auto; lia). rewrite PR, PY, PX. cbn [rbind]. fold parts.
  set (fr := p_raster features) in *. set (dr := p_raster data) in *. set (n := ny * nx) in *.
  set (T := fun b => tree_of (map (map (cell_row fr dr (b - 1))) parts)).
  assert (P : Permutation (concat parts) (zrange 0 n)) by now apply partition_ok.
  rewrite traverse_ok with (g := fun b => (band_label b, T b)).
  2:{ intros b Hb'. apply zrange_in' in Hb'. rewrite (series_ok nb ny nx data (b - 1)) by (auto; lia). cbn [rbind]. fold ys xs parts.
      assert (X : map (map (band_value cast dr)) (map (map (value dr (b - 1))) parts) = map (map (fun i => band_value cast dr (value dr (b - 1) i))) parts).
      { rewrite map_map. apply map_ext. intros part. now rewrite map_map. }
      fold dr. rewrite X. rewrite zip_ok. reflexivity. }
  cbn [rbind]. set (keys := to_set _).
  assert (ND : Forall (fun v => is_nan v = false) (filter (fun z => keep_zone (r_nv fr) z && not_nan z) (concat (map (map (value fr 0)) parts)))).
  { apply Forall_forall. intros v Hv. apply filter_In in Hv as [_ Hv]. unfold not_nan in Hv. destruct (is_nan v); [rewrite andb_false_r in Hv; discriminate|reflexivity]. }
  assert (L : forall b, flat_map leaves (T b) = map (cell_row fr dr (b - 1)) (concat parts)).
  { intros b. unfold T. rewrite tree_ok. now rewrite concat_map. }
  assert (KI : forall z, In z keys -> is_nan z = false /\ exists i, In i (concat parts) /\ z = value fr 0 i /\ null fr 0 i = false).
  { intros z Hz. unfold keys, to_set in Hz. apply to_set_in in Hz as [[]|Hz]. rewrite Forall_forall in ND. split; [now apply ND|].
    apply filter_In in Hz as [Hz K]. rewrite <- concat_map in Hz. apply in_map_iff in Hz as (i & <- & Hi). exists i. do 2 (split; [auto|]).
    assert (IR : in_raster 1 n 0 i). { split; [lia|]. apply zrange_in. eapply Permutation_in; eassumption. }
    rewrite (Cf 0 i IR). unfold hits. apply andb_prop in K as [K1 K2]. unfold keep_zone in K1. destruct (r_nv fr) as [v|]; [|reflexivity].
    rewrite same_value_num; [now destruct (num_eqb (value fr 0 i) v)|]. unfold not_nan in K2. now destruct (is_nan (value fr 0 i)). }
  assert (KC : forall z, In z keys -> exists i, In i (concat parts) /\ in_zone (zone_raster fr) z i = true).
  { intros z Hz. destruct (KI z Hz) as (N & i & Hi & E & NU). exists i. split; [exact Hi|]. unfold in_zone, zone_raster. rewrite NU, <- E. now apply num_eqb_refl. }
  assert (KN : forall z, In z keys -> forall b, zone_cells (r_nv fr) (map (cell_row fr dr b) (concat parts)) z <> []).
  { intros z Hz b. rewrite (zone_cells_order fr dr n Cf (concat parts) P). destruct (KC z Hz) as (i & Hi & Z).
    assert (X : In i (filter (in_zone (zone_raster fr) z) (concat parts))) by (apply filter_In; auto). intros E. apply map_eq_nil in E. rewrite E in X. destruct X. }
  assert (KE : forall z b s, In z keys -> 1 <= b <= nb -> exists e, entry other s (r_nv fr) (T b) z = Some e /\ stat_of other s (len (cells_of (zone_raster fr) n z)) (valid_values cast dr (b - 1) (cells_of (zone_raster fr) n z)) e).
  { intros z b s Hz Hb'. destruct (entry_ok other s (r_nv fr) (T b) z) as (e & E & S).
    - rewrite L. now apply KN.
    - exists e. split; [exact E|]. rewrite L in S. eapply (stat_cells fr dr nb n Cf Cd (concat parts) P); [lia|exact S]. }
  assert (KE' : forall z b s, In z keys -> 1 <= b <= nb -> exists e, entry other s (r_nv fr) (T b) z = Some e).
  { intros z b s Hz Hb'. destruct (KE z b s Hz Hb') as (e & E & _). eauto. }
  assert (KD : ForallOrdPairs (fun a b => num_eqb a b = false) keys) by (now apply to_set_distinct).
  exists (ZFrame (columns_of nb names) (map (fun z => (z, map (ent other (r_nv fr) T z) (pairs nb names))) keys)). split.
  - assert (FS : stats = filter (fun s => negb (String.eqb s "median")) names /\ has_median = existsb (String.eqb "median") names) by (unfold find_problem_stats in FP; split; congruence).
    destruct FS as [FS FM].
    assert (Q : exists L0, (match stats with
      | [] => agg other (r_nv fr) ["median"%string] (map (fun b => (band_label b, T b)) (zrange 1 (nb + 1))) keys
      | _ :: _ => let* f := agg other (r_nv fr) stats (map (fun b => (band_label b, T b)) (zrange 1 (nb + 1))) keys in
          if has_median then let* m := agg other (r_nv fr) ["median"%string] (map (fun b => (band_label b, T b)) (zrange 1 (nb + 1))) keys in Ok (join f m) else Ok f
      end) = Ok (ZFrame (map pair_label L0) (map (fun z => (z, map (ent other (r_nv fr) T z) L0)) keys))
      /\ (has_median = true -> (forall p, In p (pairs nb names) -> In p L0) /\ forall p, In p L0 -> 1 <= fst p <= nb) /\ (has_median = false -> L0 = pairs nb names)).
    { assert (NS : forall s, In s names -> In s stats \/ s = "median"%string /\ has_median = true). { intros s Hs. pose proof (names_split names s Hs) as Q. now rewrite FP in Q. }
      destruct stats as [|s0 stats'] eqn:ES.
      - exists (pairs nb ["median"%string]). split; [rewrite (agg_ok other (r_nv fr) nb T keys KE'); now rewrite columns_pairs|]. split.
        + intros _. split; [|intros p Hp; now apply pairs_in in Hp]. intros p Hp. apply pairs_in in Hp as [H1 H2]. apply <- pairs_in. split; [exact H1|]. destruct (NS _ H2) as [[]|[-> _]]. now left.
        + intros HM. exfalso. destruct names as [|s names']; [congruence|]. destruct (NS s ltac:(now left)) as [[]|[_ X]]. congruence.
      - rewrite <- ES in *. destruct has_median eqn:HM.
        + exists (pairs nb stats ++ pairs nb ["median"%string]). split; [|split; [intros _|discriminate]].
          * rewrite !(agg_ok other (r_nv fr) nb T keys KE'). cbn [rbind]. apply f_equal. apply (join_ok other (r_nv fr) nb T keys KD). intros z Hz. now apply KI.
          * split; intros p Hp.
            -- apply pairs_in in Hp as [H1 H2]. apply in_or_app. destruct (NS _ H2) as [H|[H _]]; [left; apply <- pairs_in; auto|right; apply <- pairs_in; rewrite H; split; [exact H1|now left]].
            -- apply in_app_or in Hp as [Hp|Hp]; now apply pairs_in in Hp.
        + exists (pairs nb stats). split; [rewrite (agg_ok other (r_nv fr) nb T keys KE'); cbn [rbind]; now rewrite columns_pairs|]. split; [discriminate|]. intros _. f_equal. rewrite FS. now apply no_median. }
    destruct Q as (L0 & EQ & Q1 & Q2). rewrite EQ. cbn [rbind]. destruct has_median.
    + destruct (Q1 eq_refl) as [I R]. apply (select_ok other (r_nv fr) nb T keys KE'); auto. { intros z Hz; now apply KI. } lia.
    + rewrite (Q2 eq_refl). now rewrite columns_pairs.
  - split; [reflexivity|]. cbn [f_rows]. split; [|split].
    + clear -KD. induction KD as [|a l F D IH]; cbn [map]; constructor; [|exact IH]. apply Forall_forall. intros q Hq. apply in_map_iff in Hq as (z & <- & Hz). rewrite Forall_forall in F. now apply F.
    + intros i z Hi E. unfold zone_raster in E. destruct (null fr 0 i) eqn:NU; [discriminate|]. injection E as <-.
      assert (IR : in_raster 1 n 0 i) by (split; lia). destruct (to_set_distinct _ ND) as (_ & D & _). fold keys in D. destruct (D (value fr 0 i)) as (k & Hk & EK).
      * apply filter_In. split.
        -- rewrite <- concat_map. apply in_map. eapply Permutation_in; [symmetry; exact P|]. now apply zrange_in.
        -- unfold not_nan. rewrite (NZ i Hi). cbn [negb]. rewrite andb_true_r. rewrite (Cf 0 i IR) in NU. unfold hits in NU. unfold keep_zone. destruct (r_nv fr) as [v|]; [|reflexivity].
           rewrite same_value_num in NU by now apply NZ. now rewrite NU.
      * now apply NZ.
      * exists (k, map (ent other (r_nv fr) T k) (pairs nb names)). split; [apply in_map_iff; eauto|exact EK].
    + intros z vals H. apply in_map_iff in H as (z' & E & Hz). injection E as -> <-. split; [|split].
      * destruct (KC z Hz) as (i & Hi & Z). assert (X : In i (cells_of (zone_raster fr) n z)). { apply filter_In. split; [eapply Permutation_in; [exact P|exact Hi]|exact Z]. } intros E. rewrite E in X. destruct X.
      * rewrite len_map. unfold pairs. rewrite len_blocks with (m := len names) by (intros; apply len_map). rewrite len_zrange by lia. f_equal. lia.
      * intros b j name Hb' Hj. destruct (KE z (b + 1) name Hz ltac:(lia)) as (e & E & S). exists e. split; [|replace (b + 1 - 1) with b in S by lia; exact S].
        rewrite get_map_eq. pose proof (get_ok_range _ _ _ Hj) as Rj. unfold pairs. rewrite get_block with (m := len names) (a := b + 1); [|intros; apply len_map|apply get_zrange1; lia|lia].
        rewrite get_map_eq, Hj. cbn [rbind]. unfold ent. cbn [fst snd]. now rewrite E.
Qed.
End Cells.
