(* Proximity analysis of a whole raster: the three tools agree; nearest targets. *)
From Coq Require Import ZArith Bool Reals Lra Lia.
From Flocq Require Import Core BinarySingleNaN.
From Verif Require Import Base BaseFacts F64 F64Facts F64Exact GridsF64 GridsFloat.
From Verif Require Import AggregateProofs FocalSpec BandsSpec Bands Arr2Facts BandsProofs FocalResults ChunksSpec Chunks ChunksProofs BlockArgs BlockArgsProofs
  Blocks MapBlocks MapBlocksSpec MapBlocksProofs MapOverlapProofs.
From Verif Require Import F32 Proximity ProximitySpec ProximityProofs ProximityMain ProximityChunk ProximityTaxi ProximityWhole
  ProximityWholeSpec ProximityWholeProofs.
From Coq Require Import ZifyBool ZifyNat.
Open Scope Z_scope.

Lemma fnonneg_of_pow M : fleb (f64_of 1 (-511)) M = true -> fnonneg M = true.
Proof.
  intros H. unfold fnonneg. eapply fleb_trans; [|exact H]. vm_compute. reflexivity.
Qed.
Lemma fpos_of_pow M : fleb (f64_of 1 (-511)) M = true -> fleb M fzero = false.
Proof.
  intros H. destruct (fleb M fzero) eqn:E; [|reflexivity].
  pose proof (fleb_trans _ _ _ H E) as T. vm_compute in T. discriminate T.
Qed.

(* stored values: no NaN turns into a number, no sign changes *)
Lemma stored_negative st nodata x M : st = single \/ st = double -> fltb nodata fzero = true ->
  fleb (st_round st (fsqrt x)) M = true -> feqb (st_round st (fsqrt x)) nodata = false.
Proof.
  intros HS HN HL.
  assert (RO : rounding (st_round st)) by (destruct HS as [-> | ->]; [apply single_rounding|apply double_rounding]).
  assert (OK : fok (fsqrt x) = true).
  { apply fleb_ok_l in HL. destruct HS as [-> | ->]; cbn [st_round single double] in HL; [|exact HL].
    destruct (fok (fsqrt x)) eqn:E; [reflexivity|]. destruct (fsqrt x); try discriminate E. discriminate HL. }
  pose proof (fsqrt_nonneg x OK) as NN. unfold fnonneg in NN.
  pose proof (round_mono _ RO _ _ NN) as P. rewrite (round_zero _ RO) in P.
  destruct (feqb (st_round st (fsqrt x)) nodata) eqn:E; [|reflexivity]. exfalso.
  assert (L : fleb (st_round st (fsqrt x)) nodata = true).
  { revert E. unfold feqb, fleb, Beqb, Bleb, SpecFloat.SFeqb, SpecFloat.SFleb. destruct (SpecFloat.SFcompare _ _) as [[]|]; congruence. }
  pose proof (fleb_trans _ _ _ P L) as Q. rewrite fleb_fltb in HN.
  - rewrite Q in HN. discriminate HN.
  - eapply fleb_ok_r; exact L.
  - reflexivity.
Qed.

Lemma feqb_zero nodata : fltb nodata fzero = true -> feqb fzero nodata = false.
Proof.
  intros H. destruct (feqb fzero nodata) eqn:E; [|reflexivity]. exfalso.
  destruct nodata as [[]|[]| |[] mm ee Hb]; cbn in *; discriminate.
Qed.
Lemma feqb_self nodata : fltb nodata fzero = true -> feqb nodata nodata = true.
Proof.
  intros H. assert (O : fok nodata = true) by (destruct nodata; cbn in *; auto; discriminate).
  destruct nodata as [s|s| |s mm ee Hb]; try discriminate O; [reflexivity|now destruct s|].
  unfold feqb, Beqb, SpecFloat.SFeqb. cbn [B2SF SpecFloat.SFcompare]. destruct s; rewrite Z.compare_refl; [now rewrite Pos.compare_cont_refl|now rewrite Pos.compare_cont_refl].
Qed.

Section All.
Context {A O : Type}.
Variables (m : metric) (hav : distance) (st : store) (target : A -> bool) (tf : bool) (boundary : A).
Variables (cached : option (f64 * f64)) (xc yc : list f64) (M : f64) (bcs ycs xcs : list Z) (bands : arr3 A) (junk : Z -> Z -> list (list f64)).
Variables (nb ny nx : Z).
Hypothesis IN : input nb ny nx xc yc (bcs, ycs, xcs) bands.
Hypothesis TB : target boundary = false.
Hypothesis ST : st = single \/ st = double.
Hypothesis HM : fleb (f64_of 1 (-511)) M = true.
Hypothesis JUNK : allocates junk.
Notation dist := (metric_dist_sqr hav m).
Notation ar := (f64_arith st dist M).

Lemma band_grid b band : get bands b = Ok band -> grid ny nx band.
Proof.
  intros G. apply grid_shaped2. destruct IN as [_ _ _ _ _ [_ F] _]. rewrite Forall_forall in F. apply F. eapply get_in; eauto.
Qed.
Lemma store_rounding : rounding (st_round st).
Proof. destruct ST as [-> | ->]; [apply single_rounding|apply double_rounding]. Qed.

Lemma chunk_all (bearing : distance) (cast : A -> O) nodata nodata_alloc (nodata2 : O) nodata3 to_dir depth b band k :
  0 <= fst depth /\ 0 <= snd depth -> get bands b = Ok band ->
  0 <= k_r0 k <= k_r1 k /\ k_r1 k <= ny /\ 0 <= k_c0 k <= k_c1 k /\ k_c1 k <= nx ->
  exists prox alloc dir,
    run_proximity ar target boundary xc yc band depth k (junk (k_ny depth k) (k_nx depth k)) nodata = Ok prox
    /\ run_allocation ar target boundary xc yc band depth k cast (junk (k_ny depth k) (k_nx depth k)) nodata_alloc nodata2 = Ok alloc
    /\ run_direction ar target boundary bearing xc yc band depth k to_dir (junk (k_ny depth k) (k_nx depth k)) nodata3 = Ok dir
    /\ (grid (k_r1 k - k_r0 k) (k_c1 k - k_c0 k) prox /\ grid (k_r1 k - k_r0 k) (k_c1 k - k_c0 k) alloc
        /\ grid (k_r1 k - k_r0 k) (k_c1 k - k_c0 k) dir)
    /\ forall i j, k_r0 k <= i < k_r1 k -> k_c0 k <= j < k_c1 k ->
       exists p a d, at2 prox (i - k_r0 k) (j - k_c0 k) p
         /\ at2 alloc (i - k_r0 k) (j - k_c0 k) a
         /\ at2 dir (i - k_r0 k) (j - k_c0 k) d
         /\ ((p = nodata /\ a = nodata2 /\ d = nodata3)
             \/ exists ti tj v, target_at target band ti tj v
                  /\ proximity_to target xc yc band dist (st_round st) M i j ti tj p
                  /\ a = cast v
                  /\ exists c, direction_to xc yc (direction bearing) i j ti tj c /\ d = to_dir c).
Proof.
  intros DP G KI. pose proof (in_xc _ _ _ _ _ _ _ IN) as LX. pose proof (in_yc _ _ _ _ _ _ _ IN) as LY.
  apply (chunk_run_shapes target boundary TB bearing xc yc band ny nx (band_grid _ _ G) LX LY depth DP k KI st dist M
    store_rounding (metric_nonneg hav m) HM cast nodata nodata_alloc nodata2 nodata3 to_dir).
  apply grid_shaped2. apply JUNK; unfold k_ny, k_nx; lia.
Qed.

Lemma at3_unmapped {R} (G : Z -> Z -> Z -> R) b i j : 0 <= b < nb -> 0 <= i < ny -> 0 <= j < nx -> at3 (tab3 nb ny nx G) b i j (G b i j).
Proof. intros. now apply at3_tab3. Qed.

Lemma at2_unique {R} (a : list (list R)) i j x y : at2 a i j x -> at2 a i j y -> x = y.
Proof. intros (r & G1 & G2) (r' & G3 & G4). congruence. Qed.

Theorem all_tools (bearing : distance) (cast : A -> O) (eqb : O -> O -> bool) nodata nodata_alloc (nodata2 : O) nodata3 to_dir :
  fltb nodata fzero = true ->
  let P := pa_proximity m hav st target tf boundary cached xc yc M (bcs, ycs, xcs) bands junk nodata in
  let L := pa_allocation m hav st target tf boundary cached xc yc M (bcs, ycs, xcs) bands junk cast eqb nodata_alloc nodata2 in
  let D := pa_direction m hav st target tf boundary cached xc yc M (bcs, ycs, xcs) bands junk bearing to_dir nodata3 in
  (exists e, P = Err e /\ L = Err e /\ D = Err e)
  \/ exists prox pnull alloc anull dir dnull, P = Ok (prox, pnull) /\ L = Ok (alloc, anull) /\ D = Ok (dir, dnull)
    /\ shaped3 nb ny nx prox /\ shaped3 nb ny nx alloc /\ shaped3 nb ny nx dir
    /\ forall b band i j, get bands b = Ok band -> 0 <= i < ny -> 0 <= j < nx ->
       exists p a d, at3 prox b i j p /\ at3 alloc b i j a /\ at3 dir b i j d
         /\ at3 anull b i j (eqb a nodata2) /\ at3 dnull b i j (feqb d nodata3)
         /\ ((at3 pnull b i j true /\ p = nodata /\ a = nodata2 /\ d = nodata3)
             \/ (at3 pnull b i j false
                 /\ exists ti tj v, target_at target band ti tj v
                  /\ proximity_to target xc yc band dist (st_round st) M i j ti tj p
                  /\ a = cast v
                  /\ exists c, direction_to xc yc (direction bearing) i j ti tj c /\ d = to_dir c)).
Proof.
  intros HN P L D.
  destruct (plan m dist tf cached xc yc M bcs ycs xcs bands nb ny nx IN (fnonneg_of_pow _ HM)) as [(e & E)|(d & b' & y' & x' & PL)].
  { left. exists e. unfold P, L, D, pa_proximity, pa_allocation, pa_direction. rewrite !E. auto. }
  right. destruct PL as (DP & Cb & C1 & Cy & Cx & Nx & _ & EQ).
  pose proof (in_shape _ _ _ _ _ _ _ IN) as SH. pose proof (in_bands _ _ _ _ _ _ _ IN) as Hb.
  pose proof (in_rows _ _ _ _ _ _ _ IN) as Hy. pose proof (in_cols _ _ _ _ _ _ _ IN) as Hx.
  set (depth := depth_of d) in *.
  destruct (mapped fzero nb ny nx b' y' x' bands depth
    (fun src depth k => run_proximity ar target boundary xc yc src depth k (junk (k_ny depth k) (k_nx depth k)) nodata)
    Cb C1 Cy Cx Nx SH) as (GP & EP & HP).
  { intros b band k G KI. destruct (chunk_all bearing cast nodata nodata_alloc nodata2 nodata3 to_dir depth b band k DP G KI)
      as (prox & alloc & dir & R1 & R2 & R3 & (S1 & S2 & S3) & _). eauto. }
  destruct (mapped nodata2 nb ny nx b' y' x' bands depth
    (fun src depth k => run_allocation ar target boundary xc yc src depth k cast (junk (k_ny depth k) (k_nx depth k)) nodata_alloc nodata2)
    Cb C1 Cy Cx Nx SH) as (GA & EA & HA).
  { intros b band k G KI. destruct (chunk_all bearing cast nodata nodata_alloc nodata2 nodata3 to_dir depth b band k DP G KI)
      as (prox & alloc & dir & R1 & R2 & R3 & (S1 & S2 & S3) & _). eauto. }
  destruct (mapped fzero nb ny nx b' y' x' bands depth
    (fun src depth k => run_direction ar target boundary bearing xc yc src depth k to_dir (junk (k_ny depth k) (k_nx depth k)) nodata3)
    Cb C1 Cy Cx Nx SH) as (GD & ED & HD).
  { intros b band k G KI. destruct (chunk_all bearing cast nodata nodata_alloc nodata2 nodata3 to_dir depth b band k DP G KI)
      as (prox & alloc & dir & R1 & R2 & R3 & (S1 & S2 & S3) & _). eauto. }
  exists (tab3 nb ny nx GP), (map3 (fun v => feqb v nodata) (tab3 nb ny nx GP)),
    (tab3 nb ny nx GA), (map3 (fun v => eqb v nodata2) (tab3 nb ny nx GA)),
    (tab3 nb ny nx GD), (map3 (fun v => feqb v nodata3) (tab3 nb ny nx GD)).
  unfold P, L, D, pa_proximity, pa_allocation, pa_direction. rewrite !EQ. unfold mapped_blocks. rewrite EP, EA, ED. cbn [rbind].
  do 3 (split; [reflexivity|]). do 3 (split; [apply shaped3_tab3; lia|]).
  intros b band i j G Hi Hj. pose proof (get_ok_range _ _ _ G) as Rb. rewrite (proj1 SH) in Rb.
  pose proof (chunk_of_range _ _ _ _ i j Cy Cx Hi Hj) as (KI & Ki & Kj).
  destruct (HP b i j band G Hi Hj) as (op & EP1 & P1). destruct (HA b i j band G Hi Hj) as (oa & EA1 & A1). destruct (HD b i j band G Hi Hj) as (od & ED1 & D1).
  set (k := chunk_of y' x' i j) in *.
  destruct (chunk_all bearing cast nodata nodata_alloc nodata2 nodata3 to_dir depth b band k DP G KI)
      as (prox & alloc & dir & R1 & R2 & R3 & _ & HC).
  assert (prox = op) by congruence. assert (alloc = oa) by congruence. assert (dir = od) by congruence. subst op oa od.
  destruct (HC i j Ki Kj) as (p & a & dd & T1 & T2 & T3 & CASE).
  assert (p = GP b i j) by (eapply at2_unique; eauto). assert (a = GA b i j) by (eapply at2_unique; eauto).
  assert (dd = GD b i j) by (eapply at2_unique; eauto). subst p a dd.
  exists (GP b i j), (GA b i j), (GD b i j).
  do 3 (split; [now apply at3_unmapped|]).
  split; [apply (at3_map3 (fun v => eqb v nodata2)); now apply at3_unmapped|].
  split; [apply (at3_map3 (fun v => feqb v nodata3)); now apply at3_unmapped|].
  assert (MK : at3 (map3 (fun v => feqb v nodata) (tab3 nb ny nx GP)) b i j (feqb (GP b i j) nodata))
    by (apply (at3_map3 (fun v => feqb v nodata)); now apply at3_unmapped).
  destruct CASE as [(C0 & C2 & C3)|(ti & tj & v & TV & PR & C2 & C3)].
  - left. rewrite C0, (feqb_self _ HN) in MK. auto.
  - right. split; [|exists ti, tj, v; auto].
    replace (feqb (GP b i j) nodata) with false in MK; [exact MK|]. symmetry.
    destruct PR as [[_ ->]|(_ & x1 & y1 & x2 & y2 & _ & _ & -> & LE)]; [now apply feqb_zero|now apply (stored_negative st nodata _ (st_round st M))].
Qed.
End All.

(* ---------------- nearest targets ---------------- *)

Lemma corner_exact ch e x1 y1 x2 y2 a1 b1 a2 b2 K : -500 <= e <= 400 -> K <= 2 ^ 26 ->
  scaled e x1 a1 -> scaled e y1 b1 -> scaled e x2 a2 -> scaled e y2 b2 ->
  4 * Z.abs a1 <= K -> 4 * Z.abs b1 <= K -> 4 * Z.abs a2 <= K -> 4 * Z.abs b2 <= K ->
  scaled e (fsqrt ((if ch : bool then chebyshev_dist_sqr else taxi_dist_sqr) x1 y1 x2 y2))
    (if ch then Z.max (Z.abs (b1 - b2)) (Z.abs (a1 - a2)) else Z.abs (b1 - b2) + Z.abs (a1 - a2)).
Proof.
  intros He HK X1 Y1 X2 Y2 L1 L2 L3 L4.
  assert (SX : scaled e (fabs (fsub x1 x2)) (Z.abs (a1 - a2))) by (apply fabs_exact, fsub_exact; auto; lia).
  assert (SY : scaled e (fabs (fsub y1 y2)) (Z.abs (b1 - b2))) by (apply fabs_exact, fsub_exact; auto; lia).
  assert (G : forall q d, scaled e q d -> 0 <= d <= K -> scaled e (fsqrt (fmul q q)) d).
  { intros q d S Hd. apply fsqrt_exact; [apply fmul_exact; auto; clear - Hd HK He; nia|lia|lia]. }
  destruct ch.
  - unfold chebyshev_dist_sqr. cbv zeta. apply G; [|lia].
    rewrite (fltb_exact _ _ _ _ _ SX SY). destruct (Z.ltb_spec (Z.abs (a1 - a2)) (Z.abs (b1 - b2))).
    + rewrite Z.max_l by lia. exact SY.
    + rewrite Z.max_r by lia. exact SX.
  - unfold taxi_dist_sqr. cbv zeta. apply G; [|lia]. rewrite (Z.add_comm (Z.abs (b1 - b2))). apply fadd_exact; auto; lia.
Qed.

Lemma one_sided a b : Z.abs (a - (a + b)) = Z.abs b. Proof. lia. Qed.

Lemma loc_of_one n i : 0 <= i < n -> loc_of [n] i = (0, (0, n)).
Proof. intros H. apply loc_of_eq; [constructor; [lia|constructor]|reflexivity|cbn; lia]. Qed.
Lemma chunk_of_one ny nx i j : 0 <= i < ny -> 0 <= j < nx -> chunk_of [ny] [nx] i j = mkChunk 0 ny 0 nx.
Proof. intros Hi Hj. unfold chunk_of. now rewrite !loc_of_one by lia. Qed.

Section Nearest.
Context {A : Type}.
Variables (ch : bool) (hav : distance) (st : store) (target : A -> bool) (boundary : A).
Variables (cached : option (f64 * f64)) (xc yc : list f64) (M : f64) (bcs ycs xcs : list Z) (bands : arr3 A) (junk : Z -> Z -> list (list f64)).
Variables (nb ny nx : Z) (e x0 dx y0 dy K B : Z).
Hypothesis IN : input nb ny nx xc yc (bcs, ycs, xcs) bands.
Hypothesis TB : target boundary = false.
Hypothesis JUNK : allocates junk.
Hypothesis NZx : dx <> 0.
Hypothesis NZy : dy <> 0.
Hypothesis HS : (st = double /\ -500 <= e <= 400 /\ K = 2 ^ 26) \/ (st = single /\ -63 <= e <= 30 /\ K = 2 ^ 24).
Hypothesis XS : forall j x, get xc j = Ok x -> scaled e x (x0 + j * dx) /\ 4 * Z.abs (x0 + j * dx) <= K.
Hypothesis YS : forall i y, get yc i = Ok y -> scaled e y (y0 + i * dy) /\ 4 * Z.abs (y0 + i * dy) <= K.
Hypothesis ONE : nx = 1 \/ ny = 1 -> exists rx ry, cached = Some (rx, ry) /\ scaled e rx dx /\ scaled e ry dy.
Definition met : metric := if ch then Chebyshev else Taxi.
Notation dist := (metric_dist_sqr hav met).
Notation far := (if ch then Z.max ((ny - 1) * Z.abs dy) ((nx - 1) * Z.abs dx) else (ny - 1) * Z.abs dy + (nx - 1) * Z.abs dx).

Lemma met_dist : dist = if ch then chebyshev_dist_sqr else taxi_dist_sqr.
Proof. unfold met. now destruct ch. Qed.

Lemma e_range : -500 <= e <= 400 /\ K <= 2 ^ 26.
Proof. destruct HS as [(_ & H & ->)|(_ & H & ->)]; lia. Qed.

Lemma ends : exists xa xb ya yb, get xc 0 = Ok xa /\ get xc (nx - 1) = Ok xb /\ get yc 0 = Ok ya /\ get yc (ny - 1) = Ok yb
  /\ scaled e (fsqrt (dist xa ya xb yb)) far.
Proof.
  pose proof (in_rows _ _ _ _ _ _ _ IN) as Hy. pose proof (in_cols _ _ _ _ _ _ _ IN) as Hx.
  pose proof (in_xc _ _ _ _ _ _ _ IN) as LX. pose proof (in_yc _ _ _ _ _ _ _ IN) as LY.
  destruct (get_range xc 0) as (xa & Xa); [lia|]. destruct (get_range xc (nx - 1)) as (xb & Xb); [lia|].
  destruct (get_range yc 0) as (ya & Ya); [lia|]. destruct (get_range yc (ny - 1)) as (yb & Yb); [lia|].
  exists xa, xb, ya, yb. do 4 (split; [assumption|]). rewrite met_dist. destruct e_range as [He HK].
  destruct (XS _ _ Xa) as [X1 L1]. destruct (XS _ _ Xb) as [X2 L2]. destruct (YS _ _ Ya) as [Y1 L3]. destruct (YS _ _ Yb) as [Y2 L4].
  pose proof (corner_exact ch e xa ya xb yb _ _ _ _ K He HK X1 Y1 X2 Y2 L1 L3 L2 L4) as C.
  rewrite !Z.mul_0_l, !Z.add_0_r, !one_sided, !Z.abs_mul, !(Z.abs_eq (_ - 1)) in C by lia. exact C.
Qed.

Lemma res_exact : exists rx ry, resolution cached xc yc = Ok (rx, ry) /\ scaled e rx dx /\ scaled e ry dy.
Proof.
  pose proof (in_rows _ _ _ _ _ _ _ IN) as Hy. pose proof (in_cols _ _ _ _ _ _ _ IN) as Hx.
  unfold resolution. rewrite (in_xc _ _ _ _ _ _ _ IN), (in_yc _ _ _ _ _ _ _ IN).
  destruct ((nx =? 1) || (ny =? 1)) eqn:E1.
  - destruct ONE as (rx & ry & -> & S); [lia|]. exists rx, ry. auto.
  - destruct ends as (xa & xb & ya & yb & Xa & Xb & Ya & Yb & _). rewrite Xa, Xb, Ya, Yb. cbn [rbind].
    destruct e_range as [He HK].
    destruct (XS _ _ Xa) as [X1 L1]. destruct (XS _ _ Xb) as [X2 L2]. destruct (YS _ _ Ya) as [Y1 L3]. destruct (YS _ _ Yb) as [Y2 L4].
    pose proof (in_xc _ _ _ _ _ _ _ IN) as LX. pose proof (in_yc _ _ _ _ _ _ _ IN) as LY.
    assert (BX : Z.abs dx <= 2 ^ 26).
    { destruct (get_range xc 1) as (xn & Xn); [lia|]. destruct (XS _ _ Xn) as [_ L5]. lia. }
    assert (BY : Z.abs dy <= 2 ^ 26).
    { destruct (get_range yc 1) as (yn & Yn); [lia|]. destruct (YS _ _ Yn) as [_ L5]. lia. }
    (* at most 2^26 columns, since they have different coordinates *)
    assert (NX : nx - 1 <= 2 ^ 26) by (clear - L1 L2 NZx HK Hx; nia).
    assert (NY : ny - 1 <= 2 ^ 26) by (clear - L3 L4 NZy HK Hy; nia).
    do 2 eexists.
    assert (D : forall (c : option (f64 * f64)) (r : res (f64 * f64)), match c with Some _ => r | None => r end = r) by (now intros []).
    split; [destruct cached; reflexivity|].
    split; (eapply fdiv_exact; [|apply f64_of_exact; lia| | |]); try lia.
    + replace (dx * (nx - 1)) with (x0 + (nx - 1) * dx - (x0 + 0 * dx)) by ring. apply fsub_exact; auto; lia.
    + replace (dy * (ny - 1)) with (y0 + (ny - 1) * dy - (y0 + 0 * dy)) by ring. apply fsub_exact; auto; lia.
Qed.

Lemma depth_exact : M = finf \/ (scaled e M B /\ 0 < B <= 2 ^ 26) ->
  exists d, pa_depth met dist cached xc yc M = Ok d
    /\ match d with
       | None => M = finf \/ far <= B
       | Some (dy', dx') => M <> finf /\ B < far
           /\ (0 <= dy' /\ B < (dy' + 1) * Z.abs dy /\ (forall n, B <= n * Z.abs dy -> dy' <= n) /\ (forall n, n * Z.abs dy <= B -> n <= dy'))
           /\ (0 <= dx' /\ B < (dx' + 1) * Z.abs dx /\ (forall n, B <= n * Z.abs dx -> dx' <= n) /\ (forall n, n * Z.abs dx <= B -> n <= dx'))
       end.
Proof.
  intros HB. destruct ends as (xa & xb & ya & yb & Xa & Xb & Ya & Yb & SF).
  unfold pa_depth. rewrite (in_xc _ _ _ _ _ _ _ IN), (in_yc _ _ _ _ _ _ _ IN), Xa, Ya, Xb, Yb. cbn [rbind].
  destruct HB as [->|[SM HBB]].
  - exists None. rewrite fleb_inf; [auto|]. apply finite_fok, SF.
  - rewrite (fleb_exact _ _ _ _ _ SF SM). destruct (Z.leb_spec far B) as [L|L]; [exists None; auto|].
    replace (is_great_circle met) with false by (unfold met; now destruct ch).
    destruct res_exact as (rx & ry & -> & SX & SY). cbn [rbind].
    destruct (depth_bounds e M (fabs rx) B (Z.abs dx) SM (fabs_exact _ _ _ SX) HBB ltac:(lia)) as (Dx & -> & HX).
    destruct (depth_bounds e M (fabs ry) B (Z.abs dy) SM (fabs_exact _ _ _ SY) HBB ltac:(lia)) as (Dy & -> & HY).
    cbn [rbind]. exists (Some (Dy, Dx)). split; [reflexivity|]. split; [|auto].
    intros ->. destruct SM as [F _]. discriminate F.
Qed.

Lemma M_pow : M = finf \/ (scaled e M B /\ 0 < B <= 2 ^ 26) -> fleb (f64_of 1 (-511)) M = true.
Proof.
  intros [->|[SM HBB]]; [vm_compute; reflexivity|]. pose proof e_range.
  eapply scaled_ge_pow; eauto; lia.
Qed.

Theorem whole_nearest nodata : fltb nodata fzero = true ->
  M = finf \/ (scaled e M B /\ 0 < B <= 2 ^ 26) ->
  M = finf \/ far <= B \/ (B <= ny * Z.abs dy /\ B <= nx * Z.abs dx) ->
  exists prox null, pa_proximity met hav st target true boundary cached xc yc M (bcs, ycs, xcs) bands junk nodata = Ok (prox, null)
    /\ shaped3 nb ny nx prox
    /\ forall b band i j, get bands b = Ok band -> 0 <= i < ny -> 0 <= j < nx ->
       exists p, at3 prox b i j p
         /\ ((at3 null b i j false
              /\ exists ti tj v, target_at target band ti tj v /\ scaled e p (apart dx dy ch i j ti tj)
                 /\ forall ti' tj' v', target_at target band ti' tj' v' -> apart dx dy ch i j ti tj <= apart dx dy ch i j ti' tj')
             \/ (at3 null b i j true /\ p = nodata
                 /\ forall ti tj v, target_at target band ti tj v -> M <> finf /\ B < apart dx dy ch i j ti tj)).
Proof.
  intros HN HB HF. pose proof (M_pow HB) as HM. pose proof (fpos_of_pow _ HM) as PM.
  assert (ST : st = single \/ st = double) by (destruct HS as [(-> & _)|(-> & _)]; auto).
  destruct (depth_exact HB) as (d & ED & PD).
  assert (AC : accepted met true xc yc M) by (repeat split; [exact PM|unfold met; destruct ch; reflexivity]).
  pose proof (in_rows _ _ _ _ _ _ _ IN) as Hy. pose proof (in_cols _ _ _ _ _ _ _ IN) as Hx. pose proof (in_bands _ _ _ _ _ _ _ IN) as Hb.
  pose proof (in_xc _ _ _ _ _ _ _ IN) as LX. pose proof (in_yc _ _ _ _ _ _ _ IN) as LY. pose proof (in_shape _ _ _ _ _ _ _ IN) as SH.
  assert (FIT : fst (depth_of d) <= ny /\ snd (depth_of d) <= nx).
  { destruct d as [[dy' dx']|]; cbn [depth_of fst snd]; [|lia].
    destruct PD as (NI & LB & (_ & _ & U1 & _) & (_ & _ & U2 & _)).
    destruct HF as [F|[F|[F1 F2]]]; [contradiction|lia|]. split; [now apply U1|now apply U2]. }
  destruct (plan_ok met dist true cached xc yc M bcs ycs xcs bands nb ny nx IN (fnonneg_of_pow _ HM) d AC ED (proj1 FIT) (proj2 FIT))
    as (b' & y' & x' & DP & Cb & C1 & Cy & Cx & Nx & ON & EQ).
  set (depth := depth_of d) in *.
  assert (RUN : forall b band k, get bands b = Ok band ->
    0 <= k_r0 k <= k_r1 k /\ k_r1 k <= ny /\ 0 <= k_c0 k <= k_c1 k /\ k_c1 k <= nx ->
    exists out, run_proximity (f64_arith st dist M) target boundary xc yc band depth k (junk (k_ny depth k) (k_nx depth k)) nodata = Ok out
      /\ grid (k_r1 k - k_r0 k) (k_c1 k - k_c0 k) out).
  { intros b band k G KI.
    destruct (chunk_all (O := A) met hav st target boundary xc yc M bcs ycs xcs bands junk nb ny nx IN TB ST HM JUNK
      (fun _ _ _ _ => fzero) (fun v => v) nodata nodata boundary nodata (fun v => v) depth b band k DP G KI)
      as (prox & alloc & dir & R1 & _ & _ & (S1 & _) & _). eauto. }
  destruct (mapped fzero nb ny nx b' y' x' bands depth
    (fun src depth k => run_proximity (f64_arith st dist M) target boundary xc yc src depth k (junk (k_ny depth k) (k_nx depth k)) nodata)
    Cb C1 Cy Cx Nx SH RUN) as (GP & EP & HP).
  exists (tab3 nb ny nx GP), (map3 (fun v => feqb v nodata) (tab3 nb ny nx GP)).
  unfold pa_proximity. rewrite EQ. unfold mapped_blocks. rewrite EP. cbn [rbind].
  split; [reflexivity|]. split; [apply shaped3_tab3; lia|].
  intros b band i j G Hi Hj. pose proof (get_ok_range _ _ _ G) as Rb. rewrite (proj1 SH) in Rb.
  pose proof (chunk_of_range _ _ _ _ i j Cy Cx Hi Hj) as (KI & Ki & Kj).
  destruct (HP b i j band G Hi Hj) as (op & EP1 & P1). set (k := chunk_of y' x' i j) in *.
  exists (GP b i j). split; [now apply at3_tab3|].
  assert (MK : at3 (map3 (fun v => feqb v nodata) (tab3 nb ny nx GP)) b i j (feqb (GP b i j) nodata))
    by (apply (at3_map3 (fun v => feqb v nodata)); now apply at3_tab3).
  assert (SJ : grid (k_ny depth k) (k_nx depth k) (junk (k_ny depth k) (k_nx depth k)))
    by (apply grid_shaped2, JUNK; unfold k_ny, k_nx; lia).
  assert (RE : reach ny nx depth k M dx dy B).
  { destruct d as [[dy' dx']|].
    - right. destruct PD as (NI & _ & (_ & U1 & _) & (_ & U2 & _)). unfold depth. cbn [depth_of fst snd]. auto.
    - left. destruct (ON eq_refl) as [-> ->]. unfold k. rewrite chunk_of_one by lia. cbn. lia. }
  destruct (scan_nearest target boundary xc yc band ny nx depth k st M e x0 dx y0 dy K B ch nodata (junk (k_ny depth k) (k_nx depth k))
    (fun _ => conj NZx NZy) TB (band_grid xc yc bcs ycs xcs bands nb ny nx IN b band G) LX LY DP KI HS XS YS HB RE SJ)
    as (prox & EP2 & HC).
  rewrite met_dist, EP2 in EP1. assert (prox = op) by congruence. subst op.
  destruct (HC i j Ki Kj) as (p & T1 & CASE). assert (p = GP b i j) by (eapply at2_unique; eauto). subst p.
  destruct CASE as [(ti & tj & v & TV & SP & MIN)|(C0 & NONE)].
  - left. split; [|exists ti, tj, v; auto].
    replace (feqb (GP b i j) nodata) with false in MK; [exact MK|]. symmetry.
    destruct (feqb (GP b i j) nodata) eqn:E; [|reflexivity]. exfalso.
    assert (L : fleb (GP b i j) nodata = true).
    { revert E. unfold feqb, fleb, Beqb, Bleb, SpecFloat.SFeqb, SpecFloat.SFleb. destruct (SpecFloat.SFcompare _ _) as [[]|]; congruence. }
    assert (S0 : scaled e fzero 0) by (split; [reflexivity|cbn; lra]).
    assert (P : fleb fzero (GP b i j) = true).
    { rewrite (fleb_exact _ _ _ _ _ S0 SP). unfold apart, chebyshev, taxi. destruct ch; lia. }
    pose proof (fleb_trans _ _ _ P L) as Q. rewrite fleb_fltb in HN; [rewrite Q in HN; discriminate HN|eapply fleb_ok_r; exact L|reflexivity].
  - right. rewrite C0, (feqb_self _ HN) in MK. auto.
Qed.

(* refused: a finite max_distance smaller than the raster but larger than one of its sides *)
Theorem whole_refused nodata : scaled e M B -> 0 < B <= 2 ^ 26 -> B < far ->
  (ny + 1) * Z.abs dy <= B \/ (nx + 1) * Z.abs dx <= B ->
  pa_proximity met hav st target true boundary cached xc yc M (bcs, ycs, xcs) bands junk nodata = Err ValueError.
Proof.
  intros SM HBB LF LB. assert (HB : M = finf \/ (scaled e M B /\ 0 < B <= 2 ^ 26)) by auto.
  pose proof (M_pow HB) as HM. pose proof (fpos_of_pow _ HM) as PM.
  destruct (depth_exact HB) as (d & ED & PD).
  assert (AC : accepted met true xc yc M) by (repeat split; [exact PM|unfold met; destruct ch; reflexivity]).
  destruct d as [[dy' dx']|].
  - destruct PD as (_ & _ & (_ & _ & _ & U1) & (_ & _ & _ & U2)).
    unfold pa_proximity. rewrite (plan_large met dist true cached xc yc M bcs ycs xcs bands nb ny nx IN (fnonneg_of_pow _ HM) (dy', dx') AC ED).
    + reflexivity.
    + cbn [fst snd]. destruct LB as [LB|LB]; [left; specialize (U1 _ LB); lia|right; specialize (U2 _ LB); lia].
  - destruct PD as [->|PD]; [destruct SM as [F _]; discriminate F|lia].
Qed.
End Nearest.

Lemma refused {A} m hav st (target : A -> bool) tf boundary cached xc yc M chunks bands junk nodata :
  tf = false \/ fleb M fzero = true ->
  pa_proximity m hav st target tf boundary cached xc yc M chunks bands junk nodata = Err ValueError.
Proof.
  intros H. unfold pa_proximity, proximity_analysis. destruct tf; [|reflexivity].
  destruct H as [H|H]; [discriminate H|]. cbn [negb]. now rewrite H.
Qed.

(* ---------------- examples ---------------- *)

Lemma full_allocates (v : f64) : allocates (fun n m => full n (full m v)).
Proof.
  intros n m Hn Hm. split; [now apply full_len|]. apply Forall_forall. intros r I. unfold full in I at 1. apply repeat_spec in I. subst r. now apply full_len.
Qed.
Ltac all_len := repeat (constructor; [split; [reflexivity|repeat (constructor; [reflexivity|])]|]); try constructor.
Lemma ex_input : input 2 2 3 (map f64_of_Z [10; 20; 30]) (map f64_of_Z [80; 60]) ([1; 1], [1; 1], [1; 2])
    [[[0; 0; 5]; [7; 0; 0]]; [[0; 0; 0]; [0; 0; 9]]]
  /\ allocates (fun n m => full n (full m fzero)).
Proof.
  split; [|apply full_allocates].
  constructor; try lia; try reflexivity.
  - split; [reflexivity|]. all_len.
  - repeat split; repeat constructor; try lia; try discriminate.
Qed.

Lemma line_input (n v : Z) : 0 < n -> input 1 1 n (map f64_of_Z (zrange 0 n)) [fzero] ([1], [1], [n]) [[full n v]].
Proof.
  intros H. constructor; try lia; try reflexivity.
  - rewrite len_map, len_zrange; lia.
  - split; [reflexivity|]. constructor; [|constructor]. split; [reflexivity|]. constructor; [|constructor]. now apply full_len; lia.
  - repeat split; repeat constructor; try lia; try discriminate. cbn. lia.
Qed.

Lemma result_refuted :
  ~ (forall hav st (target : Z -> bool) boundary cached xc yc M bcs ycs xcs bands junk nb ny nx nodata,
       input nb ny nx xc yc (bcs, ycs, xcs) bands -> target boundary = false -> st = double -> allocates junk ->
       fltb fzero M = true -> fltb nodata fzero = true -> cached <> None ->
       exists r, pa_proximity Taxi hav st target true boundary cached xc yc M (bcs, ycs, xcs) bands junk nodata = Ok r).
Proof.
  intros H.
  destruct (H (fun _ _ _ _ => fzero) double (fun v => v =? 1) 0 (Some (f64_of_Z 1, f64_of_Z (-1))) _ _ (f64_of_Z 2) _ _ _ _
    (fun n m => full n (full m fzero)) 1 1 10 (f64_of_Z (-9)) (line_input 10 1 ltac:(lia)) eq_refl eq_refl (full_allocates _)) as (r & E).
  - vm_compute. reflexivity.
  - vm_compute. reflexivity.
  - discriminate.
  - match type of E with ?x = _ => assert (N : x = Err ValueError) end.
    { vm_compute. reflexivity. }
    rewrite N in E. discriminate E.
Qed.

Lemma allocation_null_refuted :
  ~ (forall hav st (target : Z -> bool) boundary cached xc yc M bcs ycs xcs bands junk nb ny nx nodata nodata2 alloc anull b band i j v,
       input nb ny nx xc yc (bcs, ycs, xcs) bands -> target boundary = false -> st = double -> allocates junk ->
       pa_allocation Taxi hav st target true boundary cached xc yc M (bcs, ycs, xcs) bands junk (fun v => v) Z.eqb nodata nodata2
         = Ok (alloc, anull) ->
       get bands b = Ok band -> target_at target band i j v -> at3 anull b i j false).
Proof.
  intros H.
  pose proof (H (fun _ _ _ _ => fzero) double (fun v => v =? 255) 0 None _ _ finf _ _ _ _
    (fun n m => full n (full m fzero)) 1 1 1 (f64_of_Z (-9)) 255 [[[255]]] [[[true]]] 0 [[255]] 0 0 255 (line_input 1 255 ltac:(lia)) eq_refl eq_refl (full_allocates _)) as N.
  destruct N as (x & G1 & y & G2 & G3).
  - vm_compute. reflexivity.
  - reflexivity.
  - split; [|reflexivity]. exists [255]. auto.
  - cbn in G1. injection G1 as <-. cbn in G2. injection G2 as <-. cbn in G3. discriminate G3.
Qed.

Lemma no_target_refuted :
  ~ (forall hav st (target : Z -> bool) boundary cached xc yc M bcs ycs xcs bands junk nb ny nx nodata prox null b band i j,
       input nb ny nx xc yc (bcs, ycs, xcs) bands -> st = double -> allocates junk -> fltb nodata fzero = true ->
       pa_proximity Taxi hav st target true boundary cached xc yc M (bcs, ycs, xcs) bands junk nodata = Ok (prox, null) ->
       get bands b = Ok band -> (forall ti tj v, ~ target_at target band ti tj v) -> 0 <= i < ny -> 0 <= j < nx ->
       at3 null b i j true).
Proof.
  intros H.
  match type of H with context [pa_proximity Taxi] =>
    remember (pa_proximity Taxi (fun _ _ _ _ => fzero) double (fun v => negb (v =? 0)) true (- 2 ^ 31) None (map f64_of_Z (zrange 0 3)) [fzero; f64_of_Z 1]
      (f64_of_Z 1) ([1], [2], [3]) [[[0; 0; 0]; [0; 0; 0]]] (fun n m => full n (full m fzero)) (f64_of_Z (-9))) as r eqn:E end.
  assert (N : (let* '(_, n) := r in Ok n) = Ok [[[false; false; false]; [false; false; false]]]).
  { rewrite E. vm_compute. reflexivity. }
  destruct r as [[prox null]|e]; [|discriminate N]. cbn [rbind] in N. injection N as ->. symmetry in E.
  assert (IN : input 1 2 3 (map f64_of_Z (zrange 0 3)) [fzero; f64_of_Z 1] ([1], [2], [3]) [[[0; 0; 0]; [0; 0; 0]]]).
  { constructor; try lia; try reflexivity.
    - split; [reflexivity|]. all_len.
    - repeat split; repeat constructor; try lia; try discriminate. }
  assert (NEG : fltb (f64_of_Z (-9)) fzero = true) by (vm_compute; reflexivity).
  destruct (H _ _ _ _ _ _ _ _ _ _ _ _ _ _ _ _ _ _ _ 0 _ 0 0 IN eq_refl (full_allocates _) NEG E eq_refl) as (x & G1 & y & G2 & G3); [|lia|lia|].
  - intros ti tj v [(r & G1 & G2) T].
    assert (r = [0; 0; 0]) as ->.
    { apply get_in in G1. cbn in G1. intuition congruence. }
    apply get_in in G2. cbn in G2. assert (v = 0) as -> by intuition congruence. discriminate T.
  - cbn in G1. injection G1 as <-. cbn in G2. injection G2 as <-. cbn in G3. discriminate G3.
Qed.
