(* Taxi-cab and Chebyshev distances on a regular grid: the scan finds the nearest target. *)
From Coq Require Import ZifyBool ZifyNat Classical_Prop Reals.
From Verif Require Import BaseFacts F64 F64Facts F64Exact F32 Proximity ProximityProofs ProximityMain
  ProximitySpec ProximityChunk.
Open Scope Z_scope.

(* Numbers k * 2^e, 0 <= k <= K, are stored exactly and squares of them are
   compared correctly (up to equality). *)
Record exact_store (st : store) (e K : Z) : Prop := {
  es_round : forall x k, scaled e x k -> 0 <= k <= K -> scaled e (st_round st x) k;
  es_cmp : forall x y k l, scaled e x k -> scaled (e + e) y (l * l) -> 0 <= k <= K -> 0 <= l <= K ->
    if fltb y (st_sqr st x) then l <= k else k <= l
}.

Lemma double_exact e : -500 <= e <= 400 -> exact_store double e (2 ^ 26).
Proof.
  intros He. constructor; cbn; auto.
  intros x y k l SX SY Hk Hl.
  assert (S2 : scaled (e + e) (fmul x x) (k * k)) by (apply fmul_exact; auto; nia).
  rewrite (fltb_exact _ _ _ _ _ SY S2). destruct (l * l <? k * k) eqn:E; nia.
Qed.

Lemma single_exact e : -63 <= e <= 30 -> exact_store single e (2 ^ 24).
Proof.
  intros He. constructor; cbn [st_round st_sqr single].
  - intros x k SX Hk. apply to32_exact; auto; lia.
  - intros x y k l SX SY Hk Hl. eapply sqr32_cmp; eauto; lia.
Qed.

Lemma double_rounding : rounding (st_round double).
Proof. constructor; cbn; auto. Qed.
Lemma single_rounding : rounding (st_round single).
Proof. constructor; [exact to32_mono|reflexivity]. Qed.

Section Taxi.
Context {A : Type}.
Variable target : A -> bool.
Variable boundary : A.
Hypothesis boundary_not_target : target boundary = false.
Variables (xc yc : list f64) (src : list (list A)).
Variables ny nx : Z.
Hypothesis SRC : grid ny nx src.
Hypothesis XC : len xc = nx.
Hypothesis YC : len yc = ny.
Variable depth : Z * Z.
Hypothesis depth_pos : 0 <= fst depth /\ 0 <= snd depth.
Variable k : chunk.
Hypothesis k_in : 0 <= k_r0 k <= k_r1 k /\ k_r1 k <= ny /\ 0 <= k_c0 k <= k_c1 k /\ k_c1 k <= nx.
Variable st : store.
Variable M : f64.
Hypothesis RO : rounding (st_round st).
Hypothesis HM : fleb (f64_of 1 (-511)) M = true.

(* a regular grid with coordinates (x0 + j * dx) * 2^e and (y0 + i * dy) * 2^e *)
Variables e x0 dx y0 dy K B : Z.
Hypothesis He : -500 <= e <= 400.
Hypothesis HK : K <= 2 ^ 26.
Hypothesis ES : exact_store st e K.
Hypothesis XS : forall j x, get xc j = Ok x -> scaled e x (x0 + j * dx) /\ 4 * Z.abs (x0 + j * dx) <= K.
Hypothesis YS : forall i y, get yc i = Ok y -> scaled e y (y0 + i * dy) /\ 4 * Z.abs (y0 + i * dy) <= K.
(* max_distance is infinite, or B * 2^e *)
Hypothesis HB : M = finf \/ (scaled e M B /\ 0 < B <= 2 ^ 26).

(* taxi-cab and Chebyshev distance of two cells, in units of 2^e *)
Definition taxi (i j ti tj : Z) : Z := Z.abs ((ti - i) * dy) + Z.abs ((tj - j) * dx).
Definition chebyshev (i j ti tj : Z) : Z := Z.max (Z.abs ((ti - i) * dy)) (Z.abs ((tj - j) * dx)).
Variable ch : bool.
Definition apart (i j ti tj : Z) : Z := if ch then chebyshev i j ti tj else taxi i j ti tj.
Hypothesis NZ : ch = true -> dx <> 0 /\ dy <> 0.
Notation dist_fn := (if ch then chebyshev_dist_sqr else taxi_dist_sqr).

Notation ar := (f64_arith st dist_fn M).
Notation csrc := (chunk_src boundary src depth k).
Notation cxc := (chunk_xc xc depth k).
Notation cyc := (chunk_yc yc depth k).
Notation kny := (k_ny depth k).
Notation knx := (k_nx depth k).
Notation oi := (k_r0 k - fst depth).
Notation oj := (k_c0 k - snd depth).
Notation rr0 := (Z.max 0 (- oi)).
Notation rr1 := (Z.min kny (ny - oi)).
Notation cc0 := (Z.max 0 (- oj)).
Notation cc1 := (Z.min knx (nx - oj)).
Notation inr := (inr rr0 rr1 cc0 cc1).
Notation D := (D ar cxc cyc).
Notation ctgt := (ctgt target csrc).

Let bz : f64 -> f64 -> f64 -> f64 -> f64 := fun _ _ _ _ => fzero.
Definition m (c : cand) (i j : Z) : Z := apart i j (snd c) (fst c).

Lemma K_pos c i j : ctgt c -> inr i j -> 0 <= m c i j <= K /\ scaled (e + e) (D c i j) (m c i j * m c i j).
Proof.
  intros TC HI.
  destruct (D_raster target boundary boundary_not_target bz xc yc src ny nx SRC XC YC depth depth_pos k k_in
              st dist_fn M HM c i j TC HI) as (x1 & y1 & x2 & y2 & (C1 & C2) & (C3 & C4) & ->).
  destruct (XS _ _ C1) as [X1 L1]. destruct (YS _ _ C2) as [Y1 L2].
  destruct (XS _ _ C3) as [X2 L3]. destruct (YS _ _ C4) as [Y2 L4].
  assert (EX : x0 + (oj + fst c) * dx - (x0 + (oj + j) * dx) = (fst c - j) * dx) by ring.
  assert (EY : y0 + (oi + snd c) * dy - (y0 + (oi + i) * dy) = (snd c - i) * dy) by ring.
  assert (LM : 0 <= m c i j <= K) by (unfold m, apart, chebyshev, taxi; destruct ch; lia).
  split; [exact LM|].
  assert (SX : scaled e (fabs (fsub x1 x2)) (Z.abs ((fst c - j) * dx))).
  { apply fabs_exact. rewrite <- EX. apply fsub_exact; auto; lia. }
  assert (SY : scaled e (fabs (fsub y1 y2)) (Z.abs ((snd c - i) * dy))).
  { apply fabs_exact. rewrite <- EY. apply fsub_exact; auto; lia. }
  unfold m, apart in *. destruct ch.
  - assert (S1 : scaled e (if fltb (fabs (fsub x1 x2)) (fabs (fsub y1 y2)) then fabs (fsub y1 y2) else fabs (fsub x1 x2))
                  (chebyshev i j (snd c) (fst c))).
    { rewrite (fltb_exact _ _ _ _ _ SX SY). unfold chebyshev. destruct (Z.ltb_spec (Z.abs ((fst c - j) * dx)) (Z.abs ((snd c - i) * dy))).
      - rewrite Z.max_l by lia. exact SY.
      - rewrite Z.max_r by lia. exact SX. }
    unfold chebyshev_dist_sqr. cbv zeta. revert LM S1. generalize (chebyshev i j (snd c) (fst c)) as d. clear - HK He. intros d LM S1. apply fmul_exact; auto; nia.
  - assert (S1 : scaled e (fadd (fabs (fsub x1 x2)) (fabs (fsub y1 y2))) (taxi i j (snd c) (fst c))).
    { unfold taxi. rewrite Z.add_comm. apply fadd_exact; auto; unfold taxi in LM; lia. }
    unfold taxi_dist_sqr. cbv zeta. revert LM S1. generalize (taxi i j (snd c) (fst c)) as d. clear - HK He. intros d LM S1. apply fmul_exact; auto; nia.
Qed.

Lemma max2_cases : (M = finf) \/
  (scaled (e + e) (fmul M M) (B * B) /\ scaled (e + e) (fmul (fmul M M) (f64_of_Z 2)) (B * B * 2) /\ 0 < B).
Proof.
  destruct HB as [->|[SM HBB]]; [now left|]. right.
  assert (S2 : scaled (e + e) (fmul M M) (B * B)) by (apply fmul_exact; auto; nia).
  split; [exact S2|]. split; [|lia]. replace (e + e) with (e + e + 0) by lia.
  apply fmul_exact; [exact S2|apply f64_of_exact; lia|nia|lia].
Qed.

Lemma scaled_finite_lt s x a : scaled s x a -> fltb x finf = true.
Proof.
  intros [F _]. rewrite fleb_fltb; [|now apply finite_fok|reflexivity].
  rewrite finite_inf_fleb by exact F. reflexivity.
Qed.

Lemma psqrt_exact c i j : ctgt c -> inr i j -> scaled e (psqrt ar (D c i j)) (m c i j).
Proof.
  intros TC HI. destruct (K_pos c i j TC HI) as [LM SD].
  change (scaled e (st_round st (fsqrt (D c i j))) (m c i j)).
  apply (es_round _ _ _ ES); [|exact LM]. apply fsqrt_exact; auto; lia.
Qed.

Lemma dist_regular Bd : (M = finf \/ Bd = B) -> regular ar target cxc cyc csrc rr0 rr1 cc0 cc1 m Bd (Bd + 1).
Proof.
  intros HBd. constructor.
  - lia.
  - intros c. now apply (ctgt_inr target boundary boundary_not_target bz src ny nx SRC depth depth_pos k k_in M HM).
  - intros. unfold m, apart, chebyshev, taxi. destruct ch; lia.
  - intros. unfold m, apart, chebyshev, taxi. cbn [fst snd]. rewrite !Z.sub_diag. now destruct ch.
  - intros c c' i j TC TC' HI H. destruct (K_pos c i j TC HI) as [L S1].
    destruct (K_pos c' i j TC' HI) as [L' S2].
    change (fltb (D c i j) (D c' i j) = false) in H.
    rewrite (fltb_exact _ _ _ _ _ S1 S2) in H. nia.
  - intros c i j TC HI H. destruct (K_pos c i j TC HI) as [L S1].
    change (fltb (D c i j) (fmul (fmul M M) (f64_of_Z 2)) = true).
    destruct max2_cases as [EM|(S2 & S3 & B0)].
    { replace (fmul (fmul M M) (f64_of_Z 2)) with finf by (rewrite EM; reflexivity).
      eapply scaled_finite_lt; eauto. }
    rewrite (fltb_exact _ _ _ _ _ S1 S3). destruct HBd as [EM| ->]; [|nia].
    exfalso. rewrite EM in S2. destruct S2 as [S2 _]. discriminate S2.
  - intros c i j TC HI H. destruct (K_pos c i j TC HI) as [L S1].
    change (fleb (D c i j) (fmul M M) = true).
    destruct max2_cases as [EM|(S2 & S3 & B0)].
    { replace (fmul M M) with finf by (rewrite EM; reflexivity).
      apply fltb_fleb; eapply scaled_finite_lt; eauto. }
    rewrite (fleb_exact _ _ _ _ _ S1 S2). destruct HBd as [EM| ->]; [|nia].
    exfalso. rewrite EM in S2. destruct S2 as [S2 _]. discriminate S2.
  - intros c c' i j TC TC' HI H. destruct (K_pos c i j TC HI) as [L S1].
    destruct (K_pos c' i j TC' HI) as [L' S2].
    exact (es_cmp _ _ _ ES _ _ _ _ (psqrt_exact c' i j TC' HI) S1 L' L).
  - assert (C : ch = true \/ ch = false) by (destruct ch; auto). destruct C as [C|C]; [right|left].
    + destruct (NZ C) as [NX NY]. split.
      * exists (Z.abs dx), (Z.abs dy). split; [lia|]. split; [lia|]. intros c i j. unfold m, apart, chebyshev. rewrite C, !Z.abs_mul. apply Z.max_comm.
      * intros c c' i j TC TC' HI H. destruct (K_pos c i j TC HI) as [L S1]. destruct (K_pos c' i j TC' HI) as [L' S2].
        change (fltb (D c i j) (D c' i j) = true) in H. rewrite (fltb_exact _ _ _ _ _ S1 S2) in H. nia.
    + split; [exists (fun _ => Z.abs dy); intros i|exists (fun _ => Z.abs dx); intros j]; (split; [lia|]); unfold m, apart, taxi; rewrite C.
      * assert (Q1 : forall c : cand, (snd c - (i + 1)) * dy = (snd c - i) * dy - dy) by (intros; ring).
        split; [|split; [|split]].
        -- intros c j. rewrite Q1. lia.
        -- intros c j. rewrite Q1. lia.
        -- intros c j H. rewrite !Z.abs_mul. nia.
        -- intros c j H. rewrite !Z.abs_mul. nia.
      * assert (Q1 : forall c : cand, (fst c - (j + 1)) * dx = (fst c - j) * dx - dx) by (intros; ring).
        split; [|split; [|split]].
        -- intros c i. rewrite Q1. lia.
        -- intros c i. rewrite Q1. lia.
        -- intros c i H. rewrite !Z.abs_mul. nia.
        -- intros c i H. rewrite !Z.abs_mul. nia.
Qed.

(* The padded chunk contains the targets in reach of its cells. *)
Hypothesis covers : forall i j ti tj v, k_r0 k <= i < k_r1 k -> k_c0 k <= j < k_c1 k ->
  target_at target src ti tj v -> M = finf \/ apart i j ti tj <= B -> in_window depth k ti tj.

Lemma dist_nonneg : sq_nonneg dist_fn.
Proof. destruct ch; [exact (metric_nonneg bz Chebyshev)|exact (metric_nonneg bz Taxi)]. Qed.
Theorem scan_exact nodata junk : grid kny knx junk ->
  exists prox, run_proximity ar target boundary xc yc src depth k junk nodata = Ok prox
    /\ forall i j, k_r0 k <= i < k_r1 k -> k_c0 k <= j < k_c1 k ->
       exists p, at2 prox (i - k_r0 k) (j - k_c0 k) p
         /\ ((exists ti tj v, target_at target src ti tj v
                /\ scaled e p (apart i j ti tj)
                /\ forall ti' tj' v', target_at target src ti' tj' v' ->
                     apart i j ti tj <= apart i j ti' tj')
             \/ (p = nodata /\ forall ti tj v, target_at target src ti tj v ->
                   M <> finf /\ B < apart i j ti tj)).
Proof.
  intros SJ.
  destruct (chunk_prox target boundary boundary_not_target bz xc yc src ny nx depth depth_pos k k_in
    st dist_fn M RO dist_nonneg HM nodata junk SJ) as (prox & E & H).
  exists prox. split; [exact E|]. intros i j Hi Hj.
  destruct (H i j Hi Hj) as (p & Gp & CE & BD). exists p. split; [exact Gp|].
  assert (IJ : inr (i - oi) (j - oj)).
  { apply (inr_iff target boundary boundary_not_target bz ny nx depth k M HM). unfold k_ny, k_nx. lia. }
  assert (VS : forall c, ctgt c -> value_of ar target cxc cyc csrc (i - oi) (j - oj) c p ->
     scaled e p (m c (i - oi) (j - oj)) /\ (M = finf \/ m c (i - oi) (j - oj) <= B)).
  { intros c TC V. destruct (K_pos c _ _ TC IJ) as [LM S1].
    destruct V as [(T & -> & ->)|(NT & -> & L1 & _)].
    - replace (m (j - oj, i - oi) (i - oi) (j - oj)) with 0 by (unfold m, apart, chebyshev, taxi; cbn [fst snd]; rewrite !Z.sub_diag; now destruct ch). split.
      + split; [reflexivity|]. cbn. now rewrite Rmult_0_l.
      + destruct HB as [HB'|[_ HB']]; [now left|right; lia].
    - split; [now apply psqrt_exact|].
      change (fleb (D c (i - oi) (j - oj)) (fmul M M) = true) in L1.
      destruct max2_cases as [EM|(S2 & _ & B0)]; [now left|].
      rewrite (fleb_exact _ _ _ _ _ S1 S2) in L1. right. nia. }
  assert (MT : forall ti tj, m (tj - oj, ti - oi) (i - oi) (j - oj) = apart i j ti tj).
  { intros. unfold m, apart, chebyshev, taxi. cbn [fst snd].
    replace (ti - oi - (i - oi)) with (ti - i) by lia. now replace (tj - oj - (j - oj)) with (tj - j) by lia. }
  (* bound by any target in reach *)
  assert (UB : forall ti tj v, target_at target src ti tj v -> M = finf \/ apart i j ti tj <= B ->
    exists c, ctgt c /\ value_of ar target cxc cyc csrc (i - oi) (j - oj) c p
      /\ m c (i - oi) (j - oj) <= apart i j ti tj).
  { intros ti tj v TV R. pose proof (covers i j ti tj v Hi Hj TV R) as W.
    pose proof (window_ctgt target boundary boundary_not_target bz src ny nx depth depth_pos k k_in M HM ti tj v TV W) as TC.
    assert (exists Bd, (M = finf \/ Bd = B) /\ apart i j ti tj <= Bd) as (Bd & HBd & LB).
    { destruct R as [R|R]; [exists (apart i j ti tj); split; [now left|lia]|exists B; split; [now right|exact R]]. }
    destruct (proj2 BD _ _ _ (dist_regular Bd HBd) _ TC I IJ) as (c & TCc & V & L).
    - rewrite MT. exact LB.
    - exists c. rewrite MT in L. auto. }
  assert (FIN : forall c, ctgt c -> value_of ar target cxc cyc csrc (i - oi) (j - oj) c p ->
    exists ti tj v, target_at target src ti tj v
                /\ scaled e p (apart i j ti tj)
                /\ forall ti' tj' v', target_at target src ti' tj' v' ->
                     apart i j ti tj <= apart i j ti' tj').
  { intros c TC V. destruct (VS c TC V) as [S1 LB].
    assert (TT := TC). apply (tgt_chunk target boundary boundary_not_target src ny nx depth depth_pos k k_in) in TT.
    destruct TT as (_ & v & TV).
    assert (MC : m c (i - oi) (j - oj) = apart i j (oi + snd c) (oj + fst c)).
    { rewrite <- MT. f_equal. destruct c as [c1 c2]. cbn [fst snd]. f_equal; lia. }
    rewrite MC in *.
    exists (oi + snd c), (oj + fst c), v. split; [exact TV|]. split; [exact S1|].
    intros ti' tj' v' TV'.
    destruct LB as [EM|LB].
    - destruct (UB _ _ _ TV' (or_introl EM)) as (c' & TC' & V' & L').
      destruct (VS c' TC' V') as [S2 _]. rewrite (scaled_inj _ _ _ _ S1 S2). exact L'.
    - destruct (Z_le_gt_dec (apart i j ti' tj') B) as [LE|GT]; [|lia].
      destruct (UB _ _ _ TV' (or_intror LE)) as (c' & TC' & V' & L').
      destruct (VS c' TC' V') as [S2 _]. rewrite (scaled_inj _ _ _ _ S1 S2). exact L'. }
  destruct CE as [EP|(c & TC & V)]; [|left; eauto].
  destruct (classic (exists ti tj v, target_at target src ti tj v /\ (M = finf \/ apart i j ti tj <= B)))
    as [(ti & tj & v & TV & R)|NO].
  - left. destruct (UB _ _ _ TV R) as (c & TC & V & _). eauto.
  - right. split; [exact EP|]. intros ti tj v TV. split.
    + intros EM. apply NO. eauto 6.
    + destruct (Z_le_gt_dec (apart i j ti tj) B); [exfalso; eauto 8|lia].
Qed.

(* the chunk is the whole raster, or the cells beyond the overlap are farther away than
   max_distance *)
Definition reach : Prop :=
  (k_r0 k = 0 /\ k_r1 k = ny /\ k_c0 k = 0 /\ k_c1 k = nx)
  \/ (M <> finf /\ dx <> 0 /\ dy <> 0 /\ B < (fst depth + 1) * Z.abs dy /\ B < (snd depth + 1) * Z.abs dx).
End Taxi.

Lemma reach_covers {A} (target : A -> bool) src ny nx depth k M dx dy B ch :
  grid ny nx src -> 0 <= fst depth /\ 0 <= snd depth -> reach ny nx depth k M dx dy B ->
  forall i j ti tj v, k_r0 k <= i < k_r1 k -> k_c0 k <= j < k_c1 k ->
  target_at target src ti tj v -> M = finf \/ apart dx dy ch i j ti tj <= B -> in_window depth k ti tj.
Proof.
  intros SRC DP HR i j ti tj v Hi Hj [(row & G1 & G2) _] HT.
  assert (R : 0 <= ti < ny /\ 0 <= tj < nx).
  { pose proof (get_ok_range _ _ _ G1). pose proof (get_ok_range _ _ _ G2).
    rewrite (proj1 SRC) in *. rewrite (proj2 SRC _ _ G1) in *. auto. }
  unfold in_window. destruct HR as [HR|(NM & X0 & Y0 & BY & BX)]; [lia|].
  destruct HT as [HT|HT]; [contradiction|]. unfold apart, chebyshev, taxi in HT. rewrite !Z.abs_mul in HT.
  assert (H1 : Z.abs (ti - i) * Z.abs dy <= B) by (pose proof (Z.mul_nonneg_nonneg (Z.abs (tj - j)) (Z.abs dx)); destruct ch; lia).
  assert (H2 : Z.abs (tj - j) * Z.abs dx <= B) by (pose proof (Z.mul_nonneg_nonneg (Z.abs (ti - i)) (Z.abs dy)); destruct ch; lia).
  assert (Z.abs (ti - i) < fst depth + 1) by (apply (mul_lt_inv _ _ (Z.abs dy)); lia).
  assert (Z.abs (tj - j) < snd depth + 1) by (apply (mul_lt_inv _ _ (Z.abs dx)); lia). lia.
Qed.

(* ---------------- the statements of ProximityProps ---------------- *)

Lemma sound {A} (target : A -> bool) boundary xc yc src ny nx depth k st hav met M
  nodata junk :
  target boundary = false -> grid ny nx src -> len xc = nx -> len yc = ny ->
  0 <= fst depth /\ 0 <= snd depth ->
  0 <= k_r0 k <= k_r1 k /\ k_r1 k <= ny /\ 0 <= k_c0 k <= k_c1 k /\ k_c1 k <= nx ->
  rounding (st_round st) -> fleb (f64_of 1 (-511)) M = true ->
  grid (k_ny depth k) (k_nx depth k) junk ->
  exists prox,
    run_proximity (f64_arith st (metric_dist_sqr hav met) M) target boundary xc yc src depth k junk
      nodata = Ok prox
    /\ forall i j, k_r0 k <= i < k_r1 k -> k_c0 k <= j < k_c1 k ->
       exists p, at2 prox (i - k_r0 k) (j - k_c0 k) p
         /\ (p = nodata
             \/ exists ti tj v, target_at target src ti tj v
                  /\ proximity_to target xc yc src (metric_dist_sqr hav met) (st_round st) M i j ti tj p).
Proof.
  intros TB SRC XC YC DP KI RO HM SJ.
  destruct (chunk_run target boundary TB (fun _ _ _ _ => fzero) xc yc src ny nx SRC XC YC depth DP k KI st
    (metric_dist_sqr hav met) M RO (metric_nonneg hav met) HM (fun v => v) nodata nodata boundary nodata
    (fun x => x) junk SJ) as (prox & alloc & dir & E & _ & _ & H).
  exists prox. split; [exact E|]. intros i j Hi Hj.
  destruct (H i j Hi Hj) as (p & a & d & G & _ & _ & HP). exists p. split; [exact G|].
  destruct HP as [(HP & _)|(ti & tj & v & TV & PV & _)]; [now left|right; eauto].
Qed.

Lemma nan_no_target targets :
  is_target feqb (fun v => negb (feqb v fzero) && BinarySingleNaN.is_finite v) targets fnan = false.
Proof.
  unfold is_target. destruct targets as [|t l]; [reflexivity|].
  assert (H : forall l, existsb (feqb fnan) l = false).
  { clear. induction l as [|a l IH]; [reflexivity|]. cbn. rewrite IH. reflexivity. }
  apply H.
Qed.

Lemma at2_fun {B} (a : list (list B)) i j x y : at2 a i j x -> at2 a i j y -> x = y.
Proof. intros (r & A1 & A2) (r' & B1 & B2). congruence. Qed.

Lemma target_zero {A} (target : A -> bool) boundary xc yc src ny nx depth k st hav met M
  nodata junk i j v :
  target boundary = false -> grid ny nx src -> len xc = nx -> len yc = ny ->
  0 <= fst depth /\ 0 <= snd depth ->
  0 <= k_r0 k <= k_r1 k /\ k_r1 k <= ny /\ 0 <= k_c0 k <= k_c1 k /\ k_c1 k <= nx ->
  rounding (st_round st) -> fleb (f64_of 1 (-511)) M = true ->
  grid (k_ny depth k) (k_nx depth k) junk ->
  k_r0 k <= i < k_r1 k -> k_c0 k <= j < k_c1 k -> target_at target src i j v ->
  exists prox,
    run_proximity (f64_arith st (metric_dist_sqr hav met) M) target boundary xc yc src depth k junk
      nodata = Ok prox
    /\ at2 prox (i - k_r0 k) (j - k_c0 k) fzero.
Proof.
  intros TB SRC XC YC DP KI RO HM SJ Hi Hj TV.
  set (ar := f64_arith st (metric_dist_sqr hav met) M).
  destruct (chunk_prox target boundary TB (fun _ _ _ _ => fzero) xc yc src ny nx depth DP k KI
    st (metric_dist_sqr hav met) M RO (metric_nonneg hav met) HM nodata junk SJ) as (prox & E & H).
  exists prox. split; [exact E|]. destruct (H i j Hi Hj) as (p & Gp & CE & BD).
  replace fzero with p; [exact Gp|]. apply BD.
  assert (W : in_window depth k i j) by (unfold in_window; lia).
  exact (window_ctgt target boundary TB (fun _ _ _ _ => fzero) src ny nx depth DP k KI M HM i j v TV W).
Qed.

Lemma complete {A} (target : A -> bool) boundary xc yc src ny nx depth k st hav met
  nodata junk ti0 tj0 v0 :
  target boundary = false -> grid ny nx src -> len xc = nx -> len yc = ny ->
  0 <= fst depth /\ 0 <= snd depth ->
  k = mkChunk 0 ny 0 nx ->
  rounding (st_round st) ->
  (forall ti tj v i j x1 y1 x2 y2, target_at target src ti tj v ->
     centre xc yc ti tj x1 y1 -> centre xc yc i j x2 y2 ->
     fltb (metric_dist_sqr hav met x1 y1 x2 y2) finf = true) ->
  grid (k_ny depth k) (k_nx depth k) junk -> target_at target src ti0 tj0 v0 ->
  exists prox,
    run_proximity (f64_arith st (metric_dist_sqr hav met) finf) target boundary xc yc src depth k junk
      nodata = Ok prox
    /\ forall i j, 0 <= i < ny -> 0 <= j < nx ->
       exists p ti tj v, at2 prox i j p /\ target_at target src ti tj v
         /\ proximity_to target xc yc src (metric_dist_sqr hav met) (st_round st) finf i j ti tj p.
Proof.
  intros TB SRC XC YC DP EK RO FIN SJ TV.
  assert (R : 0 <= ti0 < ny /\ 0 <= tj0 < nx).
  { destruct TV as [(row & G1 & G2) _]. pose proof (get_ok_range _ _ _ G1).
    pose proof (get_ok_range _ _ _ G2).
    rewrite (proj1 SRC) in *. rewrite (proj2 SRC _ _ G1) in *. auto. }
  assert (KI : 0 <= k_r0 k <= k_r1 k /\ k_r1 k <= ny /\ 0 <= k_c0 k <= k_c1 k /\ k_c1 k <= nx)
    by (subst k; cbn; lia).
  assert (W : in_window depth k ti0 tj0) by (subst k; unfold in_window; cbn; lia).
  destruct (chunk_complete target boundary TB (fun _ _ _ _ => fzero) xc yc src ny nx SRC XC YC depth DP k KI
    st (metric_dist_sqr hav met) finf RO (metric_nonneg hav met) eq_refl nodata junk ti0 tj0 v0 eq_refl FIN SJ TV W)
    as (prox & E & H).
  exists prox. split; [exact E|]. intros i j Hi Hj.
  subst k. cbn in H. destruct (H i j Hi Hj) as (p & ti & tj & v & H').
  rewrite !Z.sub_0_r in H'. eauto.
Qed.

Lemma scan_nearest {A} (target : A -> bool) boundary xc yc src ny nx depth k st M
  e x0 dx y0 dy K B ch nodata junk : (ch = true -> dx <> 0 /\ dy <> 0) ->
  target boundary = false -> grid ny nx src -> len xc = nx -> len yc = ny ->
  0 <= fst depth /\ 0 <= snd depth ->
  0 <= k_r0 k <= k_r1 k /\ k_r1 k <= ny /\ 0 <= k_c0 k <= k_c1 k /\ k_c1 k <= nx ->
  (st = double /\ -500 <= e <= 400 /\ K = 2 ^ 26) \/ (st = single /\ -63 <= e <= 30 /\ K = 2 ^ 24) ->
  (forall j x, get xc j = Ok x -> scaled e x (x0 + j * dx) /\ 4 * Z.abs (x0 + j * dx) <= K) ->
  (forall i y, get yc i = Ok y -> scaled e y (y0 + i * dy) /\ 4 * Z.abs (y0 + i * dy) <= K) ->
  M = finf \/ (scaled e M B /\ 0 < B <= 2 ^ 26) ->
  reach ny nx depth k M dx dy B ->
  grid (k_ny depth k) (k_nx depth k) junk ->
  exists prox, run_proximity (f64_arith st (if ch then chebyshev_dist_sqr else taxi_dist_sqr) M) target boundary xc yc src depth k junk nodata
      = Ok prox
    /\ forall i j, k_r0 k <= i < k_r1 k -> k_c0 k <= j < k_c1 k ->
       exists p, at2 prox (i - k_r0 k) (j - k_c0 k) p
         /\ ((exists ti tj v, target_at target src ti tj v
                /\ scaled e p (apart dx dy ch i j ti tj)
                /\ forall ti' tj' v', target_at target src ti' tj' v' ->
                     apart dx dy ch i j ti tj <= apart dx dy ch i j ti' tj')
             \/ (p = nodata /\ forall ti tj v, target_at target src ti tj v ->
                   M <> finf /\ B < apart dx dy ch i j ti tj)).
Proof.
  intros NZ TB SRC XC YC DP KI HS XS YS HB RE SJ.
  assert (RO : rounding (st_round st))
    by (destruct HS as [(-> & _)|(-> & _)]; [apply double_rounding|apply single_rounding]).
  assert (ES : exact_store st e K)
    by (destruct HS as [(-> & He & ->)|(-> & He & ->)]; [now apply double_exact|now apply single_exact]).
  assert (He : -500 <= e <= 400) by (destruct HS as [(_ & He & _)|(_ & He & _)]; lia).
  assert (HK : K <= 2 ^ 26) by (destruct HS as [(_ & _ & ->)|(_ & _ & ->)]; lia).
  assert (HM : fleb (f64_of 1 (-511)) M = true).
  { destruct HB as [->|[SM HBB]]; [reflexivity|].
    apply (scaled_ge_pow e _ _ _ SM); lia. }
  eapply scan_exact; eauto. now apply (reach_covers target src ny nx).
Qed.

Lemma taxi_nearest {A} (target : A -> bool) boundary xc yc src ny nx depth k st M
  e x0 dx y0 dy K B nodata junk :
  target boundary = false -> grid ny nx src -> len xc = nx -> len yc = ny ->
  0 <= fst depth /\ 0 <= snd depth ->
  0 <= k_r0 k <= k_r1 k /\ k_r1 k <= ny /\ 0 <= k_c0 k <= k_c1 k /\ k_c1 k <= nx ->
  (st = double /\ -500 <= e <= 400 /\ K = 2 ^ 26) \/ (st = single /\ -63 <= e <= 30 /\ K = 2 ^ 24) ->
  (forall j x, get xc j = Ok x -> scaled e x (x0 + j * dx) /\ 4 * Z.abs (x0 + j * dx) <= K) ->
  (forall i y, get yc i = Ok y -> scaled e y (y0 + i * dy) /\ 4 * Z.abs (y0 + i * dy) <= K) ->
  M = finf \/ (scaled e M B /\ 0 < B <= 2 ^ 26) ->
  reach ny nx depth k M dx dy B ->
  grid (k_ny depth k) (k_nx depth k) junk ->
  exists prox, run_proximity (f64_arith st taxi_dist_sqr M) target boundary xc yc src depth k junk nodata
      = Ok prox
    /\ forall i j, k_r0 k <= i < k_r1 k -> k_c0 k <= j < k_c1 k ->
       exists p, at2 prox (i - k_r0 k) (j - k_c0 k) p
         /\ ((exists ti tj v, target_at target src ti tj v
                /\ scaled e p (taxi dx dy i j ti tj)
                /\ forall ti' tj' v', target_at target src ti' tj' v' ->
                     taxi dx dy i j ti tj <= taxi dx dy i j ti' tj')
             \/ (p = nodata /\ forall ti tj v, target_at target src ti tj v ->
                   M <> finf /\ B < taxi dx dy i j ti tj)).
Proof.
  intros. eapply (scan_nearest target boundary xc yc src ny nx depth k st M e x0 dx y0 dy K B false); eauto. discriminate.
Qed.

Lemma chebyshev_nearest {A} (target : A -> bool) boundary xc yc src ny nx depth k st M
  e x0 dx y0 dy K B nodata junk : dx <> 0 -> dy <> 0 ->
  target boundary = false -> grid ny nx src -> len xc = nx -> len yc = ny ->
  0 <= fst depth /\ 0 <= snd depth ->
  0 <= k_r0 k <= k_r1 k /\ k_r1 k <= ny /\ 0 <= k_c0 k <= k_c1 k /\ k_c1 k <= nx ->
  (st = double /\ -500 <= e <= 400 /\ K = 2 ^ 26) \/ (st = single /\ -63 <= e <= 30 /\ K = 2 ^ 24) ->
  (forall j x, get xc j = Ok x -> scaled e x (x0 + j * dx) /\ 4 * Z.abs (x0 + j * dx) <= K) ->
  (forall i y, get yc i = Ok y -> scaled e y (y0 + i * dy) /\ 4 * Z.abs (y0 + i * dy) <= K) ->
  M = finf \/ (scaled e M B /\ 0 < B <= 2 ^ 26) ->
  reach ny nx depth k M dx dy B ->
  grid (k_ny depth k) (k_nx depth k) junk ->
  exists prox, run_proximity (f64_arith st chebyshev_dist_sqr M) target boundary xc yc src depth k junk nodata
      = Ok prox
    /\ forall i j, k_r0 k <= i < k_r1 k -> k_c0 k <= j < k_c1 k ->
       exists p, at2 prox (i - k_r0 k) (j - k_c0 k) p
         /\ ((exists ti tj v, target_at target src ti tj v
                /\ scaled e p (chebyshev dx dy i j ti tj)
                /\ forall ti' tj' v', target_at target src ti' tj' v' ->
                     chebyshev dx dy i j ti tj <= chebyshev dx dy i j ti' tj')
             \/ (p = nodata /\ forall ti tj v, target_at target src ti tj v ->
                   M <> finf /\ B < chebyshev dx dy i j ti tj)).
Proof.
  intros. eapply (scan_nearest target boundary xc yc src ny nx depth k st M e x0 dx y0 dy K B true); eauto.
Qed.

(* ---------------- witnesses ---------------- *)

Definition w_src : list (list Z) := [[0;0;0;1];[0;0;0;0];[0;0;1;0];[1;0;0;0]].
Definition w_c : list f64 := map f64_of_Z [0; 1; 2; 3].
Definition w_run := run_proximity (f64_arith double euclidean_dist_sqr finf) (fun v => v =? 1) 0 w_c w_c w_src
    (0, 0) (mkChunk 0 4 0 4) (full 4 (full 4 fzero)) (f64_of_Z (-999999)).

Definition look {B} (r : res (list (list B))) (i j : Z) (f : B -> bool) : bool :=
  match r with
  | Ok a => match get a i with Ok row => match get row j with Ok p => f p | Err _ => false end | Err _ => false end
  | Err _ => false
  end.

Lemma look_ok {B} (r : res (list (list B))) i j f : look r i j f = true ->
  exists a p, r = Ok a /\ at2 a i j p /\ f p = true.
Proof.
  unfold look. destruct r as [a|]; [|discriminate]. intros H.
  destruct (get a i) as [row|] eqn:G1; [|discriminate].
  destruct (get row j) as [p|] eqn:G2; [|discriminate].
  exists a, p. split; [reflexivity|]. split; [exists row; auto|exact H].
Qed.

Lemma w_grid : grid 4 4 w_src.
Proof.
  split; [reflexivity|]. intros i row G. pose proof (get_ok_range _ _ _ G) as R. unfold w_src, len in R. cbn in R.
  assert (i = 0 \/ i = 1 \/ i = 2 \/ i = 3) as [->|[->|[->| ->]]] by lia; vm_compute in G; injection G as <-; reflexivity.
Qed.

Lemma nearest_refuted :
  ~ (forall (src : list (list Z)) (xc yc : list f64) ny nx, grid ny nx src -> len xc = nx -> len yc = ny ->
       forall prox, run_proximity (f64_arith double euclidean_dist_sqr finf) (fun v => v =? 1) 0 xc yc src
                      (0, 0) (mkChunk 0 ny 0 nx) (full ny (full nx fzero)) (f64_of_Z (-999999)) = Ok prox ->
       forall i j p ti tj v x1 y1 x2 y2, at2 prox i j p -> target_at (fun v => v =? 1) src ti tj v ->
         centre xc yc ti tj x1 y1 -> centre xc yc i j x2 y2 ->
         fleb p (fsqrt (euclidean_dist_sqr x1 y1 x2 y2)) = true).
Proof.
  intros H.
  destruct (look_ok w_run 0 0 (fun p => negb (fleb p (fsqrt (euclidean_dist_sqr (f64_of_Z 2) (f64_of_Z 2)
    (f64_of_Z 0) (f64_of_Z 0)))))) as (prox & p & E & G & F); [vm_compute; reflexivity|].
  specialize (H w_src w_c w_c 4 4 w_grid eq_refl eq_refl prox E 0 0 p 2 2 1 (f64_of_Z 2) (f64_of_Z 2)
    (f64_of_Z 0) (f64_of_Z 0) G).
  rewrite H in F; [discriminate F| | |].
  - split; [|reflexivity]. eexists. split; reflexivity.
  - split; reflexivity.
  - split; reflexivity.
Qed.

Definition v_src : list (list Z) := [[0; 0; 0]].
Definition v_xc : list f64 := [f64_of 1 (-1); f64_of 3 (-1); f64_of 5 (-1)].
Definition v_yc : list f64 := [f64_of 1 (-1)].
Definition v_run := run_proximity (f64_arith double euclidean_dist_sqr (f64_of_Z 1))
  (is_target Z.eqb (fun v => negb (v =? 0)) []) (- 2 ^ 63) v_xc v_yc v_src (1, 1) (mkChunk 0 1 0 3)
  (full 3 (full 5 fzero)) (f64_of_Z (-999999)).

Lemma integer_padding_refuted :
  ~ (forall (boundary : Z) (src : list (list Z)) (xc yc : list f64) ny nx depth M,
       grid ny nx src -> len xc = nx -> len yc = ny -> 0 <= fst depth /\ 0 <= snd depth ->
       (forall i j v, ~ target_at (is_target Z.eqb (fun v => negb (v =? 0)) []) src i j v) ->
       forall prox, run_proximity (f64_arith double euclidean_dist_sqr M)
                      (is_target Z.eqb (fun v => negb (v =? 0)) []) boundary xc yc src depth
                      (mkChunk 0 ny 0 nx)
                      (full (ny + 2 * fst depth) (full (nx + 2 * snd depth) fzero))
                      (f64_of_Z (-999999)) = Ok prox ->
       forall i j p, at2 prox i j p -> fltb p fzero = true).
Proof.
  intros H.
  destruct (look_ok v_run 0 0 (fun p => negb (fltb p fzero))) as (prox & p & E & G & F);
    [vm_compute; reflexivity|].
  rewrite (H (- 2 ^ 63) v_src v_xc v_yc 1 3 (1, 1) (f64_of_Z 1)) with (prox := prox) (i := 0) (j := 0) in F;
    [discriminate F| | | | | |exact E|exact G].
  - split; [reflexivity|]. intros i row Gr. pose proof (get_ok_range _ _ _ Gr) as R.
    unfold v_src, len in R. cbn in R. assert (i = 0) as -> by lia. vm_compute in Gr. injection Gr as <-. reflexivity.
  - reflexivity.
  - reflexivity.
  - cbn. lia.
  - intros i j v [(row & G1 & G2) T].
    pose proof (get_ok_range _ _ _ G1) as R. unfold v_src, len in R. cbn in R. assert (i = 0) as -> by lia.
    vm_compute in G1. injection G1 as <-. pose proof (get_ok_range _ _ _ G2) as R2. unfold len in R2. cbn in R2.
    assert (j = 0 \/ j = 1 \/ j = 2) as [->|[->| ->]] by lia; vm_compute in G2; injection G2 as <-; discriminate T.
Qed.
