(* The width of cells and the overlap for great circle distances. *)
From Coq Require Import ZArith Reals List Lra Lia.
From Flocq Require Import Core.
From Verif Require Import GreatCircle.
Import ListNotations.
Open Scope R_scope.

Lemma asin_le a b : -1 <= a -> a <= b -> b <= 1 -> asin a <= asin b.
Proof.
  intros H1 H2 H3. pose proof (asin_bound a) as Ba. pose proof (asin_bound b) as Bb.
  apply sin_incr_0; try lra. rewrite !sin_asin by lra. exact H2.
Qed.
Lemma asin_lt a b : -1 <= a -> a < b -> b <= 1 -> asin a < asin b.
Proof.
  intros H1 H2 H3. destruct (asin_le a b) as [L|E]; try lra. exfalso.
  assert (sin (asin a) = sin (asin b)) by now rewrite E. rewrite !sin_asin in H by lra. lra.
Qed.

(* two cells of one row *)
Lemma row_distance x1 x2 y : haversine x1 y x2 y = 2 * 6371009 * asin (Rabs (cos (radians y) * sin (radians (x2 - x1) / 2))).
Proof.
  unfold haversine. cbv zeta. f_equal. f_equal. rewrite <- sqrt_Rsqr_abs. f_equal. unfold Rsqr.
  replace ((radians y - radians y) / 2) with 0 by lra. rewrite sin_0.
  replace (radians (x2 - x1)) with (radians x2 - radians x1) by (unfold radians; lra). ring.
Qed.
Lemma sines y s : Rabs (cos y * sin s) <= 1.
Proof.
  rewrite Rabs_mult. pose proof (COS_bound y) as C. pose proof (SIN_bound s) as S.
  assert (Rabs (cos y) <= 1) by (apply Rabs_le; lra). assert (Rabs (sin s) <= 1) by (apply Rabs_le; lra).
  pose proof (Rabs_pos (cos y)). pose proof (Rabs_pos (sin s)). nra.
Qed.

Lemma lat_max_ge lat y : In y lat -> y <= lat_max lat.
Proof.
  destruct lat as [|a t]; [intros []|]. unfold lat_max. cbn [hd tl].
  assert (G : forall l m, m <= fold_left Rmax l m /\ forall v, In v l -> v <= fold_left Rmax l m).
  { induction l as [|v l IH]; intros m; cbn [fold_left]; [split; [lra|intros v []]|].
    destruct (IH (Rmax m v)) as [I1 I2]. pose proof (Rmax_l m v). pose proof (Rmax_r m v). split; [lra|].
    intros u [->|I]; [lra|now apply I2]. }
  intros [<-|I]; [exact (proj1 (G t a))|exact (proj2 (G t a) _ I)].
Qed.
Lemma lat_max_in lat : lat <> [] -> In (lat_max lat) lat.
Proof.
  destruct lat as [|a t]; [congruence|]. intros _. unfold lat_max. cbn [hd tl].
  assert (G : forall l m, fold_left Rmax l m = m \/ In (fold_left Rmax l m) l).
  { induction l as [|v l IH]; intros m; cbn [fold_left]; [now left|].
    destruct (IH (Rmax m v)) as [E|I]; [|now right; right]. rewrite E.
    unfold Rmax. destruct (Rle_dec m v); [right; now left|now left]. }
  destruct (G t a) as [-> |I]; [now left|now right].
Qed.

(* on the northern hemisphere no cell is narrower than the estimate *)
Lemma north lon0 step lat : lat <> [] -> (forall y, In y lat -> 0 <= y <= 90) ->
  forall x y, In y lat -> min_width lon0 step lat <= haversine x y (x + step) y.
Proof.
  intros NE H x y I. unfold min_width. rewrite !row_distance.
  replace (lon0 + step - lon0) with (x + step - x) by lra.
  apply Rmult_le_compat_l; [lra|]. set (s := sin _).
  pose proof (lat_max_ge lat y I) as L. pose proof (H _ (lat_max_in lat NE)) as HM. pose proof (H _ I) as HY.
  pose proof PI_RGT_0 as PP.
  assert (C : 0 <= cos (radians (lat_max lat)) <= cos (radians y)).
  { unfold radians. split; [apply cos_ge_0; nra|]. apply cos_decr_1; nra. }
  apply asin_le; [pose proof (Rabs_pos (cos (radians (lat_max lat)) * s)); lra| |apply sines].
  rewrite !Rabs_mult. apply Rmult_le_compat_r; [apply Rabs_pos|]. rewrite !Rabs_pos_eq by lra. apply C.
Qed.

(* on the southern hemisphere: rows at 0 and -60 degrees, columns one degree apart,
   max_distance one cell of the estimated width; a cell two columns away in the southern row *)
Lemma cos60 : cos (radians (-60)) = 1 / 2.
Proof. unfold radians. replace (-60 * (PI / 180)) with (- (PI / 3)) by lra. rewrite cos_neg. apply cos_PI3. Qed.

Lemma south_max : lat_max [0; -60] = 0.
Proof. unfold lat_max. cbn. unfold Rmax. destruct (Rle_dec 0 (-60)); lra. Qed.

Lemma half_degree : 0 < sin (PI / 360) < 1 / 2.
Proof.
  pose proof PI_RGT_0 as PP. split; [apply sin_gt_0; lra|].
  rewrite <- sin_PI6. apply sin_increasing_1; lra.
Qed.

Lemma south : let M := min_width 0 1 [0; -60] in
  0 < M /\ haversine 0 (-60) 1 (-60) < M /\ xdepth 0 1 [0; -60] M = 1%Z /\ haversine 0 (-60) 2 (-60) < M.
Proof.
  intros M. pose proof PI_RGT_0 as PP. pose proof half_degree as HD. set (s := sin (PI / 360)) in *.
  assert (EM : M = 2 * 6371009 * asin s).
  { unfold M, min_width. rewrite south_max, row_distance. do 2 f_equal.
    replace (radians 0) with 0 by (unfold radians; lra). rewrite cos_0, Rmult_1_l.
    replace (radians (0 + 1 - 0) / 2) with (PI / 360) by (unfold radians; lra). fold s. apply Rabs_pos_eq. lra. }
  assert (AP : 0 < asin s) by (rewrite <- asin_0; apply asin_lt; lra).
  assert (E1 : haversine 0 (-60) 1 (-60) = 2 * 6371009 * asin (s / 2)).
  { rewrite row_distance, cos60. do 2 f_equal. replace (radians (1 - 0) / 2) with (PI / 360) by (unfold radians; lra).
    fold s. rewrite Rabs_pos_eq; lra. }
  assert (C : 0 < cos (PI / 360) <= 1) by (split; [apply cos_gt_0; lra|apply COS_bound]).
  assert (C1 : cos (PI / 360) < 1).
  { destruct (Rle_lt_or_eq_dec _ _ (proj2 C)) as [L|E]; [exact L|exfalso].
    pose proof (sin2_cos2 (PI / 360)) as S2. rewrite E in S2. unfold Rsqr in S2. fold s in S2. nra. }
  assert (E2 : haversine 0 (-60) 2 (-60) = 2 * 6371009 * asin (s * cos (PI / 360))).
  { rewrite row_distance, cos60. do 2 f_equal. replace (radians (2 - 0) / 2) with (2 * (PI / 360)) by (unfold radians; lra).
    rewrite sin_2a. fold s. rewrite Rabs_pos_eq; nra. }
  split; [rewrite EM; lra|]. split; [rewrite E1, EM; apply Rmult_lt_compat_l; [lra|]; apply asin_lt; lra|].
  split; [|rewrite E2, EM; apply Rmult_lt_compat_l; [lra|]; apply asin_lt; nra].
  unfold xdepth. fold M. rewrite Rabs_pos_eq by (rewrite EM; lra).
  replace (M / M) with 1 by (field; rewrite EM; lra). exact (Zceil_IZR 1).
Qed.

(* in the north too: eight columns of 45 degrees at 60 degrees, two cells on opposite sides of
   the pole are 60 degrees apart *)
Lemma pole : let M := haversine 0 60 180 60 in
  0 < M /\ (xdepth 0 45 [60%R] M <= 3)%Z /\ haversine 0 60 (0 + IZR 4 * 45) 60 <= M.
Proof.
  intros M. pose proof PI_RGT_0 as PP.
  assert (C60 : cos (radians 60) = 1 / 2) by (unfold radians; replace (60 * (PI / 180)) with (PI / 3) by lra; apply cos_PI3).
  assert (EM : M = 2 * 6371009 * asin (1 / 2)).
  { unfold M. rewrite row_distance, C60. do 2 f_equal. replace (radians (180 - 0) / 2) with (PI / 2) by (unfold radians; lra).
    rewrite sin_PI2. rewrite Rabs_pos_eq; lra. }
  assert (A6 : asin (1 / 2) = PI / 6) by (rewrite <- sin_PI6; apply asin_sin; lra).
  set (t := 1 / 2 * sin (PI / 8)).
  assert (S8 : 0 < sin (PI / 8)) by (apply sin_gt_0; lra).
  assert (SQ : sin (PI / 8) * sin (PI / 8) = (1 - cos (PI / 4)) / 2).
  { pose proof (cos_2a_sin (PI / 8)) as D. replace (2 * (PI / 8)) with (PI / 4) in D by lra. rewrite D. lra. }
  assert (Q : 7 / 10 <= cos (PI / 4) <= 71 / 100).
  { rewrite cos_PI4. pose proof (sqrt_sqrt 2 ltac:(lra)) as S2. pose proof (sqrt_pos 2) as S0.
    assert (1.4 <= sqrt 2 <= 1.42) by nra. assert (NZ : sqrt 2 <> 0) by lra.
    assert (E : 1 / sqrt 2 = sqrt 2 / 2) by (apply (Rmult_eq_reg_l (sqrt 2)); [|exact NZ]; field_simplify; [lra|exact NZ]).
    rewrite E. lra. }
  assert (T : 18 / 100 <= t <= 20 / 100) by (unfold t; nra).
  set (th := asin t).
  assert (ST : sin th = t) by (apply sin_asin; lra).
  assert (TH : 0 < th <= PI / 6).
  { unfold th. split; [rewrite <- asin_0; apply asin_lt; lra|rewrite <- A6; apply asin_le; lra]. }
  assert (W : min_width 0 45 [60] = 2 * 6371009 * th).
  { unfold min_width, lat_max. cbn [tl hd fold_left]. rewrite row_distance, C60. do 2 f_equal.
    replace (radians (0 + 45 - 0) / 2) with (PI / 8) by (unfold radians; lra). fold t. unfold th. f_equal. apply Rabs_pos_eq. lra. }
  assert (S3 : 1 / 2 <= sin (3 * th)).
  { replace (3 * th) with (2 * th + th) by lra. rewrite sin_plus, sin_2a, cos_2a_sin, ST.
    pose proof (sin2_cos2 th) as P. unfold Rsqr in P. rewrite ST in P. nra. }
  assert (L3 : PI / 6 <= 3 * th).
  { apply sin_incr_0; try lra. rewrite sin_PI6. lra. }
  split; [rewrite EM, A6; lra|]. split.
  - unfold xdepth. rewrite W, EM, A6, Rabs_pos_eq by lra. apply Zceil_glb.
    apply (Rmult_le_reg_r (2 * 6371009 * th)); [lra|]. unfold Rdiv at 1. rewrite Rmult_assoc, Rinv_l by lra. lra.
  - unfold M. replace (0 + 4 * 45) with 180 by lra. lra.
Qed.

Lemma min_width_refuted :
  ~ (forall (lon0 step : R) (lat : list R), lat <> [] -> (forall y, In y lat -> (-90 <= y <= 90)%R) ->
       forall x y, In y lat -> (min_width lon0 step lat <= haversine x y (x + step) y)%R).
Proof.
  intros H. destruct south as (_ & W & _ & _).
  assert (L : min_width 0 1 [0; -60] <= haversine 0 (-60) (0 + 1) (-60)).
  { apply H; [discriminate| |right; now left]. intros y [<-|[<-|[]]]; lra. }
  replace (0 + 1) with 1 in L by lra. lra.
Qed.

Lemma overlap_south_refuted :
  ~ (forall (lon0 step M : R) (lat : list R) (y : R) (c : Z), (0 < M)%R -> (forall y, In y lat -> (-90 <= y <= 90)%R) -> In y lat ->
       (haversine lon0 y (lon0 + IZR c * step) y <= M)%R -> (c <= xdepth lon0 step lat M)%Z).
Proof.
  intros H. destruct south as (P & _ & D & W).
  assert (L : (2 <= xdepth 0 1 [0%R; (-60)%R] (min_width 0 1 [0%R; (-60)%R]))%Z).
  { apply (H 0 1 _ _ (-60) 2%Z); [exact P| |right; now left|].
    - intros y [<-|[<-|[]]]; lra.
    - replace (0 + 2 * 1) with 2 by lra. lra. }
  rewrite D in L. lia.
Qed.

Lemma overlap_north_refuted :
  ~ (forall (lon0 step M : R) (lat : list R) (y : R) (c : Z), (0 < M)%R -> (forall y, In y lat -> (0 <= y <= 90)%R) -> In y lat ->
       (lon0 + IZR c * step <= 360)%R ->
       (haversine lon0 y (lon0 + IZR c * step) y <= M)%R -> (c <= xdepth lon0 step lat M)%Z).
Proof.
  intros H. destruct pole as (P & D & W).
  assert (L : (4 <= xdepth 0 45 [60%R] (haversine 0 60 180 60))%Z).
  { apply (H 0 45 _ _ 60 4%Z); [exact P| |now left|lra|exact W]. intros y [<-|[]]; lra. }
  lia.
Qed.
