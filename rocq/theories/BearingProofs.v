From Coq Require Import ZArith Reals Lra Lia.
From Verif Require Import SurfaceSpec SurfaceReal GreatCircle Bearing BearingSpec.
Open Scope R_scope.

Lemma deg_radians a : deg a = radians a.
Proof. unfold deg, radians. field. Qed.

Lemma modulo_range x : 0 <= modulo x 360 < 360.
Proof.
  unfold modulo. pose proof (base_Int_part (x / 360)) as [A B]. set (k := IZR (Int_part (x / 360))) in *.
  assert (x = 360 * (x / 360)) by field. split; nra.
Qed.
Lemma modulo_shift x : exists k : Z, modulo x 360 = x - 360 * IZR k.
Proof. now exists (Int_part (x / 360)). Qed.

Lemma turns (k : Z) a : sin (a - 2 * PI * IZR k) = sin a /\ cos (a - 2 * PI * IZR k) = cos a.
Proof.
  assert (N : forall (n : nat) a, sin (a - 2 * PI * INR n) = sin a /\ cos (a - 2 * PI * INR n) = cos a).
  { intros n b. rewrite <- (sin_period (b - 2 * PI * INR n) n), <- (cos_period (b - 2 * PI * INR n) n).
    split; f_equal; ring. }
  destruct (Z_le_gt_dec 0 k) as [H|H].
  - specialize (N (Z.to_nat k) a). rewrite INR_IZR_INZ, Z2Nat.id in N by lia. exact N.
  - specialize (N (Z.to_nat (- k)) (a - 2 * PI * IZR k)). rewrite INR_IZR_INZ, Z2Nat.id, opp_IZR in N by lia.
    replace (a - 2 * PI * IZR k - 2 * PI * - IZR k) with a in N by ring. destruct N as [S C]. now split.
Qed.
Lemma turns_deg (k : Z) a : sin (deg (a - 360 * IZR k)) = sin (deg a) /\ cos (deg (a - 360 * IZR k)) = cos (deg a).
Proof. replace (deg (a - 360 * IZR k)) with (deg a - 2 * PI * IZR k) by (unfold deg; field). apply turns. Qed.

Lemma length2_pos x y : x <> 0 \/ y <> 0 -> 0 < length2 x y.
Proof. intros H. unfold length2. apply sqrt_lt_R0. destruct H; nra. Qed.

Definition raw (x1 y1 x2 y2 : R) : R := angle (- (y2 - y1)) (x2 - x1) * (180 / PI) + 90 + 360.
Lemma compass_cases x1 y1 x2 y2 :
  (x1 = x2 /\ y1 = y2 /\ compass x1 y1 x2 y2 = 0) \/
  ((x1 <> x2 \/ y1 <> y2) /\
   compass x1 y1 x2 y2 = if Req_EM_T (modulo (raw x1 y1 x2 y2) 360) 0 then 360 else modulo (raw x1 y1 x2 y2) 360).
Proof.
  unfold compass. fold (raw x1 y1 x2 y2). destruct (Req_EM_T x1 x2) as [X|X]; [destruct (Req_EM_T y1 y2) as [Y|Y]|].
  - now left.
  - right. split; [now right|reflexivity].
  - right. split; [now left|reflexivity].
Qed.

Theorem compass_direction x1 y1 x2 y2 : is_direction x1 y1 x2 y2 (compass x1 y1 x2 y2).
Proof.
  destruct (compass_cases x1 y1 x2 y2) as [H|[NE ->]]; [now left|right].
  pose proof (modulo_range (raw x1 y1 x2 y2)) as RG. destruct (modulo_shift (raw x1 y1 x2 y2)) as [k K].
  set (m := modulo (raw x1 y1 x2 y2) 360) in *. set (d := if Req_EM_T m 0 then 360 else m).
  assert (D : 0 < d <= 360) by (subst d; destruct (Req_EM_T m 0); lra).
  assert (D2 : exists j : Z, d = raw x1 y1 x2 y2 - 360 * IZR j).
  { subst d. destruct (Req_EM_T m 0) as [Z0|]; [|now exists k]. exists (k - 1)%Z. rewrite minus_IZR. lra. }
  split; [exact D|]. destruct D2 as [j ->]. clear k K RG.
  exists (length2 (x2 - x1) (- (y2 - y1))). split; [apply length2_pos; destruct NE; [left|right]; lra|].
  destruct (turns_deg j (raw x1 y1 x2 y2)) as [-> ->].
  set (th := angle (- (y2 - y1)) (x2 - x1)) in *.
  assert (E : deg (raw x1 y1 x2 y2) = PI / 2 + th + 2 * PI).
  { unfold raw. fold th. unfold deg. field. apply PI_neq0. }
  rewrite E. replace (sin (PI / 2 + th + 2 * PI)) with (sin (PI / 2 + th)) by (rewrite (sin_plus _ (2 * PI)), sin_2PI, cos_2PI; ring).
  replace (cos (PI / 2 + th + 2 * PI)) with (cos (PI / 2 + th)) by (rewrite (cos_plus _ (2 * PI)), sin_2PI, cos_2PI; ring).
  rewrite <- cos_sin. replace (cos (PI / 2 + th)) with (- sin th) by (rewrite (sin_cos th); ring).
  destruct (angle_spec (x2 - x1) (- (y2 - y1))) as [C S]. fold th in C, S. lra.
Qed.

Lemma same_turn a b : 0 < a <= 360 -> 0 < b <= 360 -> sin (deg a) = sin (deg b) -> cos (deg a) = cos (deg b) -> a = b.
Proof.
  intros A B S C. pose proof PI_RGT_0 as P.
  assert (Z0 : sin ((deg a - deg b) / 2) = 0).
  { assert (E : cos (deg a - deg b) = 1).
    { rewrite cos_minus, S, C. pose proof (sin2_cos2 (deg b)) as T. unfold Rsqr in T. lra. }
    replace (deg a - deg b) with (2 * ((deg a - deg b) / 2)) in E by field. rewrite cos_2a_sin in E. nra. }
  destruct (sin_eq_0_0 _ Z0) as [k K]. assert (E : a - b = 360 * IZR k).
  { unfold deg in K. assert (X : (a - b) * PI = 360 * IZR k * PI) by lra. apply Rmult_eq_reg_r in X; lra. }
  assert (k = 0)%Z; [|subst k; lra].
  assert (L : -1 < IZR k < 1) by lra. destruct L as [L1 L2]. apply lt_IZR in L1. apply lt_IZR in L2. lia.
Qed.
Theorem direction_unique x1 y1 x2 y2 d e : is_direction x1 y1 x2 y2 d -> is_direction x1 y1 x2 y2 e -> d = e.
Proof.
  assert (W : forall r d, 0 < r -> r * sin (deg d) = 0 -> r * cos (deg d) = 0 -> False).
  { intros r t R0 S C. pose proof (sin2_cos2 (deg t)) as T. unfold Rsqr in T. nra. }
  intros [(X & Y & ->)|(D & r & R0 & X & Y)] [(X' & Y' & ->)|(E & s & S0 & X' & Y')]; [reflexivity|exfalso..|].
  - apply (W s e S0); lra.
  - apply (W r d R0); lra.
  - assert (SS : r * sin (deg d) = s * sin (deg e)) by lra. assert (CC : r * cos (deg d) = s * cos (deg e)) by lra.
    pose proof (sin2_cos2 (deg d)) as T. pose proof (sin2_cos2 (deg e)) as U. unfold Rsqr in T, U.
    assert (Q : r * r = s * s).
    { replace (r * r) with ((r * sin (deg d)) * (r * sin (deg d)) + (r * cos (deg d)) * (r * cos (deg d))) by nra.
      rewrite SS, CC. nra. }
    assert (r = s) by nra. subst s. apply same_turn; try assumption; apply Rmult_eq_reg_l with r; lra.
Qed.

Lemma from_spec x1 y1 x2 y2 d : is_direction x1 y1 x2 y2 d -> compass x1 y1 x2 y2 = d.
Proof. intros H. exact (direction_unique _ _ _ _ _ _ (compass_direction x1 y1 x2 y2) H). Qed.

Lemma deg_90 : deg 90 = PI / 2.
Proof. unfold deg. field. Qed.
Lemma deg_180 : deg 180 = PI.
Proof. unfold deg. field. Qed.
Lemma deg_270 : deg 270 = 3 * (PI / 2).
Proof. unfold deg. field. Qed.
Lemma deg_360 : deg 360 = 2 * PI.
Proof. unfold deg. field. Qed.

(* 0 is kept for the targets; the four points of the compass *)
Lemma compass_here x1 y1 x2 y2 : compass x1 y1 x2 y2 = 0 <-> x1 = x2 /\ y1 = y2.
Proof.
  split.
  - intros E. destruct (compass_direction x1 y1 x2 y2) as [(X & Y & _)|(D & _)]; [now split|lra].
  - intros [-> ->]. apply from_spec. now left.
Qed.
Lemma cardinal x1 y1 x2 y2 d s c : 0 < d <= 360 -> sin (deg d) = s -> cos (deg d) = c ->
  (compass x1 y1 x2 y2 = d <-> exists r, 0 < r /\ x2 = x1 + r * s /\ y2 = y1 + r * c).
Proof.
  intros D <- <-. split.
  - intros E. destruct (compass_direction x1 y1 x2 y2) as [(_ & _ & H)|(_ & r & R0 & X & Y)]; [lra|].
    rewrite E in X, Y. now exists r.
  - intros (r & R0 & X & Y). apply from_spec. right. split; [exact D|]. now exists r.
Qed.
Theorem compass_points x1 y1 x2 y2 :
  (compass x1 y1 x2 y2 = 360 <-> x2 = x1 /\ y1 < y2)
  /\ (compass x1 y1 x2 y2 = 90 <-> x1 < x2 /\ y2 = y1)
  /\ (compass x1 y1 x2 y2 = 180 <-> x2 = x1 /\ y2 < y1)
  /\ (compass x1 y1 x2 y2 = 270 <-> x2 < x1 /\ y2 = y1).
Proof.
  split; [|split; [|split]].
  - rewrite (cardinal _ _ _ _ 360 0 1); [|lra|rewrite deg_360; apply sin_2PI|rewrite deg_360; apply cos_2PI].
    split; [intros (r & R0 & X & Y); lra|]. intros [X Y]. exists (y2 - y1). lra.
  - rewrite (cardinal _ _ _ _ 90 1 0); [|lra|rewrite deg_90; apply sin_PI2|rewrite deg_90; apply cos_PI2].
    split; [intros (r & R0 & X & Y); lra|]. intros [X Y]. exists (x2 - x1). lra.
  - rewrite (cardinal _ _ _ _ 180 0 (-1)); [|lra|rewrite deg_180; apply sin_PI|rewrite deg_180; apply cos_PI].
    split; [intros (r & R0 & X & Y); lra|]. intros [X Y]. exists (y1 - y2). lra.
  - rewrite (cardinal _ _ _ _ 270 (-1) 0); [|lra|rewrite deg_270; apply sin_3PI2|rewrite deg_270; apply cos_3PI2].
    split; [intros (r & R0 & X & Y); lra|]. intros [X Y]. exists (x1 - x2). lra.
Qed.

(* the way back *)
Lemma deg_plus a b : deg (a + b) = deg a + deg b.
Proof. unfold deg. field. Qed.
Theorem compass_back x1 y1 x2 y2 : x1 <> x2 \/ y1 <> y2 ->
  compass x2 y2 x1 y1 = compass x1 y1 x2 y2 + 180 \/ compass x2 y2 x1 y1 = compass x1 y1 x2 y2 - 180.
Proof.
  intros NE. destruct (compass_direction x1 y1 x2 y2) as [(X & Y & _)|(D & r & R0 & X & Y)]; [destruct NE; contradiction|].
  set (d := compass x1 y1 x2 y2) in *. destruct (Rle_dec d 180) as [L|L]; [left|right]; apply from_spec; right.
  - split; [lra|]. exists r. split; [exact R0|]. rewrite deg_plus, deg_180, neg_sin, neg_cos. lra.
  - split; [lra|]. exists r. split; [exact R0|]. replace (d - 180) with (d + 180 - 360 * IZR 1) by lra.
    destruct (turns_deg 1 (d + 180)) as [-> ->]. rewrite deg_plus, deg_180, neg_sin, neg_cos. lra.
Qed.

(* ---- great circles ---- *)
Lemma point_unit x y : dot (point x y) (point x y) = 1.
Proof.
  unfold dot, point. pose proof (sin2_cos2 (deg x)) as A. pose proof (sin2_cos2 (deg y)) as B. unfold Rsqr in A, B.
  set (cx := cos (deg x)) in *. set (sx := sin (deg x)) in *. set (cy := cos (deg y)) in *. set (sy := sin (deg y)) in *.
  replace (cy * cx * (cy * cx) + cy * sx * (cy * sx) + sy * sy) with (cy * cy * (sx * sx + cx * cx) + sy * sy) by ring.
  rewrite A. lra.
Qed.
Lemma dot_sym u v : dot u v = dot v u.
Proof. destruct u as [[a b] c], v as [[x y] z]. unfold dot. ring. Qed.
Lemma dot_points x1 y1 x2 y2 : dot (point x1 y1) (point x2 y2)
  = sin (deg y1) * sin (deg y2) + cos (deg y1) * cos (deg y2) * cos (deg x2 - deg x1).
Proof. unfold dot, point. rewrite cos_minus. ring. Qed.
Lemma sum3_sq a b c : 0 <= a * a + b * b + c * c.
Proof. pose proof (Rle_0_sqr a). pose proof (Rle_0_sqr b). pose proof (Rle_0_sqr c). unfold Rsqr in *. lra. Qed.
Lemma cauchy u v : dot u u = 1 -> dot v v = 1 -> -1 <= dot u v <= 1.
Proof.
  destruct u as [[a b] c], v as [[x y] z]. unfold dot. intros U V.
  pose proof (sum3_sq (a - x) (b - y) (c - z)). pose proof (sum3_sq (a + x) (b + y) (c + z)). lra.
Qed.
Lemma gram u v w : dot u u = 1 -> dot v v = 1 -> dot w w = 1 ->
  (dot u w - dot u v * dot v w) * (dot u w - dot u v * dot v w)
  <= (1 - dot u v * dot u v) * (1 - dot v w * dot v w).
Proof.
  intros U V W.
  assert (G : 0 <= dot u u * dot v v * dot w w + 2 * dot u v * dot v w * dot u w
     - dot u u * (dot v w * dot v w) - dot v v * (dot u w * dot u w) - dot w w * (dot u v * dot u v)).
  { destruct u as [[a b] c], v as [[x y] z], w as [[p q] r]. unfold dot.
    set (det := a * (y * r - z * q) - b * (x * r - z * p) + c * (x * q - y * p)).
    pose proof (Rle_0_sqr det) as S. unfold Rsqr in S.
    match goal with |- 0 <= ?e => replace e with (det * det); [exact S|unfold det; ring] end. }
  rewrite U, V, W in G. lra.
Qed.

Definition the_sqrt (x1 y1 x2 y2 : R) : R :=
  let sinlat := sin ((radians y2 - radians y1) / 2) in
  let sinlon := sin ((radians x2 - radians x1) / 2) in
  sinlat * sinlat + cos (radians y1) * cos (radians y2) * sinlon * sinlon.
Lemma half_sq a : sin (a / 2) * sin (a / 2) = (1 - cos a) / 2.
Proof. replace (cos a) with (cos (2 * (a / 2))) by (f_equal; field). rewrite cos_2a_sin. field. Qed.
Lemma h_dot x1 y1 x2 y2 : the_sqrt x1 y1 x2 y2 = (1 - dot (point x1 y1) (point x2 y2)) / 2.
Proof.
  unfold the_sqrt. cbv zeta. rewrite Rmult_assoc, !half_sq, dot_points, !deg_radians. rewrite (cos_minus (radians y2)). field.
Qed.
Theorem haversine_angle x1 y1 x2 y2 : is_great_circle 6371009 (point x1 y1) (point x2 y2) (haversine x1 y1 x2 y2).
Proof.
  exists (2 * asin (sqrt (the_sqrt x1 y1 x2 y2))).
  pose proof (cauchy _ _ (point_unit x1 y1) (point_unit x2 y2)) as [L U].
  pose proof (h_dot x1 y1 x2 y2) as H. set (h := the_sqrt x1 y1 x2 y2) in *.
  assert (HR : 0 <= h <= 1) by lra.
  assert (SR : 0 <= sqrt h <= 1).
  { split; [apply sqrt_pos|]. rewrite <- sqrt_1. apply sqrt_le_1_alt. lra. }
  pose proof (asin_bound (sqrt h)) as AB.
  assert (AP : 0 <= asin (sqrt h)).
  { apply Rnot_lt_le. intros N. pose proof PI_RGT_0. pose proof (sin_lt_0_var (asin (sqrt h))) as T.
    rewrite sin_asin in T by lra. specialize (T ltac:(lra) N). lra. }
  split; [lra|]. split; [|unfold haversine; cbv zeta; fold h; ring_simplify; unfold h, the_sqrt; reflexivity].
  rewrite cos_2a_sin, sin_asin by lra. replace (2 * sqrt h * sqrt h) with (2 * (sqrt h * sqrt h)) by ring.
  rewrite sqrt_sqrt by lra. lra.
Qed.

Lemma angle_one p q a b : 0 <= a <= PI -> 0 <= b <= PI -> cos a = dot p q -> cos b = dot p q -> a = b.
Proof. intros A B C D. apply cos_inj; lra. Qed.
Theorem great_circle_unique r p q d e : is_great_circle r p q d -> is_great_circle r p q e -> d = e.
Proof.
  intros (a & A & CA & ->) (b & B & CB & ->). now rewrite (angle_one p q a b).
Qed.
Theorem great_circle_range r p q d : 0 < r -> is_great_circle r p q d -> 0 <= d <= r * PI.
Proof. intros R0 (a & A & _ & ->). nra. Qed.
Theorem haversine_sym x1 y1 x2 y2 : haversine x1 y1 x2 y2 = haversine x2 y2 x1 y1.
Proof.
  apply (great_circle_unique 6371009 (point x1 y1) (point x2 y2)); [apply haversine_angle|].
  destruct (haversine_angle x2 y2 x1 y1) as (a & A & C & E). exists a. rewrite dot_sym in C. now split.
Qed.
Lemma unit_eq u v : dot u u = 1 -> dot v v = 1 -> dot u v = 1 -> u = v.
Proof.
  destruct u as [[a b] c], v as [[x y] z]. unfold dot. intros U V W.
  assert (S : (a - x) * (a - x) + (b - y) * (b - y) + (c - z) * (c - z) = 0) by lra.
  pose proof (Rle_0_sqr (a - x)). pose proof (Rle_0_sqr (b - y)). pose proof (Rle_0_sqr (c - z)). unfold Rsqr in *.
  repeat f_equal; apply Rminus_diag_uniq; apply Rsqr_0_uniq; unfold Rsqr; lra.
Qed.
Theorem haversine_zero x1 y1 x2 y2 : haversine x1 y1 x2 y2 = 0 <-> point x1 y1 = point x2 y2.
Proof.
  destruct (haversine_angle x1 y1 x2 y2) as (a & A & C & E). rewrite E. split.
  - intros Z0. assert (a = 0) by lra. subst a. rewrite cos_0 in C. apply unit_eq; [apply point_unit..|now symmetry].
  - intros P. rewrite P, point_unit in C. assert (a = 0); [|lra]. apply cos_inj; [lra..|]. now rewrite cos_0.
Qed.
Lemma sin_of a c : 0 <= a <= PI -> cos a = c -> 0 <= sin a /\ sin a * sin a = 1 - c * c.
Proof.
  intros A <-. split; [apply sin_ge_0; lra|]. pose proof (sin2_cos2 a) as T. unfold Rsqr in T. lra.
Qed.
Theorem haversine_triangle x1 y1 x2 y2 x3 y3 :
  haversine x1 y1 x3 y3 <= haversine x1 y1 x2 y2 + haversine x2 y2 x3 y3.
Proof.
  destruct (haversine_angle x1 y1 x2 y2) as (a & A & CA & ->).
  destruct (haversine_angle x2 y2 x3 y3) as (b & B & CB & ->).
  destruct (haversine_angle x1 y1 x3 y3) as (c & C & CC & ->).
  pose proof (gram _ _ _ (point_unit x1 y1) (point_unit x2 y2) (point_unit x3 y3)) as G.
  rewrite <- CA, <- CB, <- CC in G.
  destruct (sin_of a _ A eq_refl) as [SA QA]. destruct (sin_of b _ B eq_refl) as [SB QB]. rewrite <- QA, <- QB in G.
  enough (c <= a + b) by lra. destruct (Rle_dec (a + b) PI) as [L|L]; [|lra].
  apply Rnot_lt_le. intros H. assert (D : cos c < cos (a + b)) by (apply cos_decreasing_1; lra).
  rewrite cos_plus in D. set (sa := sin a) in *. set (sb := sin b) in *. set (ca := cos a) in *. set (cb := cos b) in *.
  set (cc := cos c) in *. assert (N : 0 <= sa * sb) by nra. assert (K : cc - ca * cb < - (sa * sb)) by lra.
  assert (Q : (sa * sb) * (sa * sb) < (cc - ca * cb) * (cc - ca * cb)) by nra. nra.
Qed.
Theorem haversine_turn x1 y1 x2 y2 k : haversine x1 y1 (x2 + 360 * IZR k) y2 = haversine x1 y1 x2 y2.
Proof.
  assert (P : point (x2 + 360 * IZR k) y2 = point x2 y2).
  { unfold point. destruct (turns_deg (- k) x2) as [S C]. rewrite opp_IZR in S, C.
    replace (x2 - 360 * - IZR k) with (x2 + 360 * IZR k) in S, C by ring. now rewrite S, C. }
  pose proof (haversine_angle x1 y1 (x2 + 360 * IZR k) y2) as H. rewrite P in H.
  exact (great_circle_unique _ _ _ _ _ H (haversine_angle x1 y1 x2 y2)).
Qed.

(* ---- the way over the sphere ---- *)
Lemma east_part x1 y1 x2 y2 : dot (east x1 y1) (point x2 y2) = cos (deg y2) * sin (deg x2 - deg x1).
Proof. unfold dot, east, point. rewrite sin_minus. ring. Qed.
Lemma north_part x1 y1 x2 y2 : dot (north x1 y1) (point x2 y2)
  = cos (deg y1) * sin (deg y2) - sin (deg y1) * cos (deg y2) * cos (deg x2 - deg x1).
Proof. unfold dot, north, point. rewrite cos_minus. ring. Qed.
(* along a meridian the direction is right *)
Theorem meridian x y1 y2 : -90 <= y1 <= 90 -> -90 <= y2 <= 90 -> y1 <> y2 -> Rabs (y1 - y2) < 180 ->
  starts x y1 x y2 (compass x y1 x y2).
Proof.
  intros R1 R2 NE AB. unfold starts. rewrite east_part, north_part. rewrite Rminus_eq_0, sin_0, cos_0.
  pose proof PI_RGT_0 as P. destruct (Rtotal_order y1 y2) as [L|[E|L]]; [|contradiction|].
  - destruct (compass_points x y1 x y2) as (N & _). rewrite (proj2 N) by (split; lra).
    exists (sin (deg y2 - deg y1)). rewrite deg_360, sin_2PI, cos_2PI. repeat split; [|ring|rewrite sin_minus; ring].
    apply Rabs_def2 in AB. apply sin_gt_0; unfold deg; nra.
  - destruct (compass_points x y1 x y2) as (_ & _ & S & _). rewrite (proj2 S) by (split; lra).
    exists (sin (deg y1 - deg y2)). rewrite deg_180, sin_PI, cos_PI. repeat split; [|ring|rewrite sin_minus; ring].
    apply Rabs_def2 in AB. apply sin_gt_0; unfold deg; nra.
Qed.
(* along the equator it is right up to half way round *)
Theorem equator x1 x2 : x1 <> x2 -> Rabs (x1 - x2) < 180 -> starts x1 0 x2 0 (compass x1 0 x2 0).
Proof.
  intros NE AB. unfold starts. rewrite east_part, north_part. replace (deg 0) with 0 by (unfold deg; field). rewrite sin_0, cos_0.
  pose proof PI_RGT_0 as P. apply Rabs_def2 in AB. destruct (Rtotal_order x1 x2) as [L|[E|L]]; [|contradiction|].
  - destruct (compass_points x1 0 x2 0) as (_ & E & _). rewrite (proj2 E) by (split; lra).
    exists (sin (deg x2 - deg x1)). rewrite deg_90, sin_PI2, cos_PI2. repeat split; [|ring|ring]. apply sin_gt_0; unfold deg; nra.
  - destruct (compass_points x1 0 x2 0) as (_ & _ & _ & W). rewrite (proj2 W) by (split; lra).
    exists (sin (deg x1 - deg x2)). rewrite deg_270, sin_3PI2, cos_3PI2. repeat split; [|rewrite !sin_minus; ring|ring]. apply sin_gt_0; unfold deg; nra.
Qed.
Definition over_sphere : Prop := forall x1 y1 x2 y2,
  -180 <= x1 <= 180 -> -90 <= y1 <= 90 -> -180 <= x2 <= 180 -> -90 <= y2 <= 90 -> point x1 y1 <> point x2 y2 ->
  0 < haversine x1 y1 x2 y2 < 6371009 * PI ->
  starts x1 y1 x2 y2 (compass x1 y1 x2 y2).
(* across the antimeridian: west instead of east *)
Lemma antimeridian : compass 179 0 (-179) 0 = 270 /\ starts 179 0 (-179) 0 90
  /\ haversine 179 0 (-179) 0 = haversine 179 0 181 0 /\ compass 179 0 181 0 = 90.
Proof.
  destruct (compass_points 179 0 (-179) 0) as (_ & _ & _ & W). rewrite (proj2 W) by (split; lra).
  destruct (compass_points 179 0 181 0) as (_ & E & _). rewrite (proj2 E) by (split; lra).
  split; [reflexivity|]. split; [|split; [|reflexivity]].
  - unfold starts. rewrite east_part, north_part. replace (deg 0) with 0 by (unfold deg; field). rewrite sin_0, cos_0.
    exists (sin (deg 2)). replace (deg (-179) - deg 179) with (deg (2 - 360 * IZR 1)) by (unfold deg; field).
    destruct (turns_deg 1 2) as [-> ->]. rewrite deg_90, sin_PI2, cos_PI2. repeat split; [|ring|ring].
    pose proof PI_RGT_0. apply sin_gt_0; unfold deg; lra.
  - rewrite <- (haversine_turn 179 0 (-179) 0 1). f_equal. lra.
Qed.
Lemma starts_unique x1 y1 x2 y2 d e : 0 < d <= 360 -> 0 < e <= 360 ->
  starts x1 y1 x2 y2 d -> starts x1 y1 x2 y2 e -> d = e.
Proof.
  intros D E (r & R0 & A & B) (s & S0 & A' & B').
  apply (direction_unique 0 0 (r * sin (deg d)) (r * cos (deg d))).
  - right. split; [exact D|]. exists r. lra.
  - right. split; [exact E|]. exists s. lra.
Qed.
Lemma small_way : 0 < haversine 179 0 (-179) 0 < 6371009 * PI /\ point 179 0 <> point (-179) 0.
Proof.
  destruct (haversine_angle 179 0 (-179) 0) as (a & A & C & E).
  assert (C2 : cos a = cos (deg 2)).
  { rewrite C, dot_points. replace (deg 0) with 0 by (unfold deg; field). rewrite sin_0, cos_0.
    replace (deg (-179) - deg 179) with (deg (2 - 360 * IZR 1)) by (unfold deg; field).
    destruct (turns_deg 1 2) as [_ ->]. ring. }
  pose proof PI_RGT_0 as P. assert (a = deg 2) by (apply cos_inj; [lra|unfold deg; lra|exact C2]). subst a.
  assert (B : 0 < haversine 179 0 (-179) 0 < 6371009 * PI) by (rewrite E; unfold deg; lra).
  split; [exact B|]. intros H. apply haversine_zero in H. lra.
Qed.
Theorem over_sphere_refuted : ~ over_sphere.
Proof.
  intros H. destruct small_way as [B N]. destruct antimeridian as (W & S & _).
  specialize (H 179 0 (-179) 0 ltac:(lra) ltac:(lra) ltac:(lra) ltac:(lra) N B). rewrite W in H.
  pose proof (starts_unique 179 0 (-179) 0 270 90 ltac:(lra) ltac:(lra) H S). lra.
Qed.

(* within half a turn: along a parallel the shortest way starts north of east *)
Definition over_half : Prop := forall x1 y1 x2 y2,
  -180 <= x1 <= 180 -> -90 <= y1 <= 90 -> -180 <= x2 <= 180 -> -90 <= y2 <= 90 -> Rabs (x1 - x2) <= 90 ->
  0 < haversine x1 y1 x2 y2 < 6371009 * PI ->
  starts x1 y1 x2 y2 (compass x1 y1 x2 y2).
Lemma parallel : compass 0 45 90 45 = 90 /\ dot (north 0 45) (point 90 45) = / 2 /\ haversine 0 45 90 45 = 6371009 * (PI / 3).
Proof.
  destruct (compass_points 0 45 90 45) as (_ & E & _). rewrite (proj2 E) by (split; lra). split; [reflexivity|].
  assert (D45 : deg 45 = PI / 4) by (unfold deg; field).
  assert (HALF : sin (PI / 4) * sin (PI / 4) = / 2 /\ cos (PI / 4) * cos (PI / 4) = / 2 /\ cos (PI / 4) * sin (PI / 4) = / 2).
  { rewrite sin_PI4, cos_PI4. pose proof (sqrt_sqrt 2 ltac:(lra)) as Q. pose proof (sqrt_lt_R0 2 ltac:(lra)).
    assert (X : 1 / sqrt 2 * (1 / sqrt 2) = / 2) by (rewrite <- Q at 3; field; lra). repeat split; exact X. }
  destruct HALF as (SS & CC & CS).
  split.
  - rewrite north_part, D45, deg_90. replace (deg 0) with 0 by (unfold deg; field). rewrite Rminus_0_r, cos_PI2. lra.
  - destruct (haversine_angle 0 45 90 45) as (a & A & C & ->). f_equal. pose proof PI_RGT_0.
    apply cos_inj; [lra|lra|]. rewrite C, dot_points, D45, deg_90. replace (deg 0) with 0 by (unfold deg; field).
    rewrite Rminus_0_r, cos_PI2, cos_PI3. lra.
Qed.
Theorem over_half_refuted : ~ over_half.
Proof.
  intros H. destruct parallel as (E & N & D). pose proof PI_RGT_0. 
  specialize (H 0 45 90 45 ltac:(lra) ltac:(lra) ltac:(lra) ltac:(lra)).
  assert (B : Rabs (0 - 90) <= 90) by (rewrite Rabs_left; lra). specialize (H B ltac:(lra)).
  destruct H as (r & R0 & _ & K). rewrite N, E, deg_90, cos_PI2 in K. lra.
Qed.
