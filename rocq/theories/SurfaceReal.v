(* The surface operations in exact arithmetic. *)
From Coq Require Import Reals Lra Lia ZArith.
From Verif Require Import Base Arr2 Arr2Facts Surface FocalSpec SurfaceSpec SurfaceProofs.
Open Scope R_scope.

Lemma length2_nonneg x y : 0 <= length2 x y.
Proof. apply sqrt_pos. Qed.
Lemma sum_sq_nonneg x y : 0 <= x * x + y * y.
Proof. pose proof (Rle_0_sqr x). pose proof (Rle_0_sqr y). unfold Rsqr in *. lra. Qed.
Lemma length2_sq x y : length2 x y * length2 x y = x * x + y * y.
Proof. apply sqrt_sqrt, sum_sq_nonneg. Qed.
Lemma length2_pos_x x y : 0 < x -> length2 x y = x * R_sqrt.sqrt (1 + (y / x)²).
Proof.
  intros H. unfold length2. replace (x * x + y * y) with (x * x * (1 + (y / x)²)) by (unfold Rsqr; field; lra).
  rewrite sqrt_mult_alt by nra. rewrite sqrt_square by lra. reflexivity.
Qed.
Lemma root_pos t : 0 < R_sqrt.sqrt (1 + t²).
Proof. apply sqrt_lt_R0. pose proof (Rle_0_sqr t). lra. Qed.
Lemma length2_neg x y : length2 (- x) (- y) = length2 x y.
Proof. unfold length2. f_equal. ring. Qed.
Lemma length2_0 y : length2 0 y = Rabs y.
Proof. unfold length2. replace (0 * 0 + y * y) with (y²) by (unfold Rsqr; ring). apply sqrt_Rsqr_abs. Qed.
Lemma angle_pos x y : 0 < x ->
  length2 x y * Rtrigo_def.cos (Ratan.atan (y / x)) = x /\ length2 x y * Rtrigo_def.sin (Ratan.atan (y / x)) = y.
Proof.
  intros H. rewrite length2_pos_x by exact H. rewrite cos_atan, sin_atan. pose proof (root_pos (y / x)).
  split; field; lra.
Qed.
Lemma angle_spec x y : length2 x y * Rtrigo_def.cos (angle y x) = x /\ length2 x y * Rtrigo_def.sin (angle y x) = y.
Proof.
  unfold angle. destruct (Rlt_dec 0 x) as [P|P]; [now apply angle_pos|]. destruct (Rlt_dec x 0) as [N|N].
  - destruct (angle_pos (- x) (- y)) as [C S]; [lra|]. rewrite length2_neg in C, S.
    replace (- y / - x) with (y / x) in C, S by (field; lra).
    destruct (Rle_dec 0 y).
    + rewrite neg_cos, neg_sin. split; lra.
    + unfold Rminus. rewrite cos_plus, sin_plus, cos_neg, sin_neg, cos_PI, sin_PI. split; lra.
  - assert (x = 0) by lra. subst x. rewrite length2_0. destruct (Rlt_dec 0 y) as [Y|Y].
    + rewrite cos_PI2, sin_PI2, Rabs_pos_eq by lra. split; lra.
    + destruct (Rlt_dec y 0) as [Y'|Y'].
      * rewrite cos_neg, sin_neg, cos_PI2, sin_PI2, Rabs_left by lra. split; lra.
      * assert (y = 0) by lra. subst. rewrite Rabs_R0. split; lra.
Qed.
Lemma angle_range y x : - PI < angle y x <= PI.
Proof.
  pose proof PI_RGT_0. pose proof (atan_bound (y / x)). unfold angle.
  destruct (Rlt_dec 0 x); [lra|]. destruct (Rlt_dec x 0) as [N|N].
  - destruct (Rle_dec 0 y) as [Y|Y]; [split; [lra|]|split; [|lra]].
    + assert (Ratan.atan (y / x) <= 0); [|lra]. rewrite <- atan_0. destruct (Req_dec y 0) as [->|NY].
      * replace (0 / x) with 0 by (field; lra). lra.
      * apply Rlt_le, atan_increasing. unfold Rdiv. apply Ropp_lt_cancel. rewrite Ropp_0, <- Ropp_mult_distr_r_reverse.
        assert (/ x < 0) by now apply Rinv_lt_0_compat. nra.
    + assert (0 < Ratan.atan (y / x)); [|lra]. rewrite <- atan_0. apply atan_increasing. unfold Rdiv.
      assert (/ x < 0) by now apply Rinv_lt_0_compat. nra.
  - destruct (Rlt_dec 0 y); [lra|]. destruct (Rlt_dec y 0); lra.
Qed.

Lemma IZR_lits : IZR 2 = 2 /\ IZR 8 = 8.
Proof. split; reflexivity. Qed.

Section Kernels.
Variables (r32 u8 : option R -> option R).
Notation E := (exact r32 u8).
Definition some2 (z : Z -> Z -> R) (dr dc : Z) : option R := Some (z dr dc).

Ltac centre z :=
  unfold at_centre; cbn [kernel_of];
  change (1 - 1)%Z with 0%Z; change (1 + 1)%Z with 2%Z;
  pose proof (around_get9 (some2 z)) as (H1 & H2 & H3 & H4 & H5 & H6 & H7 & H8 & H9).
Ltac use9 :=
  change (1 - 1)%Z with 0%Z; change (1 + 1)%Z with 2%Z;
  match goal with
  | H1 : get2 _ 0 0 = _, H2 : get2 _ 0 1 = _, H3 : get2 _ 0 2 = _, H4 : get2 _ 1 0 = _, H5 : get2 _ 1 1 = _,
    H6 : get2 _ 1 2 = _, H7 : get2 _ 2 0 = _, H8 : get2 _ 2 1 = _, H9 : get2 _ 2 2 = _ |- _ =>
    rewrite ?H1, ?H2, ?H3, ?H4, ?H5, ?H6, ?H7, ?H8, ?H9
  end;
  cbn [rbind some2].

Lemma curvature_exact res0 res1 z : res0 <> 0 -> res1 <> 0 ->
  at_centre E (kernel_of E (Curvature (Some res0) (Some res1))) (some2 z) = Some (curvature_spec res0 res1 z).
Proof.
  intros N0 N1. centre z. unfold curv_kernel. use9. cbn.
  destruct (Req_EM_T 2 0); [lra|]. cbn. destruct (Req_EM_T (res0 * res1) 0) as [Z0|_].
  { apply Rmult_integral in Z0. tauto. }
  f_equal. unfold curvature_spec. field. auto.
Qed.

Lemma slope_exact res0 res1 degrees z : res0 <> 0 -> res1 <> 0 ->
  at_centre E (kernel_of E (Slope (Some res0) (Some res1) degrees)) (some2 z) = Some (slope_spec res0 res1 degrees z).
Proof.
  intros N0 N1. centre z. unfold slope_kernel, radians_to_degrees. use9. cbn.
  destruct (Req_EM_T (res0 * 8) 0); [lra|]. destruct (Req_EM_T (res1 * 8) 0); [lra|]. cbn.
  match goal with |- context [Rle_dec 0 ?t] => assert (ET : t = grad_x res0 z * grad_x res0 z + grad_y res1 z * grad_y res1 z) end.
  { unfold grad_x, grad_y, sum3, weight. cbn [Z.eqb]. field. auto. }
  rewrite ET. destruct (Rle_dec 0 _) as [_|N]; [|exfalso; apply N, sum_sq_nonneg].
  pose proof PI_RGT_0. destruct (Req_EM_T PI 0); [lra|]. destruct degrees; reflexivity.
Qed.

Lemma rad_deg a : radians_of (degrees_of a) = a.
Proof. unfold radians_of, degrees_of. pose proof PI_RGT_0. field. lra. Qed.
Lemma aspect_exact z : exists a, at_centre E (kernel_of E Aspect) (some2 z) = Some a /\ aspect_spec z a.
Proof.
  centre z. unfold aspect_kernel, radians_to_degrees. use9. cbn.
  destruct (Req_EM_T 8 0); [lra|]. pose proof PI_RGT_0. destruct (Req_EM_T PI 0); [lra|]. cbn.
  match goal with |- context [Reqb ?t 0 && Reqb ?s 0] =>
    assert (EX : t = grad_x 1 z) by (unfold grad_x, sum3, weight; cbn [Z.eqb]; field);
    assert (EY : s = - grad_y (-1) z) by (unfold grad_y, sum3, weight; cbn [Z.eqb]; field);
    rewrite EX, EY end.
  unfold aspect_spec. set (gx := grad_x 1 z). set (gy := grad_y (-1) z). unfold Reqb.
  destruct (Req_EM_T gx 0) as [X0|X0]; [destruct (Req_EM_T (- gy) 0) as [Y0|Y0]|]; cbn [andb].
  { eexists. split; [reflexivity|]. left. split; [exact X0|]. split; [lra|reflexivity]. }
  all: assert (NZ : gx <> 0 \/ gy <> 0) by lra; pose proof (angle_spec (- gx) (- gy)) as [C S]; pose proof (angle_range (- gy) (- gx)) as RG;
    rewrite length2_neg in C, S; set (t := angle (- gy) (- gx)) in *; unfold compare, Rleb.
  all: assert (D : - 180 < t * (180 / PI) <= 180) by
    (split; [apply Rmult_lt_reg_r with (PI / 180) | apply Rmult_le_reg_r with (PI / 180)]; try lra;
     [replace (t * (180 / PI) * (PI / 180)) with t by (field; lra); lra | replace (t * (180 / PI) * (PI / 180)) with t by (field; lra); lra]).
  all: destruct (Rle_dec _ _); cbn; eexists; (split; [reflexivity|]); right; (split; [exact NZ|]); (split; [lra|]).
  all: unfold radians_of.
  1,3: replace ((90 - t * (180 / PI)) * (PI / 180)) with (PI / 2 - t) by (field; lra); rewrite <- cos_sin, <- sin_cos || rewrite sin_shift, cos_shift; split; lra.
  all: replace ((450 - t * (180 / PI)) * (PI / 180)) with (PI / 2 - t + 2 * PI) by (field; lra);
    replace (PI / 2 - t + 2 * PI) with (PI / 2 - t + 2 * INR 1 * PI) by (cbn; ring); rewrite sin_period, cos_period, sin_shift, cos_shift; split; lra.
Qed.

(* hillshade *)
Lemma cos_2PI_plus a : Rtrigo_def.cos (2 * PI + a) = Rtrigo_def.cos a /\ Rtrigo_def.sin (2 * PI + a) = Rtrigo_def.sin a.
Proof.
  replace (2 * PI + a) with (a + 2 * INR 1 * PI) by (cbn; ring). now rewrite cos_period, sin_period.
Qed.
Lemma cos_sin_diff a b c d l : l * Rtrigo_def.cos b = c -> l * Rtrigo_def.sin b = d ->
  l * Rtrigo_def.cos (a - b) = Rtrigo_def.cos a * c + Rtrigo_def.sin a * d.
Proof. intros H1 H2. rewrite cos_minus. nra. Qed.
Lemma norm_normal res0 res1 z : norm (normal res0 res1 z) = R_sqrt.sqrt (1 + (length2 (grad_x res0 z) (grad_y res1 z))²).
Proof.
  unfold norm, normal, dot. f_equal. unfold Rsqr. rewrite length2_sq. ring.
Qed.
Lemma hillshade_exact res0 res1 azimuth altitude z : res0 <> 0 -> res1 <> 0 ->
  at_centre E (kernel_of E (Shade (Some res0) (Some res1) (Some azimuth) (Some altitude))) (some2 z)
  = r32 (Some (hillshade_spec res0 res1 azimuth altitude z)).
Proof.
  intros N0 N1. centre z. unfold hillshade_kernel, degrees_to_radians. use9. cbn.
  destruct (Req_EM_T (res0 * 8) 0); [lra|]. destruct (Req_EM_T (res1 * 8) 0); [lra|]. destruct (Req_EM_T 180 0); [lra|].
  destruct (Req_EM_T 2 0); [lra|]. cbn.
  match goal with |- context [Rle_dec 0 (?t * ?t + ?s * ?s)] =>
    assert (EX : t = grad_x res0 z) by (unfold grad_x, sum3, weight; cbn [Z.eqb]; field; auto);
    assert (EY : s = - grad_y res1 z) by (unfold grad_y, sum3, weight; cbn [Z.eqb]; field; auto);
    rewrite EX, EY end.
  set (gx := grad_x res0 z). set (gy := grad_y res1 z).
  destruct (Rle_dec 0 _) as [_|N]; [|exfalso; apply N, sum_sq_nonneg].
  pose proof (angle_spec (- gx) (- gy)) as [C S]. rewrite length2_neg in C, S.
  set (t := angle (- gy) (- gx)) in *.
  match goal with |- context [match (if negb (Reqb gx 0) then ?x else ?y) with _ => _ end] =>
    assert (AS : exists w, (if negb (Reqb gx 0) then x else y) = Some w
       /\ length2 gx gy * Rtrigo_def.cos w = - gx /\ length2 gx gy * Rtrigo_def.sin w = - gy) end.
  { unfold Reqb, Rltb. destruct (Req_EM_T gx 0) as [X0|X0]; cbn [negb].
    - rewrite X0 in *. rewrite length2_0 in *. destruct (Rlt_dec 0 (- gy)).
      + eexists. split; [reflexivity|]. rewrite cos_PI2, sin_PI2, Rabs_left by lra. split; lra.
      + destruct (Rlt_dec (- gy) 0).
        * eexists. split; [reflexivity|]. unfold Rminus. destruct (cos_2PI_plus (- (PI / 2))) as [-> ->].
          rewrite cos_neg, sin_neg, cos_PI2, sin_PI2, Rabs_pos_eq by lra. split; lra.
        * eexists. split; [reflexivity|]. split; assumption.
    - destruct (Rlt_dec t 0).
      + eexists. split; [reflexivity|]. destruct (cos_2PI_plus t) as [-> ->]. split; assumption.
      + eexists. split; [reflexivity|]. split; assumption. }
  destruct AS as (w & -> & CW & SW). cbn [lift1 lift2 compare].
  replace (gx * gx + - gy * - gy) with (gx * gx + gy * gy) by ring. fold (length2 gx gy).
  set (L := length2 gx gy) in *.
  match goal with |- context [Rltb ?x 0] => set (hs := x) end.
  assert (EH : hs = 255 * (dot (normal res0 res1 z) (sun azimuth altitude) / norm (normal res0 res1 z))).
  { subst hs. f_equal. rewrite norm_normal. fold gx gy L. rewrite cos_atan, sin_atan. pose proof (root_pos L) as RP. set (NN := R_sqrt.sqrt (1 + L²)) in *.
    replace ((90 - altitude) * (PI / 180)) with (PI / 2 - radians_of altitude) by (unfold radians_of; field).
    replace ((360 - azimuth + 90) * (PI / 180)) with (2 * PI + (PI / 2 - radians_of azimuth)) by (unfold radians_of; field).
    rewrite sin_shift, cos_shift.
    transitivity ((Rtrigo_def.sin (radians_of altitude) + Rtrigo_def.cos (radians_of altitude) * (L * Rtrigo_def.cos (2 * PI + (PI / 2 - radians_of azimuth) - w))) / NN).
    { field. lra. }
    rewrite (cos_sin_diff _ w (- gx) (- gy) L CW SW). destruct (cos_2PI_plus (PI / 2 - radians_of azimuth)) as [-> ->]. rewrite sin_shift, cos_shift.
    unfold dot, normal, sun. fold gx gy. field. lra. }
  rewrite EH. unfold hillshade_spec. set (T := dot (normal res0 res1 z) (sun azimuth altitude) / norm (normal res0 res1 z)).
  unfold Rltb. destruct (Rlt_dec (255 * T) 0).
  - rewrite Rmax_left by lra. now replace (255 * 0) with 0 by ring.
  - now rewrite Rmax_right by lra.
Qed.

(* surface area *)
Definition norm2 (a : R * R * R) : R := dot a a.
Definition minus3 (a b : R * R * R) : R * R * R :=
  let '(a1, a2, a3) := a in let '(b1, b2, b3) := b in (a1 - b1, a2 - b2, a3 - b3).
Lemma norm2_nonneg a : 0 <= norm2 a.
Proof. destruct a as [[a1 a2] a3]. unfold norm2, dot. nra. Qed.
Lemma heron_exact u v : heron E (Some (norm u)) (Some (norm v)) (Some (norm (minus3 u v))) = Some (triangle u v).
Proof.
  unfold heron. cbn.
  set (a := norm u). set (b := norm v). set (c := norm (minus3 u v)).
  match goal with |- context [Rle_dec 0 ?t] => assert (ET : t = norm2 (cross u v) / 4) end.
  { assert (A2 : a * a = norm2 u) by apply sqrt_sqrt, norm2_nonneg.
    assert (B2 : b * b = norm2 v) by apply sqrt_sqrt, norm2_nonneg.
    assert (C2 : c * c = norm2 (minus3 u v)) by apply sqrt_sqrt, norm2_nonneg.
    transitivity ((2 * ((a * a) * (b * b) + (b * b) * (c * c) + (c * c) * (a * a)) - (a * a) * (a * a) - (b * b) * (b * b) - (c * c) * (c * c)) / 16); [field|].
    rewrite A2, B2, C2. destruct u as [[u1 u2] u3], v as [[v1 v2] v3]. unfold norm2, cross, minus3, dot. field. }
  rewrite ET. pose proof (norm2_nonneg (cross u v)). destruct (Rle_dec 0 (norm2 (cross u v) / 4)); [|lra].
  f_equal. unfold triangle. replace (norm2 (cross u v) / 4) with (norm2 (cross u v) / (2 * 2)) by field.
  rewrite sqrt_div_alt by lra. rewrite sqrt_square by lra. reflexivity.
Qed.
Lemma side_exact len2 x y p q r : 4 * (p * p + q * q) = len2 -> 4 * (r * r) = (x - y) * (x - y) ->
  side E (Some len2) (Some x) (Some y) = Some (norm (p, q, r)).
Proof.
  intros H1 H2. unfold side, sq. cbn.
  assert (ET : len2 + (x - y) * (x - y) = (p * p + q * q + r * r) * (2 * 2)) by lra.
  rewrite ET. destruct (Rle_dec 0 _) as [_|N]; [|exfalso; apply N; nra]. cbn. f_equal.
  rewrite sqrt_mult_alt by nra. rewrite sqrt_square by lra. unfold norm, dot. field.
Qed.
Lemma triangle_sym u v : triangle u v = triangle v u.
Proof.
  unfold triangle, norm. do 2 f_equal. destruct u as [[u1 u2] u3], v as [[v1 v2] v3]. unfold cross, dot. ring.
Qed.
Lemma heron_perm p q r :
  (let si := mul E (add E (add E (Some p) (Some r)) (Some q)) (half E) in
   Surface.sqrt E (mul E (mul E (mul E si (sub E si (Some p))) (sub E si (Some q))) (sub E si (Some r))))
  = heron E (Some p) (Some q) (Some r).
Proof. unfold heron. cbn. replace (p + r + q) with (p + q + r) by ring. reflexivity. Qed.
Lemma area_exact s z : at_centre E (kernel_of E (SurfaceArea (Some s))) (some2 z) = Some (area_spec s z).
Proof.
  centre z. unfold area_kernel. use9. cbv zeta. unfold some2.
  set (h := halfway s z).
  assert (DD : mul E (sq E (Some s)) (lit E 2) = Some (s * s * 2)) by reflexivity.
  assert (SD : sq E (Some s) = Some (s * s)) by reflexivity.
  rewrite DD, SD.
  assert (S1 : forall p, (fst p = 1 \/ fst p = -1)%Z -> (snd p = 1 \/ snd p = -1)%Z ->
    side E (Some (s * s * 2)) (Some (z 0 0)%Z) (Some (z (fst p) (snd p))) = Some (norm (h p))).
  { intros p [P|P] [Q|Q]; unfold h, halfway; rewrite P, Q; apply side_exact; field. }
  assert (S2 : forall p, ((fst p = 1 \/ fst p = -1)%Z /\ snd p = 0%Z) \/ (fst p = 0%Z /\ (snd p = 1 \/ snd p = -1)%Z) ->
    side E (Some (s * s)) (Some (z 0 0)%Z) (Some (z (fst p) (snd p))) = Some (norm (h p))).
  { intros p [[[P|P] Q]|[P [Q|Q]]]; unfold h, halfway; rewrite P, Q; apply side_exact; field. }
  assert (S3 : forall p q, ((fst p - fst q) * (fst p - fst q) + (snd p - snd q) * (snd p - snd q) = 1)%Z ->
    side E (Some (s * s)) (Some (z (fst p) (snd p))) (Some (z (fst q) (snd q))) = Some (norm (minus3 (h p) (h q)))
    /\ side E (Some (s * s)) (Some (z (fst p) (snd p))) (Some (z (fst q) (snd q))) = Some (norm (minus3 (h q) (h p)))).
  { intros p q H. apply (f_equal IZR) in H. rewrite plus_IZR, !mult_IZR, !minus_IZR in H.
    split; unfold h, halfway, minus3; apply side_exact; try field.
    - transitivity (((IZR (fst p) - IZR (fst q)) * (IZR (fst p) - IZR (fst q)) + (IZR (snd p) - IZR (snd q)) * (IZR (snd p) - IZR (snd q))) * (s * s)); [field|]. rewrite H. ring.
    - transitivity (((IZR (fst p) - IZR (fst q)) * (IZR (fst p) - IZR (fst q)) + (IZR (snd p) - IZR (snd q)) * (IZR (snd p) - IZR (snd q))) * (s * s)); [field|]. rewrite H. ring. }
  pose proof (S1 (1, -1)%Z) as A1. pose proof (S1 (1, 1)%Z) as A2. pose proof (S1 (-1, 1)%Z) as A3. pose proof (S1 (-1, -1)%Z) as A4.
  pose proof (S2 (1, 0)%Z) as B1. pose proof (S2 (0, 1)%Z) as B2. pose proof (S2 (-1, 0)%Z) as B3. pose proof (S2 (0, -1)%Z) as B4.
  pose proof (proj1 (S3 (1, -1)%Z (1, 0)%Z eq_refl)) as C1. pose proof (proj2 (S3 (1, 0)%Z (1, 1)%Z eq_refl)) as C2.
  pose proof (proj1 (S3 (1, 1)%Z (0, 1)%Z eq_refl)) as C3. pose proof (proj2 (S3 (0, 1)%Z (-1, 1)%Z eq_refl)) as C4.
  pose proof (proj2 (S3 (-1, 0)%Z (-1, 1)%Z eq_refl)) as C5. pose proof (proj1 (S3 (-1, -1)%Z (-1, 0)%Z eq_refl)) as C6.
  pose proof (proj2 (S3 (0, -1)%Z (-1, -1)%Z eq_refl)) as C7. pose proof (proj1 (S3 (1, -1)%Z (0, -1)%Z eq_refl)) as C8.
  cbn [fst snd] in A1, A2, A3, A4, B1, B2, B3, B4, C1, C2, C3, C4, C5, C6, C7, C8.
  rewrite A1, A2, A3, A4, B1, B2, B3, B4, C1, C2, C3, C4, C5, C6, C7, C8 by lia.
  match goal with |- context [Surface.sqrt E (mul E (mul E (mul E _ (sub E _ (Some ?p))) (sub E _ (Some ?q))) (sub E _ (Some ?r)))] =>
    pose proof (heron_perm p q r) as HP end. cbv zeta in HP. rewrite HP. rewrite !heron_exact. cbn [add exact lit lift2]. f_equal.
  unfold area_spec, around. cbn [fan]. fold h.
  rewrite (triangle_sym (h (1, 0)%Z) (h (1, 1)%Z)), (triangle_sym (h (0, 1)%Z) (h (-1, 1)%Z)), (triangle_sym (h (-1, 0)%Z) (h (-1, -1)%Z)),
    (triangle_sym (h (0, -1)%Z) (h (1, -1)%Z)), (triangle_sym (h (1, -1)%Z) (h (1, 0)%Z)).
  rewrite (triangle_sym (h (1, 0)%Z) (h (1, -1)%Z)). ring.
Qed.
End Kernels.

(* ---- planes and quadrics ---- *)
Lemma plane_gradient res0 res1 c p q : res0 <> 0 -> res1 <> 0 ->
  grad_x res0 (plane res0 res1 c p q) = p /\ grad_y res1 (plane res0 res1 c p q) = q.
Proof. intros. unfold grad_x, grad_y, sum3, weight, plane. cbn [Z.eqb]. split; field; auto. Qed.
Lemma quadric_curvature s0 s1 c p q u v w : s0 <> 0 -> s1 * s1 = s0 * s0 ->
  curvature_spec (Rabs s0) (Rabs s1) (quadric s0 s1 c p q u v w) = - 100 * (2 * u + 2 * w).
Proof.
  intros N H. assert (ES : Rabs s0 * Rabs s1 = s0 * s0).
  { rewrite <- Rabs_mult. assert (s1 = s0 \/ s1 = - s0) as [-> | ->].
    - assert ((s1 - s0) * (s1 + s0) = 0) as Z by (ring_simplify; lra). apply Rmult_integral in Z. lra.
    - apply Rabs_pos_eq. nra.
    - replace (s0 * - s0) with (- (s0 * s0)) by ring. rewrite Rabs_Ropp. apply Rabs_pos_eq. nra. }
  unfold curvature_spec. rewrite ES. unfold quadric.
  transitivity (- 100 * (2 * u * (s0 * s0) + 2 * w * (s1 * s1)) / (s0 * s0)); [f_equal; ring|]. rewrite H. field. auto.
Qed.
Lemma norm_flat d p q : norm (- p * d, - q * d, d) = Rabs d * R_sqrt.sqrt (1 + p * p + q * q).
Proof.
  unfold norm, dot. replace (- p * d * (- p * d) + - q * d * (- q * d) + d * d) with (d² * (1 + p * p + q * q)) by (unfold Rsqr; ring).
  rewrite sqrt_mult_alt by apply Rle_0_sqr. now rewrite sqrt_Rsqr_abs.
Qed.
Lemma plane_triangle s c p q a b : triangle (halfway s (plane s s c p q) a) (halfway s (plane s s c p q) b)
  = Rabs ((IZR (snd a) * IZR (fst b) - IZR (snd b) * IZR (fst a)) * (s * s) / 4) * R_sqrt.sqrt (1 + p * p + q * q) / 2.
Proof.
  unfold triangle. f_equal. rewrite <- norm_flat. f_equal. unfold cross, halfway, plane. f_equal; [f_equal|]; field.
Qed.
Lemma plane_area s c p q : area_spec s (plane s s c p q) = s * s * R_sqrt.sqrt (1 + p * p + q * q).
Proof.
  unfold area_spec, around. cbn [fan]. rewrite !plane_triangle. cbn [fst snd].
  assert (AP : Rabs (s * s / 4) = s * s / 4) by (apply Rabs_pos_eq; nra).
  repeat match goal with |- context [Rabs ?x] =>
    let H := fresh in assert (H : Rabs x = s * s / 4) by
      first [ rewrite <- AP; f_equal; field | rewrite <- AP, <- Rabs_Ropp; f_equal; field ]; rewrite H; clear H end.
  field.
Qed.
Lemma triangle_ge u v : let '(u1, u2, _) := u in let '(v1, v2, _) := v in Rabs (u1 * v2 - u2 * v1) / 2 <= triangle u v.
Proof.
  destruct u as [[u1 u2] u3], v as [[v1 v2] v3]. unfold triangle. assert (Rabs (u1 * v2 - u2 * v1) <= norm (cross (u1, u2, u3) (v1, v2, v3))); [|lra].
  unfold norm. rewrite <- sqrt_Rsqr_abs. apply sqrt_le_1_alt. unfold cross, dot, Rsqr.
  assert (G : forall a b c, c * c <= a * a + b * b + c * c) by (intros; nra). apply G.
Qed.
Lemma area_ge s z : s * s <= area_spec s z.
Proof.
  assert (T : forall p q, ((snd p * fst q - fst p * snd q) * (snd p * fst q - fst p * snd q) = 1)%Z -> s * s / 8 <= triangle (halfway s z p) (halfway s z q)).
  { intros p q H. pose proof (triangle_ge (halfway s z p) (halfway s z q)) as G. unfold halfway in G at 1 2. cbv zeta in G.
    eapply Rle_trans; [|exact G].
    replace (IZR (snd p) * s / 2 * (IZR (fst q) * s / 2) - IZR (fst p) * s / 2 * (IZR (snd q) * s / 2)) with (IZR (snd p * fst q - fst p * snd q) * (s * s / 4)) by (rewrite minus_IZR, !mult_IZR; field).
    assert (D : (snd p * fst q - fst p * snd q = 1 \/ snd p * fst q - fst p * snd q = -1)%Z) by nia.
    rewrite Rabs_mult, (Rabs_pos_eq (s * s / 4)) by nra. destruct D as [-> | ->].
    - rewrite Rabs_pos_eq by lra. lra.
    - rewrite Rabs_left by lra. lra. }
  unfold area_spec, around. cbn [fan].
  pose proof (T (1, 0)%Z (1, 1)%Z eq_refl). pose proof (T (1, 1)%Z (0, 1)%Z eq_refl). pose proof (T (0, 1)%Z (-1, 1)%Z eq_refl).
  pose proof (T (-1, 1)%Z (-1, 0)%Z eq_refl). pose proof (T (-1, 0)%Z (-1, -1)%Z eq_refl). pose proof (T (-1, -1)%Z (0, -1)%Z eq_refl).
  pose proof (T (0, -1)%Z (1, -1)%Z eq_refl). pose proof (T (1, -1)%Z (1, 0)%Z eq_refl). lra.
Qed.
