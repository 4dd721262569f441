(* float64 arithmetic on small multiples of a power of two is exact; squares
   and square roots. *)
From Coq Require Import ZArith Bool Reals Lra Lia.
From Flocq Require Import Core BinarySingleNaN.
From Verif Require Import F64 F64Facts.
Open Scope Z_scope.

(* x is the number k * 2^e *)
Definition scaled (e : Z) (x : f64) (k : Z) : Prop :=
  is_finite x = true /\ B2R x = (IZR k * bpow radix2 e)%R.

Notation fexp64 := (SpecFloat.fexp 53 1024).

Lemma fexp64_valid : Valid_exp fexp64.
Proof. apply (fexp_correct 53 1024). exact f64_prec. Qed.
#[export] Existing Instance fexp64_valid.

Lemma exact_round k e : Z.abs k <= 2 ^ 53 -> -1074 <= e ->
  rnd (IZR k * bpow radix2 e)%R = (IZR k * bpow radix2 e)%R.
Proof.
  intros Hk He. apply round_generic; [apply valid_rnd_N|].
  destruct (Z.eq_dec (Z.abs k) (2 ^ 53)) as [E|NE].
  - assert (G : generic_format radix2 fexp64 (bpow radix2 (53 + e))).
    { apply generic_format_bpow. unfold SpecFloat.fexp, SpecFloat.emin. lia. }
    rewrite bpow_plus in G. change (bpow radix2 53) with (IZR (2 ^ 53)) in G.
    destruct (Z.abs_eq_or_opp k) as [A|A].
    + rewrite <- A, E. exact G.
    + replace k with (- Z.abs k) by lia. rewrite E, opp_IZR, Ropp_mult_distr_l_reverse.
      apply generic_format_opp. exact G.
  - apply (generic_format_FLT radix2 (-1074) 53). exists (Float radix2 k e); cbn.
    + reflexivity.
    + lia.
    + exact He.
Qed.

Lemma exact_bound k e : Z.abs k <= 2 ^ 53 -> e <= 900 ->
  (Rabs (IZR k * bpow radix2 e) < bpow radix2 1024)%R.
Proof.
  intros Hk He. rewrite Rabs_mult, <- abs_IZR, (Rabs_pos_eq (bpow _ _)) by apply bpow_ge_0.
  apply Rle_lt_trans with (bpow radix2 (53 + e))%R.
  - rewrite bpow_plus. apply Rmult_le_compat_r; [apply bpow_ge_0|].
    change (bpow radix2 53) with (IZR (2 ^ 53)). now apply IZR_le.
  - apply bpow_lt. lia.
Qed.

Lemma fadd_exact e x y a b : scaled e x a -> scaled e y b -> Z.abs (a + b) <= 2 ^ 53 ->
  -1074 <= e <= 900 -> scaled e (fadd x y) (a + b).
Proof.
  intros [Fx Ex] [Fy Ey] Hk He.
  pose proof (@Bplus_correct 53 1024 f64_prec f64_emax mode_NE x y Fx Fy) as C.
  fold (fadd x y) in C.
  assert (E : (B2R x + B2R y)%R = (IZR (a + b) * bpow radix2 e)%R).
  { rewrite Ex, Ey, plus_IZR. ring. }
  change Rdefinitions.RbaseSymbolsImpl.Rplus with Rplus in C.
  rewrite E, exact_round in C by lia.
  rewrite Rlt_bool_true in C by (apply exact_bound; lia).
  split; apply C.
Qed.

Lemma fsub_exact e x y a b : scaled e x a -> scaled e y b -> Z.abs (a - b) <= 2 ^ 53 ->
  -1074 <= e <= 900 -> scaled e (fsub x y) (a - b).
Proof.
  intros [Fx Ex] [Fy Ey] Hk He.
  pose proof (@Bminus_correct 53 1024 f64_prec f64_emax mode_NE x y Fx Fy) as C.
  fold (fsub x y) in C.
  assert (E : (B2R x - B2R y)%R = (IZR (a - b) * bpow radix2 e)%R).
  { rewrite Ex, Ey, minus_IZR. ring. }
  rewrite E, exact_round in C by lia.
  rewrite Rlt_bool_true in C by (apply exact_bound; lia).
  split; apply C.
Qed.

Lemma fmul_exact e e' x y a b : scaled e x a -> scaled e' y b -> Z.abs (a * b) <= 2 ^ 53 ->
  -1074 <= e + e' <= 900 -> scaled (e + e') (fmul x y) (a * b).
Proof.
  intros [Fx Ex] [Fy Ey] Hk He.
  pose proof (@Bmult_correct 53 1024 f64_prec f64_emax mode_NE x y) as C.
  fold (fmul x y) in C.
  assert (E : (B2R x * B2R y)%R = (IZR (a * b) * bpow radix2 (e + e'))%R).
  { rewrite Ex, Ey, mult_IZR, bpow_plus. ring. }
  change Rdefinitions.RbaseSymbolsImpl.Rmult with Rmult in C.
  rewrite E, exact_round in C by lia.
  rewrite Rlt_bool_true in C by (apply exact_bound; lia).
  rewrite Fx, Fy in C. split; apply C.
Qed.

Lemma fabs_exact e x a : scaled e x a -> scaled e (fabs x) (Z.abs a).
Proof.
  intros [Fx Ex]. split.
  - unfold fabs. rewrite is_finite_Babs. exact Fx.
  - unfold fabs. rewrite B2R_Babs, Ex, Rabs_mult, <- abs_IZR.
    now rewrite (Rabs_pos_eq (bpow _ _)) by apply bpow_ge_0.
Qed.

Lemma fsqrt_finite x : is_finite x = true -> (0 <= B2R x)%R ->
  is_finite (fsqrt x) = true /\ B2R (fsqrt x) = rnd (sqrt (B2R x)).
Proof.
  intros F N. pose proof (@Bsqrt_correct 53 1024 f64_prec f64_emax mode_NE x) as (C1 & C2 & _).
  split; [|exact C1]. unfold fsqrt. rewrite C2.
  destruct x as [s|s| |[] m e H]; try discriminate F; try reflexivity.
  exfalso. revert N. cbn [B2R]. intros N.
  assert (F2R (Float radix2 (cond_Zopp true (Z.pos m)) e) < 0)%R by (apply F2R_lt_0; reflexivity). lra.
Qed.

Lemma fsqrt_exact e x a : scaled (e + e) x (a * a) -> 0 <= a <= 2 ^ 53 -> -1074 <= e ->
  scaled e (fsqrt x) a.
Proof.
  intros [Fx Ex] Ha He.
  assert (E : B2R x = ((IZR a * bpow radix2 e) * (IZR a * bpow radix2 e))%R).
  { rewrite Ex, mult_IZR, bpow_plus. ring. }
  assert (P : (0 <= IZR a * bpow radix2 e)%R).
  { apply Rmult_le_pos; [now apply IZR_le|apply bpow_ge_0]. }
  destruct (fsqrt_finite x Fx) as [F R].
  { rewrite E. now apply Rmult_le_pos. }
  split; [exact F|]. rewrite R, E, sqrt_square by exact P. apply exact_round; lia.
Qed.

Lemma fltb_exact e x y a b : scaled e x a -> scaled e y b -> fltb x y = (a <? b).
Proof.
  intros [Fx Ex] [Fy Ey]. rewrite fltb_finite by assumption. rewrite Ex, Ey.
  pose proof (bpow_gt_0 radix2 e).
  case Rlt_bool_spec; case Z.ltb_spec; intros; auto; exfalso.
  - apply IZR_le in H0. nra.
  - apply IZR_lt in H0. nra.
Qed.

Lemma fleb_exact e x y a b : scaled e x a -> scaled e y b -> fleb x y = (a <=? b).
Proof.
  intros [Fx Ex] [Fy Ey]. rewrite fleb_finite by assumption. rewrite Ex, Ey.
  pose proof (bpow_gt_0 radix2 e).
  case Rle_bool_spec; case Z.leb_spec; intros; auto; exfalso.
  - apply IZR_lt in H0. nra.
  - apply IZR_le in H0. nra.
Qed.

Lemma scaled_inj e x a b : scaled e x a -> scaled e x b -> a = b.
Proof.
  intros [_ E1] [_ E2]. rewrite E1 in E2. pose proof (bpow_gt_0 radix2 e).
  apply eq_IZR. nra.
Qed.

(* f64_of k e is k * 2^e *)
Lemma f64_of_exact k e : Z.abs k <= 2 ^ 53 -> -1074 <= e <= 900 -> scaled e (f64_of k e) k.
Proof.
  intros Hk He.
  pose proof (@binary_normalize_correct 53 1024 f64_prec f64_emax mode_NE k e false) as C.
  cbv zeta in C. fold (f64_of k e) in C.
  change (F2R (Float radix2 k e)) with (IZR k * bpow radix2 e)%R in C.
  rewrite exact_round in C by lia. rewrite Rlt_bool_true in C by (apply exact_bound; lia).
  split; apply C.
Qed.

(* ---------------- squares and roots ---------------- *)

Lemma rnd_mono a b : (a <= b)%R -> (rnd a <= rnd b)%R.
Proof. intros. apply round_le; auto. apply fexp64_valid. apply valid_rnd_N. Qed.

Lemma rnd_nonneg a : (0 <= a)%R -> (0 <= rnd a)%R.
Proof. intros. rewrite <- (round_0 radix2 fexp64 (round_mode mode_NE)). now apply rnd_mono. Qed.

(* sqrt(x * x) rounds to at most x, for x in the format *)
Lemma sqrt_sqr_le m : generic_format radix2 fexp64 m -> (bpow radix2 (-511) <= m)%R ->
  (rnd (sqrt (rnd (m * m))) <= m)%R.
Proof.
  intros Fm Hm.
  assert (P : (0 < m)%R) by (pose proof (bpow_gt_0 radix2 (-511)); lra).
  apply (round_N_le_midp radix2 fexp64 (fun x => negb (Z.even x))); [exact Fm|].
  rewrite succ_eq_pos by lra.
  set (u := ulp radix2 fexp64 m).
  assert (U : (m * bpow radix2 (-53) < u)%R).
  { pose proof (@ulp_FLT_gt radix2 (-1074) 53 f64_prec m) as H. rewrite Rabs_pos_eq in H by lra. exact H. }
  assert (UP : (0 < u)%R).
  { eapply Rlt_trans; [|exact U]. apply Rmult_lt_0_compat; [exact P|apply bpow_gt_0]. }
  assert (MM : (bpow radix2 (-1022) <= m * m)%R).
  { change (-1022) with (-511 + -511). rewrite bpow_plus.
    apply Rmult_le_compat; auto; apply bpow_ge_0. }
  assert (U2 : (ulp radix2 fexp64 (m * m) <= (m * m) * bpow radix2 (-52))%R).
  { assert (MP : (0 <= m * m)%R) by (pose proof (bpow_gt_0 radix2 (-1022)); lra).
    pose proof (ulp_FLT_le radix2 (-1074) 53 (m * m)) as H.
    rewrite Rabs_pos_eq in H by exact MP. apply H. exact MM. }
  assert (ER : (rnd (m * m) <= m * m + / 2 * ((m * m) * bpow radix2 (-52)))%R).
  { pose proof (error_le_half_ulp radix2 fexp64 (fun x => negb (Z.even x)) (m * m)) as H.
    change (Znearest (fun x => negb (Z.even x))) with (round_mode mode_NE) in H.
    apply Rabs_le_inv in H. lra. }
  assert (B53 : bpow radix2 (-52) = (2 * bpow radix2 (-53))%R).
  { change (-52) with (1 + -53). rewrite bpow_plus. reflexivity. }
  assert (LT : (rnd (m * m) < ((m + (m + u)) / 2) * ((m + (m + u)) / 2))%R).
  { eapply Rle_lt_trans; [exact ER|]. rewrite B53.
    assert (m * (m * bpow radix2 (-53)) < m * u)%R by (now apply Rmult_lt_compat_l). nra. }
  rewrite <- (sqrt_square ((m + (m + u)) / 2)) by lra.
  apply sqrt_lt_1_alt. split; [|exact LT]. apply rnd_nonneg. nra.
Qed.

Lemma fltb_nan_l x y : fltb x y = true -> fok x = true.
Proof. destruct x, y; cbn; auto; discriminate. Qed.

(* d2 < 2 m^2 and d2 <= m^2 imply sqrt d2 <= m *)
Lemma sqrt_le_max d2 m : fleb (f64_of 1 (-511)) m = true -> fnonneg d2 = true ->
  fleb d2 (fmul m m) = true -> fltb d2 (fmul (fmul m m) (f64_of_Z 2)) = true ->
  fleb (fsqrt d2) m = true.
Proof.
  intros Hm Hd L1 L2.
  destruct (fok_cases m (fleb_ok_r _ _ Hm)) as [Fm|[->| ->]].
  2:{ destruct d2 as [s|[]| |[] k e H]; try discriminate Hd; try discriminate L2; try reflexivity.
      apply fleb_inf. apply finite_fok.
      apply fsqrt_finite; [reflexivity|]. cbn [B2R]. apply F2R_ge_0. cbn. lia. }
  2:{ exfalso. rewrite finite_ninf_fleb in Hm; [discriminate|].
      apply (f64_of_exact 1 (-511)); lia. }
  assert (Sm : (bpow radix2 (-511) <= B2R m)%R).
  { destruct (f64_of_exact 1 (-511)) as [F E]; [lia|lia|].
    rewrite fleb_finite in Hm by assumption. rewrite E, Rmult_1_l in Hm.
    revert Hm. case Rle_bool_spec; auto; discriminate. }
  assert (Pm : (0 < B2R m)%R) by (pose proof (bpow_gt_0 radix2 (-511)); lra).
  destruct (fnonneg_cases d2 Hd) as [->|[Fd Pd]].
  { exfalso. destruct (fmul (fmul m m) (f64_of_Z 2)) as [|[]| |]; discriminate L2. }
  destruct (fsqrt_finite d2 Fd Pd) as [Fs Es].
  rewrite fleb_finite by assumption. apply Rle_bool_true. rewrite Es.
  pose proof (@Bmult_correct 53 1024 f64_prec f64_emax mode_NE m m) as C.
  fold (fmul m m) in C. change Rdefinitions.RbaseSymbolsImpl.Rmult with Rmult in C.
  assert (R0 : (0 <= rnd (B2R m * B2R m))%R) by (apply rnd_nonneg; nra).
  rewrite (Rabs_pos_eq _ R0) in C. revert C. case Rlt_bool_spec; intros HB C.
  - (* no overflow *)
    destruct C as (C1 & C2 & _). rewrite Fm in C2.
    rewrite fleb_finite in L1 by assumption.
    assert (L1' : (B2R d2 <= B2R (fmul m m))%R) by (revert L1; case Rle_bool_spec; auto; discriminate).
    eapply Rle_trans; [|apply sqrt_sqr_le; [apply generic_format_B2R|exact Sm]].
    apply rnd_mono. apply sqrt_le_1_alt. rewrite <- C1. exact L1'.
  - (* overflow: m is at least 2^512 *)
    assert (M512 : (bpow radix2 512 <= B2R m)%R).
    { apply Rnot_lt_le. intros LT. apply (Rlt_not_le _ _) in HB; [exact HB|].
      apply Rle_lt_trans with (bpow radix2 1024 - bpow radix2 971)%R;
        [|pose proof (bpow_gt_0 radix2 971); lra].
      assert (PB : (B2R m <= bpow radix2 512 - bpow radix2 459)%R).
      { apply Rle_trans with (pred radix2 fexp64 (bpow radix2 512)).
        - apply pred_ge_gt; [exact fexp64_valid|apply generic_format_B2R| |exact LT].
          apply generic_format_bpow. unfold SpecFloat.fexp, SpecFloat.emin. lia.
        - rewrite pred_bpow. change (SpecFloat.fexp 53 1024 512) with 459. apply Rle_refl. }
      assert (SQ : (B2R m * B2R m <= bpow radix2 1024 - bpow radix2 971)%R).
      { apply Rle_trans with ((bpow radix2 512 - bpow radix2 459) * (bpow radix2 512 - bpow radix2 459))%R.
        - apply Rmult_le_compat; lra.
        - replace (bpow radix2 1024) with (bpow radix2 512 * bpow radix2 512)%R
            by (rewrite <- bpow_plus; reflexivity).
          replace (bpow radix2 971) with (bpow radix2 512 * bpow radix2 459)%R
            by (rewrite <- bpow_plus; reflexivity).
          assert (bpow radix2 459 <= bpow radix2 512)%R by (apply bpow_le; lia).
          pose proof (bpow_gt_0 radix2 459). nra. }
      assert (G : generic_format radix2 fexp64 (bpow radix2 1024 - bpow radix2 971)).
      { replace (bpow radix2 1024 - bpow radix2 971)%R with (IZR (2 ^ 53 - 1) * bpow radix2 971)%R.
        - apply (generic_format_FLT radix2 (-1074) 53).
          exists (Float radix2 (2 ^ 53 - 1) 971); cbn; [reflexivity|lia|lia].
        - rewrite minus_IZR. change (IZR (2 ^ 53)) with (bpow radix2 53).
          replace (bpow radix2 1024) with (bpow radix2 53 * bpow radix2 971)%R
            by (rewrite <- bpow_plus; reflexivity). ring. }
      rewrite <- (round_generic radix2 fexp64 (round_mode mode_NE) _ G).
      now apply rnd_mono. }
    apply Rle_trans with (bpow radix2 512); [|exact M512].
    assert (G5 : generic_format radix2 fexp64 (bpow radix2 512)).
    { apply generic_format_bpow. unfold SpecFloat.fexp, SpecFloat.emin. lia. }
    rewrite <- (round_generic radix2 fexp64 (round_mode mode_NE) _ G5). apply rnd_mono.
    rewrite <- (sqrt_square (bpow radix2 512)) by apply bpow_ge_0.
    apply sqrt_le_1_alt. rewrite <- bpow_plus.
    pose proof (abs_B2R_lt_emax 53 1024 d2) as A. rewrite Rabs_pos_eq in A by exact Pd.
    change (512 + 512) with 1024. apply Rlt_le. exact A.
Qed.

Lemma scaled_ge_pow e d x k : scaled e x k -> 1 <= k -> -1000 <= d <= e -> d <= 900 ->
  fleb (f64_of 1 d) x = true.
Proof.
  intros [F1 R1] Hk Hd Hd9.
  assert (S0 : scaled d (f64_of 1 d) 1) by (apply f64_of_exact; lia). destruct S0 as [F0 R0].
  rewrite fleb_finite by auto. rewrite R0, R1. apply Rle_bool_true.
  apply Rmult_le_compat; [lra|apply bpow_ge_0|apply IZR_le; lia|apply bpow_le; lia].
Qed.
