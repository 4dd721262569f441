(* float32 storage: rounding a float64 to the nearest float32 (overflow to
   infinity), seen again as a float64.  Used for arrays of dtype float32. *)
From Coq Require Import ZArith Bool Reals Lra Lia.
From Flocq Require Import Core BinarySingleNaN Relative.
From Verif Require Import F64 F64Facts F64Exact.
Open Scope Z_scope.

Definition f32_prec : Prec_gt_0 24 := eq_refl.
Definition f32_emax : Prec_lt_emax 24 128 := eq_refl.

(* np.float32(x) as a float64 *)
Definition to32 (x : f64) : f64 :=
  match x with
  | B754_finite s m e _ =>
    match @binary_normalize 24 128 f32_prec f32_emax mode_NE (cond_Zopp s (Zpos m)) e s with
    | B754_finite s' m' e' _ => f64_of (cond_Zopp s' (Zpos m')) e'
    | B754_zero s' => B754_zero s'
    | B754_infinity s' => B754_infinity s'
    | B754_nan => B754_nan
    end
  | _ => x
  end.

Notation fexp32 := (SpecFloat.fexp 24 128).
Notation rnd32 := (round radix2 fexp32 (round_mode mode_NE)).

Lemma fexp32_valid : Valid_exp fexp32.
Proof. apply (fexp_correct 24 128). exact f32_prec. Qed.
#[export] Existing Instance fexp32_valid.

Lemma to32_finite x : is_finite x = true ->
  ((Rabs (rnd32 (B2R x)) < bpow radix2 128)%R /\ is_finite (to32 x) = true
     /\ B2R (to32 x) = rnd32 (B2R x))
  \/ ((bpow radix2 128 <= rnd32 (B2R x))%R /\ to32 x = B754_infinity false)
  \/ ((rnd32 (B2R x) <= - bpow radix2 128)%R /\ to32 x = B754_infinity true).
Proof.
  intros Fx. destruct x as [s|s| |s m e H]; try discriminate Fx.
  - left. cbn [B2R to32]. rewrite round_0 by apply valid_rnd_N. rewrite Rabs_R0.
    split; [apply bpow_gt_0|]. split; reflexivity.
  - pose proof (@binary_normalize_correct 24 128 f32_prec f32_emax mode_NE (cond_Zopp s (Zpos m)) e s) as C.
    cbv zeta in C. unfold to32.
    set (z := binary_normalize _ _ _ _ _ _ _ _) in *.
    change (B2R (B754_finite s m e H)) with (F2R (Float radix2 (cond_Zopp s (Zpos m)) e)).
    set (X := F2R (Float radix2 (cond_Zopp s (Zpos m)) e)) in *.
    revert C. case Rlt_bool_spec; intros L C.
    + left. split; [exact L|]. destruct C as (C1 & C2 & _).
      destruct z as [s'|s'| |s' m' e' H']; try discriminate C2.
      * split; [reflexivity|]. rewrite <- C1. reflexivity.
      * assert (HB : Z.abs (cond_Zopp s' (Zpos m')) <= 2 ^ 53 /\ -1074 <= e' <= 900).
        { clear C1 C2. unfold SpecFloat.bounded, SpecFloat.canonical_mantissa in H'.
          apply andb_prop in H'. destruct H' as [H1 H2].
          apply Zeq_bool_eq in H1. apply Zle_bool_imp_le in H2.
          unfold SpecFloat.fexp, SpecFloat.emin in H1.
          pose proof (Digits.Zpower_gt_Zdigits radix2 24 (Zpos m')) as PG.
          assert (D : Digits.Zdigits radix2 (Zpos m') = Zpos (SpecFloat.digits2_pos m')).
          { symmetry. apply Digits.Zpos_digits2_pos. }
          rewrite D in PG.
          assert (Z.abs (Zpos m') < Zpower radix2 24) by (apply PG; lia).
          change (Zpower radix2 24) with 16777216 in *.
          split; [destruct s'; cbn [cond_Zopp]; lia|lia]. }
        destruct (f64_of_exact _ _ (proj1 HB) (proj2 HB)) as [F E].
        split; [exact F|]. rewrite E, <- C1. reflexivity.
    + right. destruct z as [s'|s'| |s' m' e' H'].
      * cbn in C. destruct (Rlt_bool X 0); discriminate C.
      * cbn [B2SF] in C. 
        assert (ES : s' = Rlt_bool X 0).
        { unfold binary_overflow in C. cbn in C. destruct (Rlt_bool X 0); now injection C. }
        subst s'. revert L. case Rlt_bool_spec; intros LX L.
        -- right. split; [|reflexivity].
           assert (rnd32 X <= 0)%R.
           { rewrite <- (round_0 radix2 fexp32 (round_mode mode_NE)).
             apply round_le; [exact fexp32_valid|apply valid_rnd_N|lra]. }
           rewrite Rabs_left1 in L by assumption. lra.
        -- left. split; [|reflexivity].
           assert (0 <= rnd32 X)%R.
           { rewrite <- (round_0 radix2 fexp32 (round_mode mode_NE)).
             apply round_le; [exact fexp32_valid|apply valid_rnd_N|lra]. }
           rewrite Rabs_pos_eq in L by assumption. exact L.
      * cbn in C. destruct (Rlt_bool X 0); discriminate C.
      * cbn in C. destruct (Rlt_bool X 0); discriminate C.
Qed.

Lemma to32_ok x : fok x = true -> fok (to32 x) = true.
Proof.
  intros O. destruct (fok_cases x O) as [F|[->| ->]]; [|reflexivity|reflexivity].
  destruct (to32_finite x F) as [(_ & F' & _)|[(_ & ->)|(_ & ->)]]; [|reflexivity|reflexivity].
  now apply finite_fok.
Qed.

Lemma to32_mono x y : fleb x y = true -> fleb (to32 x) (to32 y) = true.
Proof.
  intros L. pose proof (fleb_ok_l _ _ L) as Ox. pose proof (fleb_ok_r _ _ L) as Oy.
  destruct (fok_cases x Ox) as [Fx|[->| ->]].
  2:{ destruct (fok_cases y Oy) as [Fy|[->| ->]]; [|reflexivity|discriminate L].
      rewrite finite_inf_fleb in L by assumption. discriminate L. }
  2:{ apply (fleb_ninf (to32 y)). now apply to32_ok. }
  destruct (fok_cases y Oy) as [Fy|[->| ->]].
  2:{ apply (fleb_inf (to32 x)). now apply to32_ok. }
  2:{ rewrite finite_ninf_fleb in L by assumption. discriminate L. }
  rewrite fleb_finite in L by assumption.
  assert (L' : (B2R x <= B2R y)%R) by (revert L; case Rle_bool_spec; auto; discriminate).
  assert (R : (rnd32 (B2R x) <= rnd32 (B2R y))%R)
    by (apply round_le; [exact fexp32_valid|apply valid_rnd_N|exact L']).
  pose proof (bpow_gt_0 radix2 128) as B0.
  destruct (to32_finite x Fx) as [(A1 & A2 & A3)|[(A1 & A2)|(A1 & A2)]];
    destruct (to32_finite y Fy) as [(B1 & B2 & B3)|[(B1 & B2)|(B1 & B2)]];
    try (rewrite A2); try (rewrite B2);
    try (apply Rabs_lt_inv in A1); try (apply Rabs_lt_inv in B1);
    first [reflexivity | exfalso; lra
          | apply fleb_inf; now apply finite_fok | apply fleb_ninf; now apply finite_fok | idtac].
  rewrite fleb_finite by assumption. apply Rle_bool_true. rewrite A3, B3. exact R.
Qed.

(* exact on numbers of 24 bits *)
Lemma to32_exact e x k : scaled e x k -> Z.abs k <= 2 ^ 24 -> -149 <= e <= 100 -> scaled e (to32 x) k.
Proof.
  intros [F E] Hk He.
  assert (G : rnd32 (IZR k * bpow radix2 e) = (IZR k * bpow radix2 e)%R).
  { apply round_generic; [apply valid_rnd_N|].
    destruct (Z.eq_dec (Z.abs k) (2 ^ 24)) as [E'|NE].
    - assert (G : generic_format radix2 fexp32 (bpow radix2 (24 + e))).
      { apply generic_format_bpow. unfold SpecFloat.fexp, SpecFloat.emin. lia. }
      rewrite bpow_plus in G. change (bpow radix2 24) with (IZR (2 ^ 24)) in G.
      destruct (Z.abs_eq_or_opp k) as [A|A].
      + rewrite <- A, E'. exact G.
      + replace k with (- Z.abs k) by lia. rewrite E', opp_IZR, Ropp_mult_distr_l_reverse.
        apply generic_format_opp. exact G.
    - apply (generic_format_FLT radix2 (-149) 24). exists (Float radix2 k e); cbn.
      + reflexivity.
      + lia.
      + lia. }
  assert (BD : (Rabs (IZR k * bpow radix2 e) < bpow radix2 128)%R).
  { rewrite Rabs_mult, <- abs_IZR, (Rabs_pos_eq (bpow _ _)) by apply bpow_ge_0.
    apply Rle_lt_trans with (bpow radix2 (24 + e))%R.
    - rewrite bpow_plus. apply Rmult_le_compat_r; [apply bpow_ge_0|].
      change (bpow radix2 24) with (IZR (2 ^ 24)). now apply IZR_le.
    - apply bpow_lt. lia. }
  destruct (to32_finite x F) as [(A1 & A2 & A3)|[(A1 & A2)|(A1 & A2)]]; rewrite E, G in A1.
  - split; [exact A2|]. rewrite A3, E, G. reflexivity.
  - apply Rabs_lt_inv in BD. lra.
  - apply Rabs_lt_inv in BD. lra.
Qed.

(* comparison of a square with the float32 square of a stored number *)
Lemma sqr32_cmp e x y k l : scaled e x k -> scaled (e + e) y (l * l) ->
  0 <= k <= 2 ^ 24 -> 0 <= l -> -63 <= e <= 30 ->
  if fltb y (to32 (fmul x x)) then l <= k else k <= l.
Proof.
  intros SX SY Hk Hl He.
  assert (SS : scaled (e + e) (fmul x x) (k * k)) by (apply fmul_exact; auto; nia).
  destruct SS as [FS ES].
  assert (P2 : (0 < bpow radix2 (e + e))%R) by apply bpow_gt_0.
  assert (KK : (0 <= IZR (k * k))%R) by (apply IZR_le; nia).
  destruct (Z_le_gt_dec k 1) as [K1|NK].
  { assert (T0 : scaled (e + e) (to32 (fmul x x)) (k * k)) by (apply to32_exact; [now split|nia|lia]).
    rewrite (fltb_exact _ _ _ _ _ SY T0). destruct (l * l <? k * k) eqn:E; nia. }
  assert (ERR : (Rabs (rnd32 (B2R (fmul x x)) - B2R (fmul x x)) <= / 2 * bpow radix2 (-23) * Rabs (B2R (fmul x x)))%R).
  { apply (relative_error_N_FLT radix2 (-149) 24 f32_prec (fun x => negb (Z.even x))).
    rewrite ES, Rabs_pos_eq by nra. 
    apply Rle_trans with (1 * bpow radix2 (e + e))%R.
    - rewrite Rmult_1_l. apply bpow_le. lia.
    - apply Rmult_le_compat_r; [lra|]. apply IZR_le. nia. }
  rewrite (Rabs_pos_eq (B2R _)) in ERR by (rewrite ES; nra).
  apply Rabs_le_inv in ERR. set (r := rnd32 (B2R (fmul x x))) in *.
  rewrite ES in ERR.
  assert (B24 : (/ 2 * bpow radix2 (-23))%R = bpow radix2 (-24)) by (cbn; lra).
  rewrite B24 in ERR.
  assert (KB : (IZR (k * k) * bpow radix2 (-24) <= IZR k)%R).
  { rewrite mult_IZR. assert (IZR k * bpow radix2 (-24) <= 1)%R.
    { apply Rle_trans with (IZR (2 ^ 24) * bpow radix2 (-24))%R.
      - apply Rmult_le_compat_r; [apply bpow_ge_0|]. now apply IZR_le.
      - cbn. lra. }
    assert (0 <= IZR k)%R by (now apply IZR_le). nra. }
  assert (RU : (r <= IZR (k * k + k) * bpow radix2 (e + e))%R) by (rewrite plus_IZR; nra).
  assert (RL : (IZR (k * k - k) * bpow radix2 (e + e) <= r)%R) by (rewrite minus_IZR; nra).
  assert (RB : (Rabs r < bpow radix2 128)%R).
  { assert (0 <= r)%R.
    { eapply Rle_trans; [|exact RL]. apply Rmult_le_pos; [apply IZR_le; nia|lra]. }
    rewrite Rabs_pos_eq by assumption. eapply Rle_lt_trans; [exact RU|].
    apply Rle_lt_trans with (bpow radix2 (53 + (e + e))).
    - rewrite (bpow_plus radix2 53). apply Rmult_le_compat_r; [lra|].
      change (bpow radix2 53) with (IZR (2 ^ 53)). apply IZR_le. nia.
    - apply bpow_lt. lia. }
  destruct SY as [FY EY].
  destruct (to32_finite (fmul x x) FS) as [(A1 & A2 & A3)|[(A1 & A2)|(A1 & A2)]].
  2:{ fold r in A1. apply Rabs_lt_inv in RB. lra. }
  2:{ fold r in A1. apply Rabs_lt_inv in RB. lra. }
  rewrite fltb_finite by assumption. rewrite A3, EY. fold r.
  case Rlt_bool_spec; intros L.
  - assert (LL : (IZR (l * l) < IZR (k * k + k))%R) by nra. apply lt_IZR in LL. nia.
  - assert (LL : (IZR (k * k - k) <= IZR (l * l))%R) by nra. apply le_IZR in LL. nia.
Qed.
