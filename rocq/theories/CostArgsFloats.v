(* Facts about the sums of costs: integers as float64s, float32s. *)
From Coq Require Import QArith Reals Lra.
From Flocq Require Import Core BinarySingleNaN Double_rounding.
From Coq Require Import ZifyBool ZifyNat.
From Verif Require Import BaseFacts F64 F64Facts Scalars CostSpec CostDist CostProofs CostArgs CostArgsSpec.
Open Scope Z_scope.

Lemma normalize_nonneg prec emax (Hp : Prec_gt_0 prec) (He : Prec_lt_emax prec emax) m e : 0 <= m ->
  let z := @binary_normalize prec emax Hp He mode_NE m e false in
  BinarySingleNaN.is_nan z = false /\ Bsign z = false.
Proof.
  intros Hm z. pose proof (@binary_normalize_correct prec emax Hp He mode_NE m e false) as C. cbv zeta in C.
  fold z in C. assert (P : (0 <= F2R (Float radix2 m e))%R) by now apply F2R_ge_0.
  destruct (Rlt_bool _ (bpow radix2 emax)).
  - destruct C as (_ & F & S). split; [destruct z; (reflexivity || discriminate F)|].
    rewrite S. destruct (Rcompare_spec (F2R (Float radix2 m e)) 0); try reflexivity. lra.
  - rewrite Rlt_bool_false in C by exact P. destruct z as [s|s| |s m' e' B]; cbn in C; try discriminate.
    injection C as ->. split; reflexivity.
Qed.

Lemma sign_nonneg (z : f64) : BinarySingleNaN.is_nan z = false -> Bsign z = false -> fleb fzero z = true.
Proof. destruct z as [s|s| |s m e B]; cbn; intros N S; try discriminate; rewrite ?S; reflexivity. Qed.

Lemma f64_of_Z_nonneg m : 0 <= m -> fleb fzero (f64_of_Z m) = true.
Proof.
  intros H. destruct (normalize_nonneg 53 1024 f64_prec f64_emax m 0 H) as [A B].
  now apply sign_nonneg.
Qed.

Lemma exact_sum_ok : csum_ok blocks exact_sum.
Proof. intros a b A B. unfold blocks, exact_sum in *. apply f64_of_Z_nonneg. lia. Qed.

Lemma round32_nonneg x : fleb fzero x = true -> fleb fzero (round32 x) = true.
Proof.
  intros H. unfold round32. destruct x as [s|s| |s m e B]; try exact H.
  assert (s = false) as -> by (destruct s; [discriminate H|reflexivity]).
  cbn [cond_Zopp].
  destruct (normalize_nonneg 24 128 eq_refl eq_refl (Zpos m) e ltac:(lia)) as [N S].
  destruct (binary_normalize 24 128 eq_refl eq_refl mode_NE (Zpos m) e false) as [s|s| |s m' e' B'];
    cbn in N, S; try discriminate; subst; try reflexivity.
  cbn [cond_Zopp].
  destruct (normalize_nonneg 53 1024 f64_prec f64_emax (Zpos m') e' ltac:(lia)) as [N' S'].
  now apply sign_nonneg.
Qed.

Lemma float_sum_ok d : csum_ok f64_barrier (float_sum d).
Proof.
  intros a b A B. pose proof (f64_csum_ok a b A B) as H.
  destruct d; cbn [float_sum]; try exact H; now apply round32_nonneg.
Qed.

(* ---- the float32 sum ---- *)

Lemma single_in_double x : generic_format radix2 (FLT_exp (-149) 24) x -> generic_format radix2 (FLT_exp (-1074) 53) x.
Proof.
  apply generic_inclusion_mag. intros _. unfold FLT_exp. lia.
Qed.

Lemma round32_correct x : is_finite x = true ->
  (Rabs (round radix2 (FLT_exp (-149) 24) ZnearestE (B2R x)) < bpow radix2 128)%R ->
  is_finite (round32 x) = true /\ B2R (round32 x) = round radix2 (FLT_exp (-149) 24) ZnearestE (B2R x).
Proof.
  intros F L. destruct x as [s|s| |s m e B]; try discriminate F.
  - cbn [round32]. split; [reflexivity|]. cbn [B2R]. symmetry. apply round_0, _.
  - cbn [round32].
    pose proof (@binary_normalize_correct 24 128 eq_refl eq_refl mode_NE (cond_Zopp s (Zpos m)) e s) as C. cbv zeta in C.
    change (F2R (Float radix2 (cond_Zopp s (Zpos m)) e)) with (B2R (B754_finite s m e B)) in C.
    change (SpecFloat.fexp 24 128) with (FLT_exp (-149) 24) in C. cbn [round_mode] in C.
    rewrite Rlt_bool_true in C by exact L. destruct C as (C1 & C2 & _).
    set (z := binary_normalize 24 128 eq_refl eq_refl mode_NE (cond_Zopp s (Zpos m)) e s) in *.
    rewrite <- C1. pose proof (generic_format_B2R 24 128 z) as G. pose proof (abs_B2R_lt_emax 24 128 z) as Lz.
    change (SpecFloat.fexp 24 128) with (FLT_exp (-149) 24) in G.
    destruct z as [s'|s'| |s' m' e' B']; try discriminate C2; [split; reflexivity|].
    pose proof (@binary_normalize_correct 53 1024 f64_prec f64_emax mode_NE (cond_Zopp s' (Zpos m')) e' s') as D. cbv zeta in D.
    change (F2R (Float radix2 (cond_Zopp s' (Zpos m')) e')) with (B2R (B754_finite s' m' e' B')) in D.
    change (SpecFloat.fexp 53 1024) with (FLT_exp (-1074) 53) in D. cbn [round_mode] in D.
    rewrite round_generic in D; [|apply _|now apply single_in_double].
    rewrite Rlt_bool_true in D.
    + destruct D as (D1 & D2 & _). now split.
    + eapply Rlt_trans; [exact Lz|]. now apply bpow_lt.
Qed.

Lemma single_sum_correct a b : is_single a -> is_single b ->
  (Rabs (single_sum (B2R a) (B2R b)) < bpow radix2 128)%R ->
  is_finite (float_sum F32 a b) = true /\ B2R (float_sum F32 a b) = single_sum (B2R a) (B2R b).
Proof.
  intros (Fa & Ga) (Fb & Gb) L. cbn [float_sum].
  assert (Hp : Prec_gt_0 24) by reflexivity. assert (Hp' : Prec_gt_0 53) by reflexivity.
  assert (RR : round radix2 (FLT_exp (-149) 24) ZnearestE (round radix2 (FLT_exp (-1074) 53) ZnearestE (B2R a + B2R b))
               = single_sum (B2R a) (B2R b)).
  { apply (round_round_plus_FLT radix2 (-149) 24 (-1074) 53); try reflexivity; try lia;
      apply FLT_format_generic; try reflexivity; assumption. }
  pose proof (@Bplus_correct 53 1024 f64_prec f64_emax mode_NE a b Fa Fb) as C.
  change (SpecFloat.fexp 53 1024) with (FLT_exp (-1074) 53) in C. cbn [round_mode] in C.
  rewrite Rlt_bool_true in C.
  - destruct C as (C1 & C2 & _). fold (fadd a b) in C1, C2.
    rewrite <- RR in L |- *. rewrite <- C1 in L |- *. now apply round32_correct.
  - apply Rnot_le_lt. intros H.
    apply (abs_round_ge_generic radix2 (FLT_exp (-149) 24) ZnearestE) in H.
    + rewrite RR in H. assert (bpow radix2 128 < bpow radix2 1024)%R by now apply bpow_lt. lra.
    + apply generic_format_bpow. unfold FLT_exp. lia.
Qed.
