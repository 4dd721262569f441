(* Order and monotonicity facts about binary64. *)
From Coq Require Import ZArith Bool Reals Lra.
From Flocq Require Import Core BinarySingleNaN.
From Verif Require Import HeapProofs F64.
Open Scope Z_scope.

Lemma fleb_finite x y : is_finite x = true -> is_finite y = true ->
  fleb x y = Rle_bool (B2R x) (B2R y).
Proof. apply Bleb_correct. Qed.

Lemma fltb_finite x y : is_finite x = true -> is_finite y = true ->
  fltb x y = Rlt_bool (B2R x) (B2R y).
Proof. apply Bltb_correct. Qed.

(* A number that is not NaN is finite, +inf or -inf. *)
Lemma fok_cases x : fok x = true ->
  is_finite x = true \/ x = B754_infinity false \/ x = B754_infinity true.
Proof. destruct x as [s|[]| |s m e H]; cbn; auto; discriminate. Qed.

Lemma fleb_inf x : fok x = true -> fleb x finf = true.
Proof. destruct x as [s|[]| |s m e H]; cbn; auto; discriminate. Qed.

Lemma fleb_ninf x : fok x = true -> fleb (B754_infinity true) x = true.
Proof. destruct x as [s|[]| |s m e H]; cbn; auto; discriminate. Qed.

Lemma finite_inf_fleb x : is_finite x = true -> fleb finf x = false.
Proof. destruct x as [s|[]| |s m e H]; cbn; auto; discriminate. Qed.

Lemma finite_ninf_fleb x : is_finite x = true -> fleb x (B754_infinity true) = false.
Proof. destruct x as [s|[]| |s m e H]; cbn; auto; discriminate. Qed.

Lemma fleb_fltb x y : fok x = true -> fok y = true -> fltb x y = negb (fleb y x).
Proof.
  intros Hx Hy.
  destruct (fok_cases x Hx) as [Fx|[->| ->]]; destruct (fok_cases y Hy) as [Fy|[->| ->]].
  - rewrite fltb_finite, fleb_finite by assumption.
    destruct (Rle_bool_spec (B2R y) (B2R x)) as [H|H]; cbn;
      [apply Rlt_bool_false|apply Rlt_bool_true]; lra.
  - destruct x as [s|[]| |s m e H]; reflexivity || discriminate.
  - destruct x as [s|[]| |s m e H]; reflexivity || discriminate.
  - destruct y as [s|[]| |s m e H]; reflexivity || discriminate.
  - reflexivity.
  - reflexivity.
  - destruct y as [s|[]| |s m e H]; reflexivity || discriminate.
  - reflexivity.
  - reflexivity.
Qed.

Lemma fleb_ok_l x y : fleb x y = true -> fok x = true.
Proof. destruct x as [s|[]| |s m e H]; cbn; auto. Qed.
Lemma fleb_ok_r x y : fleb x y = true -> fok y = true.
Proof. destruct x as [s|[]| |s m e H], y as [s'|[]| |s' m' e' H']; cbn; auto. Qed.

Lemma fleb_trans x y z : fleb x y = true -> fleb y z = true -> fleb x z = true.
Proof.
  intros H1 H2.
  pose proof (fleb_ok_l _ _ H1) as Ox. pose proof (fleb_ok_r _ _ H1) as Oy.
  pose proof (fleb_ok_r _ _ H2) as Oz.
  destruct (fok_cases z Oz) as [Fz|[->| ->]].
  - destruct (fok_cases y Oy) as [Fy|[->| ->]].
    + destruct (fok_cases x Ox) as [Fx|[->| ->]].
      * rewrite fleb_finite in * by assumption.
        apply Rle_bool_true.
        revert H1 H2. do 2 (case Rle_bool_spec; [|discriminate]); intros; lra.
      * change (B754_infinity false) with finf in H1.
        rewrite finite_inf_fleb in H1 by assumption. discriminate.
      * now apply fleb_ninf.
    + change (B754_infinity false) with finf in H2.
      rewrite finite_inf_fleb in H2 by assumption. discriminate.
    + destruct (fok_cases x Ox) as [Fx|[->| ->]].
      * rewrite finite_ninf_fleb in H1 by assumption. discriminate.
      * discriminate.
      * exact H2.
  - now apply fleb_inf.
  - destruct (fok_cases y Oy) as [Fy|[->| ->]].
    + rewrite finite_ninf_fleb in H2 by assumption. discriminate.
    + discriminate.
    + exact H1.
Qed.

Lemma fleb_refl x : fok x = true -> fleb x x = true.
Proof.
  intros Hx. destruct (fok_cases x Hx) as [Fx|[->| ->]]; try reflexivity.
  rewrite fleb_finite by assumption. apply Rle_bool_true. lra.
Qed.

Lemma fleb_total x y : fok x = true -> fok y = true ->
  fleb x y = true \/ fleb y x = true.
Proof.
  intros Hx Hy. destruct (fleb y x) eqn:E; [auto|]. left.
  pose proof (fleb_fltb x y Hx Hy) as L. rewrite E in L. cbn in L.
  revert L. unfold fltb, fleb, Bltb, Bleb, SpecFloat.SFltb, SpecFloat.SFleb.
  destruct (SpecFloat.SFcompare (B2SF x) (B2SF y)) as [[]|]; auto; discriminate.
Qed.

(* The keys of the cost-distance queue. *)
Lemma f64_KeyOrder : KeyOrder fleb fltb finf fok.
Proof.
  constructor.
  - apply fleb_refl.
  - intros a b c _ _ _. apply fleb_trans.
  - apply fleb_total.
  - apply fleb_fltb.
  - reflexivity.
  - apply fleb_inf.
Qed.

(* ---------------- addition of non-negative numbers ---------------- *)

Definition fnonneg (x : f64) : bool := fleb fzero x.

Lemma fnonneg_cases x : fnonneg x = true ->
  x = finf \/ (is_finite x = true /\ (0 <= B2R x)%R).
Proof.
  unfold fnonneg. intros H. destruct (fok_cases x (fleb_ok_r _ _ H)) as [Fx|[->| ->]].
  - right. split; [exact Fx|]. rewrite fleb_finite in H by (assumption || reflexivity).
    revert H. case Rle_bool_spec; [|discriminate]. cbn. auto.
  - left; reflexivity.
  - discriminate.
Qed.

Lemma fnonneg_ok x : fnonneg x = true -> fok x = true.
Proof. apply fleb_ok_r. Qed.

Lemma finite_fok (x : f64) : is_finite x = true -> fok x = true.
Proof. destruct x; cbn; auto; discriminate. Qed.

Notation rnd := (round radix2 (SpecFloat.fexp 53 1024) (round_mode mode_NE)).

Lemma fadd_finite x y :
  is_finite x = true -> is_finite y = true -> (0 <= B2R x)%R -> (0 <= B2R y)%R ->
  ((rnd (B2R x + B2R y) < bpow radix2 1024)%R
   /\ is_finite (fadd x y) = true /\ B2R (fadd x y) = rnd (B2R x + B2R y))
  \/ ((bpow radix2 1024 <= rnd (B2R x + B2R y))%R /\ fadd x y = finf).
Proof.
  intros Fx Fy Px Py.
  pose proof (Bplus_correct 53 1024 f64_prec f64_emax mode_NE x y Fx Fy) as C.
  assert (R0 : (0 <= rnd (B2R x + B2R y))%R).
  { apply round_ge_generic.
    - apply (fexp_correct 53 1024). exact f64_prec.
    - apply valid_rnd_N.
    - apply generic_format_0.
    - lra. }
  rewrite Rabs_pos_eq in C by exact R0.
  change Rdefinitions.RbaseSymbolsImpl.Rplus with Rplus in C.
  revert C. case Rlt_bool_spec; intros H C.
  - left. destruct C as (C1 & C2 & _). unfold fadd. auto.
  - right. split; [exact H|]. destruct C as (C1 & C2).
    apply B2SF_inj. unfold fadd. rewrite C1.
    assert (S : Bsign x = false).
    { destruct (Bsign x) eqn:E; [|reflexivity]. exfalso.
      destruct x as [sx|sx| |sx mx ex Hx]; try discriminate Fx; cbn in E; subst sx.
      - symmetry in C2. destruct y as [sy|sy| |sy my ey Hy]; try discriminate Fy; cbn in C2; subst sy.
        + revert H. cbn [B2R]. rewrite Rplus_0_r, round_0 by apply valid_rnd_N.
          intros H. pose proof (bpow_gt_0 radix2 1024). lra.
        + revert Py. cbn [B2R]. intros Py. exfalso.
          assert (F2R (Float radix2 (cond_Zopp true (Z.pos my)) ey) < 0)%R
            by (apply F2R_lt_0; reflexivity). lra.
      - revert Px. cbn [B2R]. intros Px.
        assert (F2R (Float radix2 (cond_Zopp true (Z.pos mx)) ex) < 0)%R
          by (apply F2R_lt_0; reflexivity). lra. }
    rewrite S. reflexivity.
Qed.

Lemma fadd_inf_l x : fnonneg x = true -> fadd finf x = finf.
Proof. destruct x as [s|[]| |s m e H]; cbn; auto; discriminate. Qed.
Lemma fadd_inf_r x : fnonneg x = true -> fadd x finf = finf.
Proof. destruct x as [s|[]| |s m e H]; cbn; auto; discriminate. Qed.

Lemma fadd_nonneg x y : fnonneg x = true -> fnonneg y = true ->
  fnonneg (fadd x y) = true.
Proof.
  intros Hx Hy. destruct (fnonneg_cases x Hx) as [->|[Fx Px]].
  { rewrite fadd_inf_l by assumption. reflexivity. }
  destruct (fnonneg_cases y Hy) as [->|[Fy Py]].
  { rewrite fadd_inf_r by assumption. reflexivity. }
  destruct (fadd_finite x y Fx Fy Px Py) as [(H & F & E)|(H & ->)]; [|reflexivity].
  unfold fnonneg. rewrite fleb_finite by (assumption || reflexivity).
  apply Rle_bool_true. rewrite E. cbn [B2R fzero].
  apply round_ge_generic.
  - apply (fexp_correct 53 1024). exact f64_prec.
  - apply valid_rnd_N.
  - apply generic_format_0.
  - lra.
Qed.

(* a <= b -> a + s <= b + s *)
Lemma fadd_mono a b s : fnonneg a = true -> fnonneg s = true ->
  fleb a b = true -> fleb (fadd a s) (fadd b s) = true.
Proof.
  intros Ha Hs L.
  assert (Hb : fnonneg b = true) by (apply fleb_trans with a; assumption).
  pose proof (fnonneg_ok _ (fadd_nonneg a s Ha Hs)) as Oas.
  destruct (fnonneg_cases s Hs) as [->|[Fs Ps]].
  { rewrite !fadd_inf_r by assumption. reflexivity. }
  destruct (fnonneg_cases b Hb) as [->|[Fb Pb]].
  { rewrite fadd_inf_l by assumption. now apply fleb_inf. }
  destruct (fnonneg_cases a Ha) as [->|[Fa Pa]].
  { rewrite finite_inf_fleb in L by assumption. discriminate. }
  rewrite fleb_finite in L by assumption.
  assert (L' : (B2R a <= B2R b)%R) by (revert L; case Rle_bool_spec; [auto|discriminate]).
  assert (M : (rnd (B2R a + B2R s) <= rnd (B2R b + B2R s))%R).
  { apply round_le; [|apply valid_rnd_N|lra].
    apply (fexp_correct 53 1024). exact f64_prec. }
  destruct (fadd_finite b s Fb Fs Pb Ps) as [(Hb2 & Fb2 & Eb2)|(Hb2 & ->)];
    [|now apply fleb_inf].
  destruct (fadd_finite a s Fa Fs Pa Ps) as [(Ha2 & Fa2 & Ea2)|(Ha2 & Ea2)]; [|lra].
  rewrite fleb_finite by assumption. apply Rle_bool_true. rewrite Ea2, Eb2. exact M.
Qed.

(* a <= a + s *)
Lemma fadd_infl a s : fnonneg a = true -> fnonneg s = true ->
  fleb a (fadd a s) = true.
Proof.
  intros Ha Hs.
  destruct (fnonneg_cases a Ha) as [->|[Fa Pa]].
  { rewrite fadd_inf_l by assumption. reflexivity. }
  destruct (fnonneg_cases s Hs) as [->|[Fs Ps]].
  { rewrite fadd_inf_r by assumption. apply fleb_inf. now apply finite_fok. }
  destruct (fadd_finite a s Fa Fs Pa Ps) as [(H & F & E)|(H & ->)];
    [|apply fleb_inf; now apply finite_fok].
  rewrite fleb_finite by assumption. apply Rle_bool_true. rewrite E.
  apply round_ge_generic.
  - apply (fexp_correct 53 1024). exact f64_prec.
  - apply valid_rnd_N.
  - apply generic_format_B2R.
  - lra.
Qed.

(* ---------------- products and square roots ---------------- *)

Lemma fnonneg_sign x : fnonneg x = true <->
  fok x = true /\ ((exists s, x = B754_zero s) \/ Bsign x = false).
Proof.
  unfold fnonneg. destruct x as [s|[]| |[] m e H]; cbn; split; intros;
    repeat match goal with H : _ /\ _ |- _ => destruct H
           | H : _ \/ _ |- _ => destruct H | H : exists _, _ |- _ => destruct H end;
    try discriminate; auto; split; auto; left; eauto.
Qed.

Lemma fmul_nonneg x y : fnonneg x = true -> fnonneg y = true ->
  fok (fmul x y) = true -> fnonneg (fmul x y) = true.
Proof.
  intros Hx Hy HN.
  destruct x as [s|[]| |[] m e H]; try discriminate Hx;
  destruct y as [s'|[]| |[] m' e' H']; try discriminate Hy;
  lazymatch goal with
  | |- fnonneg (fmul (B754_finite _ _ _ _) (B754_finite _ _ _ _)) = true => idtac
  | _ => first [reflexivity | discriminate HN]
  end.
  apply fnonneg_sign. split; [exact HN|]. right.
  pose proof (@Bmult_correct 53 1024 f64_prec f64_emax mode_NE
                (B754_finite false m e H) (B754_finite false m' e' H')) as C.
  fold (fmul (B754_finite false m e H) (B754_finite false m' e' H')) in C.
  set (z := fmul _ _) in *. clearbody z.
  match type of C with if ?b then _ else _ => destruct b end.
  - destruct C as (_ & _ & C). apply C. unfold fok in HN. now apply negb_true_iff in HN.
  - destruct z; cbn in C |- *; try discriminate. injection C as ->. reflexivity.
Qed.

Lemma fmul_ok x y : fok (fmul x y) = true -> fok x = true /\ fok y = true.
Proof.
  destruct x as [s|[]| |s m e H]; destruct y as [s'|[]| |s' m' e' H']; intros HN;
    lazymatch goal with
    | H : fok (fmul B754_nan _) = true |- _ => discriminate H
    | H : fok (fmul _ B754_nan) = true |- _ => discriminate H
    | _ => split; reflexivity
    end.
Qed.

Lemma fsqrt_nonneg x : fok (fsqrt x) = true -> fnonneg (fsqrt x) = true.
Proof.
  intros HN. destruct x as [s|[]| |[] m e H];
    lazymatch goal with
    | |- fnonneg (fsqrt (B754_finite false _ _ _)) = true => idtac
    | _ => first [reflexivity | discriminate HN]
    end.
  apply fnonneg_sign. split; [exact HN|]. right.
  destruct (@Bsqrt_correct 53 1024 f64_prec f64_emax mode_NE (B754_finite false m e H))
    as (_ & _ & C).
  fold (fsqrt (B754_finite false m e H)) in C.
  set (z := fsqrt _) in *. clearbody z. rewrite C; [reflexivity|].
  unfold fok in HN. now apply negb_true_iff in HN.
Qed.
