From Coq Require Import ZArith Reals Lra Lia List Permutation.
From Flocq Require Import Core BinarySingleNaN Plus_error Relative.
From Verif Require Import Base BaseFacts Mosaic MosaicSpec MosaicProofs MosaicSum MosaicSumSpec.
Import ListNotations.
Open Scope R_scope.

Lemma rsum_app a b : rsum (a ++ b) = rsum a + rsum b.
Proof. unfold rsum. induction a as [|x a IH]; cbn [fold_right app]; lra. Qed.
Lemma rsum_perm a b : Permutation a b -> rsum a = rsum b.
Proof. induction 1; unfold rsum in *; cbn [fold_right] in *; lra. Qed.

Section Floats.
Variables prec emax : Z.
Context (prec_gt_0 : Prec_gt_0 prec) (prec_lt_emax : Prec_lt_emax prec emax).
Notation float := (binary_float prec emax).
Notation u := (unit_roundoff prec).

Lemma u_pos : 0 < u.
Proof. apply bpow_gt_0. Qed.
Lemma pow_ge1 n : 1 <= (1 + u) ^ n.
Proof. apply pow_R1_Rle. pose proof u_pos. lra. Qed.
Lemma pow_mono m n : (m <= n)%nat -> (1 + u) ^ m <= (1 + u) ^ n.
Proof. intros H. apply Rle_pow; [pose proof u_pos; lra|exact H]. Qed.
Lemma sum_abs_pos (l : list float) : 0 <= sum_abs l.
Proof. unfold sum_abs, rsum. induction l as [|x l IH]; cbn [map fold_right]; [lra|]. pose proof (Rabs_pos (B2R x)). lra. Qed.
Lemma exact_app (a b : list float) : exact_sum (a ++ b) = exact_sum a + exact_sum b.
Proof. unfold exact_sum. now rewrite map_app, rsum_app. Qed.
Lemma abs_app (a b : list float) : sum_abs (a ++ b) = sum_abs a + sum_abs b.
Proof. unfold sum_abs. now rewrite map_app, rsum_app. Qed.
Lemma exact_perm (a b : list float) : Permutation a b -> exact_sum a = exact_sum b.
Proof. intros H. apply rsum_perm. now apply Permutation_map. Qed.
Lemma abs_perm (a b : list float) : Permutation a b -> sum_abs a = sum_abs b.
Proof. intros H. apply rsum_perm. now apply Permutation_map. Qed.
Lemma exact_le (l : list float) : Rabs (exact_sum l) <= sum_abs l.
Proof.
  unfold exact_sum, sum_abs, rsum. induction l as [|x l IH]; cbn [map fold_right]; [rewrite Rabs_R0; lra|].
  eapply Rle_trans; [apply Rabs_triang|]. lra.
Qed.

(* one addition *)
Lemma one_add (x y : float) : is_finite x = true -> is_finite y = true ->
  (1 + u) * Rabs (B2R x + B2R y) < bpow radix2 emax ->
  is_finite (Bplus mode_NE x y) = true /\ Rabs (B2R (Bplus mode_NE x y) - (B2R x + B2R y)) <= u * Rabs (B2R x + B2R y).
Proof.
  intros FX FY NO. pose proof u_pos as UP. pose proof (Bplus_correct prec emax prec_gt_0 prec_lt_emax mode_NE x y FX FY) as C.
  destruct (@FLT_plus_error_N_ex radix2 (SpecFloat.emin prec emax) prec prec_gt_0 (fun z => negb (Z.even z)) (B2R x) (B2R y)) as (e & E & RE).
  { apply generic_format_B2R. } { apply generic_format_B2R. }
  change (round radix2 (SpecFloat.fexp prec emax) (round_mode mode_NE) (B2R x + B2R y) = (B2R x + B2R y) * (1 + e)) in RE.
  assert (EU : Rabs e <= u).
  { eapply Rle_trans; [exact E|]. assert (UR : u_ro radix2 prec = u).
    { unfold u_ro, unit_roundoff. rewrite bpow_plus, bpow_1. cbn [radix2 radix_val]. field. }
    rewrite UR. apply Rmult_le_reg_r with (1 + u); [lra|]. unfold Rdiv. rewrite Rmult_assoc, Rinv_l by lra. nra. }
  rewrite RE in C. rewrite Rlt_bool_true in C.
  - destruct C as (V & F & _). split; [exact F|]. rewrite V.
    replace ((B2R x + B2R y) * (1 + e) - (B2R x + B2R y)) with ((B2R x + B2R y) * e) by ring. rewrite Rabs_mult, Rmult_comm.
    apply Rmult_le_compat_r; [apply Rabs_pos|exact EU].
  - rewrite Rabs_mult. eapply Rle_lt_trans; [|exact NO]. rewrite Rmult_comm. apply Rmult_le_compat_r; [apply Rabs_pos|].
    eapply Rle_trans; [apply Rabs_triang|]. rewrite Rabs_R1. lra.
Qed.

(* errors add up *)
Lemma join_error n1 n2 (l1 l2 : list float) a b v :
  sum_within n1 l1 a -> sum_within n2 l2 b ->
  Rabs (v - (B2R a + B2R b)) <= u * Rabs (B2R a + B2R b) ->
  Rabs (v - exact_sum (l1 ++ l2)) <= ((1 + u) ^ S (Nat.max n1 n2) - 1) * sum_abs (l1 ++ l2).
Proof.
  intros [_ A] [_ B] V. rewrite exact_app, abs_app. pose proof u_pos as UP.
  set (n := Nat.max n1 n2). pose proof (pow_mono n1 n ltac:(lia)) as M1. pose proof (pow_mono n2 n ltac:(lia)) as M2.
  pose proof (sum_abs_pos l1) as P1. pose proof (sum_abs_pos l2) as P2. pose proof (exact_le l1) as E1. pose proof (exact_le l2) as E2.
  set (s1 := exact_sum l1) in *. set (s2 := exact_sum l2) in *. set (t1 := sum_abs l1) in *. set (t2 := sum_abs l2) in *.
  set (x := B2R a) in *. set (y := B2R b) in *. cbn [pow]. set (q := (1 + u) ^ n) in *.
  assert (D : Rabs (x + y - (s1 + s2)) <= (q - 1) * (t1 + t2)).
  { replace (x + y - (s1 + s2)) with ((x - s1) + (y - s2)) by ring. eapply Rle_trans; [apply Rabs_triang|].
    assert (((1 + u) ^ n1 - 1) * t1 <= (q - 1) * t1) by nra. assert (((1 + u) ^ n2 - 1) * t2 <= (q - 1) * t2) by nra. lra. }
  assert (S : Rabs (s1 + s2) <= t1 + t2) by (eapply Rle_trans; [apply Rabs_triang|lra]).
  assert (XY : Rabs (x + y) <= q * (t1 + t2)).
  { replace (x + y) with ((x + y - (s1 + s2)) + (s1 + s2)) by ring. eapply Rle_trans; [apply Rabs_triang|]. lra. }
  replace (v - (s1 + s2)) with ((v - (x + y)) + (x + y - (s1 + s2))) by ring. eapply Rle_trans; [apply Rabs_triang|].
  assert (u * Rabs (x + y) <= u * (q * (t1 + t2))) by (apply Rmult_le_compat_l; lra). lra.
Qed.
Lemma within_abs n (l : list float) v : sum_within n l v -> Rabs (B2R v) <= (1 + u) ^ n * sum_abs l.
Proof.
  intros [_ H]. pose proof (exact_le l). replace (B2R v) with ((B2R v - exact_sum l) + exact_sum l) by ring.
  eapply Rle_trans; [apply Rabs_triang|]. lra.
Qed.
Lemma no_overflow_le n m (l1 l2 : list float) : (n <= m)%nat -> sum_abs l1 <= sum_abs l2 -> no_overflow m l2 -> no_overflow n l1.
Proof.
  intros L S H. unfold no_overflow in *. eapply Rle_lt_trans; [|exact H]. pose proof (pow_mono n m L). pose proof (pow_ge1 n).
  pose proof (sum_abs_pos l1). apply Rmult_le_compat; lra.
Qed.
Lemma within_mono n m (l : list float) v : (n <= m)%nat -> sum_within n l v -> sum_within m l v.
Proof.
  intros L [F H]. split; [exact F|]. eapply Rle_trans; [exact H|]. pose proof (pow_mono n m L). pose proof (sum_abs_pos l).
  apply Rmult_le_compat_r; lra.
Qed.
(* adding two sums *)
Lemma join_sums n1 n2 (l1 l2 : list float) a b : sum_within n1 l1 a -> sum_within n2 l2 b ->
  no_overflow (S (Nat.max n1 n2)) (l1 ++ l2) -> sum_within (S (Nat.max n1 n2)) (l1 ++ l2) (Bplus mode_NE a b).
Proof.
  intros A B NO. destruct (one_add a b) as [F E].
  - apply A. - apply B.
  - eapply Rle_lt_trans; [|exact NO]. rewrite abs_app. cbn [pow]. rewrite Rmult_assoc. pose proof u_pos.
    apply Rmult_le_compat_l; [lra|]. eapply Rle_trans; [apply Rabs_triang|].
    pose proof (within_abs _ _ _ A). pose proof (within_abs _ _ _ B).
    pose proof (pow_mono n1 (Nat.max n1 n2) ltac:(lia)). pose proof (pow_mono n2 (Nat.max n1 n2) ltac:(lia)).
    pose proof (sum_abs_pos l1). pose proof (sum_abs_pos l2). nra.
  - split; [exact F|]. now apply join_error with a b.
Qed.
Lemma leaves_ne {A} (t : sum_tree A) : (1 <= length (leaves t))%nat.
Proof. induction t as [x|a IHa b IHb]; cbn [leaves]; [cbn; lia|rewrite app_length; lia]. Qed.
Lemma tree_within (t : sum_tree float) : (forall v, In v (leaves t) -> is_finite v = true) ->
  no_overflow (length (leaves t) - 1) (leaves t) ->
  sum_within (length (leaves t) - 1) (leaves t) (tree_sum t).
Proof.
  induction t as [x|a IHa b IHb]; intros F NO; cbn [leaves tree_sum] in *.
  - split; [apply F; now left|]. unfold exact_sum, sum_abs, rsum. cbn [map fold_right length Nat.sub pow].
    rewrite Rplus_0_r, Rminus_eq_0, Rabs_R0. lra.
  - pose proof (leaves_ne a) as NA. pose proof (leaves_ne b) as NB. rewrite app_length in *.
    assert (SA : sum_abs (leaves a) <= sum_abs (leaves a ++ leaves b)) by (rewrite abs_app; pose proof (sum_abs_pos (leaves b)); lra).
    assert (SB : sum_abs (leaves b) <= sum_abs (leaves a ++ leaves b)) by (rewrite abs_app; pose proof (sum_abs_pos (leaves a)); lra).
    eapply within_mono; [|apply join_sums].
    3: apply IHb. 2: apply IHa.
    + lia.
    + intros v Hv. apply F, in_or_app. now left.
    + eapply no_overflow_le; [|exact SA|exact NO]. lia.
    + intros v Hv. apply F, in_or_app. now right.
    + eapply no_overflow_le; [|exact SB|exact NO]. lia.
    + eapply no_overflow_le; [|apply Rle_refl|exact NO]. lia.
Qed.

(* whole numbers *)
Lemma whole_format n : Rabs (IZR n) <= bpow radix2 prec -> generic_format radix2 (SpecFloat.fexp prec emax) (IZR n).
Proof.
  intros H. assert (PP : (0 < prec)%Z) by exact prec_gt_0. assert (PE : (prec < emax)%Z) by exact prec_lt_emax.
  assert (A : (Z.abs n <= 2 ^ prec)%Z).
  { apply le_IZR. rewrite abs_IZR. change 2%Z with (radix_val radix2). rewrite IZR_Zpower by lia. exact H. }
  apply generic_format_FLT. destruct (Z.eq_dec (Z.abs n) (2 ^ prec)) as [E|E].
  - assert (S : exists s : Z, n = (s * 2 ^ prec)%Z /\ Z.abs s = 1%Z).
    { destruct (Z.abs_eq_or_opp n) as [B|B]; [exists 1%Z|exists (-1)%Z]; split; lia. }
    destruct S as (s & -> & AS). exists (Float radix2 s prec).
    + unfold F2R. cbn [Fnum Fexp]. rewrite mult_IZR. f_equal. change 2%Z with (radix_val radix2). now rewrite IZR_Zpower by lia.
    + cbn [Fnum]. rewrite AS. change (1 < 2 ^ prec)%Z. apply Z.pow_gt_1; lia.
    + cbn [Fexp]. unfold SpecFloat.emin. lia.
  - exists (Float radix2 n 0).
    + unfold F2R. cbn. ring.
    + cbn [Fnum]. change (Z.abs n < 2 ^ prec)%Z. lia.
    + cbn [Fexp]. unfold SpecFloat.emin. lia.
Qed.
Lemma whole_add (x y : float) : whole x -> whole y -> Rabs (B2R x) + Rabs (B2R y) <= bpow radix2 prec ->
  whole (Bplus mode_NE x y) /\ B2R (Bplus mode_NE x y) = B2R x + B2R y.
Proof.
  intros [FX (m & EX)] [FY (n & EY)] B. pose proof (Bplus_correct prec emax prec_gt_0 prec_lt_emax mode_NE x y FX FY) as C.
  assert (PE : (prec < emax)%Z) by exact prec_lt_emax.
  assert (S : B2R x + B2R y = IZR (m + n)) by (rewrite plus_IZR; congruence).
  assert (A : Rabs (IZR (m + n)) <= bpow radix2 prec) by (rewrite <- S; eapply Rle_trans; [apply Rabs_triang|exact B]).
  rewrite S in C. rewrite round_generic in C; [|apply valid_rnd_round_mode|now apply whole_format].
  rewrite Rlt_bool_true in C; [|eapply Rle_lt_trans; [exact A|]; now apply bpow_lt].
  destruct C as (V & F & _). split; [|congruence]. split; [exact F|]. now exists (m + n)%Z.
Qed.
Lemma sum_abs_app_le (a b : list float) : sum_abs a <= sum_abs (a ++ b) /\ sum_abs b <= sum_abs (a ++ b).
Proof. rewrite abs_app. pose proof (sum_abs_pos a). pose proof (sum_abs_pos b). lra. Qed.
Lemma whole_app (a b : list float) : whole_numbers (a ++ b) -> whole_numbers a /\ whole_numbers b.
Proof.
  intros [W B]. destruct (sum_abs_app_le a b). split; (split; [intros v Hv; apply W, in_or_app; tauto|lra]).
Qed.
Lemma whole_join (l1 l2 : list float) a b : whole_numbers (l1 ++ l2) -> whole a /\ B2R a = exact_sum l1 -> whole b /\ B2R b = exact_sum l2 ->
  whole (Bplus mode_NE a b) /\ B2R (Bplus mode_NE a b) = exact_sum (l1 ++ l2).
Proof.
  intros [_ B] [WA EA] [WB EB]. destruct (whole_add a b WA WB) as [W E].
  - rewrite EA, EB. pose proof (exact_le l1). pose proof (exact_le l2). rewrite abs_app in B. lra.
  - split; [exact W|]. rewrite E, EA, EB. symmetry. apply exact_app.
Qed.
Lemma tree_whole (t : sum_tree float) : whole_numbers (leaves t) -> whole (tree_sum t) /\ B2R (tree_sum t) = exact_sum (leaves t).
Proof.
  induction t as [x|a IHa b IHb]; intros W; cbn [leaves tree_sum] in *.
  - split; [apply W; now left|]. unfold exact_sum, rsum. cbn [map fold_right]. ring.
  - destruct (whole_app _ _ W) as [WA WB]. apply whole_join; auto.
Qed.

Section Nodata.
Variable nodata : float.
Variable order : list float -> sum_tree float.
Hypothesis order_ok : forall l, l <> [] -> Permutation (leaves (order l)) l.
Notation missing := (smissing nodata).
Notation valid := (valid missing).
Notation paint := (paint_fsum nodata order).

Lemma missing_nodata : missing nodata = true.
Proof.
  unfold smissing. destruct nodata as [s|s| |s m e B]; try reflexivity; cbn [is_nan].
  - now destruct s.
  - rewrite Beqb_correct by reflexivity. now apply Req_bool_true.
Qed.
Definition filled (l : list float) : list float := map (fun v => if missing v then B754_zero false else v) l.
Lemma filled_exact l : exact_sum (filled l) = exact_sum (valid l).
Proof.
  unfold exact_sum, rsum, filled, MosaicSpec.valid. induction l as [|x l IH]; [reflexivity|]. cbn [map fold_right filter].
  destruct (missing x); cbn [negb map fold_right B2R]; rewrite IH; [ring|reflexivity].
Qed.
Lemma filled_abs l : sum_abs (filled l) = sum_abs (valid l).
Proof.
  unfold sum_abs, rsum, filled, MosaicSpec.valid. induction l as [|x l IH]; [reflexivity|]. cbn [map fold_right filter].
  destruct (missing x); cbn [negb map fold_right B2R]; rewrite IH; [rewrite Rabs_R0; ring|reflexivity].
Qed.
Lemma filled_finite l : (forall v, In v (valid l) -> is_finite v = true) -> forall v, In v (filled l) -> is_finite v = true.
Proof.
  intros F v Hv. unfold filled in Hv. apply in_map_iff in Hv. destruct Hv as (w & <- & Hw). destruct (missing w) eqn:M; [reflexivity|].
  apply F, valid_in. now split.
Qed.
Definition fine (l : list float) : Prop :=
  (forall v, In v (valid l) -> is_finite v = true) /\ no_overflow (length l - 1) (valid l).
Definition good (l : list float) (v : float) : Prop :=
  (valid l = [] -> v = nodata) /\ (valid l <> [] -> sum_within (length l - 1) (valid l) v).
Lemma paint_good l : l <> [] -> exists v, paint l = Ok v /\ (fine l -> good l v).
Proof.
  intros N. unfold paint_fsum. eexists. split; [reflexivity|]. intros [F NO]. fold (filled l).
  destruct (forallb missing l) eqn:A.
  - assert (V : valid l = []) by (apply valid_nil; now apply forallb_forall). split; [reflexivity|intros C; contradiction].
  - split.
    + intros V. exfalso. rewrite (proj2 (forallb_forall missing l)) in A; [discriminate|]. now apply valid_nil.
    + intros _. assert (NF : filled l <> []) by (destruct l; [congruence|discriminate]).
      pose proof (order_ok (filled l) NF) as P. pose proof (Permutation_length P) as PL.
      assert (LF : length (filled l) = length l) by apply map_length.
      assert (W : sum_within (length (leaves (order (filled l))) - 1) (leaves (order (filled l))) (tree_sum (order (filled l)))).
      { apply tree_within.
        - intros v Hv. apply (filled_finite l F). eapply Permutation_in; [exact P|exact Hv].
        - unfold no_overflow. rewrite (abs_perm _ _ P), filled_abs, PL, LF. exact NO. }
      destruct W as [FW EW]. split; [exact FW|]. rewrite (exact_perm _ _ P), (abs_perm _ _ P), filled_exact, filled_abs, PL, LF in EW. exact EW.
Qed.

Definition exactly (l : list float) (v : float) : Prop :=
  (valid l = [] -> v = nodata) /\ (valid l <> [] -> whole v /\ B2R v = exact_sum (valid l)).
Lemma filled_whole l : whole_numbers (valid l) -> whole_numbers (filled l).
Proof.
  intros [W B]. split; [|now rewrite filled_abs]. intros v Hv. unfold filled in Hv. apply in_map_iff in Hv. destruct Hv as (w & <- & Hw).
  destruct (missing w) eqn:M; [split; [reflexivity|now exists 0%Z]|]. apply W, valid_in. now split.
Qed.
Lemma paint_exact l : l <> [] -> exists v, paint l = Ok v /\ (whole_numbers (valid l) -> exactly l v).
Proof.
  intros N. unfold paint_fsum. eexists. split; [reflexivity|]. intros W. fold (filled l).
  destruct (forallb missing l) eqn:A.
  - assert (V : valid l = []) by (apply valid_nil; now apply forallb_forall). split; [reflexivity|intros C; contradiction].
  - split.
    + intros V. exfalso. rewrite (proj2 (forallb_forall missing l)) in A; [discriminate|]. now apply valid_nil.
    + intros _. assert (NF : filled l <> []) by (destruct l; [congruence|discriminate]).
      pose proof (order_ok (filled l) NF) as P. destruct (filled_whole l W) as [FW FB].
      destruct (tree_whole (order (filled l))) as [TW TE].
      { split; [intros v Hv; apply FW; eapply Permutation_in; [exact P|exact Hv]|]. now rewrite (abs_perm _ _ P). }
      split; [exact TW|]. now rewrite TE, (exact_perm _ _ P), filled_exact.
Qed.

(* a null value that no sum reaches *)
Hypothesis nodata_special : is_finite nodata = false.
Lemma finite_valid v : is_finite v = true -> missing v = false.
Proof.
  unfold smissing. destruct nodata as [s|s| |s m e B]; try discriminate; destruct v as [s'|s'| |s' m' e' B']; try discriminate; try reflexivity; intros _; cbn; now destruct s.
Qed.
Lemma fine_app l1 l2 : l1 <> [] -> l2 <> [] -> fine (l1 ++ l2) -> fine l1 /\ fine l2.
Proof.
  intros N1 N2 [F NO]. rewrite valid_app in *. rewrite app_length in NO.
  pose proof (sum_abs_pos (valid l1)). pose proof (sum_abs_pos (valid l2)).
  split; split.
  - intros v Hv. apply F, in_or_app. now left.
  - eapply no_overflow_le; [| |exact NO]; [lia|]. rewrite abs_app. lra.
  - intros v Hv. apply F, in_or_app. now right.
  - eapply no_overflow_le; [| |exact NO]; [lia|]. rewrite abs_app. lra.
Qed.
Definition P (l : list float) (v : float) : Prop := l <> [] /\ (fine l -> good l v).
Lemma P_paint l : l <> [] -> exists v, paint l = Ok v /\ P l v.
Proof. intros N. destruct (paint_good l N) as (v & E & G). exists v. split; [exact E|]. now split. Qed.
Lemma valid_pair a b : valid [a; b] = (if missing a then [] else [a]) ++ (if missing b then [] else [b]).
Proof. unfold MosaicSpec.valid. cbn [filter]. destruct (missing a), (missing b); reflexivity. Qed.
Lemma good_missing l v : good l v -> (valid l = [] /\ missing v = true) \/ (valid l <> [] /\ missing v = false /\ sum_within (length l - 1) (valid l) v).
Proof.
  intros [G1 G2]. destruct (valid l) as [|x t] eqn:E.
  - left. split; [reflexivity|]. rewrite G1 by reflexivity. apply missing_nodata.
  - right. split; [discriminate|]. specialize (G2 ltac:(discriminate)). split; [|exact G2]. apply finite_valid, G2.
Qed.
Lemma within_one (v : float) : is_finite v = true -> sum_within 0 [v] v.
Proof. intros F. split; [exact F|]. unfold exact_sum, sum_abs, rsum. cbn [map fold_right pow]. rewrite Rplus_0_r, Rminus_eq_0, Rabs_R0. lra. Qed.
Lemma abs_one (v : float) : sum_abs [v] = Rabs (B2R v).
Proof. unfold sum_abs, rsum. cbn [map fold_right]. ring. Qed.
Lemma P_join l1 l2 a b v : P l1 a -> P l2 b -> P [a; b] v -> P (l1 ++ l2) v.
Proof.
  intros [N1 G1] [N2 G2] [_ G]. split; [destruct l1; [congruence|discriminate]|]. intros FI.
  destruct (fine_app l1 l2 N1 N2 FI) as [F1 F2]. specialize (G1 F1). specialize (G2 F2). destruct FI as [F NO].
  assert (L1 : (1 <= length l1)%nat) by (destruct l1; [congruence|cbn; lia]). assert (L2 : (1 <= length l2)%nat) by (destruct l2; [congruence|cbn; lia]).
  rewrite valid_app, app_length in NO. unfold good. rewrite valid_app, app_length.
  pose proof (sum_abs_pos (valid l1)) as P1. pose proof (sum_abs_pos (valid l2)) as P2.
  pose proof u_pos as UP. pose proof (pow_ge1 (length l1 + length l2 - 2)) as Q1.
  assert (PS : (1 + u) ^ (length l1 + length l2 - 1) = (1 + u) * (1 + u) ^ (length l1 + length l2 - 2)).
  { replace (length l1 + length l2 - 1)%nat with (S (length l1 + length l2 - 2)) by lia. reflexivity. }
  pose proof (pow_mono (length l1 - 1) (length l1 + length l2 - 2) ltac:(lia)) as M1.
  pose proof (pow_mono (length l2 - 1) (length l1 + length l2 - 2) ltac:(lia)) as M2.
  destruct (good_missing l1 a G1) as [[V1 MA]|(V1 & MA & W1)]; destruct (good_missing l2 b G2) as [[V2 MB]|(V2 & MB & W2)].
  - (* nothing on either side *)
    assert (FP : fine [a; b]).
    { split; rewrite valid_pair, MA, MB; [intros x []|]. unfold no_overflow, sum_abs, rsum. cbn [map fold_right app]. rewrite Rmult_0_r. apply bpow_gt_0. }
    specialize (G FP). unfold good in G. rewrite valid_pair, MA, MB in G. rewrite V1, V2. cbn [app] in *. split; [intros _; apply G; reflexivity|congruence].
  - assert (FP : fine [a; b]).
    { split; rewrite valid_pair, MA, MB; cbn [app]; [intros x [<-|[]]; apply W2|]. unfold no_overflow. rewrite abs_one. cbn [length Nat.sub]. rewrite pow_1.
      pose proof (within_abs _ _ _ W2). rewrite V1 in NO. cbn [app] in NO. eapply Rle_lt_trans; [|exact NO]. rewrite PS, Rmult_assoc. apply Rmult_le_compat_l; [lra|]. nra. }
    specialize (G FP). destruct (good_missing _ _ G) as [[C _]|(_ & _ & W)]; [rewrite valid_pair, MA, MB in C; discriminate|].
    rewrite valid_pair, MA, MB in W. cbn [app length Nat.sub] in W. rewrite V1. cbn [app]. split; [congruence|]. intros _.
    destruct W as [FW EW]. split; [exact FW|]. unfold exact_sum at 1, rsum in EW. cbn [map fold_right] in EW. rewrite abs_one, pow_1, Rplus_0_r in EW.
    assert (Z0 : sum_within 0 [] (B754_zero false : float)).
    { split; [reflexivity|]. unfold exact_sum, sum_abs, rsum. cbn. rewrite Rminus_eq_0, Rabs_R0. lra. }
    pose proof (join_error 0 (length l2 - 1) [] (valid l2) (B754_zero false) b (B2R v) Z0 W2) as J. cbn [app B2R Nat.max] in J. rewrite Rplus_0_l in J.
    specialize (J ltac:(lra)). eapply Rle_trans; [exact J|]. apply Rmult_le_compat_r; [exact P2|]. pose proof (pow_mono (S (length l2 - 1)) (length l1 + length l2 - 1) ltac:(lia)). lra.
  - assert (FP : fine [a; b]).
    { split; rewrite valid_pair, MA, MB; cbn [app]; [intros x [<-|[]]; apply W1|]. unfold no_overflow. rewrite abs_one. cbn [length Nat.sub]. rewrite pow_1.
      pose proof (within_abs _ _ _ W1). rewrite V2, app_nil_r in NO. eapply Rle_lt_trans; [|exact NO]. rewrite PS, Rmult_assoc. apply Rmult_le_compat_l; [lra|]. nra. }
    specialize (G FP). destruct (good_missing _ _ G) as [[C _]|(_ & _ & W)]; [rewrite valid_pair, MA, MB in C; discriminate|].
    rewrite valid_pair, MA, MB in W. cbn [app length Nat.sub] in W. rewrite V2, app_nil_r. split; [congruence|]. intros _.
    destruct W as [FW EW]. split; [exact FW|]. unfold exact_sum at 1, rsum in EW. cbn [map fold_right] in EW. rewrite abs_one, pow_1, Rplus_0_r in EW.
    assert (Z0 : sum_within 0 [] (B754_zero false : float)).
    { split; [reflexivity|]. unfold exact_sum, sum_abs, rsum. cbn. rewrite Rminus_eq_0, Rabs_R0. lra. }
    pose proof (join_error (length l1 - 1) 0 (valid l1) [] a (B754_zero false) (B2R v) W1 Z0) as J. rewrite app_nil_r in J. cbn [B2R] in J. rewrite Rplus_0_r in J.
    specialize (J ltac:(lra)). eapply Rle_trans; [exact J|]. apply Rmult_le_compat_r; [exact P1|]. pose proof (pow_mono (S (Nat.max (length l1 - 1) 0)) (length l1 + length l2 - 1) ltac:(lia)). lra.
  - assert (FP : fine [a; b]).
    { split; rewrite valid_pair, MA, MB; cbn [app]; [intros x [<-|[<-|[]]]; [apply W1|apply W2]|]. unfold no_overflow.
      change [a; b] with ([a] ++ [b]). rewrite abs_app, !abs_one. cbn [length app Nat.sub]. rewrite pow_1.
      pose proof (within_abs _ _ _ W1). pose proof (within_abs _ _ _ W2). eapply Rle_lt_trans; [|exact NO]. rewrite abs_app, PS, Rmult_assoc. apply Rmult_le_compat_l; [lra|]. nra. }
    specialize (G FP). destruct (good_missing _ _ G) as [[C _]|(_ & _ & W)]; [rewrite valid_pair, MA, MB in C; discriminate|].
    rewrite valid_pair, MA, MB in W. cbn [app length Nat.sub] in W. split; [intros C; apply app_eq_nil in C; now destruct C|]. intros _.
    destruct W as [FW EW]. split; [exact FW|]. unfold exact_sum at 1, rsum in EW. cbn [map fold_right] in EW.
    change [a; b] with ([a] ++ [b]) in EW. rewrite abs_app, !abs_one, pow_1, Rplus_0_r in EW.
    (* the error is relative to |a| + |b| here *)
    destruct W1 as [_ W1]. destruct W2 as [_ W2]. pose proof (exact_le (valid l1)) as E1. pose proof (exact_le (valid l2)) as E2.
    rewrite exact_app, abs_app. set (s1 := exact_sum (valid l1)) in *. set (s2 := exact_sum (valid l2)) in *.
    set (t1 := sum_abs (valid l1)) in *. set (t2 := sum_abs (valid l2)) in *. set (x := B2R a) in *. set (y := B2R b) in *.
    rewrite PS. set (q := (1 + u) ^ (length l1 + length l2 - 2)) in *.
    assert (D1 : Rabs (x - s1) <= (q - 1) * t1) by (eapply Rle_trans; [exact W1|]; nra).
    assert (D2 : Rabs (y - s2) <= (q - 1) * t2) by (eapply Rle_trans; [exact W2|]; nra).
    assert (AX : Rabs x <= q * t1) by (replace x with ((x - s1) + s1) by ring; eapply Rle_trans; [apply Rabs_triang|]; lra).
    assert (AY : Rabs y <= q * t2) by (replace y with ((y - s2) + s2) by ring; eapply Rle_trans; [apply Rabs_triang|]; lra).
    replace (B2R v - (s1 + s2)) with ((B2R v - (x + y)) + ((x - s1) + (y - s2))) by ring.
    eapply Rle_trans; [apply Rabs_triang|]. eapply Rle_trans; [apply Rplus_le_compat_l; apply Rabs_triang|].
    assert ((1 + u - 1) * (Rabs x + Rabs y) <= u * (q * (t1 + t2))) by nra. lra.
Qed.

Definition PE (l : list float) (v : float) : Prop := whole_numbers (valid l) -> exactly l v.
Lemma PE_paint l : l <> [] -> exists v, paint l = Ok v /\ PE l v.
Proof. exact (paint_exact l). Qed.
Lemma exactly_missing l v : exactly l v -> (valid l = [] /\ missing v = true) \/ (valid l <> [] /\ missing v = false /\ whole v /\ B2R v = exact_sum (valid l)).
Proof.
  intros [G1 G2]. destruct (valid l) as [|x t] eqn:E.
  - left. split; [reflexivity|]. rewrite G1 by reflexivity. apply missing_nodata.
  - right. split; [discriminate|]. destruct (G2 ltac:(discriminate)) as [W V]. split; [apply finite_valid, W|]. now split.
Qed.
Lemma exact_one (v : float) : exact_sum [v] = B2R v.
Proof. unfold exact_sum, rsum. cbn [map fold_right]. ring. Qed.
Lemma PE_join l1 l2 a b v : PE l1 a -> PE l2 b -> PE [a; b] v -> PE (l1 ++ l2) v.
Proof.
  intros G1 G2 G W. unfold exactly. rewrite valid_app in *. destruct (whole_app _ _ W) as [W1 W2].
  specialize (G1 W1). specialize (G2 W2). unfold PE in G.
  pose proof (exact_le (valid l1)) as X1. pose proof (exact_le (valid l2)) as X2. destruct W as [_ B]. destruct W1 as [_ B1]. destruct W2 as [_ B2]. rewrite abs_app in B.
  assert (KEY : whole_numbers (valid [a; b]) /\ exact_sum (valid [a; b]) = exact_sum (valid l1) + exact_sum (valid l2)
     /\ (valid [a; b] = [] <-> valid l1 = [] /\ valid l2 = [])).
  { rewrite valid_pair. destruct (exactly_missing l1 a G1) as [[V1 MA]|(V1 & MA & WA & EA)]; destruct (exactly_missing l2 b G2) as [[V2 MB]|(V2 & MB & WB & EB)]; rewrite MA, MB; cbn [app].
    - rewrite V1, V2. split; [split; [intros x []|unfold sum_abs, rsum; cbn; apply bpow_ge_0]|]. split; [unfold exact_sum, rsum; cbn; ring|tauto].
    - split; [split; [intros x [<-|[]]; exact WB|rewrite abs_one, EB; lra]|]. split; [rewrite exact_one, EB, V1; unfold exact_sum at 2, rsum; cbn; ring|split; [discriminate|intros [_ C]; contradiction]].
    - split; [split; [intros x [<-|[]]; exact WA|rewrite abs_one, EA; lra]|]. split; [rewrite exact_one, EA, V2; unfold exact_sum at 3, rsum; cbn; ring|split; [discriminate|intros [C _]; contradiction]].
    - split; [split; [intros x [<-|[<-|[]]]; assumption|]|split; [|split; [discriminate|intros [C _]; contradiction]]].
      + change [a; b] with ([a] ++ [b]). rewrite abs_app, !abs_one, EA, EB. lra.
      + change [a; b] with ([a] ++ [b]). now rewrite exact_app, !exact_one, EA, EB. }
  destruct KEY as (WP & EP & NP). destruct (G WP) as [K1 K2]. rewrite exact_app. rewrite EP in K2. split.
  - intros C. apply app_eq_nil in C. apply K1. now apply NP.
  - intros N. apply K2. intros C. apply N. apply NP in C. destruct C as [-> ->]. reflexivity.
Qed.

Lemma valid_stack srcs : valid (rev srcs ++ [nodata]) = rev (valid srcs).
Proof.
  rewrite valid_app. unfold MosaicSpec.valid at 2. cbn [filter]. rewrite missing_nodata. cbn [negb]. rewrite app_nil_r.
  induction srcs as [|x l IH]; [reflexivity|]. cbn [rev]. rewrite valid_app, IH. unfold MosaicSpec.valid. cbn [filter]. destruct (missing x); cbn [negb rev]; [now rewrite app_nil_r|reflexivity].
Qed.
Definition summed (l : list float) (v : float) : Prop :=
  (forall v, In v (valid l) -> is_finite v = true) -> no_overflow (length l) (valid l) ->
  (missing v = true <-> valid l = []) /\ (valid l = [] -> v = nodata) /\ (valid l <> [] -> sum_within (length l) (valid l) v).
Theorem band_sum srcs : exists v, single_band nodata paint srcs = Ok v /\ summed srcs v.
Proof.
  destruct (single_band_ok paint P P_paint P_join nodata srcs) as (v & E & _ & G). exists v. split; [exact E|]. intros F NO.
  assert (LS : (length (rev srcs ++ [nodata]) - 1 = length srcs)%nat) by (rewrite app_length, rev_length; cbn; lia).
  assert (PR : Permutation (rev (valid srcs)) (valid srcs)) by (symmetry; apply Permutation_rev).
  assert (FI : fine (rev srcs ++ [nodata])).
  { split; rewrite valid_stack; [intros w Hw; apply F; now apply in_rev|]. unfold no_overflow. rewrite LS, (abs_perm _ _ PR). exact NO. }
  specialize (G FI). pose proof (good_missing _ _ G) as M. destruct G as [G1 G2]. rewrite valid_stack, LS in *.
  assert (EV : rev (valid srcs) = [] <-> valid srcs = []).
  { split; intros H; [|now rewrite H]. apply (f_equal (@rev _)) in H. now rewrite rev_involutive in H. }
  assert (W : valid srcs <> [] -> sum_within (length srcs) (valid srcs) v).
  { intros N. destruct G2 as [FW EW]; [now rewrite EV|]. split; [exact FW|]. now rewrite (exact_perm _ _ PR), (abs_perm _ _ PR) in EW. }
  split; [|split; [|exact W]].
  - destruct M as [[V MV]|(V & MV & _)]; [rewrite EV in V; tauto|]. rewrite EV in V. rewrite MV. split; [discriminate|contradiction].
  - intros V. apply G1. now rewrite V.
Qed.
Definition summed_exactly (l : list float) (v : float) : Prop :=
  whole_numbers (valid l) -> (missing v = true <-> valid l = []) /\ (valid l <> [] -> sum_exact (valid l) v).
Theorem band_exact srcs : exists v, single_band nodata paint srcs = Ok v /\ summed_exactly srcs v.
Proof.
  destruct (single_band_ok paint PE PE_paint PE_join nodata srcs) as (v & E & G). exists v. split; [exact E|]. intros [W B].
  assert (PR : Permutation (rev (valid srcs)) (valid srcs)) by (symmetry; apply Permutation_rev).
  unfold PE in G. assert (WS : whole_numbers (valid (rev srcs ++ [nodata]))).
  { rewrite valid_stack. split; [intros w Hw; apply W; now apply in_rev|]. now rewrite (abs_perm _ _ PR). }
  pose proof (exactly_missing _ _ (G WS)) as M. rewrite valid_stack in M.
  assert (EV : rev (valid srcs) = [] <-> valid srcs = []).
  { split; intros H; [|now rewrite H]. apply (f_equal (@rev _)) in H. now rewrite rev_involutive in H. }
  rewrite EV in M. destruct M as [[V MV]|(V & MV & [F _] & X)]; rewrite MV.
  - split; [tauto|intros C; contradiction].
  - split; [split; [discriminate|contradiction]|]. intros _. split; [exact F|]. now rewrite X, (exact_perm _ _ PR).
Qed.
Theorem bands_exact srcs : srcs <> [] -> exists out, mosaic_fsum nodata order srcs = Ok out /\ is_nbands srcs (length out)
  /\ forall i v, nth_error out i = Some v -> summed_exactly (band_values nodata srcs i) v.
Proof. intros N. apply (mosaic_bands nodata paint summed_exactly (fun _ => True)); auto. intros l _. apply band_exact. Qed.
Theorem bands_sum srcs : srcs <> [] -> exists out, mosaic_fsum nodata order srcs = Ok out /\ is_nbands srcs (length out)
  /\ forall i v, nth_error out i = Some v -> summed (band_values nodata srcs i) v.
Proof. intros N. apply (mosaic_bands nodata paint summed (fun _ => True)); auto. intros l _. apply band_sum. Qed.
End Nodata.

(* few rasters, any null value *)
Theorem few_sum nodata order srcs : (forall l, l <> [] -> Permutation (leaves (order l)) l) -> (length srcs <= 6)%nat ->
  exists v, single_band nodata (paint_fsum nodata order) srcs = Ok v
  /\ ((forall v, In v (valid (smissing nodata) srcs) -> is_finite v = true) -> no_overflow (length srcs) (valid (smissing nodata) srcs) ->
      (valid (smissing nodata) srcs = [] -> v = nodata) /\ (valid (smissing nodata) srcs <> [] -> sum_within (length srcs) (valid (smissing nodata) srcs) v)).
Proof.
  intros O L. rewrite single_band_short by exact L. destruct (paint_good nodata order O (rev srcs ++ [nodata])) as (v & E & G).
  { destruct (rev srcs); discriminate. }
  exists v. split; [exact E|]. intros F NO.
  assert (LS : (length (rev srcs ++ [nodata]) - 1 = length srcs)%nat) by (rewrite app_length, rev_length; cbn; lia).
  set (ok := valid (smissing nodata) srcs) in *. assert (PR : Permutation (rev ok) ok) by (symmetry; apply Permutation_rev).
  assert (VS : valid (smissing nodata) (rev srcs ++ [nodata]) = rev ok) by apply valid_stack.
  assert (FI : fine nodata (rev srcs ++ [nodata])).
  { split; rewrite VS; [intros w Hw; apply F; now apply in_rev|]. unfold no_overflow. rewrite LS, (abs_perm _ _ PR). exact NO. }
  destruct (G FI) as [G1 G2]. rewrite VS, LS in *. split.
  - intros V. apply G1. now rewrite V.
  - intros N. destruct G2 as [FW EW]; [intros C; apply N; apply (f_equal (@rev _)) in C; now rewrite rev_involutive in C|].
    split; [exact FW|]. now rewrite (exact_perm _ _ PR), (abs_perm _ _ PR) in EW.
Qed.
End Floats.

Theorem missing_null prec emax (nodata v : binary_float prec emax) : smissing nodata v = true <-> is_null_value nodata v.
Proof.
  unfold smissing, is_null_value. split.
  - intros H. destruct (is_nan nodata) eqn:N.
    + destruct nodata; try discriminate N. destruct v; try discriminate H. now left.
    + destruct v as [s|s| |s m e B], nodata as [s'|s'| |s' m' e' B']; try discriminate N; try discriminate H; try (destruct s'; discriminate H); try (destruct s; discriminate H).
      * right. now exists s, s'.
      * left. destruct s, s'; now try discriminate H.
      * left. rewrite Beqb_correct in H by reflexivity. apply B2R_inj; try reflexivity. revert H. case Req_bool_spec; [auto|discriminate].
  - intros [->|(s & s' & -> & ->)].
    + destruct nodata as [s|s| |s m e B]; try reflexivity; cbn [is_nan]; [now destruct s|]. rewrite Beqb_correct by reflexivity. now apply Req_bool_true.
    + reflexivity.
Qed.
