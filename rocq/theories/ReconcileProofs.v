From Coq Require Import QArith Qabs Qpower Lqa.
From Verif Require Import Base BaseFacts Scalars Dtypes Reconcile ReconcileSpec.
From Coq Require Import ZifyBool.
Open Scope Z_scope.

(* ---- powers of two ---- *)
Notation two e := (Qpower (2 # 1) e).
Lemma two_pos e : (0 < two e)%Q. Proof. apply Qpower_0_lt. reflexivity. Qed.
Lemma two_Z e : 0 <= e -> (two e == inject_Z (2 ^ e))%Q.
Proof. intros H. symmetry. change (2 # 1)%Q with (inject_Z 2). now apply Zpower_Qpower. Qed.
Lemma two_plus a b : (two (a + b) == two a * two b)%Q. Proof. apply Qpower_plus. discriminate. Qed.
Lemma two_opp e : (two e * two (- e) == 1)%Q. Proof. rewrite <- two_plus. replace (e + - e) with 0 by lia. reflexivity. Qed.
Lemma pow2_two e : (pow2 e == two e)%Q.
Proof.
  unfold pow2. destruct (0 <=? e) eqn:E; [symmetry; apply two_Z; lia|].
  pose proof (two_opp e) as O. rewrite (two_Z (- e)) in O by lia. assert (P : 0 < 2 ^ (- e)) by (apply Z.pow_pos_nonneg; lia).
  assert (I : (0 < inject_Z (2 ^ - e))%Q) by (change 0%Q with (inject_Z 0); rewrite <- Zlt_Qlt; exact P).
  assert (R : ((1 # Z.to_pos (2 ^ - e)) * inject_Z (2 ^ - e) == 1)%Q).
  { unfold Qeq, Qmult, inject_Z; cbn [Qnum Qden]. rewrite Pos.mul_1_r, Z2Pos.id by lia. lia. }
  apply (Qmult_inj_r _ _ (inject_Z (2 ^ - e))); [intros K; rewrite K in I; discriminate|]. now rewrite R, O.
Qed.
Lemma two_le a b : a <= b -> (two a <= two b)%Q.
Proof.
  intros H. replace b with (a + (b - a)) by lia. rewrite two_plus. pose proof (two_pos a). rewrite (two_Z (b - a)) by lia.
  assert (1 <= inject_Z (2 ^ (b - a)))%Q. { change 1%Q with (inject_Z 1). rewrite <- Zle_Qle. pose proof (Z.pow_pos_nonneg 2 (b - a)). lia. }
  nra.
Qed.
Lemma two_lt_inv a b : (two a < two b)%Q -> a < b.
Proof. intros H. destruct (Z.lt_ge_cases a b) as [L|L]; [exact L|]. pose proof (two_le b a L). lra. Qed.

(* ---- n / m against 2 ^ e ---- *)
Definition q_of (n m : Z) : Q := (inject_Z n / inject_Z m)%Q.
Lemma inj_pos m : 0 < m -> (0 < inject_Z m)%Q. Proof. intros H. change 0%Q with (inject_Z 0). now rewrite <- Zlt_Qlt. Qed.
Lemma q_of_q q : (q == q_of (Qnum q) (Zpos (Qden q)))%Q.
Proof. destruct q as [n d]. unfold q_of, Qdiv, Qinv, inject_Z, Qmult, Qeq. cbn [Qnum Qden]. lia. Qed.
Lemma ratio_pos n m e : 0 < m -> 0 < snd (ratio n m e).
Proof. intros H. unfold ratio. destruct (0 <=? e) eqn:E; cbn [snd]; [|exact H]. apply Z.mul_pos_pos; [exact H|apply Z.pow_pos_nonneg; lia]. Qed.
Lemma ratio_q n m e : 0 < m -> let '(a, b) := ratio n m e in (q_of n m == q_of a b * two e)%Q.
Proof.
  intros H. unfold ratio, q_of. pose proof (inj_pos m H) as Pm. pose proof (two_pos e) as Pe. destruct (0 <=? e) eqn:E.
  - rewrite inject_Z_mult, <- (two_Z e) by lia. field. split; lra.
  - rewrite inject_Z_mult, <- (two_Z (- e)) by lia. pose proof (two_opp e) as O. transitivity (inject_Z n / inject_Z m * (two e * two (- e)))%Q; [rewrite O; field; lra|field; lra].
Qed.
Lemma q_of_le n m c : 0 < m -> (inject_Z c * inject_Z m <= inject_Z n)%Q <-> (inject_Z c <= q_of n m)%Q.
Proof.
  intros H. pose proof (inj_pos m H) as P. unfold q_of. split; intros L; [now apply Qle_shift_div_l|].
  apply (Qmult_le_compat_r _ _ (inject_Z m)) in L; [|lra]. unfold Qdiv in L. rewrite <- Qmult_assoc in L. setoid_replace (/ inject_Z m * inject_Z m)%Q with 1%Q in L by (field; lra). lra.
Qed.
Lemma q_of_1 a b : 0 < b -> b <= a <-> (1 <= q_of a b)%Q.
Proof. intros H. change 1%Q with (inject_Z 1). rewrite <- q_of_le by exact H. rewrite <- inject_Z_mult, <- Zle_Qle. lia. Qed.
Lemma ratio_le n m e : 0 < m -> let '(a, b) := ratio n m e in b <= a <-> (two e <= q_of n m)%Q.
Proof.
  intros H. pose proof (ratio_pos n m e H) as P. pose proof (ratio_q n m e H) as R. destruct (ratio n m e) as [a b]. cbn [snd] in P.
  rewrite q_of_1 by exact P. rewrite R. pose proof (two_pos e). split; intros L; nra.
Qed.
Lemma log2_q n : 0 < n -> (two (Z.log2 n) <= inject_Z n < two (Z.log2 n + 1))%Q.
Proof.
  intros H. pose proof (Z.log2_spec n H) as [L1 L2]. pose proof (Z.log2_nonneg n). rewrite !two_Z by lia. rewrite <- Zle_Qle, <- Zlt_Qlt. split; [exact L1|]. now rewrite <- Z.add_1_r in L2.
Qed.
Lemma exponent_spec n m : n <> 0 -> 0 < m -> (two (exponent n m) <= q_of (Z.abs n) m < two (exponent n m + 1))%Q.
Proof.
  intros Hn Hm. unfold exponent. set (k := Z.log2 (Z.abs n) - Z.log2 m). pose proof (log2_q (Z.abs n) ltac:(lia)) as [A1 A2]. pose proof (log2_q m Hm) as [B1 B2].
  pose proof (inj_pos m Hm) as Pm.
  assert (U : (q_of (Z.abs n) m < two (k + 1))%Q).
  { unfold q_of. apply Qlt_shift_div_r; [exact Pm|]. eapply Qlt_le_trans; [exact A2|].
    replace (Z.log2 (Z.abs n) + 1) with ((k + 1) + Z.log2 m) by (unfold k; lia). rewrite two_plus. apply Qmult_le_l; [apply two_pos|exact B1]. }
  assert (L : (two (k - 1) <= q_of (Z.abs n) m)%Q).
  { unfold q_of. apply Qle_shift_div_l; [exact Pm|]. eapply Qle_trans; [|exact A1].
    replace (Z.log2 (Z.abs n)) with ((k - 1) + (Z.log2 m + 1)) by (unfold k; lia). rewrite (two_plus (k - 1)). apply Qmult_le_l; [apply two_pos|]. lra. }
  pose proof (ratio_le (Z.abs n) m k Hm) as R. destruct (ratio (Z.abs n) m k) as [a b]. destruct (b <=? a) eqn:E.
  - split; [apply R; lia|exact U].
  - split; [exact L|]. replace (k - 1 + 1) with k by lia. apply Qnot_le_lt. intros K. apply R in K. lia.
Qed.
Lemma round_half_even_spec a b : 0 < b -> - b <= 2 * (a - b * round_half_even a b) <= b.
Proof.
  intros H. unfold round_half_even. pose proof (Z.div_mod a b ltac:(lia)) as D. pose proof (Z.mod_pos_bound a b H) as M. set (f := a / b) in *. set (r := a mod b) in *.
  destruct (2 * r <? b) eqn:E1; [lia|]. destruct (b <? 2 * r) eqn:E2; [lia|]. destruct (Z.even f); lia.
Qed.
Lemma round_half_even_tie a b : 0 < b -> Z.abs (2 * (a - b * round_half_even a b)) = b -> Z.even (round_half_even a b) = true.
Proof.
  intros H. unfold round_half_even. pose proof (Z.div_mod a b ltac:(lia)) as D. pose proof (Z.mod_pos_bound a b H) as M. set (f := a / b) in *. set (r := a mod b) in *.
  destruct (2 * r <? b) eqn:E1; [lia|]. destruct (b <? 2 * r) eqn:E2; [lia|]. destruct (Z.even f) eqn:Ev; [intros _; exact Ev|]. intros _. now rewrite Z.even_add, Ev.
Qed.
Lemma round_half_even_le a b c : 0 < b -> a <= c * b -> round_half_even a b <= c.
Proof. intros H L. pose proof (round_half_even_spec a b H). nia. Qed.
Lemma round_half_even_ge a b c : 0 < b -> c * b <= a -> c <= round_half_even a b.
Proof. intros H L. pose proof (round_half_even_spec a b H). nia. Qed.

(* ---- rounding ---- *)
Lemma q_abs n m : 0 < m -> (Qabs (q_of n m) == q_of (Z.abs n) m)%Q.
Proof.
  intros H. unfold q_of. pose proof (inj_pos m H). unfold Qdiv. rewrite Qabs_Qmult. rewrite (Qabs_pos (/ inject_Z m)); [|apply Qlt_le_weak, Qinv_lt_0_compat; lra].
  reflexivity.
Qed.
Lemma abs_q q : (Qabs q == q_of (Z.abs (Qnum q)) (Zpos (Qden q)))%Q.
Proof. rewrite <- q_abs by lia. apply Qabs_wd, q_of_q. Qed.
Lemma round_error a b : 0 < b -> (Qabs (q_of a b - inject_Z (round_half_even a b)) <= 1 # 2)%Q.
Proof.
  intros H. pose proof (round_half_even_spec a b H) as [S1 S2]. pose proof (inj_pos b H) as P. set (r := round_half_even a b) in *.
  apply Qabs_Qle_condition.
  assert (E : (q_of a b - inject_Z r == inject_Z (a - b * r) / inject_Z b)%Q).
  { unfold q_of. unfold Z.sub. rewrite inject_Z_plus, inject_Z_opp, inject_Z_mult. field. lra. }
  rewrite E. rewrite Zle_Qle in S1, S2. rewrite inject_Z_mult in S1, S2. rewrite inject_Z_opp in S1. change (inject_Z 2) with 2%Q in S1, S2.
  split; [apply Qle_shift_div_l|apply Qle_shift_div_r]; lra.
Qed.
Lemma round_tie a b : 0 < b -> (Qabs (q_of a b - inject_Z (round_half_even a b)) == 1 # 2)%Q -> Z.even (round_half_even a b) = true.
Proof.
  intros H E. apply (round_half_even_tie a b H). pose proof (inj_pos b H) as P. set (r := round_half_even a b) in *.
  assert (F : (q_of a b - inject_Z r == q_of (a - b * r) b)%Q).
  { unfold q_of. unfold Z.sub. rewrite inject_Z_plus, inject_Z_opp, inject_Z_mult. field. lra. }
  rewrite F, q_abs in E by exact H. unfold q_of in E.
  assert (G : (inject_Z (Z.abs (a - b * r)) == (1 # 2) * inject_Z b)%Q) by (rewrite <- E; field; lra).
  assert (G2 : (inject_Z (2 * Z.abs (a - b * r)) == inject_Z b)%Q) by (rewrite inject_Z_mult, G; change (inject_Z 2) with 2%Q; ring).
  rewrite inject_Z_injective in G2. lia.
Qed.
Lemma float_p_spec d : float_p d = significand d. Proof. now destruct d. Qed.
Lemma float_emin_spec d : float_emin d = lowest d. Proof. now destruct d. Qed.
Lemma round_to_spec d v : rounded_to d v (round_to d v).
Proof.
  destruct v as [q| | |]; cbn [rounded_to round_to]; try reflexivity. destruct (Qnum q =? 0) eqn:E0.
  - exists (lowest d). split; [lia|]. split; [now left|]. pose proof (two_pos (lowest d)). assert (Z0 : (q == 0)%Q) by (unfold Qeq; cbn; lia). rewrite Z0. change (Qabs (0 - 0)) with 0%Q. split; [lra|]. exists 0. split; [change (inject_Z 0) with 0%Q; ring|reflexivity].
  - rewrite float_p_spec, float_emin_spec. set (e := Z.max (lowest d) (exponent (Qnum q) (Zpos (Qden q)) - (significand d - 1))).
    pose proof (ratio_pos (Qnum q) (Zpos (Qden q)) e ltac:(lia)) as P. pose proof (ratio_q (Qnum q) (Zpos (Qden q)) e ltac:(lia)) as R.
    destruct (ratio (Qnum q) (Zpos (Qden q)) e) as [a b]. cbn [snd] in P. exists e. split; [lia|]. split.
    + destruct (Z.max_spec (lowest d) (exponent (Qnum q) (Zpos (Qden q)) - (significand d - 1))) as [[_ K]|[_ K]]; fold e in K; [right|now left].
      replace (e + significand d - 1) with (exponent (Qnum q) (Zpos (Qden q))) by lia. rewrite abs_q. apply exponent_spec; lia.
    + rewrite <- q_of_q in R.
      assert (D : (Qabs (q - inject_Z (round_half_even a b) * pow2 e) == Qabs (q_of a b - inject_Z (round_half_even a b)) * two e)%Q).
      { rewrite R, pow2_two. setoid_replace (q_of a b * two e - inject_Z (round_half_even a b) * two e)%Q with ((q_of a b - inject_Z (round_half_even a b)) * two e)%Q by ring.
        rewrite Qabs_Qmult, (Qabs_pos (two e)) by (apply Qlt_le_weak, two_pos). reflexivity. }
      split; [rewrite D; apply Qmult_le_compat_r; [now apply round_error|apply Qlt_le_weak, two_pos]|].
      exists (round_half_even a b). split; [now rewrite pow2_two|]. intros T. apply round_tie; [exact P|]. rewrite D in T. apply Qmult_inj_r in T; [exact T|]. intros K. apply (Qlt_not_eq _ _ (two_pos e)). now symmetry.
Qed.
Lemma round_to_value d q : is_float_dtype d = true -> (Qabs q <= inject_Z (2 ^ significand d - 1) * two (highest d))%Q -> value_of d (round_to d (Fin q)).
Proof.
  intros F B. cbn [round_to]. assert (Hp : 1 < significand d) by (destruct d; cbn; lia). assert (HH : lowest d < highest d) by (destruct d; cbn; lia). pose proof (Z.pow_pos_nonneg 2 (significand d) ltac:(lia) ltac:(lia)) as PP.
  destruct (Qnum q =? 0) eqn:E0.
  - cbn [value_of]. rewrite F. exists 0, (lowest d). split; [lia|]. split; [lia|]. change (inject_Z 0) with 0%Q. ring.
  - rewrite float_p_spec, float_emin_spec. set (k := exponent (Qnum q) (Zpos (Qden q))). set (e := Z.max (lowest d) (k - (significand d - 1))).
    pose proof (exponent_spec (Qnum q) (Zpos (Qden q)) ltac:(lia) ltac:(lia)) as [K1 K2]. fold k in K1, K2.
    assert (KH : k - (significand d - 1) <= highest d).
    { assert (two k < two (significand d + highest d))%Q.
      { eapply Qle_lt_trans; [exact K1|]. rewrite <- abs_q. eapply Qle_lt_trans; [exact B|]. rewrite two_plus. rewrite (two_Z (significand d)) by lia. apply Qmult_lt_r; [apply two_pos|]. rewrite <- Zlt_Qlt. lia. }
      apply two_lt_inv in H. lia. }
    assert (EH : lowest d <= e <= highest d) by lia.
    pose proof (ratio_pos (Qnum q) (Zpos (Qden q)) e ltac:(lia)) as P. pose proof (ratio_q (Qnum q) (Zpos (Qden q)) e ltac:(lia)) as R.
    destruct (ratio (Qnum q) (Zpos (Qden q)) e) as [a b]. cbn [snd] in P. rewrite <- q_of_q in R.
    assert (AB : forall c, (Qabs q <= inject_Z c * two e)%Q -> - c <= round_half_even a b <= c).
    { intros c L. rewrite R, Qabs_Qmult, (Qabs_pos (two e)), q_abs in L by (exact P || apply Qlt_le_weak, two_pos). apply Qmult_le_r in L; [|apply two_pos].
      assert (Z.abs a <= c * b). { rewrite Zle_Qle, inject_Z_mult. pose proof (inj_pos b P). unfold q_of in L. apply (Qmult_le_compat_r _ _ (inject_Z b)) in L; [|lra]. unfold Qdiv in L. rewrite <- Qmult_assoc in L. setoid_replace (/ inject_Z b * inject_Z b)%Q with 1%Q in L by (field; lra). lra. }
      split; [apply round_half_even_ge|apply round_half_even_le]; nia. }
    cbn [value_of]. rewrite F. 
    assert (UP : (Qabs q <= inject_Z (2 ^ significand d) * two e)%Q).
    { rewrite abs_q. apply Qlt_le_weak. eapply Qlt_le_trans; [exact K2|]. rewrite <- two_Z, <- two_plus by lia. apply two_le. lia. }
    specialize (AB _ UP) as AB1. destruct (Z.eq_dec e (highest d)) as [->|NE].
    + specialize (AB _ B). exists (round_half_even a b), (highest d). split; [lia|]. split; [lia|]. now rewrite pow2_two.
    + assert (S2 : 2 ^ significand d = 2 * 2 ^ (significand d - 1)) by (rewrite <- Z.pow_succ_r by lia; f_equal; lia).
      destruct (Z.eq_dec (round_half_even a b) (2 ^ significand d)) as [->|N1].
      { exists (2 ^ (significand d - 1)), (e + 1). split; [lia|]. split; [lia|]. rewrite pow2_two, S2, inject_Z_mult, two_plus. change (two 1) with (2 # 1). change (inject_Z 2) with (2 # 1). ring. }
      destruct (Z.eq_dec (round_half_even a b) (- 2 ^ significand d)) as [->|N2].
      { exists (- 2 ^ (significand d - 1)), (e + 1). split; [lia|]. split; [lia|]. rewrite pow2_two, S2, !inject_Z_opp, inject_Z_mult, two_plus. change (two 1) with (2 # 1). change (inject_Z 2) with (2 # 1). ring. }
      exists (round_half_even a b), e. split; [lia|]. split; [lia|]. now rewrite pow2_two.
Qed.

(* ---- casts ---- *)
Lemma value_of_Fin_eq d p q : (p == q)%Q -> value_of d (Fin p) -> value_of d (Fin q).
Proof.
  intros E. cbn [value_of]. destruct (is_float_dtype d); [intros (m & e & H1 & H2 & H3); exists m, e; rewrite <- E; auto|intros (z & H1 & H2); exists z; rewrite <- E; auto].
Qed.
Lemma int_in_float d z : is_float_dtype d = true -> Z.abs z < 2 ^ significand d -> value_of d (of_Z z).
Proof. intros F H. cbn [value_of of_Z]. rewrite F. exists z, 0. split; [lia|]. split; [destruct d; cbn in *; try discriminate; lia|]. change (two 0) with 1%Q. ring. Qed.
Lemma value_cast a b v : can_cast a b = true -> ~ ((a = I64 \/ a = U64) /\ b = F64) -> value_of a v -> value_of b v.
Proof.
  intros C N H. destruct (is_float_dtype a) eqn:Fa.
  - assert (Fb : is_float_dtype b = true) by (destruct a, b; cbn in Fa, C |- *; congruence).
    destruct v as [q| | |]; cbn [value_of] in *; rewrite ?Fa, ?Fb in *; auto. destruct H as (m & e & H1 & H2 & H3). exists m, e. split; [|split; [|exact H3]].
    + assert (2 ^ significand a <= 2 ^ significand b) by (destruct a, b; cbn in Fa, Fb, C |- *; try discriminate; lia). lia.
    + destruct a, b; cbn in Fa, Fb, C, H2 |- *; try discriminate; lia.
  - destruct v as [q| | |]; [|cbn [value_of] in H; congruence..]. pose proof H as H'. cbn [value_of] in H. rewrite Fa in H. destruct H as (z & H1 & H2).
    destruct (is_float_dtype b) eqn:Fb.
    + eapply value_of_Fin_eq; [symmetry; exact H2|]. apply int_in_float; [exact Fb|].
      destruct a, b; cbn in Fa, Fb, C; try discriminate; try (exfalso; apply N; tauto); cbn in H1 |- *; lia.
    + cbn [value_of]. rewrite Fb. exists z. split; [|exact H2]. destruct a, b; cbn in Fa, Fb, C; try discriminate; cbn in H1 |- *; lia.
Qed.
Lemma carries_cast t d : carries t d -> can_cast t d = true.
Proof. unfold carries. destruct t, d; cbn; intros H; try reflexivity; exfalso; (lia || (destruct H; (discriminate || lia))). Qed.
Lemma integer_iff q z : integer_of (Fin q) = Some z <-> (q == inject_Z z)%Q.
Proof.
  unfold integer_of. pose proof (Z.div_mod (Qnum q) (Zpos (Qden q)) ltac:(lia)) as D. unfold Qeq. cbn [Qnum Qden inject_Z]. destruct (Qnum q mod Zpos (Qden q) =? 0) eqn:E.
  - split; [intros [= <-]; lia|]. intros H. f_equal. nia.
  - split; [discriminate|]. intros H. exfalso. replace (Qnum q) with (z * Zpos (Qden q)) in E by lia. rewrite Z.mod_mul in E by lia. lia.
Qed.
Lemma integer_none v : integer_of v = None <-> ~ integral v.
Proof.
  unfold integral. destruct v as [q| | |]; [|split; [intros _ [z H]; discriminate|reflexivity]..]. split.
  - intros H [z E]. apply Qeq_bool_iff in E. apply integer_iff in E. congruence.
  - intros H. destruct (integer_of (Fin q)) as [z|] eqn:E; [|reflexivity]. exfalso. apply H. exists z. apply Qeq_bool_iff, integer_iff, E.
Qed.
Lemma min_int_value z m : min_int_type z = Some m -> value_of m (of_Z z) /\ is_float_dtype m = false.
Proof.
  unfold min_int_type. destruct (0 <=? z) eqn:E; cbn [find].
  - repeat match goal with |- (if ?c then _ else _) = _ -> _ => destruct c eqn:?; [intros [= <-]; split; [exists z; cbn in *; split; [lia|reflexivity]|reflexivity]|] end. discriminate.
  - repeat match goal with |- (if ?c then _ else _) = _ -> _ => destruct c eqn:?; [intros [= <-]; split; [exists z; cbn in *; split; [lia|reflexivity]|reflexivity]|] end. discriminate.
Qed.
Lemma default_value d : value_of d (default_null d).
Proof. destruct d; cbn; try (eexists; split; [|reflexivity]; lia); [exists (-2047), 5|exists (-999999), 0|exists (-999999), 0]; (split; [lia|]); (split; [lia|]); reflexivity. Qed.
Lemma below_value m v : m = F16 \/ m = F32 -> match v with Fin q => below v (if match m with F16 => true | _ => false end then 65000 else 34 * 10 ^ 37) = true | _ => True end -> value_of m (round_to m v) \/ v = NaN.
Proof.
  intros Hm B. destruct v as [q| | |]; [|left; destruct Hm; subst; reflexivity..]. left. apply round_to_value; [destruct Hm; subst; reflexivity|].
  unfold below in B. apply negb_true_iff in B. assert (B' : ~ (inject_Z (if match m with F16 => true | _ => false end then 65000 else 34 * 10 ^ 37) <= Qabs q)%Q) by (rewrite <- Qle_bool_iff; congruence).
  apply Qnot_le_lt in B'. eapply Qle_trans; [apply Qlt_le_weak; exact B'|]. destruct Hm; subst; cbn [significand highest]; rewrite two_Z, <- inject_Z_mult, <- Zle_Qle by lia; vm_compute; discriminate.
Qed.

(* ---- reconcile ---- *)
Definition outcome (v : num) (d : dtype) (w : num) (warned : bool) : Prop :=
  (v = NaN /\ w = default_null d /\ warned = false)
  \/ (v <> NaN /\ num_eqb w v = true /\ warned = false)
  \/ (~ integral v /\ warned = false /\ exists m, (m = F16 \/ m = F32) /\ rounded_to m v w /\ value_of m w
       /\ (d = m \/ d = F32 \/ (d = BOOL /\ (num_eqb w (of_Z 0) = true \/ num_eqb w (of_Z 1) = true))))
  \/ (v <> NaN /\ w = default_null d /\ warned = true).
Lemma num_eqb_value d a b : num_eqb a b = true -> value_of d b -> value_of d a.
Proof. destruct a as [p| | |], b as [q| | |]; cbn [num_eqb]; try discriminate; auto. intros E. apply value_of_Fin_eq. symmetry. now apply Qeq_bool_iff. Qed.
Lemma reconcile_outcome t v d : let '(w, b) := reconcile t v d in outcome v d w b.
Proof.
  unfold reconcile. destruct (is_nan v) eqn:Nn; [left; destruct v; try discriminate; auto|]. assert (NV : v <> NaN) by (intros ->; discriminate).
  destruct (can_cast t d) eqn:C; [right; left; repeat split; auto; apply num_eqb_refl; exact Nn|].
  assert (SAME : forall nt nv, num_eqb nv v = true -> let '(w, b) := if can_cast nt d || (dtype_eqb d BOOL && (num_eqb nv (of_Z 0) || num_eqb nv (of_Z 1))) then (nv, false) else (default_null d, true) in outcome v d w b).
  { intros nt nv E. destruct (can_cast nt d || _); [right; left|right; right; right]; auto. }
  destruct (is_float_dtype t) eqn:Ft.
  - destruct (integer_of v) as [z|] eqn:I.
    + assert (Ez : num_eqb (of_Z z) v = true). { destruct v as [q| | |]; try discriminate. apply Qeq_bool_iff. symmetry. now apply integer_iff. }
      destruct (near_limit v); [|destruct (min_int_type z) as [m|] eqn:M]; apply SAME; auto; now apply num_eqb_refl.
    + apply integer_none in I. cbv zeta. destruct (dtype_eqb (min_float_type t v) t) eqn:T; [apply SAME; now apply num_eqb_refl|].
      destruct (match v with Fin _ => true | _ => false end) eqn:FIN; [|apply SAME; destruct v; try discriminate; try reflexivity; congruence].
      destruct v as [q| | |]; try discriminate.
      assert (M : (min_float_type t (Fin q) = F16 /\ below (Fin q) 65000 = true) \/ (min_float_type t (Fin q) = F32 /\ below (Fin q) (34 * 10 ^ 37) = true)).
      { destruct t; cbn in Ft; try discriminate; unfold min_float_type in *; cbn [negb dtype_eqb] in *; try discriminate; rewrite orb_false_r in *; destruct (below (Fin q) 65000); auto.
        - discriminate.
        - destruct (below (Fin q) (34 * 10 ^ 37)); [auto|discriminate]. }
      assert (K : exists m, min_float_type t (Fin q) = m /\ (m = F16 \/ m = F32) /\ value_of m (round_to m (Fin q))).
      { destruct M as [[E B]|[E B]]; eexists; (split; [exact E|]); (split; [auto|]); (edestruct below_value as [K|K]; [| |exact K|discriminate]; [auto|exact B]). }
      destruct K as (m & E & Hm & V). rewrite E in *. destruct (can_cast m d || _) eqn:G; [|right; right; right; auto].
      right. right. left. split; [exact I|]. split; [reflexivity|]. exists m. split; [exact Hm|]. split; [apply round_to_spec|]. split; [exact V|].
      apply orb_true_iff in G as [G|G]; [|right; right; apply andb_true_iff in G as [G1 G2]; apply dtype_eqb_eq in G1; split; [exact G1|now apply orb_true_iff in G2]].
      clear E T M. destruct Hm; subst m; destruct d; cbn in G; try discriminate; auto; exfalso; destruct t; cbn in Ft; try discriminate Ft; cbn in C; discriminate C.
  - destruct (integer_of v) as [z|]; [destruct (min_int_type z)|]; apply SAME; now apply num_eqb_refl.
Qed.
Lemma reconcile_value t v d : value_of t v -> ~ ((t = I64 \/ t = U64) /\ d = F64) -> value_of d (fst (reconcile t v d)).
Proof.
  intros V N. unfold reconcile. destruct (is_nan v) eqn:Nn; [apply default_value|]. destruct (can_cast t d) eqn:C; [eapply value_cast; eauto|].
  assert (TEST : forall nt nv, value_of nt nv -> (d <> F64) -> value_of d (fst (if can_cast nt d || (dtype_eqb d BOOL && (num_eqb nv (of_Z 0) || num_eqb nv (of_Z 1))) then (nv, false) else (default_null d, true)))).
  { intros nt nv W ND. destruct (can_cast nt d || _) eqn:G; cbn [fst]; [|apply default_value]. apply orb_true_iff in G as [G|G]; [eapply value_cast; [exact G|tauto|exact W]|].
    apply andb_true_iff in G as [G1 G2]. apply dtype_eqb_eq in G1. subst d. apply orb_true_iff in G2 as [G|G]; (eapply num_eqb_value; [exact G|]); eexists; (split; [|reflexivity]); cbn; lia. }
  assert (ND : d <> F64) by (intros ->; destruct t; discriminate).
  destruct (is_float_dtype t) eqn:Ft.
  - destruct (integer_of v) as [z|] eqn:I.
    + destruct (near_limit v); [|destruct (min_int_type z) as [m|] eqn:M]; apply TEST; auto. now apply min_int_value.
    + cbv zeta. destruct (dtype_eqb (min_float_type t v) t) eqn:T; [apply dtype_eqb_eq in T; rewrite T; now apply TEST|].
      apply TEST; [|exact ND]. destruct v as [q| | |]; try discriminate.
      2,3: destruct t; cbn in Ft; try discriminate; reflexivity.
      destruct t; cbn in Ft; try discriminate; unfold min_float_type in *; cbn [negb dtype_eqb] in *; try discriminate; rewrite orb_false_r in *; destruct (below (Fin q) 65000) eqn:B; try discriminate.
      * destruct (below_value F16 (Fin q)) as [K|K]; [auto|exact B|exact K|discriminate].
      * destruct (below_value F16 (Fin q)) as [K|K]; [auto|exact B|exact K|discriminate].
      * destruct (below (Fin q) (34 * 10 ^ 37)) eqn:B2; [|discriminate]. destruct (below_value F32 (Fin q)) as [K|K]; [auto|exact B2|exact K|discriminate].
  - destruct (integer_of v) as [z|] eqn:I; [destruct (min_int_type z) eqn:M|]; apply TEST; auto. apply min_int_value in M as [M _]. eapply num_eqb_value; [|exact M]. destruct v as [q| | |]; try discriminate. apply Qeq_bool_iff. now apply integer_iff.
Qed.
Lemma reconcile_carried t v d : v <> NaN -> carries t d -> reconcile t v d = (v, false).
Proof. intros N H. unfold reconcile. rewrite (carries_cast _ _ H). destruct v; try reflexivity. congruence. Qed.
Lemma near_small q z : (q == inject_Z z)%Q -> Z.abs z <= 2 ^ 64 -> near_limit (Fin q) = false.
Proof.
  intros E H. unfold near_limit. apply not_true_iff_false. intros K. apply existsb_exists in K as (l & I & A). unfold allclose in A. apply Qle_bool_iff in A. rewrite E in A.
  assert (B : (Qabs (inject_Z z) <= inject_Z (2 ^ 64))%Q) by (change (Qabs (inject_Z z)) with (inject_Z (Z.abs z)); now rewrite <- Zle_Qle).
  pose proof (Qabs_triangle_reverse l (inject_Z z)) as T. rewrite <- (Qabs_Qminus l) in A.
  assert (L : (inject_Z (2 ^ 65) <= Qabs l)%Q).
  { cbn [In] in I. destruct I as [<-|[<-|[<-|[<-|[]]]]]; rewrite ?Qabs_opp; apply Qle_bool_iff; vm_compute; reflexivity. }
  change (inject_Z (2 ^ 65)) with (36893488147419103232 # 1)%Q in L. change (inject_Z (2 ^ 64)) with (18446744073709551616 # 1)%Q in B. lra.
Qed.
Lemma reconcile_kept t q z d : (q == inject_Z z)%Q -> value_of t (Fin q) -> kept_range d z -> num_eqb (fst (reconcile t (Fin q) d)) (Fin q) = true /\ snd (reconcile t (Fin q) d) = false.
Proof.
  intros E V K. unfold reconcile. cbn [is_nan]. destruct (can_cast t d) eqn:C; [split; [apply Qeq_bool_refl|reflexivity]|].
  assert (I : integer_of (Fin q) = Some z) by now apply integer_iff. rewrite I.
  assert (B : Z.abs z <= 2 ^ 64) by (destruct d; cbn in K; lia). rewrite (near_small q z E B).
  assert (M : exists m, min_int_type z = Some m /\ (can_cast m d = true \/ d = BOOL)).
  { unfold min_int_type. destruct (0 <=? z) eqn:Ez; cbn [find]; repeat match goal with |- context [if ?c then _ else _] => destruct c eqn:? end; (eexists; split; [reflexivity|]) || exfalso; destruct d; cbn in *; try (left; reflexivity); try (right; reflexivity); exfalso; try lia; destruct t; discriminate. }
  destruct M as (m & M & D). rewrite M. assert (Ez : num_eqb (of_Z z) (Fin q) = true) by (apply Qeq_bool_iff; now symmetry).
  assert (TEST : forall nv, num_eqb nv (Fin q) = true -> can_cast m d || (dtype_eqb d BOOL && (num_eqb nv (of_Z 0) || num_eqb nv (of_Z 1))) = true).
  { intros nv N. destruct D as [D|D]; [now rewrite D|]. subst d. cbn in K. destruct nv as [r| | |]; try discriminate. apply Qeq_bool_iff in N. rewrite orb_true_iff. right. cbn [dtype_eqb andb num_eqb of_Z]. rewrite orb_true_iff, !Qeq_bool_iff, N, E.
    assert (z = 0 \/ z = 1) as [-> | ->] by lia; [left|right]; reflexivity. }
  assert (RF : num_eqb (Fin q) (Fin q) = true) by apply Qeq_bool_refl. destruct (is_float_dtype t); cbv beta iota; rewrite TEST; cbn [fst snd]; auto.
Qed.
