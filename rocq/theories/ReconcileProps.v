(* C61: null values for a dtype. *)
From Coq Require Import QArith Qabs Qpower.
From Verif Require Import Base Scalars Dtypes Reconcile ReconcileSpec ReconcileProofs.
Open Scope Z_scope.

(* What reconcile_nullvalue_with_dtype makes of a null value v of dtype t for data of
   dtype d: the default for NaN; v itself; v rounded to half or single precision (only
   if v is not an integer, and silently); or the default with a warning. *)
Theorem C61_outcome : forall t v d, let '(w, warned) := reconcile t v d in
  (v = NaN /\ w = default_null d /\ warned = false)
  \/ (v <> NaN /\ num_eqb w v = true /\ warned = false)
  \/ (~ integral v /\ warned = false /\ exists m, (m = F16 \/ m = F32) /\ rounded_to m v w /\ value_of m w
       /\ (d = m \/ d = F32 \/ (d = BOOL /\ (num_eqb w (of_Z 0) = true \/ num_eqb w (of_Z 1) = true))))
  \/ (v <> NaN /\ w = default_null d /\ warned = true).
Proof. exact reconcile_outcome. Qed.
Print Assumptions C61_outcome.

(* The result is a value of the dtype, except for 64-bit integers in float64 data. *)
Theorem C61_value_partial : forall t v d, value_of t v -> ~ ((t = I64 \/ t = U64) /\ d = F64) -> value_of d (fst (reconcile t v d)).
Proof. exact reconcile_value. Qed.
Print Assumptions C61_value_partial.

(* A null value is kept if the dtype has all values of the null value's own dtype. *)
Theorem C61_carried : forall t v d, v <> NaN -> carries t d -> reconcile t v d = (v, false).
Proof. exact reconcile_carried. Qed.
Print Assumptions C61_carried.

(* Integers in these ranges (kept_range: all values of unsigned dtypes, the negative ones
   of signed dtypes) are kept whatever type they have. *)
Theorem C61_kept_partial : forall t q z d, (q == inject_Z z)%Q -> value_of t (Fin q) -> kept_range d z ->
  num_eqb (fst (reconcile t (Fin q) d)) (Fin q) = true /\ snd (reconcile t (Fin q) d) = false.
Proof. exact reconcile_kept. Qed.
Print Assumptions C61_kept_partial.

(* ---- examples ---- *)
Example C61_examples :
  reconcile I64 (of_Z 65535) U16 = (of_Z 65535, false) /\ reconcile I64 (of_Z (-1)) U16 = (of_Z 65535, true)
  /\ reconcile F64 (of_Z (-9999)) I16 = (of_Z (-9999), false) /\ reconcile F64 (Fin (1 # 2)) I16 = (of_Z (-32768), true)
  /\ reconcile F64 NaN F32 = (of_Z (-999999), false) /\ reconcile F64 (of_Z 1) BOOL = (of_Z 1, false)
  /\ reconcile F64 PInf F32 = (PInf, false) /\ reconcile U8 (of_Z 7) F16 = (of_Z 7, false).
Proof. vm_compute. repeat split; reflexivity. Qed.
Example C61_hypotheses : value_of F64 (Fin (- (9999 # 1))) /\ kept_range I16 (-9999) /\ carries U8 F16 /\ carries F32 F64 /\ ~ carries I64 F64.
Proof.
  split; [exists (-9999), 0; cbn; repeat split; reflexivity || (intro; discriminate)|]. unfold carries, kept_range. cbn. intuition (try lia; try discriminate).
Qed.

(* "A value the dtype has is kept" is false: *)
Definition C61_kept_false (d : dtype) : Prop := forall t v, v <> NaN -> value_of t v -> value_of d v -> num_eqb (fst (reconcile t v d)) v = true.
(* 20000 is an int16, but its smallest dtype is uint16; so for 100 and int8 *)
Theorem C61_int16_refuted : ~ C61_kept_false I16 /\ fst (reconcile I64 (of_Z 20000) I16) = of_Z (-32768) /\ fst (reconcile I64 (of_Z 100) I8) = of_Z (-128).
Proof.
  split; [|split; vm_compute; reflexivity]. intros F. specialize (F I64 (of_Z 20000)). assert (G : num_eqb (fst (reconcile I64 (of_Z 20000) I16)) (of_Z 20000) = true).
  { apply F; [discriminate|exists 20000; cbn; split; [lia|reflexivity]..]. }
  vm_compute in G. discriminate.
Qed.
Print Assumptions C61_int16_refuted.
(* float32: a Python float is rounded to half precision first; 1 + 2 ^ -12 becomes 1 and
   1e-9 becomes 0 *)
Theorem C61_float32_refuted : ~ C61_kept_false F32 /\ num_eqb (fst (reconcile F64 (Fin (1 # 1000000000)) F32)) (of_Z 0) = true.
Proof.
  split; [|vm_compute; reflexivity]. intros F. pose (v := Fin (4097 # 4096)). assert (G : num_eqb (fst (reconcile F64 v F32)) v = true).
  { apply F; [discriminate|exists 4097, (-12); cbn; repeat split; reflexivity || (intro; discriminate)..]. }
  vm_compute in G. discriminate.
Qed.
Print Assumptions C61_float32_refuted.
(* the lowest float32 as a Python float is replaced in float32 data *)
Theorem C61_lowest_refuted : exists v, value_of F64 v /\ value_of F32 v /\ reconcile F64 v F32 = (of_Z (-999999), true).
Proof.
  exists (of_Z (- ((2 ^ 24 - 1) * 2 ^ 104))). split; [|split; [|vm_compute; reflexivity]]; exists (- (2 ^ 24 - 1)), 104; (split; [cbn; lia|]); (split; [cbn; lia|]); vm_compute; reflexivity.
Qed.
Print Assumptions C61_lowest_refuted.
(* an integer null value of float64 data need not be a float64 *)
Theorem C61_float64_refuted : exists v, value_of I64 v /\ reconcile I64 v F64 = (v, false) /\ ~ value_of F64 v.
Proof.
  exists (of_Z (2 ^ 53 + 1)). split; [exists (2 ^ 53 + 1); cbn; split; [lia|reflexivity]|]. split; [reflexivity|].
  intros (m & e & H1 & H2 & H3). cbn [significand] in H1. destruct (Z.lt_ge_cases 0 e) as [L|L].
  - rewrite two_Z, <- inject_Z_mult in H3 by lia. replace e with (Z.succ (e - 1)) in H3 by lia. rewrite Z.pow_succ_r in H3 by lia. unfold Qeq in H3. cbn [Qnum Qden inject_Z] in H3.
    assert (E : Z.even (2 ^ 53 + 1) = Z.even (m * (2 * 2 ^ (e - 1)))) by (f_equal; lia). rewrite !Z.even_mul in E. cbn [Z.even] in E. rewrite orb_true_r in E. discriminate.
  - assert (K : (inject_Z (2 ^ 53 + 1) <= inject_Z (Z.abs m))%Q).
    { rewrite H3. eapply Qle_trans; [apply Qle_Qabs|]. rewrite Qabs_Qmult. change (Qabs (inject_Z m)) with (inject_Z (Z.abs m)). rewrite <- (Qmult_1_r (inject_Z (Z.abs m))) at 2.
      rewrite !(Qmult_comm (inject_Z (Z.abs m))). apply Qmult_le_compat_r; [|change 0%Q with (inject_Z 0); rewrite <- Zle_Qle; lia]. rewrite Qabs_pos by (apply Qlt_le_weak, two_pos). apply (two_le e 0). lia. }
    rewrite <- Zle_Qle in K. lia.
Qed.
Print Assumptions C61_float64_refuted.
(* 0.99999 is taken for True *)
Example C61_bool_rounded : let '(w, warned) := reconcile F64 (Fin (99999 # 100000)) BOOL in num_eqb w (of_Z 1) = true /\ warned = false.
Proof. vm_compute. auto. Qed.
