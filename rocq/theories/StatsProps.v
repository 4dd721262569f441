(* C31: mode, unique, asm and entropy are functions of the multiset of valid
   values. *)
From Coq Require Import QArith Reals Permutation.
From Verif Require Import Base Scalars Stats StatsSpec StatsProofs F64.
Open Scope Z_scope.

(* The mode is the smallest of the most frequent valid values; NaN without valid
   values.  The in-place compaction never reads or writes outside the array. *)
Theorem C31_mode : forall x,
  (Forall (fun v => is_nan v = true) x /\ nanmode x = Ok NaN)
  \/ exists m, nanmode x = Ok m /\ is_mode x m.
Proof. exact mode_spec. Qed.
Print Assumptions C31_mode.
Example ex_mode : nanmode [of_Z 7; NaN; of_Z 3; of_Z 7; NaN; of_Z 3; of_Z 9] = Ok (of_Z 3).
Proof. vm_compute. reflexivity. Qed.

(* unique is the number of distinct valid values *)
Theorem C31_unique : forall x D, distinct_values x D -> nan_unique_count x = len D.
Proof. exact unique_spec. Qed.
Print Assumptions C31_unique.

(* every collection has such a list of distinct values *)
Theorem C31_distinct_values_exist : forall x, exists D, distinct_values x D.
Proof. exact (fun x => ex_intro _ _ (dict_distinct x)). Qed.
Print Assumptions C31_distinct_values_exist.
Example ex_unique : nan_unique_count [of_Z 7; NaN; of_Z 3; Fin (14 # 2); PInf; NaN; of_Z 3; PInf] = 3.
Proof. vm_compute. reflexivity. Qed.

(* asm and entropy, computed with real numbers, are the documented sums *)
Theorem C31_asm : forall x D, distinct_values x D ->
  asmR x = Rsum (fun v => (IZR (occurrences v x) / IZR (len (valid x))) ^ 2)%R D.
Proof. exact asm_spec. Qed.
Print Assumptions C31_asm.
Theorem C31_entropy : forall x D, distinct_values x D ->
  entropyR x = (- Rsum (fun v => let p := IZR (occurrences v x) / IZR (len (valid x)) in p * ln p) D)%R.
Proof. exact entropy_spec. Qed.
Print Assumptions C31_entropy.

(* Neither the order of the values nor NaN cells matter: collections in which
   every value occurs equally often have the same mode, unique count, asm and
   entropy. *)
Theorem C31_order_and_nulls : forall x y, same_values x y ->
  (exists m m', nanmode x = Ok m /\ nanmode y = Ok m' /\ nan_equal m m' = true)
  /\ nan_unique_count x = nan_unique_count y /\ asmR x = asmR y /\ entropyR x = entropyR y.
Proof.
  exact (fun x y H => conj (mode_same x y H) (conj (unique_same x y H) (asm_entropy_same x y H))).
Qed.
Print Assumptions C31_order_and_nulls.

(* permuting and adding or removing NaN are instances *)
Theorem C31_same_values_perm : forall x y, Permutation (valid x) (valid y) -> same_values x y.
Proof. exact same_values_perm. Qed.
Print Assumptions C31_same_values_perm.
Example ex_same : same_values [of_Z 5; NaN; of_Z 6; of_Z 5] [of_Z 6; of_Z 5; of_Z 5; NaN; NaN].
Proof. apply C31_same_values_perm. cbn. apply (Permutation_cons_app [of_Z 6] [of_Z 5] (of_Z 5)). apply Permutation_refl. Qed.

(* In binary64 the sum of asm is accumulated in the order in which the values
   first occur, and rounding makes it depend on that order: finding. *)
Definition asm64 : list num -> f64 :=
  sum_counts fzero (fun n => fdiv (f64_of_Z 1) (f64_of_Z n))
    (fun f acc cnt => let p := fmul (f64_of_Z cnt) f in fadd acc (fmul p p)).
Definition ex_asm_a : list num := [of_Z 1; of_Z 2; of_Z 3; of_Z 3; of_Z 3].
Definition ex_asm_b : list num := [of_Z 3; of_Z 3; of_Z 3; of_Z 1; of_Z 2].
Theorem C31_asm_binary64_order_refuted : exists x y,
  Permutation x y /\ feqb (asm64 x) (asm64 y) = false.
Proof.
  exists ex_asm_a, ex_asm_b. split.
  - exact (Permutation_app_comm [of_Z 1; of_Z 2] [of_Z 3; of_Z 3; of_Z 3]).
  - vm_compute. reflexivity.
Qed.
Print Assumptions C31_asm_binary64_order_refuted.

(* nanargmin / nanargmax (local_stats): the first index of an extreme valid
   value, provided some valid value beats the initial infinity *)
Theorem C31_argmin : forall x v, In v x -> is_nan v = false -> num_ltb v PInf = true ->
  is_argmin x (nanargmin x).
Proof. exact argmin_spec. Qed.
Print Assumptions C31_argmin.
Theorem C31_argmax : forall x v, In v x -> is_nan v = false -> num_ltb MInf v = true ->
  is_argmax x (nanargmax x).
Proof. exact argmax_nan_spec. Qed.
Print Assumptions C31_argmax.
Theorem C31_arg_all_nan : forall x, Forall (fun v => is_nan v = true) x ->
  nanargmin x = (if len x =? 0 then -1 else -2) /\ nanargmax x = (if len x =? 0 then -1 else -2).
Proof. exact argopt_none. Qed.
Print Assumptions C31_arg_all_nan.
Example ex_arg : nanargmin [NaN; of_Z 4; of_Z 2; of_Z 2] = 2 /\ nanargmax [NaN; of_Z 4; of_Z 2; of_Z 4] = 1.
Proof. vm_compute. auto. Qed.

(* When every valid value is the infinity the search starts from, index 0 is
   reported even if that cell is null: finding. *)
Theorem C31_argmin_infinity_refuted : ~ (forall x v, In v x -> is_nan v = false -> is_argmin x (nanargmin x)).
Proof.
  intros H. destruct (H [NaN; PInf] PInf) as (m & G & N & _); [right; now left|reflexivity|].
  vm_compute in G. injection G as <-. discriminate N.
Qed.
Print Assumptions C31_argmin_infinity_refuted.
