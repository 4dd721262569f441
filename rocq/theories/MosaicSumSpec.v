(* What the sum of floats should be.  Uses no definition of the model. *)
From Coq Require Import ZArith Reals List Permutation.
From Flocq Require Import Core BinarySingleNaN.
Import ListNotations.
Open Scope R_scope.

Definition rsum (l : list R) : R := fold_right Rplus 0 l.
Definition exact_sum {prec emax} (l : list (binary_float prec emax)) : R := rsum (map B2R l).
Definition sum_abs {prec emax} (l : list (binary_float prec emax)) : R := rsum (map (fun v => Rabs (B2R v)) l).
(* half a unit in the last place of 1 *)
Definition unit_roundoff (prec : Z) : R := bpow radix2 (- prec).
(* v is the sum of the values of l but for n roundings of each *)
Definition sum_within {prec emax} (n : nat) (l : list (binary_float prec emax)) (v : binary_float prec emax) : Prop :=
  is_finite v = true /\ Rabs (B2R v - exact_sum l) <= ((1 + unit_roundoff prec) ^ n - 1) * sum_abs l.
(* far from the largest number *)
Definition no_overflow {prec emax} (n : nat) (l : list (binary_float prec emax)) : Prop :=
  (1 + unit_roundoff prec) ^ n * sum_abs l < bpow radix2 emax.
(* whole numbers with a small sum *)
Definition whole {prec emax} (v : binary_float prec emax) : Prop := is_finite v = true /\ exists n : Z, B2R v = IZR n.
Definition whole_numbers {prec emax} (l : list (binary_float prec emax)) : Prop :=
  (forall v, In v l -> whole v) /\ sum_abs l <= bpow radix2 prec.
Definition sum_exact {prec emax} (l : list (binary_float prec emax)) (v : binary_float prec emax) : Prop :=
  is_finite v = true /\ B2R v = exact_sum l.
(* v is the null value: both NaN, or the same number (a zero of either sign is zero) *)
Definition is_null_value {prec emax} (nodata v : binary_float prec emax) : Prop :=
  v = nodata \/ (exists s s', v = B754_zero s /\ nodata = B754_zero s').
