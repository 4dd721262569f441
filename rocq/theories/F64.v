(* IEEE 754 binary64 (numpy/numba float64) as used by the model: Flocq's
   binary_float with a single NaN (payloads are irrelevant to the code), and
   round-to-nearest-even arithmetic.  This is the float type of the distance
   code; nothing here models code in /repo by itself. *)
From Coq Require Import ZArith Bool.
From Flocq Require Import Core BinarySingleNaN.
Open Scope Z_scope.

Definition f64 : Set := binary_float 53 1024.

Definition f64_prec : Prec_gt_0 53 := eq_refl.
Definition f64_emax : Prec_lt_emax 53 1024 := eq_refl.

Definition finf : f64 := B754_infinity false.
Definition fnan : f64 := B754_nan.
Definition fzero : f64 := B754_zero false.

Definition fadd (x y : f64) : f64 := @Bplus 53 1024 f64_prec f64_emax mode_NE x y.
Definition fsub (x y : f64) : f64 := @Bminus 53 1024 f64_prec f64_emax mode_NE x y.
Definition fmul (x y : f64) : f64 := @Bmult 53 1024 f64_prec f64_emax mode_NE x y.
Definition fdiv (x y : f64) : f64 := @Bdiv 53 1024 f64_prec f64_emax mode_NE x y.
Definition fsqrt (x : f64) : f64 := @Bsqrt 53 1024 f64_prec f64_emax mode_NE x.
Definition fopp (x : f64) : f64 := Bopp x.
Definition fabs (x : f64) : f64 := Babs x.

(* Comparisons: false when an operand is NaN, +0 = -0. *)
Definition fleb (x y : f64) : bool := Bleb x y.
Definition fltb (x y : f64) : bool := Bltb x y.
Definition feqb (x y : f64) : bool := Beqb x y.

Definition fisnan (x : f64) : bool := is_nan x.
Definition fok (x : f64) : bool := negb (fisnan x).       (* not NaN *)
(* np.isinf *)
Definition fisinf (x : f64) : bool :=
  match x with B754_infinity _ => true | _ => false end.

(* m * 2^e rounded to nearest *)
Definition f64_of (m e : Z) : f64 :=
  @binary_normalize 53 1024 f64_prec f64_emax mode_NE m e false.
Definition f64_of_Z (m : Z) : f64 := f64_of m 0.
Definition fhalf : f64 := f64_of 1 (-1).
