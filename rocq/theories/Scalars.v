(* Scalars and dtypes shared by the models of the raster operations.

   A scalar is a rational number, an infinity or NaN: every value of the integer
   and IEEE dtypes of NumPy is one of these, and == and < on them are exact here.
   (NumPy compares an int64 with a float64 after rounding the integer; the code
   compares values of one dtype, where this makes no difference.) *)
From Verif Require Import Base.
From Coq Require Import QArith.
Open Scope Z_scope.

Inductive num := Fin (q : Q) | PInf | MInf | NaN.
Definition of_Z (z : Z) : num := Fin (inject_Z z).

(* == *)
Definition num_eqb (a b : num) : bool :=
  match a, b with
  | Fin p, Fin q => Qeq_bool p q
  | PInf, PInf | MInf, MInf => true
  | _, _ => false
  end.
Definition is_nan (a : num) : bool := match a with NaN => true | _ => false end.
(* < *)
Definition Qlt_bool (p q : Q) : bool := negb (Qle_bool q p).
Definition num_ltb (a b : num) : bool :=
  match a, b with
  | NaN, _ | _, NaN => false
  | Fin p, Fin q => Qlt_bool p q
  | MInf, MInf | PInf, _ => false
  | MInf, _ => true
  | Fin _, PInf => true
  | Fin _, MInf => false
  end.
Definition num_leb (a b : num) : bool := num_ltb a b || num_eqb a b.

(* utils.py:35-38 nan_equal *)
Definition nan_equal (left right : num) : bool :=
  if is_nan left then is_nan right else num_eqb left right.
(* utils.py:41-46 null_values_equal; None is None *)
Definition null_values_equal (left right : option num) : bool :=
  match left, right with
  | None, None => true
  | None, Some _ | Some _, None => false
  | Some l, Some r => nan_equal l r
  end.

(* dtypes.py:12-27.  F128 (longdouble) is left out. *)
Inductive dtype := BOOL | U8 | U16 | U32 | U64 | I8 | I16 | I32 | I64 | F16 | F32 | F64.
Definition dtype_eqb (a b : dtype) : bool :=
  match a, b with
  | BOOL, BOOL | U8, U8 | U16, U16 | U32, U32 | U64, U64 | I8, I8 | I16, I16
  | I32, I32 | I64, I64 | F16, F16 | F32, F32 | F64, F64 => true
  | _, _ => false
  end.
Definition is_float_dtype (d : dtype) : bool :=
  match d with F16 | F32 | F64 => true | _ => false end.
Definition is_int_dtype (d : dtype) : bool :=
  match d with U8 | U16 | U32 | U64 | I8 | I16 | I32 | I64 => true | _ => false end.
Definition is_unsigned (d : dtype) : bool :=
  match d with U8 | U16 | U32 | U64 => true | _ => false end.

(* np.iinfo; bool as 0..1 *)
Definition int_min (d : dtype) : Z :=
  match d with
  | I8 => - 2 ^ 7 | I16 => - 2 ^ 15 | I32 => - 2 ^ 31 | I64 => - 2 ^ 63
  | _ => 0
  end.
Definition int_max (d : dtype) : Z :=
  match d with
  | BOOL => 1
  | U8 => 2 ^ 8 - 1 | U16 => 2 ^ 16 - 1 | U32 => 2 ^ 32 - 1 | U64 => 2 ^ 64 - 1
  | I8 => 2 ^ 7 - 1 | I16 => 2 ^ 15 - 1 | I32 => 2 ^ 31 - 1 | I64 => 2 ^ 63 - 1
  | _ => 0
  end.

(* masking.py:38-60 DTYPE_TO_DEFAULT_NULL *)
Definition default_null (d : dtype) : num :=
  match d with
  | BOOL => of_Z 1
  | U8 => of_Z 255
  | U16 => of_Z 65535
  | U32 => of_Z 4294967295
  | U64 => of_Z 18446744073709549568
  | I8 => of_Z (-128)
  | I16 => of_Z (-32768)
  | I32 => of_Z (-2147483648)
  | I64 => of_Z (-9223372036854775808)
  | F16 => of_Z (-65504)
  | F32 | F64 => of_Z (-999999)
  end.

Lemma num_eqb_refl a : is_nan a = false -> num_eqb a a = true.
Proof. destruct a; cbn; try reflexivity; try discriminate. intros _. apply Qeq_bool_refl. Qed.
Lemma num_eqb_sym a b : num_eqb a b = num_eqb b a.
Proof. destruct a, b; cbn; try reflexivity. apply Qeq_bool_comm. Qed.
Lemma num_eqb_trans a b c : num_eqb a b = true -> num_eqb b c = true -> num_eqb a c = true.
Proof.
  destruct a, b, c; cbn; try discriminate; try reflexivity. rewrite !Qeq_bool_iff.
  intros H1 H2. rewrite H1. exact H2.
Qed.
Lemma nan_equal_refl a : nan_equal a a = true.
Proof. unfold nan_equal. destruct (is_nan a) eqn:E; [reflexivity|now apply num_eqb_refl]. Qed.
Lemma nan_equal_sym a b : nan_equal a b = nan_equal b a.
Proof. unfold nan_equal. destruct a, b; cbn; try reflexivity. apply Qeq_bool_comm. Qed.
Lemma nan_equal_trans a b c : nan_equal a b = true -> nan_equal b c = true -> nan_equal a c = true.
Proof.
  unfold nan_equal. destruct (is_nan a) eqn:Ea.
  - intros Eb. rewrite Eb. auto.
  - destruct (is_nan b) eqn:Eb.
    + destruct a, b; cbn in *; discriminate.
    + apply num_eqb_trans.
Qed.
Lemma dtype_eqb_eq a b : dtype_eqb a b = true <-> a = b.
Proof. destruct a, b; cbn; split; congruence. Qed.
