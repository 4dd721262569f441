(* Values of a dtype. *)
From Coq Require Import QArith Qabs.
From Verif Require Import Base Scalars.
Open Scope Z_scope.

(* significand bits and exponents of the last place *)
Definition significand (d : dtype) : Z := match d with F16 => 11 | F32 => 24 | _ => 53 end.
Definition lowest (d : dtype) : Z := match d with F16 => -24 | F32 => -149 | _ => -1074 end.
Definition highest (d : dtype) : Z := match d with F16 => 5 | F32 => 104 | _ => 971 end.
Definition value_of (d : dtype) (v : num) : Prop :=
  match v with
  | Fin q =>
      if is_float_dtype d
      then exists m e, - 2 ^ significand d < m < 2 ^ significand d /\ lowest d <= e <= highest d /\ (q == inject_Z m * (2 # 1) ^ e)%Q
      else exists z, int_min d <= z <= int_max d /\ (q == inject_Z z)%Q
  | _ => is_float_dtype d = true
  end.
(* w is a rounding of v to half precision or single precision: at most half a unit in
   the last place away, and an even number of units if that is exactly so *)
Definition rounded_to (d : dtype) (v w : num) : Prop :=
  match v, w with
  | Fin q, Fin r => exists e, lowest d <= e /\ (e = lowest d \/ ((2 # 1) ^ (e + significand d - 1) <= Qabs q)%Q)
                    /\ (Qabs (q - r) <= (1 # 2) * (2 # 1) ^ e)%Q
                    /\ exists m, (r == inject_Z m * (2 # 1) ^ e)%Q /\ ((Qabs (q - r) == (1 # 2) * (2 # 1) ^ e)%Q -> Z.even m = true)
  | _, _ => w = v
  end.
(* the integers that every type of null value can carry to dtype d *)
Definition kept_range (d : dtype) (z : Z) : Prop :=
  match d with
  | BOOL => 0 <= z <= 1
  | U8 | U16 | U32 | U64 => 0 <= z <= int_max d
  | I8 => -128 <= z < 0
  | I16 => -32768 <= z <= 255
  | I32 => -2147483648 <= z <= 65535
  | I64 => - 2 ^ 63 <= z <= 4294967295
  | F16 => -128 <= z <= 255
  | F32 => -32768 <= z <= 65535
  | F64 => - 2 ^ 63 <= z <= 2 ^ 64 - 1
  end.
(* a dtype whose values dtype d has, too *)
Definition carries (t d : dtype) : Prop :=
  if is_float_dtype t then is_float_dtype d = true /\ significand t <= significand d
  else if is_float_dtype d then int_max t < 2 ^ significand d
  else int_min d <= int_min t /\ int_max t <= int_max d.
Definition integral (v : num) : Prop := exists z, num_eqb v (of_Z z) = true.
