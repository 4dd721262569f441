(* Which integers a dtype represents exactly. *)
From Verif Require Import Base Scalars.
Open Scope Z_scope.

(* significand bits of a float dtype *)
Definition precision (d : dtype) : Z := match d with F16 => 11 | F32 => 24 | _ => 53 end.
(* z is a value of d.  For floats only the integers up to 2 ^ precision are
   listed: beyond them a float dtype has gaps. *)
Definition holds (d : dtype) (z : Z) : Prop :=
  if is_float_dtype d then - 2 ^ precision d <= z <= 2 ^ precision d
  else int_min d <= z <= int_max d.
