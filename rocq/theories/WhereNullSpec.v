(* where(cond, None, r) and r.set_null(cond) *)
From Verif Require Import Base Scalars Raster RasterSpec.
Open Scope Z_scope.
(* a condition that both read alike: no null cells, and bools or no negative number *)
Definition plain_condition (nb nc : Z) (cond : raster) : Prop :=
  (r_dtype cond = BOOL \/ r_dtype cond = I8 \/ r_dtype cond = U8)
  /\ forall b c, in_raster nb nc b c -> null cond b c = false /\ (r_dtype cond = BOOL \/ num_leb (of_Z 0) (value cond b c) = true).
(* no valid cell holds the null value that r has or gets *)
Definition null_value_free (nb nc : Z) (r : raster) : Prop :=
  forall b c, in_raster nb nc b c -> null r b c = false -> same_value (value r b c) (null_value_of r) = false.
