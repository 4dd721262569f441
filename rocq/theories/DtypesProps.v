(* C34: the common dtype holds every literal. *)
From Verif Require Import Base Scalars Dtypes DtypesSpec DtypesProofs.
Open Scope Z_scope.

(* If some integer dtype holds all the int literals of the list, the common dtype
   holds each of them exactly, unless the list forces a float dtype and the
   literal is beyond 2 ^ 53. *)
Theorem C34_holds_literals items d z : get_common_dtype items = Ok d -> In (IInt z) items ->
  (exists dt, In dt int_types /\ forall y, In (IInt y) items -> int_min dt <= y <= int_max dt) ->
  is_float_dtype d = false \/ - 2 ^ 53 <= z <= 2 ^ 53 -> holds d z.
Proof. exact (common_holds items d z). Qed.
Print Assumptions C34_holds_literals.
(* ... and what the dtypes of the list hold *)
Theorem C34_holds_dtypes items d d' z : get_common_dtype items = Ok d -> In (IDtype d') items -> holds d' z ->
  is_float_dtype d = false \/ - 2 ^ 53 <= z <= 2 ^ 53 -> holds d z.
Proof. exact (common_dtypes items d d' z). Qed.
Print Assumptions C34_holds_dtypes.
(* literals alone get a dtype no wider than any that holds them all *)
Theorem C34_no_wider lits dt : lits <> [] -> In dt int_types -> (forall z, In z lits -> int_min dt <= z <= int_max dt) ->
  exists d, get_common_dtype (map IInt lits) = Ok d /\ (forall z, In z lits -> holds d z) /\ bits d <= bits dt.
Proof. exact (common_literals_only lits dt). Qed.
Print Assumptions C34_no_wider.
(* the dtype of a float literal holds it exactly and is the narrowest that does *)
Theorem C34_float_literal nonfinite suggested exact : is_float_dtype suggested = true -> exact F64 = true -> nonfinite = false ->
  let d := safe_min_scalar_type nonfinite suggested exact in
  exact d = true /\ is_float_dtype d = true /\ bits suggested <= bits d
  /\ forall d', is_float_dtype d' = true -> bits suggested <= bits d' -> exact d' = true -> bits d <= bits d'.
Proof. exact (safe_min_exact nonfinite suggested exact). Qed.
Print Assumptions C34_float_literal.
Theorem C34_promote_to_float d z : is_float_dtype d = false -> holds d z -> - 2 ^ 53 <= z <= 2 ^ 53 -> holds (promote_dtype_to_float d) z
  /\ is_float_dtype (promote_dtype_to_float d) = true.
Proof. exact (float_holds d z). Qed.
Print Assumptions C34_promote_to_float.

Example C34_example :
  get_common_dtype [IInt (-1); IInt 200; IDtype U8] = Ok I16
  /\ get_common_dtype [IInt 255; IInt 0] = Ok U8
  /\ get_common_dtype [IOther F16; IInt 300] = Ok F32
  /\ safe_min_scalar_type false F16 (fun d => negb (dtype_eqb d F16)) = F32.
Proof. repeat split. Qed.

(* Literals that no single integer dtype holds are silently ignored ... *)
Theorem C34_wide_range_refuted :
  exists items d z, get_common_dtype items = Ok d /\ In (IInt z) items /\ ~ holds d z /\ is_float_dtype d = false.
Proof.
  exists [IDtype U8; IInt (-1); IInt (2 ^ 64 - 1)], U8, (-1).
  split; [vm_compute; reflexivity|]. split; [right; now left|]. split; [|reflexivity]. cbn. lia.
Qed.
Print Assumptions C34_wide_range_refuted.
(* ... or leave reduce() with nothing to reduce. *)
Theorem C34_wide_range_alone_refuted : get_common_dtype [IInt (-1); IInt (2 ^ 64 - 1)] = Err TypeError.
Proof. vm_compute. reflexivity. Qed.
Print Assumptions C34_wide_range_alone_refuted.
(* The result depends on the order of the items: promotion is not associative. *)
Theorem C34_order_refuted :
  get_common_dtype [IDtype I8; IDtype U16; IDtype F16] = Ok F64
  /\ get_common_dtype [IDtype U16; IDtype F16; IDtype I8] = Ok F32.
Proof. split; reflexivity. Qed.
Print Assumptions C34_order_refuted.
(* 64 bit integers next to a signed dtype end up as float64, which does not hold
   them *)
Theorem C34_u64_refuted : get_common_dtype [IInt (2 ^ 64 - 1); IDtype I8] = Ok F64 /\ ~ holds F64 (2 ^ 64 - 1).
Proof. split; [vm_compute; reflexivity|]. cbn. lia. Qed.
Print Assumptions C34_u64_refuted.
