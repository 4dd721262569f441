(* Model of dtypes.py: choosing a common dtype. *)
From Coq Require Import QArith.
From Verif Require Import Base Scalars.
Open Scope Z_scope.

(* width in bits *)
Definition bits (d : dtype) : Z :=
  match d with
  | BOOL => 1
  | U8 | I8 => 8 | U16 | I16 | F16 => 16 | U32 | I32 | F32 => 32 | U64 | I64 | F64 => 64
  end.
(* np.promote_types (numpy, not part of /repo) *)
Definition signed_of_bits (n : Z) : dtype := if n <=? 8 then I8 else if n <=? 16 then I16 else if n <=? 32 then I32 else I64.
Definition float_of_bits (n : Z) : dtype := if n <=? 16 then F16 else if n <=? 32 then F32 else F64.
(* the float dtype an integer dtype is promoted to *)
Definition int_to_float_bits (d : dtype) : Z := if bits d <=? 8 then 16 else if bits d <=? 16 then 32 else 64.
Definition promote_types (a b : dtype) : dtype :=
  match a, b with
  | BOOL, d => d
  | d, BOOL => d
  | _, _ =>
      if is_float_dtype a then
        if is_float_dtype b then float_of_bits (Z.max (bits a) (bits b))
        else float_of_bits (Z.max (bits a) (int_to_float_bits b))
      else if is_float_dtype b then float_of_bits (Z.max (int_to_float_bits a) (bits b))
      else if eqb (is_unsigned a) (is_unsigned b) then if bits a <? bits b then b else a
      else
        let u := if is_unsigned a then a else b in
        let s := if is_unsigned a then b else a in
        if bits u <? bits s then s
        else if bits u =? 64 then F64
        else signed_of_bits (2 * bits u)
  end.

(* dtypes.py:85-103 safe_min_scalar_type of a float: [suggested] is
   np.min_scalar_type, [exact d] tells whether the value survives a cast to d and
   back (NaN and infinities: suggested directly). *)
Definition safe_min_scalar_type (nonfinite : bool) (suggested : dtype) (exact : dtype -> bool) : dtype :=
  if is_float_dtype suggested then
    if nonfinite then suggested
    else match find (fun d => negb (bits d <? bits suggested) && exact d) [F16; F32; F64] with
         | Some d => d
         | None => F64
         end
  else suggested.

(* The items of get_common_dtype: a dtype, an int literal, or another scalar whose
   safe_min_scalar_type is given *)
Inductive item := IDtype (d : dtype) | IInt (z : Z) | IOther (d : dtype).
(* dtypes.py:106-143 get_common_dtype *)
Definition int_types : list dtype := [U8; I8; U16; I16; U32; I32; U64; I64].
Definition literal_dtype (lits : list Z) : list dtype :=
  match lits with
  | [] => []
  | z :: zs =>
      let min_val := fold_left Z.min zs z in
      let max_val := fold_left Z.max zs z in
      match find (fun dt => negb ((min_val <? 0) && is_unsigned dt)
                            && ((int_min dt <=? min_val) && (max_val <=? int_max dt))) int_types with
      | Some dt => [dt]
      | None => []
      end
  end.
Definition dtypes_of (items : list item) : list dtype :=
  flat_map (fun x => match x with IDtype d | IOther d => [d] | IInt _ => [] end) items.
Definition literals_of (items : list item) : list Z :=
  flat_map (fun x => match x with IInt z => [z] | _ => [] end) items.
Definition get_common_dtype (items : list item) : res dtype :=
  match items with
  | [] => Err TypeError
  | _ =>
      match dtypes_of items ++ literal_dtype (literals_of items) with
      | [] => Err TypeError                 (* reduce() of an empty sequence *)
      | d :: ds => Ok (fold_left promote_types ds d)
      end
  end.

(* dtypes.py:146-153 promote_dtype_to_float; np.can_cast(d, F16) holds for bool
   and 8 bit integers, np.can_cast(d, F32) for 16 bit integers *)
Definition promote_dtype_to_float (d : dtype) : dtype :=
  if is_float_dtype d then d
  else if bits d <=? 8 then F16
  else if bits d <=? 16 then F32
  else F64.
(* dtypes.py:190-198 INT_DTYPE_TO_FLOAT_DTYPE[d] *)
Definition int_dtype_to_float_dtype (d : dtype) : res dtype :=
  match d with
  | U8 | I8 => Ok F16
  | U16 | I16 => Ok F32
  | U32 | I32 | F64 => Ok F64
  | _ => Err KeyError
  end.
