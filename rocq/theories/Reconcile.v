(* Model of masking.py:69-112 reconcile_nullvalue_with_dtype with NumPy 2, where
   np.can_cast of a scalar looks at its dtype only.  (With NumPy 1 it looks at the
   value.) *)
From Coq Require Import QArith Qabs.
From Verif Require Import Base Scalars Dtypes.
Open Scope Z_scope.

(* np.can_cast(a, b): "safe" *)
Definition can_cast (a b : dtype) : bool := dtype_eqb (promote_types a b) b.
(* 2 ^ e *)
Definition pow2 (e : Z) : Q := if 0 <=? e then inject_Z (2 ^ e) else 1 # Z.to_pos (2 ^ (- e)).
(* n / d to the nearest integer, halves to the even one *)
Definition round_half_even (n d : Z) : Z :=
  let f := n / d in
  let r := n mod d in
  if 2 * r <? d then f else if d <? 2 * r then f + 1 else if Z.even f then f else f + 1.
(* floor of the binary logarithm of n / d, n <> 0 *)
Definition ratio (n d e : Z) : Z * Z := if 0 <=? e then (n, d * 2 ^ e) else (n * 2 ^ (- e), d).
Definition exponent (n d : Z) : Z :=
  let k := Z.log2 (Z.abs n) - Z.log2 d in
  let '(a, b) := ratio (Z.abs n) d k in
  if b <=? a then k else k - 1.
(* precision and smallest exponent of the last place of float16, float32, float64 *)
Definition float_p (d : dtype) : Z := match d with F16 => 11 | F32 => 24 | _ => 53 end.
Definition float_emin (d : dtype) : Z := match d with F16 => -24 | F32 => -149 | _ => -1074 end.
(* np.float16(v), np.float32(v): only of values in the range of the dtype *)
Definition round_to (d : dtype) (v : num) : num :=
  match v with
  | Fin q =>
      let n := Qnum q in let m := Zpos (Qden q) in
      if n =? 0 then Fin 0
      else
        let e := Z.max (float_emin d) (exponent n m - (float_p d - 1)) in
        let '(a, b) := ratio n m e in
        Fin (inject_Z (round_half_even a b) * pow2 e)
  | _ => v
  end.

(* float(v).is_integer() and int(v) *)
Definition integer_of (v : num) : option Z :=
  match v with Fin q => if Qnum q mod Zpos (Qden q) =? 0 then Some (Qnum q / Zpos (Qden q)) else None | _ => None end.
(* np.min_scalar_type of an integer; None is object *)
Definition min_int_type (z : Z) : option dtype :=
  if 0 <=? z then find (fun d => z <=? int_max d) [U8; U16; U32; U64]
  else find (fun d => int_min d <=? z) [I8; I16; I32; I64].
(* np.min_scalar_type of a float of dtype t *)
Definition below (v : num) (limit : Z) : bool :=
  match v with Fin q => negb (Qle_bool (inject_Z limit) (Qabs q)) | _ => false end.
Definition min_float_type (t : dtype) (v : num) : dtype :=
  match t with
  | F16 => F16
  | _ =>
      if below v 65000 || negb (match v with Fin _ => true | _ => false end) then F16
      else match t with F32 => F32 | _ => if below v (34 * 10 ^ 37) then F32 else F64 end
  end.
(* np.allclose(v, limit) for one of the limits of float32 and float64 *)
Definition float32_max : Q := inject_Z ((2 ^ 24 - 1) * 2 ^ 104).
Definition float64_max : Q := inject_Z ((2 ^ 53 - 1) * 2 ^ 971).
Definition allclose (q l : Q) : bool := Qle_bool (Qabs (q - l)) ((1 # 100000000) + (1 # 100000) * Qabs l)%Q.
Definition near_limit (v : num) : bool :=
  match v with Fin q => existsb (allclose q) [- float32_max; float32_max; - float64_max; float64_max]%Q | _ => false end.

(* The null value v of dtype t (a Python int is an int64, a float a float64): the null
   value for data of dtype d, and whether there is a warning.  Python integers outside of
   int64 and longdouble are left out. *)
Definition reconcile (t : dtype) (v : num) (d : dtype) : num * bool :=
  if is_nan v then (default_null d, false)
  else if can_cast t d then (v, false)
  else
    let '(nt, nv) :=
      if is_float_dtype t then
        match integer_of v with
        | Some z => if near_limit v then (t, v)
                    else match min_int_type z with Some m => (m, of_Z z) | None => (t, v) end
        | None => let m := min_float_type t v in (m, if dtype_eqb m t then v else round_to m v)
        end
      else match integer_of v with
           | Some z => match min_int_type z with Some m => (m, v) | None => (t, v) end
           | None => (t, v)
           end in
    if can_cast nt d || (dtype_eqb d BOOL && (num_eqb nv (of_Z 0) || num_eqb nv (of_Z 1))) then (nv, false)
    else (default_null d, true).
Definition reconcile_nullvalue_with_dtype (nv : option (dtype * num)) (d : dtype) : option num :=
  match nv with None => None | Some (t, v) => Some (fst (reconcile t v d)) end.
