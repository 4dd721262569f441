(* Model of how numpy functions and operators reach rasters (raster.py:160-275 and
   278-365): which operands are taken, scalars made numpy scalars, operands kept in
   order, "out", and the CRS of the result.  The cells are computed by apply_ufunc
   (Raster.v).

   Left out: complex numbers, fractions and decimals; alignment and the broadcasting of
   arrays (C63: an array comes with its values spread over the raster, or does not fit);
   making a Raster of a DataArray (C62); the text of errors.  np.matmul and the like are
   marked in the function. *)
From Coq Require Import QArith String.
From Verif Require Import Base Scalars Arr2 Dtypes Raster.
Open Scope Z_scope.

Inductive exn := XTypeError | XValueError | XOverflowError | XNotImplementedError | XAttributeError | XIndexError.
(* __array_ufunc__ returns a value, raises, or returns NotImplemented *)
Inductive outcome (A : Type) := Value (a : A) | Raise (e : exn) | Declined.
Arguments Value {A} a.
Arguments Raise {A} e.
Arguments Declined {A}.
Definition obind {A B} (r : outcome A) (k : A -> outcome B) : outcome B := match r with Value a => k a | Raise e => Raise e | Declined => Declined end.

Record entry := Entry { e_raster : raster; e_crs : option Z }.
(* rasters are mutable: PRaster gives the position in the list of all rasters *)
Inductive pyobj :=
  | PRaster (id : Z)
  | PInt (z : Z) | PFloat (v : num) | PBool (b : bool)   (* of Python *)
  | PNumber (d : dtype) (v : num)                        (* of numpy, except np.bool_ *)
  | PArray (d : dtype) (cells : option (arr2 num))       (* list, tuple, range, ndarray, dask array *)
  | PDataArray (e : entry)
  | POther.                                              (* np.bool_, None, str, xr.Dataset, ... *)
(* types as numpy sees them: a dtype, or a Python scalar, which is weak *)
Inductive argtype := Strong (d : dtype) | WeakBool | WeakInt | WeakFloat.
Record ufunc := Ufunc {
  u_name : string; u_nin : Z; u_nout : Z; u_gufunc : bool; u_unsupported : bool;
  u_loop : list argtype -> option (list dtype);  (* the dtypes of the outputs *)
  u_fun : Z -> list num -> num }.                (* the values of output k *)

(* an argument of the numpy function *)
Inductive arg := ARaster (e : entry) | AData (e : entry) | AArray (d : dtype) (cells : arr2 num) | AScalar (t : argtype) (v : num).

(* raster.py:288-296, 300-303 *)
Definition handled (o : pyobj) : bool := match o with POther => false | _ => true end.
Definition of_bool (b : bool) : num := of_Z (if b then 1 else 0).
Definition is_raster (o : pyobj) (id : Z) : bool := match o with PRaster i => i =? id | _ => false end.
(* an operand as it is *)
Definition plain (s : list entry) (o : pyobj) : outcome arg :=
  match o with
  | PRaster id => match get s id with Ok e => Value (ARaster e) | Err _ => Raise XIndexError end
  | PInt z => Value (AScalar WeakInt (of_Z z))
  | PFloat v => Value (AScalar WeakFloat v)
  | PBool b => Value (AScalar WeakBool (of_bool b))
  | PNumber d v => Value (AScalar (Strong d) v)
  | PArray d (Some a) => Value (AArray d a)
  | PArray d None => Raise XValueError
  | PDataArray e => Value (AData e)
  | POther => Raise XTypeError
  end.
(* raster.py:160-184 _normalize_ufunc_other *)
Definition normalize_other (s : list entry) (o : pyobj) : outcome arg :=
  match o with
  | PDataArray e => Value (ARaster e)
  | PArray d None => Raise XValueError
  | _ => plain s o
  end.

(* raster.py:189-201, numpy 2: np.int64 of a large int raises OverflowError *)
Definition to_numpy (keep : bool) (a : arg) : outcome arg :=
  match a with
  | AScalar WeakInt v =>
      if keep then Value a
      else if num_leb (of_Z (- 2 ^ 63)) v && num_leb v (of_Z (2 ^ 63 - 1)) then Value (AScalar (Strong I64) v) else Raise XOverflowError
  | AScalar WeakFloat v => if keep then Value a else Value (AScalar (Strong F64) v)
  | _ => Value a
  end.
Definition arg_type (a : arg) : argtype :=
  match a with ARaster e | AData e => Strong (r_dtype (e_raster e)) | AArray d _ => Strong d | AScalar t _ => t end.
(* is_float of the type of a Python scalar is False (dtypes.py:65-68) *)
Definition type_float (t : argtype) : bool := match t with Strong d => is_float_dtype d | _ => false end.
(* arrays count as rasters without null value; so does a DataArray that was not made a
   Raster *)
Definition unmasked (d : dtype) (a : arr2 num) : raster := Raster d None a (map2 (fun _ => false) a).
Definition arg_operand (a : arg) : operand :=
  match a with
  | ARaster e => ORaster (e_raster e)
  | AData e => ORaster (unmasked (r_dtype (e_raster e)) (r_data (e_raster e)))
  | AArray d a => ORaster (unmasked d a)
  | AScalar t v => OScalar v (type_float t)
  end.
Definition labelled (a : arg) : bool := match a with ARaster _ | AData _ => true | _ => false end.
Definition is_scalar (a : arg) : bool := match a with AScalar _ _ => true | _ => false end.
Definition int_only (name : string) : bool := String.prefix "bitwise" name || existsb (String.eqb name) ["left_shift"; "right_shift"]%string.
Definition of_err (e : err) : exn := match e with ValueError => XValueError | IndexError => XIndexError | _ => XTypeError end.

(* raster.py:187-269 _apply_ufunc; other is the operand that is not this *)
Definition apply (u : ufunc) (this : entry) (other : option arg) (lhs : arg) (rhs : option arg) : outcome (list entry) :=
  obind (to_numpy (String.eqb (u_name u) "ldexp") lhs) (fun lhs =>
  obind (match rhs with Some a => obind (to_numpy false a) (fun a => Value [a]) | None => Value [] end) (fun rhs =>
  let args := lhs :: rhs in
  let crs := match e_crs this with Some c => Some c | None => match other with Some (ARaster e) => e_crs e | _ => None end end in
  if int_only (u_name u) && existsb (fun a => type_float (arg_type a)) args then Raise XTypeError
  else if negb (len args =? u_nin u) then Raise XTypeError
  else
    match u_loop u (map arg_type args) with
    | None => Raise XTypeError
    | Some ds =>
        if negb (existsb labelled args) then
          (* the outputs are no DataArrays *)
          Raise (if (1 <? u_nout u) || forallb is_scalar args then XTypeError else XAttributeError)
        else
          match apply_ufunc false (combine (map (u_fun u) (zrange 0 (u_nout u))) ds) (map arg_operand args) with
          | Ok rs => Value (map (fun r => Entry r crs) rs)
          | Err e => Raise (of_err e)
          end
    end)).

(* the result: new rasters, or the raster given as out *)
Inductive result := Fresh (rs : list entry) | Itself (id : Z).
(* raster.py:300-358 __array_ufunc__ of raster number self; the list of rasters comes
   back with it.  Keywords other than out are not looked at: dtype stands for them. *)
Definition array_ufunc (s : list entry) (self : Z) (u : ufunc) (is_call : bool) (inputs out : list pyobj) (dtype : option dtype) : outcome (result * list entry) :=
  if negb (forallb handled (inputs ++ out)) then Declined
  else if u_unsupported u then Raise XTypeError
  else if u_gufunc u then Raise XNotImplementedError
  else if negb is_call then Raise XNotImplementedError
  else if u_nin u <? len inputs then Raise XTypeError
  else if 1 <? len out then Raise XNotImplementedError
  else if negb (forallb (fun o => is_raster o self) out) then Raise XNotImplementedError
  else
    match get s self, inputs with
    | Ok this, lhs :: rest =>
        obind (if u_nin u =? 2 then match rest with r :: _ => Value (Some r) | [] => Raise XIndexError end else Value None) (fun rhs =>
        obind (if is_raster lhs self
               then obind (match rhs with Some r => obind (normalize_other s r) (fun a => Value (Some a)) | None => Value None end) (fun other =>
                    apply u this other (ARaster this) other)
               else obind (normalize_other s lhs) (fun other =>
                    obind (match rhs with Some r => obind (plain s r) (fun a => Value (Some a)) | None => Value None end) (fun rhs =>
                    apply u this (Some other) other rhs))) (fun rs =>
        match out with
        | [] => Value (Fresh rs, s)
        | _ => match rs with
               | [r] => match set s self r with Ok s' => Value (Itself self, s') | Err e => Raise (of_err e) end
               | _ => Raise XTypeError
               end
        end))
    | _, _ => Raise XIndexError
    end.

(* numpy: it counts the operands, then asks the first raster among inputs and out; if
   that declines there is a TypeError *)
Definition call_ufunc (s : list entry) (u : ufunc) (inputs out : list pyobj) (dtype : option dtype) : outcome (result * list entry) :=
  if negb (len inputs =? u_nin u) then Raise XTypeError
  else if negb ((len out =? 0) || (len out =? u_nout u)) then Raise XValueError
  else
    match flat_map (fun o => match o with PRaster id => [id] | _ => [] end) (inputs ++ out) with
    | [] => Raise XTypeError
    | self :: _ => match array_ufunc s self u true inputs out dtype with Declined => Raise XTypeError | r => r end
    end.
(* operators (NDArrayOperatorsMixin): a + b, b + a where only a is a raster, a += b *)
Definition binary_operator (s : list entry) (u : ufunc) (self : Z) (other : pyobj) := call_ufunc s u [PRaster self; other] [] None.
Definition reflected_operator (s : list entry) (u : ufunc) (self : Z) (other : pyobj) := call_ufunc s u [other; PRaster self] [] None.
Definition inplace_operator (s : list entry) (u : ufunc) (self : Z) (other : pyobj) := call_ufunc s u [PRaster self; other] [PRaster self] None.
