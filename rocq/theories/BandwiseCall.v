(* Model of how numpy functions and operators reach Raster.bandwise (raster.py:375-473
   and 1456-1464), on top of UfuncCall.v.

   Left out: another adapter as the operand (numpy makes an array of Python objects
   of it), ints beyond uint64 (the same), and what UfuncCall.v leaves out. *)
From Coq Require Import QArith String.
From Verif Require Import Base Scalars Arr2 Dtypes Raster UfuncCall.
From Verif Require Align.
Open Scope Z_scope.

(* an input of the function: the adapter itself, an array with its shape, a dask
   array of unknown size, or something else *)
Inductive input := Adapter | Nd (d : dtype) (a : Align.ndarray) | Unknown (d : dtype) | Obj (o : pyobj).
(* raster.py:399-406, 415-423: no DataArray *)
Definition taken (i : input) : bool :=
  match i with
  | Obj (PRaster _ | PInt _ | PFloat _ | PBool _ | PNumber _ _) => true
  | Obj _ => false
  | _ => true
  end.
Definition is_adapter (i : input) : bool := match i with Adapter => true | _ => false end.

Section Shapes.
(* rows and columns of raster number id; its cells are in row-major order *)
Variable dims : Z -> Z * Z.
Variable s : list entry.

(* np.atleast_1d(other); a Raster gives its data (368-372 __array__) *)
Definition atleast_1d (i : input) : outcome (dtype * Align.ndarray) :=
  let one d v := Value (d, Align.NdArray [1] [v]) in
  match i with
  | Nd d a => Value (d, Align.NdArray (match Align.nd_shape a with [] => [1] | sh => sh end) (Align.nd_flat a))
  | Unknown d => Raise XValueError                        (* line 377-378 *)
  | Obj (PInt z) => one (if (- 2 ^ 63 <=? z) && (z <? 2 ^ 63) then I64 else U64) (of_Z z)
  | Obj (PFloat v) => one F64 v
  | Obj (PBool b) => one BOOL (of_bool b)
  | Obj (PNumber d v) => one d v
  | Obj (PRaster id) =>
      match get s id with
      | Ok e => Value (r_dtype (e_raster e), Align.NdArray [len (r_data (e_raster e)); fst (dims id); snd (dims id)] (concat (r_data (e_raster e))))
      | Err _ => Raise XIndexError
      end
  | _ => Raise XTypeError
  end.
(* an array of shape (1,) or (n, 1, 1) spread over nb bands of nc cells *)
Definition spread (nb nc : Z) (a : Align.ndarray) : arr2 num :=
  match Align.nd_shape a, Align.nd_flat a with
  | [_], v :: _ => full nb (full nc v)
  | _, l => map (full nc) l
  end.
(* raster.py:411-473 __array_ufunc__ of the adapter of raster number self; out is
   not looked at, only whether it is there *)
Definition bandwise_ufunc (self : Z) (u : ufunc) (is_call : bool) (inputs : list input) (out : bool) (dtype : option dtype) : outcome (result * list entry) :=
  if negb (forallb taken inputs) then Declined
  else if len inputs <? 2 then Raise XValueError
  else if 2 <? len inputs then Raise XValueError
  else if u_unsupported u then Raise XTypeError
  else if u_gufunc u then Raise XNotImplementedError
  else if negb is_call then Raise XNotImplementedError
  else if u_nin u <? len inputs then Raise XTypeError
  else if out then Raise XNotImplementedError
  else
    match get s self, inputs with
    | Ok this, [lhs; rhs] =>
        let nb := len (r_data (e_raster this)) in
        let '(ny, nx) := dims self in
        let other := if is_adapter lhs then rhs else lhs in
        obind (atleast_1d other) (fun '(d, a) =>
        match Align.normalize_bandwise_other a [nb; ny; nx] with
        | Err e => Raise (of_err e)
        | Ok a =>
            let o := PArray d (Some (spread nb (ny * nx) a)) in
            if is_adapter lhs then call_ufunc s u [PRaster self; o] [] dtype else call_ufunc s u [o; PRaster self] [] dtype
        end)
    | _, _ => Raise XIndexError
    end.
(* numpy counts the operands; a Raster among them declines first (UfuncCall.v) *)
Definition call_bandwise (self : Z) (u : ufunc) (inputs : list input) (out : bool) (dtype : option dtype) : outcome (result * list entry) :=
  if negb (len inputs =? u_nin u) then Raise XTypeError
  else match bandwise_ufunc self u true inputs out dtype with Declined => Raise XTypeError | r => r end.
End Shapes.
