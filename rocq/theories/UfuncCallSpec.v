(* What a numpy function of rasters must give. *)
From Coq Require Import QArith String.
From Verif Require Import Base Scalars Arr2 Arr2Facts FocalSpec Raster RasterSpec UfuncCall.
Open Scope Z_scope.

(* the raster an operand is or becomes *)
Definition obj_entry (s : list entry) (o : pyobj) : option entry :=
  match o with
  | PRaster id => match get s id with Ok e => Some e | Err _ => None end
  | PDataArray e => Some e
  | _ => None
  end.
Definition obj_value (s : list entry) (b c : Z) (o : pyobj) : num :=
  match o with
  | PInt z => of_Z z
  | PFloat v | PNumber _ v => v
  | PBool t => if t then of_Z 1 else of_Z 0
  | PArray _ (Some a) => val2 NaN a b c
  | _ => match obj_entry s o with Some e => value (e_raster e) b c | None => NaN end
  end.
Definition obj_null (s : list entry) (b c : Z) (o : pyobj) : bool := match obj_entry s o with Some e => null (e_raster e) b c | None => false end.
Definition obj_masked (s : list entry) (o : pyobj) : bool := match obj_entry s o with Some e => masked (e_raster e) | None => false end.
(* the type numpy gets: Python ints are int64 and floats are float64, except the first
   operand of ldexp *)
Definition obj_type (s : list entry) (keep : bool) (o : pyobj) : argtype :=
  match o with
  | PInt _ => if keep then WeakInt else Strong I64
  | PFloat _ => if keep then WeakFloat else Strong F64
  | PBool _ => WeakBool
  | PNumber d _ | PArray d _ => Strong d
  | _ => match obj_entry s o with Some e => Strong (r_dtype (e_raster e)) | None => WeakBool end
  end.
Definition types (s : list entry) (u : ufunc) (inputs : list pyobj) : list argtype :=
  match inputs with
  | o :: t => obj_type s (String.eqb (u_name u) "ldexp") o :: map (obj_type s false) t
  | [] => []
  end.
Definition has_float (ts : list argtype) : Prop := exists d, In (Strong d) ts /\ is_float_dtype d = true.
(* functions of bits *)
Definition bit_function (name : string) : Prop := (exists rest, name = String.append "bitwise" rest) \/ name = "left_shift"%string \/ name = "right_shift"%string.
(* operands of nb bands with nc cells each, or that fit *)
Definition obj_ok (nb nc : Z) (s : list entry) (o : pyobj) : Prop :=
  match o with
  | PInt z => - 2 ^ 63 <= z < 2 ^ 63
  | PFloat _ | PBool _ | PNumber _ _ => True
  | PArray _ (Some a) => shaped2 nb nc a
  | PArray _ None | POther => False
  | _ => exists e, obj_entry s o = Some e /\ wf nb nc (e_raster e)
  end.
Definition rasters (inputs : list pyobj) : list pyobj := filter (fun o => match o with PRaster _ => true | _ => false end) inputs.
Definition arrays (inputs : list pyobj) : list pyobj := filter (fun o => match o with PDataArray _ => true | _ => false end) inputs.
(* the CRS of the first raster that has one, then that of a DataArray *)
Definition crs_of (s : list entry) (inputs : list pyobj) : option Z :=
  fold_right (fun o c => match obj_entry s o with Some (Entry _ (Some k)) => Some k | _ => c end) None (rasters inputs ++ arrays inputs).
(* numpy functions that work cell by cell *)
Definition cellwise (u : ufunc) : Prop := u_unsupported u = false /\ u_gufunc u = false /\ (u_nin u = 1 \/ u_nin u = 2).
(* es are the outputs of u, with dtypes ds *)
Definition outputs_of (nb nc : Z) (s : list entry) (u : ufunc) (inputs : list pyobj) (ds : list dtype) (es : list entry) : Prop :=
  len es = u_nout u
  /\ forall k d, get ds k = Ok d -> exists e, get es k = Ok e /\ wf nb nc (e_raster e) /\ r_dtype (e_raster e) = d /\ e_crs e = crs_of s inputs
     /\ r_nv (e_raster e) = (if existsb (obj_masked s) inputs then Some (default_null d) else None)
     /\ forall b c, in_raster nb nc b c -> null (e_raster e) b c = existsb (obj_null s b c) inputs
        /\ value (e_raster e) b c = if null (e_raster e) b c then default_null d else u_fun u k (map (obj_value s b c) inputs).
(* a call that is all right *)
Definition good_call (nb nc : Z) (s : list entry) (u : ufunc) (inputs : list pyobj) (ds : list dtype) : Prop :=
  cellwise u /\ len inputs = u_nin u /\ Forall (obj_ok nb nc s) inputs /\ rasters inputs <> []
  /\ u_loop u (types s u inputs) = Some ds /\ 0 <= u_nout u /\ len ds = u_nout u
  /\ (bit_function (u_name u) -> ~ has_float (types s u inputs))
  /\ (existsb (obj_masked s) inputs = true \/ u_nout u <= 1).
