(* What a function of Raster.bandwise and another operand must give. *)
From Coq Require Import QArith String.
From Verif Require Import Base Scalars Arr2 Raster RasterSpec UfuncCall UfuncCallSpec BandwiseCall.
From Verif Require Align.
Open Scope Z_scope.

(* the operand has the dtype d and the value v b for band b; nb bands, nx columns *)
Inductive by_band (nb nx : Z) : input -> dtype -> (Z -> num) -> Prop :=
  | by_int z : - 2 ^ 63 <= z < 2 ^ 63 -> by_band nb nx (Obj (PInt z)) I64 (fun _ => of_Z z)
  | by_float x : by_band nb nx (Obj (PFloat x)) F64 (fun _ => x)
  | by_bool t : by_band nb nx (Obj (PBool t)) BOOL (fun _ => if t then of_Z 1 else of_Z 0)
  | by_number d x : by_band nb nx (Obj (PNumber d x)) d (fun _ => x)
  | by_one d sh x : by_band nb nx (Nd d (Align.NdArray sh [x])) d (fun _ => x)
  | by_list d l v : len l = nb -> 1 < nb -> nx <> 1 -> nx <> nb -> (forall b, 0 <= b < nb -> get l b = Ok (v b)) -> by_band nb nx (Nd d (Align.NdArray [nb] l)) d v.
Definition pair_in_order {A} (first : bool) (a b : A) : list A := if first then [a; b] else [b; a].
(* es: the outputs of u for raster e, first or second, and the operand *)
Definition band_outputs (nb nc : Z) (e : entry) (u : ufunc) (first : bool) (v : Z -> num) (ds : list dtype) (es : list entry) : Prop :=
  len es = u_nout u
  /\ forall k d, get ds k = Ok d -> exists e', get es k = Ok e' /\ wf nb nc (e_raster e') /\ r_dtype (e_raster e') = d /\ e_crs e' = e_crs e
     /\ r_nv (e_raster e') = (if masked (e_raster e) then Some (default_null d) else None)
     /\ forall b c, in_raster nb nc b c -> null (e_raster e') b c = null (e_raster e) b c
        /\ value (e_raster e') b c = if null (e_raster e) b c then default_null d else u_fun u k (pair_in_order first (value (e_raster e) b c) (v b)).
(* u works cell by cell on two operands of these types and gives the dtypes ds *)
Definition good_types (e : entry) (u : ufunc) (first : bool) (d : dtype) (ds : list dtype) : Prop :=
  let ts := pair_in_order first (Strong (r_dtype (e_raster e))) (Strong d) in
  u_unsupported u = false /\ u_gufunc u = false /\ u_nin u = 2 /\ u_loop u ts = Some ds /\ 0 <= u_nout u /\ len ds = u_nout u
  /\ (bit_function (u_name u) -> ~ has_float ts) /\ (masked (e_raster e) = true \/ u_nout u <= 1).
(* operands that are looked at: the adapter, arrays, rasters and numbers *)
Inductive looked_at : input -> Prop :=
  | l_adapter : looked_at Adapter
  | l_array d a : looked_at (Nd d a)
  | l_unknown d : looked_at (Unknown d)
  | l_raster id : looked_at (Obj (PRaster id))
  | l_int z : looked_at (Obj (PInt z))
  | l_float x : looked_at (Obj (PFloat x))
  | l_bool t : looked_at (Obj (PBool t))
  | l_number d x : looked_at (Obj (PNumber d x)).
