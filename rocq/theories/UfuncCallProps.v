(* C78: numpy functions and operators of rasters. *)
From Coq Require Import QArith String Lia.
From Verif Require Import Base BaseFacts Scalars Dtypes Arr2 Raster RasterSpec RasterProofs UfuncCall UfuncCallSpec UfuncCallProofs.
Open Scope Z_scope.

(* Operands are used in the order given, whichever of them is a raster; the result is
   null where an operand is, has the dtype numpy gives for the operands (a Python int
   counts as int64) and the CRS of the first raster that has one; nothing else changes. *)
Theorem C78_call : forall nb nc s u inputs ds kw, good_call nb nc s u inputs ds -> exists es, call_ufunc s u inputs [] kw = Value (Fresh es, s) /\ outputs_of nb nc s u inputs ds es.
Proof. exact call_ok. Qed.
Print Assumptions C78_call.
(* In place: the raster becomes what the call without out gives; other rasters stay. *)
Theorem C78_inplace : forall nb nc s u inputs ds kw self, good_call nb nc s u inputs ds -> u_nout u = 1 -> hd_error (rasters inputs) = Some (PRaster self) -> exists e s', call_ufunc s u inputs [] kw = Value (Fresh [e], s)
  /\ call_ufunc s u inputs [PRaster self] kw = Value (Itself self, s') /\ get s' self = Ok e /\ len s' = len s /\ forall i, i <> self -> get s' i = get s i.
Proof. exact inplace_ok. Qed.
Print Assumptions C78_inplace.
(* Refusals. *)
Theorem C78_operands : forall s u inputs out kw, len inputs = u_nin u -> out = [] \/ len out = u_nout u -> (exists id, In (PRaster id) (inputs ++ out)) -> In POther (inputs ++ out) -> call_ufunc s u inputs out kw = Raise XTypeError.
Proof. exact refuse_other. Qed.
Print Assumptions C78_operands.
Theorem C78_functions : forall s u inputs out kw, len inputs = u_nin u -> out = [] \/ len out = u_nout u -> (exists id, In (PRaster id) (inputs ++ out)) -> ~ In POther (inputs ++ out) ->
  (u_unsupported u = true -> call_ufunc s u inputs out kw = Raise XTypeError)
  /\ (u_unsupported u = false -> u_gufunc u = true -> call_ufunc s u inputs out kw = Raise XNotImplementedError)
  /\ (u_unsupported u = false -> u_gufunc u = false -> 1 < len out -> call_ufunc s u inputs out kw = Raise XNotImplementedError)
  /\ (forall first o, u_unsupported u = false -> u_gufunc u = false -> hd_error (rasters inputs) = Some (PRaster first) -> out = [o] -> o <> PRaster first -> call_ufunc s u inputs out kw = Raise XNotImplementedError).
Proof. exact refuse_kind. Qed.
Print Assumptions C78_functions.
Theorem C78_unfit : forall s u kw self this o, cellwise u -> u_nin u = 2 -> get s self = Ok this ->
  (forall d, o = PArray d None -> call_ufunc s u [PRaster self; o] [] kw = Raise XValueError /\ call_ufunc s u [o; PRaster self] [] kw = Raise XValueError)
  /\ (forall z, o = PInt z -> ~ (- 2 ^ 63 <= z < 2 ^ 63) -> call_ufunc s u [PRaster self; o] [] kw = Raise XOverflowError /\ (u_name u <> "ldexp"%string -> call_ufunc s u [o; PRaster self] [] kw = Raise XOverflowError)).
Proof. exact refuse_operand. Qed.
Print Assumptions C78_unfit.
(* float operands of functions of bits, and operands numpy has no loop for *)
Theorem C78_types : forall nb nc s u inputs kw, cellwise u -> len inputs = u_nin u -> Forall (obj_ok nb nc s) inputs -> rasters inputs <> [] ->
  bit_function (u_name u) /\ has_float (types s u inputs) \/ u_loop u (types s u inputs) = None -> call_ufunc s u inputs [] kw = Raise XTypeError.
Proof. exact refuse_types. Qed.
Print Assumptions C78_types.

(* ---- examples ---- *)
Definition strong (t : argtype) : dtype := match t with Strong d => d | WeakBool => BOOL | WeakInt => I64 | WeakFloat => F64 end.
Definition promote (ts : list argtype) : option (list dtype) := match ts with [a; b] => Some [promote_types (strong a) (strong b)] | _ => None end.
Definition minus (k : Z) (l : list num) : num := match l with [Fin a; Fin b] => Fin (Qred (a - b)) | _ => NaN end.
Definition subtract : ufunc := Ufunc "subtract" 2 1 false false promote minus.
Definition e1 : entry := Entry (Raster I16 (Some (of_Z (-1))) [map of_Z [5; -1; 7]] [[false; true; false]]) None.
Definition e2 : entry := Entry (Raster U8 None [map of_Z [1; 2; 3]] [[false; false; false]]) (Some 3).
Definition e3 : entry := Entry (Raster U64 None [map of_Z [1; 2; 3]] [[false; false; false]]) (Some 4).
Definition store := [e1; e2; e3].
Example C78_example : binary_operator store subtract 0 (PRaster 1) = Value (Fresh [Entry (Raster I16 (Some (of_Z (- 2 ^ 15))) [map of_Z [4; -32768; 4]] [[false; true; false]]) (Some 3)], store)
  /\ reflected_operator store subtract 1 (PInt 10) = Value (Fresh [Entry (Raster I64 None [map of_Z [9; 8; 7]] [[false; false; false]]) (Some 3)], store)
  /\ inplace_operator store subtract 1 (PRaster 0) = Value (Itself 1, [e1; Entry (Raster I16 (Some (of_Z (- 2 ^ 15))) [map of_Z [-4; -32768; -4]] [[false; true; false]]) (Some 3); e3])
  /\ binary_operator store subtract 1 POther = Raise XTypeError
  /\ call_ufunc store subtract [PRaster 0; PRaster 1] [PRaster 1] None = Raise XNotImplementedError.
Proof. vm_compute. auto. Qed.
Lemma wf_cells d nv v m : len v = 3 /\ len m = 3 /\ (nv = None -> m = [false; false; false]) -> wf 1 3 (Raster d nv [v] [m]).
Proof.
  intros (L1 & L2 & N). split; [lia|]. split; [lia|]. split; [split; [reflexivity|repeat constructor; exact L1]|]. split; [split; [reflexivity|repeat constructor; exact L2]|].
    cbn [r_nv]. intros NV b c [Hb Hc]. rewrite (N NV). assert (b = 0) by lia. assert (X : c = 0 \/ c = 1 \/ c = 2) by lia. subst. destruct X as [->|[->| ->]]; reflexivity.
Qed.
Example C78_hypotheses : good_call 1 3 store subtract [PRaster 0; PRaster 1] [I16] /\ good_call 1 3 store subtract [PInt 10; PRaster 1] [I64].
Proof.
  assert (W0 : obj_ok 1 3 store (PRaster 0)) by (exists e1; split; [reflexivity|]; apply wf_cells; repeat split; discriminate).
  assert (W1 : obj_ok 1 3 store (PRaster 1)) by (exists e2; split; [reflexivity|]; apply wf_cells; repeat split; discriminate).
  assert (NB : ~ bit_function (u_name subtract)). { intros [(r & E)|[E|E]]; discriminate. }
  split; (split; [split; [reflexivity|split; [reflexivity|now right]]|]; split; [reflexivity|]; split; [repeat constructor; try assumption; cbn; lia|]; split; [discriminate|]; split; [reflexivity|];
    split; [cbn; lia|]; split; [reflexivity|]; split; [intros B; now destruct NB|right; cbn; lia]).
Qed.
(* Finding: keywords other than out are dropped: numpy's dtype= has no effect. *)
Theorem C78_dtype_refuted : ~ (forall s u inputs d es s', call_ufunc s u inputs [] (Some d) = Value (Fresh es, s') -> Forall (fun e => r_dtype (e_raster e) = d) es).
Proof.
  intros H. specialize (H store subtract [PRaster 0; PRaster 1] F32 [Entry (Raster I16 (Some (of_Z (- 2 ^ 15))) [map of_Z [4; -32768; 4]] [[false; true; false]]) (Some 3)] store eq_refl).
  inversion H as [|? ? E _]. discriminate.
Qed.
Print Assumptions C78_dtype_refuted.
(* Finding: Python ints count as int64, unlike in numpy 2, where they take the dtype of
   the array: uint64 rasters become float64 (which is inexact), int8 rasters int64. *)
Theorem C78_int_refuted : ~ (forall s self z es s', call_ufunc s subtract [PRaster self; PInt z] [] None = Value (Fresh es, s') -> forall e0, get s self = Ok e0 -> is_int_dtype (r_dtype (e_raster e0)) = true -> Forall (fun e => is_int_dtype (r_dtype (e_raster e)) = true) es).
Proof.
  intros H. specialize (H store 2 1 [Entry (Raster F64 None [map of_Z [0; 1; 2]] [[false; false; false]]) (Some 4)] store eq_refl e3 eq_refl eq_refl).
  inversion H as [|? ? E _]. discriminate.
Qed.
Print Assumptions C78_int_refuted.
(* Finding: an int that fits the raster's dtype but not int64 raises OverflowError. *)
Theorem C78_large_int_refuted : ~ (forall s self e z, get s self = Ok e -> r_dtype (e_raster e) = U64 -> 0 <= z < 2 ^ 64 -> exists r, call_ufunc s subtract [PRaster self; PInt z] [] None = Value r).
Proof. intros H. destruct (H store 2 e3 (2 ^ 63) eq_refl eq_refl ltac:(lia)) as (r & E). vm_compute in E. discriminate. Qed.
Print Assumptions C78_large_int_refuted.
(* Finding: rasters with different CRSs are combined without an error. *)
Theorem C78_crs_refuted : ~ (forall s i j a b ka kb r, get s i = Ok a -> get s j = Ok b -> e_crs a = Some ka -> e_crs b = Some kb -> call_ufunc s subtract [PRaster i; PRaster j] [] None = Value r -> ka = kb).
Proof.
  intros H. destruct (call_ufunc store subtract [PRaster 1; PRaster 2] [] None) as [r| |] eqn:E; [|vm_compute in E; discriminate..].
  specialize (H store 1 2 e2 e3 3 4 r eq_refl eq_refl eq_refl eq_refl E). discriminate.
Qed.
Print Assumptions C78_crs_refuted.
