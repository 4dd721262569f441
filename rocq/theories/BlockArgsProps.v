(* C22, C45, C46: the arguments of map_blocks / map_overlap. *)
From Verif Require Import Base Scalars ChunksSpec BlockArgs BlockArgsSpec BlockArgsProofs.
From Coq Require Import Ascii.

(* C22: exactly the documented depth specifications are accepted, with the
   documented meaning; everything else is rejected. *)
Theorem C22_depth_meaning : forall v y x,
  normalize_depth v = Ok (Sym 0, y, x) <-> depth_means v y x.
Proof. exact depth_spec. Qed.
Print Assumptions C22_depth_meaning.

Theorem C22_depth_rejected : forall v,
  (exists y x, normalize_depth v = Ok (Sym 0, y, x))
  \/ normalize_depth v = Err ValueError \/ normalize_depth v = Err TypeError.
Proof. exact depth_cases. Qed.
Print Assumptions C22_depth_rejected.

Example ex_depth : depth_means (PDict [(PInt 2, PTuple [PInt 1; PInt 3]); (PInt 0, PInt 0)]) (Sym 0) (Asym 1 3).
Proof. apply depth_spec. reflexivity. Qed.
Example ex_depth_bad :
  normalize_depth (PDict [(PInt 0, PInt 1)]) = Err ValueError
  /\ normalize_depth (PTuple [PInt 1; PInt 2; PInt 3]) = Err TypeError
  /\ normalize_depth (PTuple [PInt 1; PInt (-2)]) = Err ValueError
  /\ normalize_depth POther = Err TypeError.
Proof. repeat split. Qed.

(* C22: after re-chunking every input has the same chunks, the total size is
   unchanged and no chunk is smaller than the overlap (the larger side for an
   asymmetric depth); chunks that are large enough are left alone; an axis that
   is smaller than the overlap is rejected. *)
Theorem C22_chunks_for_overlap : forall cb cy cx others d y x,
  cy <> [] -> cx <> [] -> Forall (fun c => 0 <= c) cy -> Forall (fun c => 0 <= c) cx ->
  depth_means d y x ->
  let dy := match y with Sym n => n | Asym l r => Z.max l r end in
  let dx := match x with Sym n => n | Asym l r => Z.max l r end in
  (dy <= sum cy /\ dx <= sum cx ->
   exists ny nx, ensure_chunks_for_overlap ((cb, cy, cx) :: others) (Sym 0, y, x)
       = Ok (map (fun _ => (cb, ny, nx)) ((cb, cy, cx) :: others))
     /\ Forall (fun c => dy <= c) ny /\ Forall (fun c => dx <= c) nx
     /\ sum ny = sum cy /\ sum nx = sum cx
     /\ (Forall (fun c => dy <= c) cy -> ny = cy) /\ (Forall (fun c => dx <= c) cx -> nx = cx))
  /\ (sum cy < dy \/ sum cx < dx ->
      ensure_chunks_for_overlap ((cb, cy, cx) :: others) (Sym 0, y, x) = Err ValueError).
Proof. exact ensure_chunks_spec. Qed.
Print Assumptions C22_chunks_for_overlap.

Example ex_chunks :
  ensure_chunks_for_overlap [([1], [5; 1; 1; 5], [4; 2]); ([1], [12], [6])] (Sym 0, Sym 3, Asym 2 1)
  = Ok [([1], [6; 6], [4; 2]); ([1], [6; 6], [4; 2])].
Proof. vm_compute. reflexivity. Qed.

(* C45: the null value handed to the block function is the one of the result ... *)
Theorem C45_same_null_value : forall return_mask dtype_ meta inferred nv rd rnv n,
  check_dtype_meta_agree dtype_ meta = Ok tt ->
  return_mask = false \/ nv <> NvNone \/ out_dtype_hint dtype_ meta <> None ->
  wrapper_out_nv return_mask dtype_ meta inferred nv rd rnv n = final_nv dtype_ meta inferred nv rd rnv n.
Proof. exact wrapper_nv_agrees. Qed.
Print Assumptions C45_same_null_value.

(* ... and follows the documented rule. *)
Theorem C45_rule : forall nv rd rnv n d,
  resolve_out_null_value nv rd rnv n (Plain d) =
    match nv with
    | NvNum v => Ok (Some v)
    | NvStr => Err ValueError
    | NvNone => if (n =? 1) && dtype_eqb rd d then Ok rnv else Ok (Some (default_null d))
    end.
Proof. exact out_nv_rule. Qed.
Print Assumptions C45_rule.

(* Finding: with return_mask=True, no dtype=, meta= or null_value=, the block
   function that asks for out_null_value never runs: the block's dtype is the
   structured one and has no default null value.  The docstring calls the
   injection "unnecessary (though harmless) when return_mask=True". *)
Theorem C45_return_mask_refuted : forall inferred rd rnv n,
  wrapper_out_nv true None None inferred NvNone rd rnv n = Err KeyError
  /\ exists v, final_nv None None inferred NvNone rd rnv n = Ok v.
Proof.
  intros. split.
  - unfold wrapper_out_nv. cbn. now rewrite Bool.andb_false_r.
  - unfold final_nv. rewrite out_nv_rule. destruct (_ && _); eauto.
Qed.
Print Assumptions C45_return_mask_refuted.

Example ex_nv : wrapper_out_nv false None None F32 NvNone F32 (Some (of_Z (-9999))) 1 = Ok (Some (of_Z (-9999)))
  /\ wrapper_out_nv false (Some U8) None F32 NvNone F32 (Some (of_Z (-9999))) 1 = Ok (Some (of_Z 255))
  /\ wrapper_out_nv true None (Some F64) F32 NvNone F32 None 2 = Ok (Some (of_Z (-999999))).
Proof. repeat split. Qed.

(* C46: in the padded arrays every position carries the value and the mask bit of
   one and the same cell of the raster, or the fill value together with the mask
   bit that belongs to it: set for the null fill, and for a constant exactly when
   the constant is the null value. *)
Theorem C46_data_and_mask_padded_alike : forall b nv d db mb depth data mask,
  resolve_boundary b nv d = Ok (db, mb) -> len data = len mask ->
  exists pairs,
    dask_pad db depth data = map fst pairs
    /\ dask_pad mb depth mask = map snd pairs
    /\ forall v m, In (v, m) pairs ->
       In (v, m) (combine data mask)
       \/ db = DConst v
          /\ match b with
             | BNone => False
             | BStr _ => m = true /\ v = match nv with Some n => n | None => default_null d end
             | BNum c => v = c /\ m = match nv with Some n => nan_equal c n | None => false end
             end.
Proof. exact boundary_sync. Qed.
Print Assumptions C46_data_and_mask_padded_alike.

Theorem C46_accepted_strings : forall s nv d,
  (exists r, resolve_boundary (BStr s) nv d = Ok r) <->
  In (lower s) [s_null; s_null_value; s_nodata; s_reflect; s_periodic; s_nearest; s_none].
Proof. exact boundary_strings. Qed.
Print Assumptions C46_accepted_strings.

Example ex_boundary :
  resolve_boundary (BStr ["N"; "o"; "D"; "a"; "T"; "a"]%char) None I16 = Ok (DConst (of_Z (-32768)), DConst true)
  /\ resolve_boundary (BNum NaN) (Some NaN) F32 = Ok (DConst NaN, DConst true)
  /\ resolve_boundary (BNum (of_Z 0)) (Some (of_Z 5)) F32 = Ok (DConst (of_Z 0), DConst false)
  /\ dask_pad (DNamed s_reflect) 2 [1; 2; 3] = [2; 1; 1; 2; 3; 3; 2]
  /\ dask_pad (DNamed s_periodic) 2 [1; 2; 3] = [2; 3; 1; 2; 3; 1; 2]
  /\ dask_pad (DNamed s_nearest) 2 [1; 2; 3] = [1; 1; 1; 2; 3; 3; 3].
Proof. repeat split. Qed.
