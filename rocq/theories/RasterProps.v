(* C23-C29, C30, C44: null handling of rasters. *)
From Coq Require Import QArith Permutation.
From Verif Require Import Base BaseFacts Scalars Dtypes Arr2 Raster FocalSpec RasterSpec RasterProofs RasterValues RasterStack Pad PadProofs.
Open Scope Z_scope.

(* ---- C23 ---- *)
Theorem C23_burn_mask nb nc r : wf nb nc r -> let r' := burn_mask r in
  wf nb nc r' /\ r_dtype r' = r_dtype r /\ r_nv r' = r_nv r
  /\ (forall b c, in_raster nb nc b c ->
        null r' b c = null r b c
        /\ (null r b c = false -> value r' b c = value r b c)
        /\ (null r b c = true -> r_dtype r <> BOOL -> r_nv r = Some (value r' b c))
        /\ (null r b c = true -> r_dtype r = BOOL -> value r' b c = of_Z 1))
  /\ burn_mask r' = r'.
Proof. exact (burn_spec nb nc r). Qed.
Print Assumptions C23_burn_mask.
Theorem C23_set_null_value cast float_dtype : cast BOOL NaN = of_Z 1 -> forall nb nc r s r', (forall v, float_dtype v <> BOOL) -> fits s ->
  wf nb nc r -> set_null_value cast float_dtype r (Some s) = Ok r' ->
  (forall b c, in_raster nb nc b c -> cast (r_dtype r') (value r b c) = value r b c) ->
  exists v, r_nv r' = Some v /\ wf nb nc r'
  /\ (v = scalar_num s \/ r_dtype r' = r_dtype r /\ v = cast (r_dtype r) (scalar_num s))
  /\ (r_dtype r' = BOOL -> v = of_Z 1)
  /\ forall b c, in_raster nb nc b c ->
     null r' b c = null r b c || same_value (value r b c) v
     /\ value r' b c = if null r' b c then v else value r b c.
Proof. exact (set_null_value_spec cast float_dtype). Qed.
Print Assumptions C23_set_null_value.
Theorem C23_clear_null_value cast float_dtype nb nc r : wf nb nc r ->
  exists r', set_null_value cast float_dtype r None = Ok r' /\ wf nb nc r' /\ r_nv r' = None /\ r_dtype r' = r_dtype r
  /\ forall b c, in_raster nb nc b c ->
     null r' b c = false /\ (null r b c = false -> value r' b c = value r b c)
     /\ (null r b c = true -> r_dtype r <> BOOL -> r_nv r = Some (value r' b c)).
Proof. exact (set_null_value_clear cast float_dtype nb nc r). Qed.
Print Assumptions C23_clear_null_value.
Theorem C23_data_to_raster nb nc d data mask nv burn : 0 < nb -> 0 <= nc -> shaped2 nb nc data ->
  match mask with Some m => shaped2 nb nc m | None => True end ->
  exists r, data_to_raster d data mask nv burn = Ok r /\ wf nb nc r /\ r_dtype r = d
  /\ r_nv r = match mask with
              | Some _ => match nv with Some v => Some v | None => Some (default_null d) end
              | None => match nv with Some v => Some v | None => None end
              end
  /\ forall b c, in_raster nb nc b c ->
     null r b c = match mask with
                  | Some m => val2 false m b c
                  | None => match nv with Some v => same_value (val2 NaN data b c) v | None => false end
                  end
     /\ (burn = true -> mask <> None -> null r b c = true -> r_nv r = Some (value r b c))
     /\ (burn = false \/ null r b c = false -> value r b c = val2 NaN data b c)
     /\ (mask = None -> null r b c = true -> exists v, r_nv r = Some v /\ same_value (value r b c) v = true).
Proof. exact (data_to_raster_spec nb nc d data mask nv burn). Qed.
Print Assumptions C23_data_to_raster.
(* Any history of set_null_value, set_null, burn_mask, astype and clip keeps every
   null cell at the null value. *)
Theorem C23_history cast float_dtype reconcile_other : cast BOOL NaN = of_Z 1 -> (forall v, float_dtype v <> BOOL) ->
  forall nb nc ks r r', wf nb nc r -> burned nb nc r -> Forall (call_ok nb nc) ks ->
  foldM (run_call cast float_dtype reconcile_other) ks r = Ok r' -> wf nb nc r' /\ burned nb nc r'.
Proof. exact (calls_burned cast float_dtype reconcile_other). Qed.
Print Assumptions C23_history.

(* a cast that is exact for the values below, and numpy's bool(nan) *)
Definition cast0 (d : dtype) (v : num) : num :=
  match d, v with
  | BOOL, NaN => of_Z 1
  | U8, Fin q => of_Z (Qnum q mod 256)
  | _, _ => v
  end.
Definition float64 (_ : num) : dtype := F64.
Definition ro0 (v : num) (d : dtype) : num * bool := (v, false).
Definition z := of_Z.
Definition r8 : raster := Raster U8 (Some (z 255)) [[z 1; z 255; z 7]; [z 3; z 7; z 0]] [[false; true; false]; [false; false; false]].
Lemma wf_r8 : wf 2 3 r8.
Proof. split; [lia|]. split; [lia|]. split; [split; [reflexivity|repeat constructor]|]. split; [split; [reflexivity|repeat constructor]|]. discriminate. Qed.

Example C23_example :
  set_null_value cast0 float64 r8 (Some (SInt 7))
  = Ok (Raster U8 (Some (z 7)) [[z 1; z 7; z 7]; [z 3; z 7; z 0]] [[false; true; true]; [false; true; false]])
  /\ set_null_value cast0 float64 r8 (Some (SInt (-1)))
     = Ok (Raster I16 (Some (z (-1))) [[z 1; z (-1); z 7]; [z 3; z 7; z 0]] [[false; true; false]; [false; false; false]])
  /\ set_null_value cast0 float64 r8 (Some (SFloat NaN))
     = Ok (Raster F16 (Some NaN) [[z 1; NaN; z 7]; [z 3; z 7; z 0]] [[false; true; false]; [false; false; false]]).
Proof. vm_compute. repeat split. Qed.
Example C23_history_example :
  exists r', foldM (run_call cast0 float64 ro0)
    [CSetNullValue (Some (SInt 7)); CAstype I16; CSetNull (Raster BOOL None [[z 1; z 0; z 0]] [[false; false; false]]); CClip false true [false; false; true]] r8 = Ok r'
  /\ r' = Raster I16 (Some (z 7)) [[z 7; z 7; z 7]; [z 7; z 7; z 7]] [[true; true; true]; [true; true; true]].
Proof. eexists. split; vm_compute; reflexivity. Qed.

(* set_null_value(nan) of a 64 bit integer raster is a KeyError *)
Theorem C23_int64_nan_refuted cast float_dtype data mask nv :
  set_null_value cast float_dtype (Raster I64 nv data mask) (Some (SFloat NaN)) = Err KeyError
  /\ set_null_value cast float_dtype (Raster U64 nv data mask) (Some (SFloat NaN)) = Err KeyError.
Proof. split; reflexivity. Qed.
Print Assumptions C23_int64_nan_refuted.
(* set_null_value(nan) of a bool raster makes every True cell null *)
Theorem C23_bool_nan_refuted :
  set_null_value cast0 float64 (Raster BOOL None [[z 1; z 0]] [[false; false]]) (Some (SFloat NaN))
  = Ok (Raster BOOL (Some (z 1)) [[z 1; z 0]] [[true; false]]).
Proof. vm_compute. reflexivity. Qed.
Print Assumptions C23_bool_nan_refuted.
(* An integer that no dtype holds is taken as the null value of an integer raster
   without a change of dtype: no cell can hold it. *)
Theorem C23_huge_null_value_refuted cast float_dtype :
  exists r', set_null_value cast float_dtype r8 (Some (SInt (2 ^ 64))) = Ok r' /\ r_dtype r' = U8 /\ r_nv r' = Some (z (2 ^ 64)).
Proof. eexists. split; [reflexivity|]. split; reflexivity. Qed.
Print Assumptions C23_huge_null_value_refuted.
(* astype(dtype, new_null_value) with a null value close to the old one keeps the
   old null value whether or not the dtype holds it, and does not rewrite the null
   cells: here null cells are 241 and the null value is -9999. *)
Theorem C23_astype_refuted :
  let r := Raster I16 (Some (z (-9999))) [[z 1; z (-9999)]] [[false; true]] in
  wf 1 2 r /\ burned 1 2 r
  /\ exists r', astype cast0 ro0 r U8 (Some (z (-9999))) = Ok r' /\ wf 1 2 r' /\ ~ burned 1 2 r'.
Proof.
  set (r := Raster _ _ _ _). split.
  { split; [lia|]. split; [lia|]. split; [split; [reflexivity|repeat constructor]|]. split; [split; [reflexivity|repeat constructor]|]. discriminate. }
  split. { split; [|discriminate]. intros b c [? ?]. assert (b = 0) as -> by lia. assert (c = 0 \/ c = 1) as [-> | ->] by lia; vm_compute; auto; discriminate. }
  eexists. split; [reflexivity|]. split.
  { split; [lia|]. split; [lia|]. split; [split; [reflexivity|repeat constructor]|]. split; [split; [reflexivity|repeat constructor]|]. discriminate. }
  intros [B _]. specialize (B 0 1 ltac:(split; lia) eq_refl). vm_compute in B. discriminate.
Qed.
Print Assumptions C23_astype_refuted.

(* ---- C24 ---- *)
Theorem C24_set_null nb nc r m : wf nb nc r -> mask_ok nb nc m ->
  exists r', set_null r m = Ok r' /\ wf nb nc r' /\ r_dtype r' = r_dtype r /\ r_nv r' = Some (null_value_of r)
  /\ forall b c, in_raster nb nc b c ->
     null r' b c = null r b c || selected_by m b c
     /\ (null r' b c = false -> value r' b c = value r b c)
     /\ (null r' b c = true -> value r' b c = if dtype_eqb (r_dtype r) BOOL then of_Z 1 else null_value_of r).
Proof. exact (set_null_spec nb nc r m). Qed.
Print Assumptions C24_set_null.
Theorem C24_sequence nb nc r ms : wf nb nc r -> Forall (mask_ok nb nc) ms -> ms <> [] ->
  exists r', foldM set_null ms r = Ok r' /\ wf nb nc r' /\ r_dtype r' = r_dtype r /\ r_nv r' = Some (null_value_of r)
  /\ forall b c, in_raster nb nc b c ->
     null r' b c = null r b c || existsb (fun m => selected_by m b c) ms
     /\ (null r' b c = false -> value r' b c = value r b c).
Proof. exact (set_null_union nb nc r ms). Qed.
Print Assumptions C24_sequence.
Theorem C24_order nb nc r ms ms' : wf nb nc r -> Forall (mask_ok nb nc) ms -> Permutation ms ms' ->
  foldM set_null ms r = foldM set_null ms' r.
Proof. exact (set_null_perm nb nc r ms ms'). Qed.
Print Assumptions C24_order.
Theorem C24_idempotent nb nc r m r' : wf nb nc r -> mask_ok nb nc m -> set_null r m = Ok r' -> set_null r' m = Ok r'.
Proof. exact (set_null_idem nb nc r m r'). Qed.
Print Assumptions C24_idempotent.
Theorem C24_errors nb nc nm nc' r m : wf nb nc r -> wf nm nc' m ->
  (1 < nm /\ nm <> nb \/ nc' <> nc -> set_null r m = Err ValueError)
  /\ (nm = 1 \/ nm = nb -> nc' = nc -> mask_dtype (r_dtype m) = false -> set_null r m = Err TypeError).
Proof. exact (set_null_errors nb nc nm nc' r m). Qed.
Print Assumptions C24_errors.
Example C24_example :
  set_null r8 (Raster U8 (Some (z 9)) [[z 2; z 0; z 9]] [[false; false; true]])
  = Ok (Raster U8 (Some (z 255)) [[z 255; z 255; z 7]; [z 255; z 7; z 0]] [[true; true; false]; [true; false; false]]).
Proof. vm_compute. reflexivity. Qed.

(* ---- C25 ---- *)
(* several outputs need an operand with a null value (see C25_outputs_refuted) *)
Theorem C25_ufunc nb nc int_only outputs os : op_args os -> Forall (op_ok nb nc) os ->
  int_only = false \/ existsb op_float os = false -> existsb op_masked os = true \/ len outputs <= 1 ->
  exists rs, apply_ufunc int_only outputs os = Ok rs /\ len rs = len outputs
  /\ forall k f d, get outputs k = Ok (f, d) ->
     exists r, get rs k = Ok r /\ wf nb nc r /\ r_dtype r = d
     /\ r_nv r = (if existsb op_masked os then Some (default_null d) else None)
     /\ forall b c, in_raster nb nc b c ->
        null r b c = existsb (op_null b c) os
        /\ value r b c = if null r b c then default_null d else f (map (op_value b c) os).
Proof. exact (apply_ufunc_spec nb nc int_only outputs os). Qed.
Print Assumptions C25_ufunc.
Theorem C25_int_only outputs os : existsb op_float os = true -> apply_ufunc true outputs os = Err TypeError.
Proof. exact (apply_ufunc_float outputs os). Qed.
Print Assumptions C25_int_only.
Definition add2 (l : list num) : num := match l with [Fin a; Fin b] => Fin (Qred (a + b)) | _ => NaN end.
Example C25_example :
  apply_ufunc false [(add2, U16)] [ORaster r8; ORaster (Raster U16 None [[z 1; z 2; z 3]; [z 4; z 5; z 6]] [[false; false; false]; [false; false; false]])]
  = Ok [Raster U16 (Some (z 65535)) [[z 2; z 65535; z 10]; [z 7; z 12; z 6]] [[false; true; false]; [false; false; false]]].
Proof. vm_compute. reflexivity. Qed.
(* Finding: np.modf, np.frexp and divmod of rasters without null value raise TypeError
   (raster.py:230 and 485-494). *)
Theorem C25_outputs_refuted : ~ (forall nb nc outputs os, op_args os -> Forall (op_ok nb nc) os -> exists rs, apply_ufunc false outputs os = Ok rs).
Proof.
  intros H. set (r := Raster U8 None [[z 1; z 2]] [[false; false]]).
  destruct (H 1 2 [(add2, U8); (add2, U8)] [ORaster r] I) as (rs & E); [|vm_compute in E; discriminate].
  constructor; [|constructor]. unfold op_ok, wf. repeat split; try lia; try reflexivity; try (repeat constructor).
  intros _ b c [Hb Hc]. assert (b = 0) by lia. assert (X : c = 0 \/ c = 1) by lia. subst. destruct X as [-> | ->]; reflexivity.
Qed.
Print Assumptions C25_outputs_refuted.
Theorem C25_outputs int_only outputs os : existsb op_masked os = false -> 1 < len outputs -> apply_ufunc int_only outputs os = Err TypeError.
Proof. exact (apply_ufunc_outputs int_only outputs os). Qed.
Print Assumptions C25_outputs.

(* ---- C26 ---- *)
(* Besides the documented nulls, a cell is null when the selected value happens to
   be the null value of the result (hits). *)
Theorem C26_where cast float_dtype nb nc out cond x y r' : wf nb nc cond -> branch_ok nb nc x -> branch_ok nb nc y ->
  where_raster cast float_dtype out cond x y = Ok r' ->
  (forall v, r_nv r' = Some v -> exact cast out v) ->
  (forall b c, in_raster nb nc b c -> let z := if cond_true cond b c then x else y in branch_null z b c = false -> exact cast out (branch_value z b c)) ->
  wf nb nc r' /\ r_dtype r' = out
  /\ (r_nv r' = None <-> masked cond || branch_masked x || branch_masked y = false)
  /\ (forall v, r_nv r' = Some v -> where_nv float_dtype x y = Ok v)
  /\ forall b c, in_raster nb nc b c ->
     let z := if cond_true cond b c then x else y in
     null r' b c = null cond b c || branch_null z b c || hits r' (branch_value z b c)
     /\ (null r' b c = true -> r_nv r' = Some (value r' b c) \/ hits r' (value r' b c) = true)
     /\ (null r' b c = false -> value r' b c = branch_value z b c).
Proof. exact (where_spec cast float_dtype nb nc out cond x y r'). Qed.
Print Assumptions C26_where.
Theorem C26_errors cast float_dtype out cond x y :
  (is_float_dtype (r_dtype cond) = true -> where_raster cast float_dtype out cond x y = Err TypeError)
  /\ (is_float_dtype (r_dtype cond) = false -> where_raster cast float_dtype out cond BNone BNone = Err ValueError).
Proof. exact (where_errors cast float_dtype out cond x y). Qed.
Print Assumptions C26_errors.
Definition cond6 : raster := Raster BOOL None [[z 1; z 1; z 0]; [z 0; z 1; z 0]] [[false; false; false]; [false; false; false]].
Example C26_example :
  where_raster cast0 float64 U8 cond6 (BRaster r8) (BScalar (SInt 5))
  = Ok (Raster U8 (Some (z 255)) [[z 1; z 255; z 5]; [z 5; z 7; z 5]] [[false; true; false]; [false; false; false]]).
Proof. vm_compute. reflexivity. Qed.
(* where(cond, 255, None): 255 is the default null value of the common dtype uint8,
   so the result is null everywhere *)
Theorem C26_where_refuted :
  let r' := Raster U8 (Some (z 255)) [[z 255; z 255; z 255]; [z 255; z 255; z 255]] [[true; true; true]; [true; true; true]] in
  where_raster cast0 float64 U8 cond6 (BScalar (SInt 255)) BNone = Ok r'
  /\ null cond6 0 0 = false /\ cond_true cond6 0 0 = true /\ branch_null (BScalar (SInt 255)) 0 0 = false /\ null r' 0 0 = true.
Proof. vm_compute. repeat split. Qed.
Print Assumptions C26_where_refuted.

(* ---- C27 ---- *)
Theorem C27_remap_range cast float_dtype nb nc r ms inc r' : wf nb nc r -> remap_range cast float_dtype r ms inc = Ok r' ->
  (forall b c, in_raster nb nc b c -> exact cast (r_dtype r') (value r b c)) ->
  (forall lo hi s, In (lo, hi, Some s) ms -> exact cast (r_dtype r') (scalar_num s)) ->
  (forall v, r_nv r' = Some v -> exact cast (r_dtype r') v) ->
  wf nb nc r'
  /\ r_nv r' = match r_nv r with
               | Some v => Some v
               | None => if existsb (fun '(_, _, o) => match o with None => true | Some _ => false end) ms
                         then Some (default_null (r_dtype r')) else None
               end
  /\ forall b c, in_raster nb nc b c ->
     null r' b c = null r b c || match first_mapping inc ms (value r b c) with
                                 | Some (Some s) => hits r' (scalar_num s)
                                 | Some None => true
                                 | None => hits r' (value r b c)
                                 end
     /\ (null r' b c = false -> value r' b c = match first_mapping inc ms (value r b c) with
                                               | Some (Some s) => scalar_num s
                                               | _ => value r b c
                                               end).
Proof. exact (remap_range_spec cast float_dtype nb nc r ms inc r'). Qed.
Print Assumptions C27_remap_range.
Theorem C27_bad_mapping cast float_dtype r ms inc :
  ms = [] \/ (exists lo hi o, In (lo, hi, o) ms /\ num_ltb (scalar_num lo) (scalar_num hi) = false) ->
  remap_range cast float_dtype r ms inc = Err ValueError.
Proof. exact (remap_range_bad cast float_dtype r ms inc). Qed.
Print Assumptions C27_bad_mapping.
Example C27_example :
  remap_range cast0 float64 r8 [(SInt 0, SInt 3, Some (SInt 10)); (SInt 1, SInt 7, Some (SInt 20)); (SInt 7, SInt 8, None)] ILeft
  = Ok (Raster U8 (Some (z 255)) [[z 10; z 255; z 255]; [z 20; z 255; z 10]] [[false; true; true]; [false; true; false]]).
Proof. vm_compute. reflexivity. Qed.
(* A valid cell that no interval contains becomes null when it equals the default
   null value that a None target brings in; so does a cell remapped to the null
   value. *)
Theorem C27_remap_range_refuted :
  let r := Raster U8 None [[z 255; z 1; z 2]] [[false; false; false]] in
  remap_range cast0 float64 r [(SInt 0, SInt 2, None)] ILeft = Ok (Raster U8 (Some (z 255)) [[z 255; z 255; z 2]] [[true; true; false]])
  /\ first_mapping ILeft [(SInt 0, SInt 2, None)] (value r 0 0) = None
  /\ null r 0 0 = false.
Proof. vm_compute. repeat split. Qed.
Print Assumptions C27_remap_range_refuted.

(* ---- C28 ---- *)
Theorem C28_reclassify cast float_dtype nb nc r remapping unmapped r' dict' : wf nb nc r -> distinct_keys remapping ->
  reclassify cast float_dtype r remapping unmapped = Ok (r', dict') ->
  (forall b c, in_raster nb nc b c -> exact cast (r_dtype r') (value r b c)) ->
  (forall k s, In (k, Some s) remapping -> exact cast (r_dtype r') (scalar_num s)) ->
  (forall v, r_nv r' = Some v -> exact cast (r_dtype r') v) ->
  wf nb nc r'
  /\ (forall v, r_nv r' = Some v -> v = match r_nv r with Some v0 => v0 | None => default_null (r_dtype r') end)
  /\ (r_nv r' = None <-> r_nv r = None /\ unmapped = false /\ forall k, ~ In (k, None) remapping)
  /\ forall b c, in_raster nb nc b c ->
     (null r b c = true -> null r' b c = true)
     /\ (null r b c = false ->
         (forall s, maps_to remapping (value r b c) (Some s) -> value r' b c = scalar_num s /\ null r' b c = hits r' (scalar_num s))
         /\ (maps_to remapping (value r b c) None -> null r' b c = true)
         /\ ((forall o, ~ maps_to remapping (value r b c) o) ->
             if unmapped then null r' b c = true else value r' b c = value r b c /\ null r' b c = hits r' (value r b c))).
Proof. exact (reclassify_spec cast float_dtype nb nc r remapping unmapped r' dict'). Qed.
Print Assumptions C28_reclassify.
Theorem C28_mapping_unchanged_partial cast float_dtype r remapping unmapped r' dict' :
  reclassify cast float_dtype r remapping unmapped = Ok (r', dict') -> (forall k, ~ In (k, None) remapping) ->
  dict' = map (fun '(k, o) => (k, option_map scalar_num o)) remapping.
Proof. exact (reclassify_dict cast float_dtype r remapping unmapped r' dict'). Qed.
Print Assumptions C28_mapping_unchanged_partial.
Example C28_example :
  reclassify cast0 float64 r8 [(z 1, Some (SInt 300)); (z 7, None)] false
  = Ok (Raster U16 (Some (z 255)) [[z 300; z 255; z 255]; [z 3; z 255; z 0]] [[false; true; true]; [false; true; false]],
        [(z 1, Some (z 300)); (z 7, Some (z 255))]).
Proof. vm_compute. reflexivity. Qed.
(* The caller's dict is changed: None becomes the null value of the first raster.
   Used again on a raster with another null value, 7 is no longer mapped to null. *)
Theorem C28_mapping_changed_refuted :
  let m := [(z 7, None)] in
  let r2 := Raster U8 (Some (z 0)) [[z 7]] [[false]] in
  exists r' s, reclassify cast0 float64 r8 m false = Ok (r', [(z 7, Some (z 255))])
  /\ reclassify cast0 float64 r2 m false = Ok (Raster U8 (Some (z 0)) [[z 0]] [[true]], [(z 7, Some (z 0))])
  /\ scalar_num s = z 255
  /\ reclassify cast0 float64 r2 [(z 7, Some s)] false = Ok (Raster U8 (Some (z 0)) [[z 255]] [[false]], [(z 7, Some (z 255))]).
Proof. eexists _, (SInt 255). vm_compute. repeat split. Qed.
Print Assumptions C28_mapping_changed_refuted.
(* A valid cell mapped to the null value, or an unmapped one equal to the default
   null value, becomes null. *)
Theorem C28_reclassify_refuted :
  reclassify cast0 float64 (Raster U8 None [[z 255; z 7]] [[false; false]]) [(z 7, None)] false
  = Ok (Raster U8 (Some (z 255)) [[z 255; z 255]] [[true; true]], [(z 7, Some (z 255))]).
Proof. vm_compute. reflexivity. Qed.
Print Assumptions C28_reclassify_refuted.

(* ---- C29 ---- *)
Theorem C29_stack cast reconcile_other nc rs dt nv r' : 0 <= nc -> let d := stack_dtype rs dt in
  stack_bands cast reconcile_other rs dt nv = Ok r' -> Forall (castable cast nc d) rs ->
  exists nb, wf nb nc r' /\ nb = len (all_bands rs) /\ r_dtype r' = d
  /\ (2 <= len rs -> r_nv r' = Some (stack_nv rs d nv))
  /\ forall k r b c, get (all_bands rs) k = Ok (r, b) -> 0 <= c < nc ->
     null r' k c = null r b c /\ (null r b c = false -> value r' k c = value r b c).
Proof. exact (stack_spec cast reconcile_other nc rs dt nv r'). Qed.
Print Assumptions C29_stack.
Theorem C29_stack_split cast reconcile_other nc rs dt nv r' : 0 <= nc -> let d := stack_dtype rs dt in
  stack_bands cast reconcile_other rs dt nv = Ok r' -> Forall (castable cast nc d) rs ->
  exists bs, split_bands r' = Ok bs /\ len bs = len (all_bands rs)
  /\ forall k r b, get (all_bands rs) k = Ok (r, b) ->
     exists s, get bs k = Ok s /\ wf 1 nc s /\ r_dtype s = d
     /\ (2 <= len rs -> r_nv s = Some (stack_nv rs d nv))
     /\ forall c, 0 <= c < nc -> null s 0 c = null r b c /\ (null r b c = false -> value s 0 c = value r b c).
Proof. exact (stack_split cast reconcile_other nc rs dt nv r'). Qed.
Print Assumptions C29_stack_split.
Theorem C29_band_count rs : len (all_bands rs) = fold_right Z.add 0 (map (fun r => len (r_data r)) rs).
Proof. exact (all_bands_len rs). Qed.
Print Assumptions C29_band_count.
Theorem C29_split nb nc r : wf nb nc r ->
  exists bs, split_bands r = Ok bs /\ len bs = nb
  /\ forall k, 0 <= k < nb -> exists s, get bs k = Ok s /\ wf 1 nc s /\ r_dtype s = r_dtype r /\ r_nv s = r_nv r
     /\ forall c, 0 <= c < nc -> value s 0 c = value r k c /\ null s 0 c = null r k c.
Proof. exact (split_bands_spec nb nc r). Qed.
Print Assumptions C29_split.
Theorem C29_get_bands nb nc r bands : wf nb nc r -> bands <> [] -> Forall (fun b => 1 <= b <= nb) bands ->
  exists r', get_bands r bands = Ok r' /\ wf (len bands) nc r' /\ r_dtype r' = r_dtype r /\ r_nv r' = r_nv r
  /\ forall k b c, get bands k = Ok b -> 0 <= c < nc -> value r' k c = value r (b - 1) c /\ null r' k c = null r (b - 1) c.
Proof. exact (get_bands_spec nb nc r bands). Qed.
Print Assumptions C29_get_bands.
Theorem C29_get_bands_errors r bands :
  (bands = [] -> get_bands r bands = Err ValueError)
  /\ ((exists b, In b bands /\ (b < 1 \/ len (r_data r) < b)) -> get_bands r bands = Err IndexError).
Proof. exact (get_bands_errors r bands). Qed.
Print Assumptions C29_get_bands_errors.
Example C29_example :
  stack_bands cast0 ro0 [r8; Raster I16 None [[z 1; z 2; z 3]] [[false; false; false]]] None None
  = Ok (Raster I16 (Some (z 255)) [[z 1; z 255; z 7]; [z 3; z 7; z 0]; [z 1; z 2; z 3]] [[false; true; false]; [false; false; false]; [false; false; false]]).
Proof. vm_compute. reflexivity. Qed.
(* The null cells of the stack need not hold its null value: the null value of an
   input that is only close to it is not replaced. *)
Theorem C29_null_cells_refuted :
  let a := Raster I32 (Some (z (-999999))) [[z (-999999)]] [[true]] in
  let b := Raster I32 (Some (z (-999998))) [[z (-999998)]] [[true]] in
  stack_bands cast0 ro0 [a; b] None None = Ok (Raster I32 (Some (z (-999999))) [[z (-999999)]; [z (-999998)]] [[true]; [true]]).
Proof. vm_compute. reflexivity. Qed.
Print Assumptions C29_null_cells_refuted.

(* ---- C30 ---- *)
(* "null exactly when the fill is the null value or fill_values is None"; the
   new cells hold the fill value as the dtype holds it. *)
Theorem C30_pad cast d nv ny nx bands top bottom lft rgt f bands' out : 0 <= top -> 0 <= bottom -> 0 <= lft -> 0 <= rgt -> 0 <= ny -> 0 <= nx ->
  Forall (band_ok ny nx) bands -> (nv = None -> Forall (fun p => forall i j, val2 false (snd p) i j = false) bands) ->
  pad cast d nv nx bands top bottom lft rgt f = Ok (bands', out) ->
  len bands' = len bands
  /\ out = match f with FNone => Some (match nv with Some v => v | None => default_null d end) | _ => nv end
  /\ forall k data mask, get bands k = Ok (data, mask) -> exists data' mask' v, get bands' k = Ok (data', mask')
     /\ match f with
        | FNone => v = match nv with Some v => v | None => default_null d end
        | FScalar w => v = w
        | FList vs => get vs k = Ok v
        | FOther => False
        end
     /\ shaped2 (top + ny + bottom) (lft + nx + rgt) data' /\ shaped2 (top + ny + bottom) (lft + nx + rgt) mask'
     /\ (forall i j, 0 <= i < ny -> 0 <= j < nx -> val2 NaN data' (top + i) (lft + j) = val2 NaN data i j
                                                   /\ val2 false mask' (top + i) (lft + j) = val2 false mask i j)
     /\ (forall i j, 0 <= i < top + ny + bottom -> 0 <= j < lft + nx + rgt ->
           ~ (top <= i < top + ny /\ lft <= j < lft + nx) ->
           val2 NaN data' i j = cast v
           /\ val2 false mask' i j = match f with FNone => true | _ => match nv with Some n => same_value v n | None => false end end).
Proof. exact (pad_spec cast d nv ny nx bands top bottom lft rgt f bands' out). Qed.
Print Assumptions C30_pad.
Theorem C30_errors cast d nv nx bands top bottom lft rgt :
  (forall vs, len vs <> len bands -> pad cast d nv nx bands top bottom lft rgt (FList vs) = Err ValueError)
  /\ pad cast d nv nx bands top bottom lft rgt FOther = Err TypeError
  /\ (forall f, f <> FOther -> (forall vs, f = FList vs -> len vs = len bands) -> exists x, pad cast d nv nx bands top bottom lft rgt f = Ok x).
Proof. exact (pad_errors cast d nv nx bands top bottom lft rgt). Qed.
Print Assumptions C30_errors.
Definition band0 : arr2 num * arr2 bool := ([[z 1; z 255]], [[false; true]]).
Definition band1 : arr2 num * arr2 bool := ([[z 3; z 4]], [[false; false]]).
Example C30_example :
  pad (cast0 U8) U8 (Some (z 255)) 2 [band0; band1] 1 0 0 1 (FList [z 5; z 255])
  = Ok ([([[z 5; z 5; z 5]; [z 1; z 255; z 5]], [[false; false; false]; [false; true; false]]);
         ([[z 255; z 255; z 255]; [z 3; z 4; z 255]], [[true; true; true]; [false; false; true]])], Some (z 255)).
Proof. vm_compute. reflexivity. Qed.
(* A fill value outside the dtype is cast after it was compared with the null
   value: new cells hold 255, the null value, and are not null. *)
Theorem C30_fill_cast_refuted :
  pad (cast0 U8) U8 (Some (z 255)) 2 [band0] 0 0 0 1 (FScalar (z (-1))) = Ok ([([[z 1; z 255; z 255]], [[false; true; false]])], Some (z 255)).
Proof. vm_compute. reflexivity. Qed.
Print Assumptions C30_fill_cast_refuted.

(* ---- C44 ---- *)
Theorem C44_clip nb nc r envelope invert touched : wf nb nc r -> len touched = nc -> envelope && invert = false ->
  exists r', clip r true envelope invert touched = Ok r' /\ wf nb nc r' /\ r_dtype r' = r_dtype r /\ r_nv r' = Some (null_value_of r)
  /\ forall b c, in_raster nb nc b c -> forall t, get touched c = Ok t ->
     null r' b c = null r b c || negb (envelope || xorb invert t)
     /\ (null r' b c = false -> value r' b c = value r b c)
     /\ (null r' b c = true -> value r' b c = null_value_of r \/ null r b c = true /\ value r' b c = value r b c).
Proof. exact (clip_spec nb nc r envelope invert touched). Qed.
Print Assumptions C44_clip.
Theorem C44_partition nb nc r touched inside outside : wf nb nc r -> len touched = nc ->
  clip r true false false touched = Ok inside -> clip r true false true touched = Ok outside ->
  forall b c, in_raster nb nc b c ->
  (null r b c = true -> null inside b c = true /\ null outside b c = true)
  /\ (null r b c = false -> (null inside b c = false /\ get touched c = Ok true /\ null outside b c = true /\ value inside b c = value r b c)
                         \/ (null outside b c = false /\ get touched c = Ok false /\ null inside b c = true /\ value outside b c = value r b c)).
Proof. exact (clip_partition nb nc r touched inside outside). Qed.
Print Assumptions C44_partition.
Theorem C44_errors r has_crs envelope invert touched :
  has_crs = false \/ envelope && invert = true -> clip r has_crs envelope invert touched = Err ValueError.
Proof. exact (clip_errors r has_crs envelope invert touched). Qed.
Print Assumptions C44_errors.
Example C44_example :
  clip r8 true false false [true; true; false] = Ok (Raster U8 (Some (z 255)) [[z 1; z 255; z 255]; [z 3; z 7; z 255]] [[false; true; true]; [false; false; true]])
  /\ clip r8 true false true [true; true; false] = Ok (Raster U8 (Some (z 255)) [[z 255; z 255; z 7]; [z 255; z 255; z 0]] [[true; true; false]; [true; true; false]]).
Proof. vm_compute. split; reflexivity. Qed.
