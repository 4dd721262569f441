(* C100: reclassify is remap_range with ranges of one whole number *)
From Coq Require Import QArith List Permutation Lia.
From Verif Require Import Base BaseFacts Scalars Dtypes Arr2 Raster FocalSpec RasterSpec RasterProofs RasterValues RasterProps UnitRangesSpec UnitRangesProofs.
Import ListNotations.
Open Scope Z_scope.

(* reclassify(r, {k: o, ...}) and remap_range(r, [(k, k + 1, o), ...]) give the same raster,
   dtype, null value and mask included, or the same error, if no valid cell is a fraction
   and the new dtype holds the valid cells *)
Theorem C100_same : forall cast float_dtype nb nc r ms, wf nb nc r -> ms <> [] -> NoDup (map fst ms) ->
  (forall b c, in_raster nb nc b c -> null r b c = false -> whole (value r b c)) ->
  (forall r' b c, remap_range cast float_dtype r (as_ranges ms) ILeft = Ok r' -> in_raster nb nc b c -> null r b c = false -> cast (r_dtype r') (value r b c) = value r b c) ->
  result_of (reclassify cast float_dtype r (as_dict ms) false) = remap_range cast float_dtype r (as_ranges ms) ILeft.
Proof. exact unit_ranges. Qed.
Print Assumptions C100_same.

(* hence the order of the ranges does not matter *)
Theorem C100_order : forall ms ms' v, NoDup (map fst ms) -> Permutation ms ms' -> whole v ->
  first_mapping ILeft (as_ranges ms) v = first_mapping ILeft (as_ranges ms') v.
Proof. exact unit_order. Qed.
Print Assumptions C100_order.

(* ---- examples ---- *)
Definition ex_ms : list (Z * option scalar) := [(7, None); (1, Some (SInt 300)); (255, Some (SInt 2))].
Example C100_example :
  reclassify cast0 float64 r8 (as_dict ex_ms) false
  = Ok (Raster U16 (Some (z 255)) [[z 300; z 255; z 255]; [z 3; z 255; z 0]] [[false; true; true]; [false; true; false]],
        [(z 7, Some (z 255)); (z 1, Some (z 300)); (z 255, Some (z 2))])
  /\ remap_range cast0 float64 r8 (as_ranges ex_ms) ILeft
  = Ok (Raster U16 (Some (z 255)) [[z 300; z 255; z 255]; [z 3; z 255; z 0]] [[false; true; true]; [false; true; false]]).
Proof. vm_compute. split; reflexivity. Qed.
Example C100_hypotheses : wf 2 3 r8 /\ NoDup (map fst ex_ms)
  /\ (forall b c, in_raster 2 3 b c -> null r8 b c = false -> whole (value r8 b c))
  /\ (forall r' b c, remap_range cast0 float64 r8 (as_ranges ex_ms) ILeft = Ok r' -> in_raster 2 3 b c -> null r8 b c = false -> cast0 (r_dtype r') (value r8 b c) = value r8 b c).
Proof.
  split; [exact wf_r8|]. split; [repeat constructor; cbn; intuition congruence|].
  assert (C : forall b c, in_raster 2 3 b c -> (b = 0 \/ b = 1) /\ (c = 0 \/ c = 1 \/ c = 2)) by (intros b c [? ?]; lia).
  split.
  - intros b c HI _. destruct (C b c HI) as [[-> | ->] [-> |[-> | ->]]]; eexists; apply Qeq_refl.
  - intros r' b c H HI _. rewrite (proj2 C100_example) in H. assert (E : r_dtype r' = U16) by (injection H as <-; reflexivity). now rewrite E.
Qed.

(* a fraction lies in a range but is no key *)
Theorem C100_fraction_refuted :
  ~ (forall cast float_dtype nb nc r ms, wf nb nc r -> ms <> [] -> NoDup (map fst ms) ->
     (forall d v, cast d v = v) -> result_of (reclassify cast float_dtype r (as_dict ms) false) = remap_range cast float_dtype r (as_ranges ms) ILeft).
Proof.
  intros H. specialize (H (fun _ v => v) float64 1 1 (Raster F32 None [[Fin (3 # 2)]] [[false]]) [(1, Some (SInt 9))]).
  assert (W : wf 1 1 (Raster F32 None [[Fin (3 # 2)]] [[false]])).
  { split; [lia|]. split; [lia|]. split; [split; [reflexivity|repeat constructor]|]. split; [split; [reflexivity|repeat constructor]|].
    intros _ b c [? ?]. assert (b = 0) as -> by lia. assert (c = 0) as -> by lia. reflexivity. }
  specialize (H W ltac:(discriminate) ltac:(repeat constructor; cbn; intuition) ltac:(reflexivity)). vm_compute in H. discriminate H.
Qed.
Print Assumptions C100_fraction_refuted.
(* with inclusivity "both" the range also holds the next number; and an empty mapping is
   refused by remap_range only *)
Theorem C100_both_refuted :
  let r := Raster U8 (Some (z 255)) [[z 1; z 2]] [[false; false]] in
  result_of (reclassify cast0 float64 r (as_dict [(1, Some (SInt 9))]) false) = Ok (Raster U8 (Some (z 255)) [[z 9; z 2]] [[false; false]])
  /\ remap_range cast0 float64 r (as_ranges [(1, Some (SInt 9))]) IBoth = Ok (Raster U8 (Some (z 255)) [[z 9; z 9]] [[false; false]])
  /\ result_of (reclassify cast0 float64 r [] false) = Ok r /\ remap_range cast0 float64 r [] ILeft = Err ValueError.
Proof. vm_compute. repeat split. Qed.
Print Assumptions C100_both_refuted.
