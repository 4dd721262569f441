(* C101: where(cond, None, r) is r.set_null(cond) *)
From Coq Require Import QArith List Lia.
From Verif Require Import Base BaseFacts Scalars Dtypes Arr2 Raster FocalSpec RasterSpec RasterProofs RasterValues RasterStack RasterProps WhereNullSpec WhereNullProofs.
Import ListNotations.
Open Scope Z_scope.

(* If no cell of the condition is null or negative and no valid cell of r holds the null
   value, where(cond, None, r) and r.set_null(cond) both return a raster, of the same dtype,
   with the same null value, the same null cells and the same valid cells. *)
Theorem C101_same : forall cast float_dtype nb nc cond r, wf nb nc cond -> wf nb nc r -> plain_condition nb nc cond -> null_value_free nb nc r ->
  (forall b c, in_raster nb nc b c -> null r b c = false -> cast (r_dtype r) (value r b c) = value r b c) -> cast (r_dtype r) (null_value_of r) = null_value_of r ->
  exists r1 r2, set_null r cond = Ok r1 /\ where_raster cast float_dtype (r_dtype r) cond BNone (BRaster r) = Ok r2
  /\ r_dtype r1 = r_dtype r2 /\ r_nv r1 = r_nv r2
  /\ forall b c, in_raster nb nc b c -> null r1 b c = null r2 b c /\ (null r1 b c = false -> value r1 b c = value r2 b c).
Proof. exact where_set_null. Qed.
Print Assumptions C101_same.

(* the null value of where's result: that of the raster if there is one, a default otherwise *)
Theorem C26_null_value : forall cast float_dtype out cond x y r' v, where_raster cast float_dtype out cond x y = Ok r' -> r_nv r' = Some v ->
  match x, y with
  | BRaster a, BRaster b => v = default_null (promote_types (r_dtype a) (r_dtype b))
  | BRaster a, _ | _, BRaster a => v = null_value_of a
  | BScalar s, BScalar t => exists d, get_common_dtype [scalar_item float_dtype s; scalar_item float_dtype t] = Ok d /\ v = default_null d
  | BScalar s, BNone | BNone, BScalar s => exists d, get_common_dtype [scalar_item float_dtype s] = Ok d /\ v = default_null d
  | BNone, BNone => False
  end.
Proof. exact where_null_value. Qed.
Print Assumptions C26_null_value.

(* ---- example ---- *)
Definition ints : raster := Raster I8 None [[z 2; z 1; z 0]; [z 0; z 1; z 0]] [[false; false; false]; [false; false; false]].
Example C101_example :
  set_null r8 ints = Ok (Raster U8 (Some (z 255)) [[z 255; z 255; z 7]; [z 3; z 255; z 0]] [[true; true; false]; [false; true; false]])
  /\ where_raster cast0 float64 U8 ints BNone (BRaster r8) = set_null r8 ints.
Proof. vm_compute. split; reflexivity. Qed.
Example C101_hypotheses : wf 2 3 ints /\ wf 2 3 r8 /\ plain_condition 2 3 ints /\ null_value_free 2 3 r8
  /\ (forall b c, in_raster 2 3 b c -> null r8 b c = false -> cast0 (r_dtype r8) (value r8 b c) = value r8 b c) /\ cast0 (r_dtype r8) (null_value_of r8) = null_value_of r8.
Proof.
  assert (C : forall b c, in_raster 2 3 b c -> (b = 0 \/ b = 1) /\ (c = 0 \/ c = 1 \/ c = 2)) by (intros b c [? ?]; lia).
  split.
  { split; [lia|]. split; [lia|]. split; [split; [reflexivity|repeat constructor]|]. split; [split; [reflexivity|repeat constructor]|].
    intros _ b c HI. destruct (C b c HI) as [[-> | ->] [-> |[-> | ->]]]; reflexivity. }
  split; [exact wf_r8|]. split.
  { split; [right; now left|]. intros b c HI. destruct (C b c HI) as [[-> | ->] [-> |[-> | ->]]]; (split; [reflexivity|right; vm_compute; reflexivity]). }
  split; [intros b c HI; destruct (C b c HI) as [[-> | ->] [-> |[-> | ->]]]; vm_compute; congruence|].
  split; [|vm_compute; reflexivity]. intros b c HI _. destruct (C b c HI) as [[-> | ->] [-> |[-> | ->]]]; vm_compute; reflexivity.
Qed.

Example C26_null_value_example :
  let cond := Raster BOOL None [[z 0; z 1; z 0]] [[false; false; false]] in
  let a := Raster U8 (Some (z 200)) [[z 5; z 6; z 7]] [[false; false; false]] in
  let b := Raster I16 (Some (z 9)) [[z 9; z 8; z 7]] [[true; false; false]] in
  where_raster cast0 float64 I16 cond (BRaster a) (BRaster b) = Ok (Raster I16 (Some (z (-32768))) [[z (-32768); z 6; z 7]] [[true; false; false]])
  /\ where_raster cast0 float64 I16 cond (BScalar (SInt 1)) (BRaster b) = Ok (Raster I16 (Some (z 9)) [[z 9; z 1; z 7]] [[true; false; false]]).
Proof. vm_compute. split; reflexivity. Qed.

(* ---- where the two differ ---- *)
(* a null cell of the condition: set_null keeps the cell, where makes it null *)
Theorem C101_null_condition_refuted :
  let cond := Raster U8 (Some (z 255)) [[z 255; z 1; z 0]] [[true; false; false]] in
  let r := Raster U8 (Some (z 200)) [[z 5; z 6; z 7]] [[false; false; false]] in
  set_null r cond = Ok (Raster U8 (Some (z 200)) [[z 5; z 200; z 7]] [[false; true; false]])
  /\ where_raster cast0 float64 U8 cond BNone (BRaster r) = Ok (Raster U8 (Some (z 200)) [[z 200; z 200; z 7]] [[true; true; false]]).
Proof. vm_compute. split; reflexivity. Qed.
Print Assumptions C101_null_condition_refuted.
(* a negative number is true for set_null and false for where *)
Theorem C101_negative_refuted :
  let cond := Raster I8 None [[z (-1); z 1; z 0]] [[false; false; false]] in
  let r := Raster U8 (Some (z 200)) [[z 5; z 6; z 7]] [[false; false; false]] in
  set_null r cond = Ok (Raster U8 (Some (z 200)) [[z 200; z 200; z 7]] [[true; true; false]])
  /\ where_raster cast0 float64 U8 cond BNone (BRaster r) = Ok (Raster U8 (Some (z 200)) [[z 5; z 200; z 7]] [[false; true; false]]).
Proof. vm_compute. split; reflexivity. Qed.
Print Assumptions C101_negative_refuted.
(* a raster without null value gets the default; where then drops valid cells that hold it *)
Theorem C101_default_refuted :
  let cond := Raster BOOL None [[z 0; z 1; z 0]] [[false; false; false]] in
  let r := Raster U8 None [[z 255; z 6; z 7]] [[false; false; false]] in
  set_null r cond = Ok (Raster U8 (Some (z 255)) [[z 255; z 255; z 7]] [[false; true; false]])
  /\ where_raster cast0 float64 U8 cond BNone (BRaster r) = Ok (Raster U8 (Some (z 255)) [[z 255; z 255; z 7]] [[true; true; false]]).
Proof. vm_compute. split; reflexivity. Qed.
Print Assumptions C101_default_refuted.
(* an int16 condition is fine for where and refused by set_null *)
Theorem C101_wide_condition_refuted :
  let cond := Raster I16 None [[z 0; z 1; z 0]] [[false; false; false]] in
  let r := Raster U8 (Some (z 200)) [[z 5; z 6; z 7]] [[false; false; false]] in
  set_null r cond = Err TypeError
  /\ where_raster cast0 float64 U8 cond BNone (BRaster r) = Ok (Raster U8 (Some (z 200)) [[z 5; z 200; z 7]] [[false; true; false]]).
Proof. vm_compute. split; reflexivity. Qed.
Print Assumptions C101_wide_condition_refuted.
