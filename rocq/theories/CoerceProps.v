(* C85: coercing inputs to rasters (get_raster) and the methods round, to_null_mask and
   replace_null. *)
From Coq Require Import QArith Qround.
From Verif Require Import Base Scalars Dtypes DtypesSpec Raster RasterSpec RasterProofs Coerce CoerceSpec CoerceProofs.
Open Scope Z_scope.

(* null cells stay null and hold the null value; valid ones are rounded, except integers
   that have no decimals to lose *)
Theorem C85_round : forall cast nb nc r dec, wf nb nc r -> let r' := round cast r dec in
  wf nb nc r' /\ r_dtype r' = r_dtype r /\ r_nv r' = r_nv r
  /\ forall b c, in_raster nb nc b c -> null r' b c = null r b c
     /\ (null r b c = true -> r_nv r = Some (value r' b c))
     /\ (null r b c = false ->
          if is_int_dtype (r_dtype r) && (0 <=? dec) then value r' b c = value r b c
          else match value r b c with
               | Fin x => exists y, rounds dec x y /\ value r' b c = cast (r_dtype r) (Fin y)
               | x => value r' b c = x
               end).
Proof. exact round_ok. Qed.
Print Assumptions C85_round.
(* there is one rounded number *)
Theorem C85_rounded : forall dec x, exists y, rounds dec x y /\ forall y', rounds dec x y' -> (y == y')%Q.
Proof. exact (fun dec x => ex_intro _ (round_q dec x) (conj (round_q_rounds dec x) (fun y' H => rounds_unique dec x _ y' (round_q_rounds dec x) H))). Qed.
Print Assumptions C85_rounded.

Theorem C85_to_null_mask : forall nb nc r, wf nb nc r -> let r' := to_null_mask r in
  wf nb nc r' /\ r_dtype r' = BOOL /\ r_nv r' = None
  /\ forall b c, in_raster nb nc b c -> null r' b c = false /\ value r' b c = of_Z (if null r b c then 1 else 0).
Proof. exact to_null_mask_ok. Qed.
Print Assumptions C85_to_null_mask.

(* cells that were null hold the value, others that do not hold it are as before.  Not said:
   that the cells that were null are valid now (see below) *)
Theorem C85_replace_null_partial : forall cast float_dtype nb nc r s r', cast BOOL NaN = of_Z 1 -> (forall v, float_dtype v <> BOOL) -> fits s -> wf nb nc r ->
  replace_null cast float_dtype r (Some s) = Ok r' ->
  (forall b c, in_raster nb nc b c -> cast (r_dtype r') (value r b c) = value r b c) ->
  exists v, r_nv r' = Some v /\ wf nb nc r' /\ (v = scalar_num s \/ r_dtype r' = r_dtype r /\ v = cast (r_dtype r) (scalar_num s))
  /\ forall b c, in_raster nb nc b c ->
     (null r b c = true -> value r' b c = v) /\ (null r b c = false -> same_value (value r b c) v = false -> value r' b c = value r b c /\ null r' b c = false).
Proof. exact replace_null_ok. Qed.
Print Assumptions C85_replace_null_partial.

(* rasters are passed on, paths opened, other things converted if not strict *)
Theorem C85_get_raster : forall cast P O open_path convert src strict n r, get_raster cast P O open_path convert src strict n = Ok r <->
  exists s, match src with SRaster t => s = t | SPath p => open_path p = Ok s | SOther o => strict = false /\ convert o = Ok s end
  /\ r = if n && masked s then nulls_to_nan cast s else s.
Proof. exact get_ok. Qed.
Print Assumptions C85_get_raster.
Theorem C85_get_refused : forall cast P O open_path convert strict n,
  let get := get_raster cast P O open_path convert in
  (forall p e, open_path p = Err e -> get (SPath p) strict n = Err e)
  /\ (forall o, get (SOther o) true n = Err TypeError)
  /\ (forall o e, convert o = Err e -> e = ValueError \/ e = TypeError -> get (SOther o) false n = Err ValueError)
  /\ (forall o e, convert o = Err e -> e <> ValueError -> e <> TypeError -> get (SOther o) false n = Err e).
Proof. exact get_refused. Qed.
Print Assumptions C85_get_refused.
(* null cells hold NaN, the others their values, as floats *)
Theorem C85_nulls_to_nan : forall cast nb nc r, wf nb nc r -> let r' := nulls_to_nan cast r in
  wf nb nc r' /\ r_nv r' = r_nv r /\ r_dtype r' = promote_dtype_to_float (r_dtype r) /\ is_float_dtype (r_dtype r') = true
  /\ forall b c, in_raster nb nc b c -> null r' b c = null r b c
     /\ value r' b c = if null r b c then NaN else if is_float_dtype (r_dtype r) then value r b c else cast (r_dtype r') (value r b c).
Proof. exact nulls_to_nan_ok. Qed.
Print Assumptions C85_nulls_to_nan.

(* ---------------- examples ---------------- *)
Definition keep (d : dtype) (x : num) : num := x.
Definition one_row (d : dtype) (nv : num) (l : list (num * bool)) : raster := Raster d (Some nv) [map fst l] [map snd l].
Lemma one_row_wf d nv l : wf 1 (len l) (one_row d nv l).
Proof.
  assert (0 <= len l) by (unfold len; Lia.lia). split; [reflexivity|]. split; [assumption|].
  assert (S : forall A (f : num * bool -> A), FocalSpec.shaped2 1 (len l) [map f l]).
  { intros A f. split; [reflexivity|]. constructor; [|constructor]. unfold len. now rewrite map_length. }
  split; [apply S|]. split; [apply S|]. discriminate.
Qed.
(* 2.5 to 2, 3.5 to 4, 0.26 with one decimal to 0.3, 1250 to hundreds gives 1200 *)
Example rounding : map (fun q => Qred (round_q 0 q)) [5 # 2; 7 # 2; - (5 # 2)]%Q = [2; 4; -2]%Q
  /\ Qred (round_q 1 (26 # 100)) = (3 # 10)%Q /\ Qred (round_q (-2) 1250) = 1200%Q.
Proof. vm_compute. repeat split; reflexivity. Qed.
Example round_row : let r := one_row F64 (of_Z (-1)) [(Fin (5 # 2), false); (of_Z (-1), true); (PInf, false)] in
  wf 1 3 r /\ null (round keep r 0) 0 1 = true /\ num_eqb (value (round keep r 0) 0 0) (of_Z 2) = true /\ value (round keep r 0) 0 2 = PInf.
Proof. split; [exact (one_row_wf _ _ [(Fin (5 # 2), false); (of_Z (-1), true); (PInf, false)])|]. vm_compute. repeat split; reflexivity. Qed.
Example mask_row : to_null_mask (one_row F64 (of_Z (-1)) [(of_Z 7, false); (of_Z (-1), true)]) = Raster BOOL None [[of_Z 0; of_Z 1]] [[false; false]].
Proof. reflexivity. Qed.
Example get_row : let r := one_row I16 (of_Z (-1)) [(of_Z 7, false); (of_Z (-1), true)] in
  get_raster keep unit unit (fun _ => Ok r) (fun _ => Err TypeError) (SPath tt) true true
  = Ok (Raster F32 (Some (of_Z (-1))) [[of_Z 7; NaN]] [[false; true]])
  /\ get_raster keep unit unit (fun _ => Ok r) (fun _ => Err TypeError) (SOther tt) false true = Err ValueError.
Proof. split; reflexivity. Qed.
Example replace_row : let r := one_row F64 (of_Z (-1)) [(of_Z 7, false); (of_Z (-1), true); (of_Z 5, false)] in
  replace_null keep (fun _ => F64) r (Some (SInt 5)) = Ok (one_row F64 (of_Z 5) [(of_Z 7, false); (of_Z 5, true); (of_Z 5, true)]).
Proof. reflexivity. Qed.

(* ---------------- refutations ---------------- *)
(* "replace_null leaves no nulls": the replaced cells are null as before *)
Theorem C85_replace_null_refuted : ~ (forall nb nc r v r', wf nb nc r -> burned nb nc r ->
  replace_null keep (fun _ => F64) r (Some (SInt v)) = Ok r' -> forall b c, in_raster nb nc b c -> null r' b c = false).
Proof.
  intros H. set (r := one_row F64 (of_Z (-1)) [(of_Z (-1), true)]).
  assert (B : burned 1 1 r).
  { split; [|discriminate]. intros b c [Ib Ic] _. assert (b = 0) by Lia.lia. assert (c = 0) by Lia.lia. subst. reflexivity. }
  assert (I : in_raster 1 1 0 0) by (split; Lia.lia).
  specialize (H 1 1 r 5 (one_row F64 (of_Z 5) [(of_Z 5, true)]) (one_row_wf _ _ [_]) B eq_refl 0 0 I). discriminate H.
Qed.
Print Assumptions C85_replace_null_refuted.
(* "replace_null leaves valid cells alone": those that hold the new value become null *)
Theorem C85_replace_valid_refuted : ~ (forall nb nc r v r', wf nb nc r -> burned nb nc r ->
  replace_null keep (fun _ => F64) r (Some (SInt v)) = Ok r' -> forall b c, in_raster nb nc b c -> null r b c = false -> null r' b c = false).
Proof.
  intros H. set (r := one_row F64 (of_Z (-1)) [(of_Z 5, false)]).
  assert (B : burned 1 1 r).
  { split; [|discriminate]. intros b c [Ib Ic]. assert (b = 0) by Lia.lia. assert (c = 0) by Lia.lia. subst. discriminate. }
  assert (I : in_raster 1 1 0 0) by (split; Lia.lia).
  specialize (H 1 1 r 5 (one_row F64 (of_Z 5) [(of_Z 5, true)]) (one_row_wf _ _ [_]) B eq_refl 0 0 I eq_refl). discriminate H.
Qed.
Print Assumptions C85_replace_valid_refuted.
(* "after rounding valid cells do not hold the null value": 0.4 rounds to a null value of 0,
   and the cell is null once the raster is saved and opened *)
Theorem C85_round_null_refuted : ~ (forall nb nc r dec nv, wf nb nc r -> r_nv r = Some nv ->
  (forall b c, in_raster nb nc b c -> null r b c = same_value (value r b c) nv) ->
  forall b c, in_raster nb nc b c -> null (round keep r dec) b c = same_value (value (round keep r dec) b c) nv).
Proof.
  intros H. set (r := one_row F64 (of_Z 0) [(Fin (2 # 5), false)]). assert (I : in_raster 1 1 0 0) by (split; Lia.lia).
  assert (C : forall b c, in_raster 1 1 b c -> null r b c = same_value (value r b c) (of_Z 0)).
  { intros b c [Ib Ic]. assert (b = 0) by Lia.lia. assert (c = 0) by Lia.lia. subst. reflexivity. }
  specialize (H 1 1 r 0 (of_Z 0) (one_row_wf _ _ [_]) eq_refl C 0 0 I). vm_compute in H. discriminate H.
Qed.
Print Assumptions C85_round_null_refuted.
(* "integers are rounded to the nearest multiple": 255 rounds to 260, which wraps to 4 *)
Definition wrap (d : dtype) (x : num) : num :=
  match d, x with U8, Fin q => of_Z (Qfloor q mod 256) | _, _ => x end.
Theorem C85_round_wrap_refuted : ~ (forall nb nc r dec b c z, wf nb nc r -> is_int_dtype (r_dtype r) = true -> in_raster nb nc b c ->
  null r b c = false -> value r b c = of_Z z -> holds (r_dtype r) z ->
  exists y, rounds dec (inject_Z z) y /\ value (round wrap r dec) b c = Fin y).
Proof.
  intros H. set (r := one_row U8 (of_Z 0) [(of_Z 255, false)]). assert (I : in_raster 1 1 0 0) by (split; Lia.lia).
  destruct (H 1 1 r (-1) 0 0 255 (one_row_wf _ _ [_]) eq_refl I eq_refl eq_refl ltac:(split; vm_compute; discriminate)) as (y & R & E).
  vm_compute in E. injection E as <-. pose proof (rounds_unique _ _ _ _ R (round_q_rounds (-1) (inject_Z 255))) as U. vm_compute in U. discriminate U.
Qed.
Print Assumptions C85_round_wrap_refuted.
(* "null cells hold the null value": not after null_to_nan, which keeps the null value *)
Theorem C85_nan_refuted : ~ (forall nb nc r, wf nb nc r -> burned nb nc r -> burned nb nc (nulls_to_nan keep r)).
Proof.
  intros H. set (r := one_row I16 (of_Z (-1)) [(of_Z (-1), true)]).
  assert (B : burned 1 1 r).
  { split; [|discriminate]. intros b c [Ib Ic] _. assert (b = 0) by Lia.lia. assert (c = 0) by Lia.lia. subst. reflexivity. }
  assert (I : in_raster 1 1 0 0) by (split; Lia.lia).
  destruct (H 1 1 r (one_row_wf _ _ [_]) B) as [K _]. specialize (K 0 0 I eq_refl). discriminate K.
Qed.
Print Assumptions C85_nan_refuted.
