From Coq Require Import QArith String Lia ZifyBool.
From Verif Require Import Base BaseFacts ChunksProofs CostPublicProofs ProximityChunk Scalars Arr2 Arr2Facts FocalSpec FocalValues Raster RasterSpec RasterProofs UfuncCall UfuncCallSpec.
Open Scope Z_scope.

Lemma of_Z_leb a b : num_leb (of_Z a) (of_Z b) = (a <=? b).
Proof.
  unfold num_leb, num_ltb, num_eqb, of_Z, Qlt_bool. destruct (a <=? b) eqn:E.
  - destruct (Z.eq_dec a b) as [->|]; [rewrite (proj2 (Qeq_bool_iff _ _)) by reflexivity; apply orb_true_r|].
    apply orb_true_iff. left. apply negb_true_iff. destruct (Qle_bool _ _) eqn:E'; [|reflexivity]. apply Qle_bool_iff in E'. rewrite <- Zle_Qle in E'. lia.
  - apply orb_false_iff. split.
    + apply negb_false_iff. apply Qle_bool_iff. rewrite <- Zle_Qle. lia.
    + destruct (Qeq_bool _ _) eqn:E'; [|reflexivity]. apply Qeq_bool_iff in E'. unfold Qeq in E'. cbn in E'. lia.
Qed.
Lemma prefix_app p : forall s, String.prefix p s = true <-> exists r, s = String.append p r.
Proof.
  induction p as [|c p IH]; intros s.
  - split; [intros _; now exists s|]. intros _. now destruct s.
  - destruct s as [|d s]; cbn [String.prefix].
    + split; [discriminate|]. intros (r & E). discriminate.
    + destruct (Ascii.ascii_dec c d) as [<-|N].
      * rewrite IH. cbn. split; intros (r & E); exists r; congruence.
      * split; [discriminate|]. intros (r & E). cbn in E. congruence.
Qed.
Lemma int_only_iff name : int_only name = true <-> bit_function name.
Proof.
  unfold int_only, bit_function. cbn [existsb]. rewrite !orb_true_iff, prefix_app, !String.eqb_eq. intuition discriminate.
Qed.
Lemma float_iff ts : existsb type_float ts = true <-> has_float ts.
Proof.
  unfold has_float. rewrite existsb_exists. split.
  - intros (t & I & F). destruct t as [d| | |]; try discriminate. now exists d.
  - intros (d & I & F). now exists (Strong d).
Qed.
Lemma unmasked_wf nb nc d a : 0 < nb -> 0 <= nc -> shaped2 nb nc a -> wf nb nc (unmasked d a) /\ (forall b c, in_raster nb nc b c -> null (unmasked d a) b c = false) /\ forall b c, value (unmasked d a) b c = val2 NaN a b c.
Proof.
  intros Hb Hc S. pose proof (shaped_tab NaN nb nc a S ltac:(lia)) as ET.
  assert (EM : map2 (fun _ : num => false) a = tab2 nb nc (fun _ _ => false)) by (rewrite ET; apply map2_tab').
  assert (N : forall b c, in_raster nb nc b c -> null (unmasked d a) b c = false). { intros b c [H1 H2]. unfold null, unmasked. cbn [r_mask]. rewrite EM. now rewrite val2_tab. }
  split; [|split; [exact N|reflexivity]]. split; [exact Hb|]. split; [exact Hc|]. split; [exact S|]. split; [|intros _; exact N].
  unfold unmasked. cbn [r_mask]. rewrite EM. apply rect_tab2; lia.
Qed.
(* an operand on its way *)
Definition stands nb nc (s : list entry) (keep : bool) (o : pyobj) (a : arg) : Prop :=
  arg_type a = obj_type s keep o /\ op_ok nb nc (arg_operand a) /\ op_masked (arg_operand a) = obj_masked s o
  /\ forall b c, in_raster nb nc b c -> op_value b c (arg_operand a) = obj_value s b c o /\ op_null b c (arg_operand a) = obj_null s b c o.
Ltac fin := repeat match goal with |- wf _ _ _ => assumption | |- True => exact I | |- op_ok _ _ (OScalar _ _) => exact I | |- op_ok _ _ (ORaster _) => assumption | |- _ <-> _ => split | |- _ /\ _ => split end; intros; try discriminate; try congruence; auto.
Lemma to_numpy_raster keep e : to_numpy keep (ARaster e) = Value (ARaster e).
Proof. reflexivity. Qed.
Lemma normalize_ok nb nc s keep o : 0 < nb -> 0 <= nc -> obj_ok nb nc s o -> exists a a', normalize_other s o = Value a /\ to_numpy keep a = Value a' /\ stands nb nc s keep o a'
  /\ match obj_entry s o with Some e => a = ARaster e | None => forall e, a <> ARaster e end
  /\ (labelled a' = true <-> obj_entry s o <> None).
Proof.
  intros Hb Hc OK. unfold stands, obj_masked, obj_null. destruct o as [id|z|v|b|d v|d [c|]|e|]; cbn [obj_ok obj_entry] in *; try contradiction.
  - destruct OK as (e & EE & W). destruct (get s id) as [e'|] eqn:G; [|discriminate]. assert (e' = e) by congruence. subst e'. exists (ARaster e), (ARaster e).
    cbn [normalize_other plain]. rewrite G. unfold obj_value, obj_type. cbn [obj_entry]. rewrite G. fin.
  - exists (AScalar WeakInt (of_Z z)), (AScalar (if keep then WeakInt else Strong I64) (of_Z z)). split; [reflexivity|]. split.
    + cbn [to_numpy]. destruct keep; [reflexivity|]. rewrite !of_Z_leb. replace ((- 2 ^ 63 <=? z) && (z <=? 2 ^ 63 - 1)) with true by lia. reflexivity.
    + cbn. destruct keep; fin.
  - exists (AScalar WeakFloat v), (AScalar (if keep then WeakFloat else Strong F64) v). destruct keep; cbn; fin.
  - exists (AScalar WeakBool (of_bool b)), (AScalar WeakBool (of_bool b)). cbn. fin. now destruct b.
  - exists (AScalar (Strong d) v), (AScalar (Strong d) v). cbn. fin.
  - exists (AArray d c), (AArray d c). destruct (unmasked_wf nb nc d c Hb Hc OK) as (W & N & V). cbn [normalize_other plain to_numpy arg_type obj_type arg_operand op_ok op_masked op_value op_null obj_value labelled]. fin.
  - destruct OK as (e' & EE & W). assert (e' = e) by congruence. subst e'. exists (ARaster e), (ARaster e). cbn. fin.
Qed.

Lemma combine_get {A B} (x : list A) (y : list B) k a b : get x k = Ok a -> get y k = Ok b -> get (combine x y) k = Ok (a, b).
Proof.
  revert y k. induction x as [|a0 x IH]; intros y k GA GB.
  - apply get_ok_range in GA. cbn in GA. lia.
  - destruct y as [|b0 y]; [apply get_ok_range in GB; cbn in GB; lia|]. cbn [combine]. pose proof (get_ok_range _ _ _ GA) as R.
    destruct (Z.eq_dec k 0) as [->|NZ].
    + rewrite (get_cons0 a0 x) in GA. rewrite (get_cons0 b0 y) in GB. rewrite get_cons0. congruence.
    + rewrite (get_cons a0 x) in GA by lia. rewrite (get_cons b0 y) in GB by lia. rewrite get_cons by lia. now apply IH.
Qed.
(* the arguments largs stand for the operands *)
Definition arrive (u : ufunc) (lhs : arg) (rhs : option arg) (largs : list arg) : Prop :=
  match largs with
  | [l] => to_numpy (String.eqb (u_name u) "ldexp") lhs = Value l /\ rhs = None
  | [l; r] => to_numpy (String.eqb (u_name u) "ldexp") lhs = Value l /\ exists r0, rhs = Some r0 /\ to_numpy false r0 = Value r
  | _ => False
  end.
Definition stand nb nc (s : list entry) (u : ufunc) (inputs : list pyobj) (largs : list arg) : Prop :=
  match inputs, largs with
  | [o], [l] => stands nb nc s (String.eqb (u_name u) "ldexp") o l
  | [o; p], [l; r] => stands nb nc s (String.eqb (u_name u) "ldexp") o l /\ stands nb nc s false p r
  | _, _ => False
  end.
Lemma apply_eq nb nc s u this other lhs rhs inputs largs : len inputs = u_nin u -> arrive u lhs rhs largs -> stand nb nc s u inputs largs ->
  apply u this other lhs rhs = (let crs := match e_crs this with Some c => Some c | None => match other with Some (ARaster e) => e_crs e | _ => None end end in
    if int_only (u_name u) && existsb type_float (types s u inputs) then Raise XTypeError
    else match u_loop u (types s u inputs) with
    | None => Raise XTypeError
    | Some ds => if negb (existsb labelled largs) then Raise (if (1 <? u_nout u) || forallb is_scalar largs then XTypeError else XAttributeError)
        else match apply_ufunc false (combine (map (u_fun u) (zrange 0 (u_nout u))) ds) (map arg_operand largs) with
          | Ok rs => Value (map (fun r => Entry r crs) rs) | Err e => Raise (of_err e) end end).
Proof.
  intros LN HA HS. set (K := String.eqb (u_name u) "ldexp") in *. unfold arrive, stand in *. fold K in HA, HS.
  assert (EA : map arg_type largs = types s u inputs).
  { destruct inputs as [|o [|p [|? t0]]], largs as [|l [|r [|? t1]]]; try contradiction; cbn [map types]; fold K; [|destruct HS as [HS HS2]; destruct HS2 as (-> & _)]; destruct HS as (-> & _); reflexivity. }
  assert (EL : len largs = u_nin u). { rewrite <- LN. destruct inputs as [|o [|p [|? t0]]], largs as [|l [|r [|? t1]]]; try contradiction; reflexivity. }
  assert (EF : existsb (fun a => type_float (arg_type a)) largs = existsb type_float (types s u inputs)). { rewrite <- EA. clear. induction largs as [|a l IH]; [reflexivity|]. cbn. now rewrite IH. }
  rewrite <- EF, <- EA. unfold apply. fold K. destruct largs as [|l [|r [|? t1]]]; try contradiction.
  - destruct HA as (-> & ->). cbn [obind]. rewrite EL, Z.eqb_refl. reflexivity.
  - destruct HA as (-> & r0 & -> & E2). cbn [obind]. rewrite E2. cbn [obind]. rewrite EL, Z.eqb_refl. reflexivity.
Qed.
Lemma apply_bad nb nc s u this other lhs rhs inputs largs : len inputs = u_nin u -> arrive u lhs rhs largs -> stand nb nc s u inputs largs ->
  bit_function (u_name u) /\ has_float (types s u inputs) \/ u_loop u (types s u inputs) = None -> apply u this other lhs rhs = Raise XTypeError.
Proof.
  intros LN HA HS B. rewrite (apply_eq nb nc s u this other lhs rhs inputs largs LN HA HS). cbv zeta.
  destruct (int_only (u_name u) && existsb type_float (types s u inputs)) eqn:E; [reflexivity|]. destruct B as [[B1 B2]| ->]; [|reflexivity].
  apply int_only_iff in B1. apply float_iff in B2. rewrite B1, B2 in E. discriminate.
Qed.
Lemma apply_ok nb nc s u this other lhs rhs inputs ds largs : 0 < nb -> 0 <= nc -> len inputs = u_nin u -> (u_nin u = 1 \/ u_nin u = 2) ->
  u_loop u (types s u inputs) = Some ds -> 0 <= u_nout u -> len ds = u_nout u -> (bit_function (u_name u) -> ~ has_float (types s u inputs)) -> (existsb (obj_masked s) inputs = true \/ u_nout u <= 1) ->
  arrive u lhs rhs largs -> stand nb nc s u inputs largs ->
  existsb labelled largs = true ->
  match e_crs this with Some c => Some c | None => match other with Some (ARaster e) => e_crs e | _ => None end end = crs_of s inputs ->
  exists es, apply u this other lhs rhs = Value es /\ outputs_of nb nc s u inputs ds es.
Proof.
  intros Hb Hc LN NI LP NO LD BF HM HA HS HL HC.
  rewrite (apply_eq nb nc s u this other lhs rhs inputs largs LN HA HS). cbv zeta. rewrite HC, HL, LP. cbn [negb]. unfold arrive, stand in *.
  replace (int_only (u_name u) && existsb type_float (types s u inputs)) with false.
  2:{ destruct (int_only (u_name u)) eqn:E1; [|reflexivity]. destruct (existsb type_float (types s u inputs)) eqn:E2; [|reflexivity]. exfalso. apply (BF (proj1 (int_only_iff _) E1)). now apply float_iff. }
  assert (FO : Forall (op_ok nb nc) (map arg_operand largs)).
  { destruct inputs as [|o [|p [|? t0]]], largs as [|l [|r [|? t1]]]; try contradiction; cbn [map]; [|destruct HS as [HS (_ & W2 & _)]]; destruct HS as (_ & W & _); repeat constructor; assumption. }
  assert (EMK : existsb op_masked (map arg_operand largs) = existsb (obj_masked s) inputs).
  { destruct inputs as [|o [|p [|? t0]]], largs as [|l [|r [|? t1]]]; try contradiction; cbn [map existsb]; [|destruct HS as [HS (_ & _ & -> & _)]]; destruct HS as (_ & _ & -> & _); reflexivity. }
  assert (EV : forall b c, in_raster nb nc b c -> map (op_value b c) (map arg_operand largs) = map (obj_value s b c) inputs /\ existsb (op_null b c) (map arg_operand largs) = existsb (obj_null s b c) inputs).
  { intros b c IN. destruct inputs as [|o [|p [|? t0]]], largs as [|l [|r [|? t1]]]; try contradiction; cbn [map existsb]; [|destruct HS as [HS (_ & _ & _ & H2)]; destruct (H2 b c IN) as [-> ->]]; destruct HS as (_ & _ & _ & H1); destruct (H1 b c IN) as [-> ->]; split; reflexivity. }
  assert (AR : op_args (map arg_operand largs)).
  { destruct largs as [|l [|r [|? t1]]]; try contradiction; cbn [map existsb] in HL |- *.
    - destruct l; try discriminate; exact I.
    - destruct l; try discriminate; destruct r; try discriminate; exact I. }
  set (outs := combine (map (u_fun u) (zrange 0 (u_nout u))) ds).
  assert (LO : len outs = u_nout u). { unfold outs, len. rewrite combine_length, map_length. unfold len in LD. unfold zrange. rewrite map_length, seq_length. lia. }
  destruct (apply_ufunc_spec nb nc false outs (map arg_operand largs) AR FO (or_introl eq_refl)) as (rs & E & LR & V).
  { rewrite EMK. destruct HM as [HM|HM]; [now left|right; lia]. }
  fold outs. rewrite E. eexists. split; [reflexivity|]. split; [rewrite len_map; lia|].
  intros k d G. pose proof (get_ok_range _ _ _ G) as R.
  destruct (V k (u_fun u k) d) as (r & G2 & W & D & NV & CE).
  { unfold outs. apply combine_get; [|exact G]. rewrite get_map_eq. rewrite get_zrange by lia. cbn [rbind]. now rewrite Z.add_0_l. }
  exists (Entry r (crs_of s inputs)). split; [rewrite get_map_eq, G2; reflexivity|]. cbn [e_raster e_crs]. split; [exact W|]. split; [exact D|]. split; [reflexivity|]. split; [rewrite NV, EMK; reflexivity|].
  intros b c IN. destruct (CE b c IN) as [C1 C2]. destruct (EV b c IN) as [V1 V2]. rewrite <- V2, <- V1. now split.
Qed.
Lemma ok_handled nb nc s o : obj_ok nb nc s o -> handled o = true.
Proof. destruct o; cbn; auto. Qed.
Definition ids (l : list pyobj) : list Z := flat_map (fun o => match o with PRaster id => [id] | _ => [] end) l.
Definition good_inputs nb nc s u inputs : Prop := cellwise u /\ len inputs = u_nin u /\ Forall (obj_ok nb nc s) inputs /\ rasters inputs <> [].
Lemma good_shape nb nc s u inputs : good_inputs nb nc s u inputs -> 0 < nb /\ 0 <= nc.
Proof.
  intros (_ & _ & FO & NE). rewrite Forall_forall in FO. destruct (rasters inputs) as [|o t] eqn:E; [congruence|].
  assert (I : In o (rasters inputs)) by (rewrite E; now left). apply filter_In in I as [I R]. specialize (FO o I). destruct o; try discriminate. destruct FO as (e & _ & W). destruct W as (? & ? & _). auto.
Qed.
Definition routed (s : list entry) (self : Z) (this : entry) (u : ufunc) (inputs : list pyobj) (R : outcome (list entry)) : Prop :=
  match inputs with
  | [l] => l = PRaster self /\ apply u this None (ARaster this) None = R
  | [l; r] => if is_raster l self then exists a, normalize_other s r = Value a /\ apply u this (Some a) (ARaster this) (Some a) = R
              else exists a, normalize_other s l = Value a /\ r = PRaster self /\ apply u this (Some a) a (Some (ARaster this)) = R
  | _ => False
  end.
Lemma finish_out nb nc s self u inputs out kw R this : good_inputs nb nc s u inputs -> len out <= 1 -> Forall (fun o => o = PRaster self) out -> get s self = Ok this -> routed s self this u inputs R ->
  array_ufunc s self u true inputs out kw = obind R (fun es => match out with [] => Value (Fresh es, s) | _ => match es with [r] => match set s self r with Ok s' => Value (Itself self, s') | Err e => Raise (of_err e) end | _ => Raise XTypeError end end).
Proof.
  intros ((U1 & U2 & NI) & LN & FO & NE) LO FR G H. unfold array_ufunc. unfold routed in H.
  replace (forallb handled (inputs ++ out)) with true.
  2:{ symmetry. apply forallb_forall. intros o I. apply in_app_or in I as [I|I]; [rewrite Forall_forall in FO; eapply ok_handled; now apply FO|rewrite Forall_forall in FR; now rewrite (FR o I)]. }
  rewrite U1, U2. cbn [negb]. replace (u_nin u <? len inputs) with false by lia. replace (1 <? len out) with false by lia.
  replace (forallb (fun o => is_raster o self) out) with true.
  2:{ symmetry. apply forallb_forall. intros o I. rewrite Forall_forall in FR. rewrite (FR o I). cbn. lia. }
  cbn [negb]. rewrite G. destruct inputs as [|l [|r [|? ?]]]; try contradiction.
  - destruct H as (-> & E). replace (u_nin u =? 2) with false by (cbn in LN; lia). cbn [obind is_raster]. rewrite Z.eqb_refl. cbn [obind]. rewrite E. reflexivity.
  - replace (u_nin u =? 2) with true by (cbn in LN; lia). cbn [obind]. destruct (is_raster l self).
    + destruct H as (a & EN & E). rewrite EN. cbn [obind]. rewrite E. reflexivity.
    + destruct H as (a & EN & -> & E). rewrite EN. cbn [obind plain]. rewrite G. cbn [obind]. rewrite E. reflexivity.
Qed.
Lemma crs_entry s o e : obj_entry s o = Some e -> forall c, match obj_entry s o with Some (Entry _ (Some k)) => Some k | _ => c end = match e_crs e with Some k => Some k | None => c end.
Proof. intros -> c. destruct e as [r [k|]]; reflexivity. Qed.
Lemma get_entry s id e : get s id = Ok e -> obj_entry s (PRaster id) = Some e.
Proof. intros G. cbn. now rewrite G. Qed.
Lemma crs_two s this o a : obj_entry s o = None /\ (forall e, a <> ARaster e) \/ (exists e, obj_entry s o = Some e /\ a = ARaster e) -> forall id, get s id = Ok this ->
  match e_crs this with Some c => Some c | None => match a with ARaster e => e_crs e | _ => None end end = crs_of s [PRaster id; o]
  /\ ((forall i, o <> PRaster i) -> match e_crs this with Some c => Some c | None => match a with ARaster e => e_crs e | _ => None end end = crs_of s [o; PRaster id]).
Proof.
  intros H id G.
  assert (X : forall l, fold_right (fun o c => match obj_entry s o with Some (Entry _ (Some k)) => Some k | _ => c end) None (PRaster id :: l) = match e_crs this with Some c => Some c | None => fold_right (fun o c => match obj_entry s o with Some (Entry _ (Some k)) => Some k | _ => c end) None l end).
  { intros l. cbn [fold_right]. now rewrite (crs_entry s (PRaster id) this (get_entry s id this G)). }
  assert (Y : fold_right (fun o c => match obj_entry s o with Some (Entry _ (Some k)) => Some k | _ => c end) None [o] = match a with ARaster e => e_crs e | _ => None end).
  { cbn [fold_right]. destruct H as [[-> H]|(e & E & ->)]; [destruct a; try reflexivity; now exfalso; apply (H e)|]. rewrite (crs_entry s o e E). now destruct (e_crs e). }
  unfold crs_of, rasters, arrays. split.
  - destruct o as [i|z|v|b|d v|d c|e|]; cbn [filter app] in *; rewrite X; cbn [fold_right] in *; try (rewrite Y; reflexivity); destruct H as [[_ H]|(e' & E & _)]; try discriminate; destruct a; try reflexivity; match goal with |- context [e_crs ?x] => now destruct (H x) end.
  - intros NR. destruct o as [i|z|v|b|d v|d c|e|]; cbn [filter app] in *; try (now exfalso; apply (NR i)); rewrite X; cbn [fold_right] in *; try (rewrite Y; reflexivity); destruct H as [[_ H]|(e' & E & _)]; try discriminate; destruct a; try reflexivity; match goal with |- context [e_crs ?x] => now destruct (H x) end.
Qed.
Lemma core nb nc s u inputs (P : outcome (list entry) -> Prop) : good_inputs nb nc s u inputs ->
  (forall this other lhs rhs largs, arrive u lhs rhs largs -> stand nb nc s u inputs largs -> existsb labelled largs = true ->
    match e_crs this with Some c => Some c | None => match other with Some (ARaster e) => e_crs e | _ => None end end = crs_of s inputs -> P (apply u this other lhs rhs)) ->
  exists self this R, hd_error (ids inputs) = Some self /\ get s self = Ok this /\ P R /\ routed s self this u inputs R.
Proof.
  intros GC HP. destruct (good_shape _ _ _ _ _ GC) as [Hb Hc]. destruct GC as ((U1 & U2 & NI) & LN & FO & NE). set (K := String.eqb (u_name u) "ldexp").
  destruct inputs as [|l [|r [|q inputs]]]; [now destruct NE| | |exfalso; rewrite !len_cons in LN; pose proof (len_nonneg inputs); lia].
  - inversion FO as [|? ? OL _]; subst. destruct l as [id|z|v|b|d v|d c|e|]; try (now destruct NE). destruct (normalize_ok nb nc s K (PRaster id) Hb Hc OL) as (a & a' & EN & ET & ST & EE & EL).
    destruct (get s id) as [this|] eqn:G; [|destruct OL as (e0 & EX & _); cbn in EX; rewrite G in EX; discriminate]. cbn [obj_entry] in EE. rewrite G in EE. subst a. cbn in ET. assert (a' = ARaster this) by congruence. subst a'.
    exists id, this, (apply u this None (ARaster this) None). split; [reflexivity|]. split; [exact G|]. split; [|split; reflexivity]. apply (HP _ _ _ _ [ARaster this]); unfold arrive, stand; auto.
    unfold crs_of, rasters, arrays. cbn [filter app]. cbn [fold_right]. now rewrite (crs_entry s (PRaster id) this (get_entry s id this G)).
  - inversion FO as [|? ? OL FO2]; subst. inversion FO2 as [|? ? OR _]; subst.
    assert (C : (exists id, l = PRaster id) \/ (forall i, l <> PRaster i) /\ exists id, r = PRaster id).
    { destruct l as [id|z|v|b|d v|d c|e|]; [left; now exists id|right; split; [discriminate|]; destruct r; try (now destruct NE); eauto..]. }
    destruct C as [(id & ->)|(NL & id & ->)].
    + destruct (get s id) as [this|] eqn:G; [|destruct OL as (e0 & EX & _); cbn in EX; rewrite G in EX; discriminate].
      destruct (normalize_ok nb nc s K (PRaster id) Hb Hc OL) as (a & a' & EN & ET & ST & EE & EL). cbn [obj_entry] in EE. rewrite G in EE. subst a. cbn in ET. assert (a' = ARaster this) by congruence. subst a'.
      destruct (normalize_ok nb nc s false r Hb Hc OR) as (x & x' & EN2 & ET2 & ST2 & EE2 & EL2).
      exists id, this, (apply u this (Some x) (ARaster this) (Some x)). split; [reflexivity|]. split; [exact G|]. split; [|unfold routed; cbn [is_raster]; rewrite Z.eqb_refl; now exists x]. apply (HP _ _ _ _ [ARaster this; x']); unfold arrive, stand; auto.
      * split; [reflexivity|]. now exists x.
      * apply crs_two; [|exact G]. destruct (obj_entry s r) as [e|]; [right; now exists e|left; now split].
    + destruct (get s id) as [this|] eqn:G; [|destruct OR as (e0 & EX & _); cbn in EX; rewrite G in EX; discriminate].
      destruct (normalize_ok nb nc s false (PRaster id) Hb Hc OR) as (a & a' & EN & ET & ST & EE & EL). cbn [obj_entry] in EE. rewrite G in EE. subst a. cbn in ET. assert (a' = ARaster this) by congruence. subst a'.
      destruct (normalize_ok nb nc s K l Hb Hc OL) as (x & x' & EN2 & ET2 & ST2 & EE2 & EL2).
      exists id, this, (apply u this (Some x) x (Some (ARaster this))). split; [destruct l; try reflexivity; now destruct (NL id0)|]. split; [exact G|]. split; [|unfold routed; destruct l; cbn [is_raster]; try (now exists x); now destruct (NL id0)]. apply (HP _ _ _ _ [x'; ARaster this]); unfold arrive, stand; auto.
      * split; [exact ET2|]. now exists (ARaster this).
      * cbn [existsb labelled]. now rewrite orb_true_r.
      * apply (crs_two s this l x); [|exact G|exact NL]. destruct (obj_entry s l) as [e|]; [right; now exists e|left; now split].
Qed.
Lemma call_as s u inputs out kw self rest : len inputs = u_nin u -> out = [] \/ len out = u_nout u -> ids (inputs ++ out) = self :: rest ->
  call_ufunc s u inputs out kw = match array_ufunc s self u true inputs out kw with Declined => Raise XTypeError | r => r end.
Proof.
  intros LN LO EI. unfold call_ufunc. rewrite LN, Z.eqb_refl. cbn [negb]. replace (negb ((len out =? 0) || (len out =? u_nout u))) with false.
  2:{ symmetry. apply negb_false_iff. apply orb_true_iff. destruct LO as [->|LO]; [now left|right; lia]. }
  fold (ids (inputs ++ out)). now rewrite EI.
Qed.
Lemma hd_ids inputs self out : hd_error (ids inputs) = Some self -> exists rest, ids (inputs ++ out) = self :: rest.
Proof. intros H. unfold ids in *. rewrite flat_map_app. destruct (flat_map _ inputs) as [|i t]; [discriminate|]. cbn in H. exists (t ++ ids out). cbn [app]. unfold ids. congruence. Qed.
Lemma call_routed nb nc s u inputs kw self this R : good_inputs nb nc s u inputs -> hd_error (ids inputs) = Some self -> get s self = Ok this -> routed s self this u inputs R -> R <> Declined ->
  call_ufunc s u inputs [] kw = obind R (fun es => Value (Fresh es, s)).
Proof.
  intros GI HI G H ND. destruct (hd_ids inputs self [] HI) as (rest & EI). rewrite (call_as s u inputs [] kw self rest (proj1 (proj2 GI)) (or_introl eq_refl) EI).
  rewrite (finish_out nb nc s self u inputs [] kw R this GI) by (auto; cbn; lia). destruct R; try reflexivity. congruence.
Qed.
Lemma good_in nb nc s u inputs ds : good_call nb nc s u inputs ds -> good_inputs nb nc s u inputs.
Proof. intros (A & B & C & D & _). repeat split; try apply A; auto. Qed.
Lemma good_core nb nc s u inputs ds : good_call nb nc s u inputs ds -> exists self this es, hd_error (ids inputs) = Some self /\ get s self = Ok this /\ outputs_of nb nc s u inputs ds es /\ routed s self this u inputs (Value es).
Proof.
  intros GC. pose proof (good_in _ _ _ _ _ _ GC) as GI. destruct (good_shape _ _ _ _ _ GI) as [Hb Hc].
  destruct (core nb nc s u inputs (fun R => exists es, R = Value es /\ outputs_of nb nc s u inputs ds es) GI) as (self & this & R & HI & G & (es & -> & OO) & H).
  - intros this other lhs rhs largs HA HS HL HC. destruct GC as ((_ & _ & NI) & LN & FO & NE & LP & NO & LD & BF & HM). now apply (apply_ok nb nc s u this other lhs rhs inputs ds largs).
  - now exists self, this, es.
Qed.
Lemma call_ok nb nc s u inputs ds kw : good_call nb nc s u inputs ds -> exists es, call_ufunc s u inputs [] kw = Value (Fresh es, s) /\ outputs_of nb nc s u inputs ds es.
Proof.
  intros GC. destruct (good_core _ _ _ _ _ _ GC) as (self & this & es & HI & G & OO & H). exists es. split; [|exact OO].
  rewrite (call_routed nb nc s u inputs kw self this (Value es) (good_in _ _ _ _ _ _ GC) HI G H); [reflexivity|discriminate].
Qed.
Lemma inplace_ok nb nc s u inputs ds kw self : good_call nb nc s u inputs ds -> u_nout u = 1 -> hd_error (rasters inputs) = Some (PRaster self) -> exists e s', call_ufunc s u inputs [] kw = Value (Fresh [e], s)
  /\ call_ufunc s u inputs [PRaster self] kw = Value (Itself self, s') /\ get s' self = Ok e /\ len s' = len s /\ forall i, i <> self -> get s' i = get s i.
Proof.
  intros GC NO HR. destruct (good_core _ _ _ _ _ _ GC) as (self' & this & es & HI & G & OO & H). pose proof (good_in _ _ _ _ _ _ GC) as GI.
  assert (self' = self).
  { clear -HI HR. induction inputs as [|o t IH]; [discriminate|]. destruct o; cbn in HI, HR; try (now apply IH); congruence. }
  subst self'. destruct OO as (LE & _). destruct es as [|e [|e2 es]]; [cbn in LE; lia| |exfalso; rewrite !len_cons in LE; pose proof (len_nonneg es); lia].
  pose proof (get_ok_range _ _ _ G) as R. destruct (set_range s self e R) as (s' & ES). exists e, s'. split; [|split].
  - rewrite (call_routed nb nc s u inputs kw self this (Value [e]) GI HI G H); [reflexivity|discriminate].
  - destruct (hd_ids inputs self [PRaster self] HI) as (rest & EI). rewrite (call_as s u inputs [PRaster self] kw self rest (proj1 (proj2 GI)) (or_intror (eq_sym NO)) EI).
    rewrite (finish_out nb nc s self u inputs [PRaster self] kw (Value [e]) this GI); [cbn [obind]; rewrite ES; reflexivity|cbn; lia|repeat constructor|exact G|exact H].
  - split; [eapply get_set_same; eassumption|]. split; [eapply set_len; eassumption|]. intros i NI. eapply get_set_other; [eassumption|congruence].
Qed.
Lemma refuse_types nb nc s u inputs kw : cellwise u -> len inputs = u_nin u -> Forall (obj_ok nb nc s) inputs -> rasters inputs <> [] ->
  bit_function (u_name u) /\ has_float (types s u inputs) \/ u_loop u (types s u inputs) = None -> call_ufunc s u inputs [] kw = Raise XTypeError.
Proof.
  intros A B C D BT. assert (GI : good_inputs nb nc s u inputs) by (repeat split; try apply A; auto).
  destruct (core nb nc s u inputs (fun R => R = Raise XTypeError) GI) as (self & this & R & HI & G & -> & H).
  - intros this other lhs rhs largs HA HS HL HC. now apply (apply_bad nb nc s u this other lhs rhs inputs largs).
  - rewrite (call_routed nb nc s u inputs kw self this _ GI HI G H); [reflexivity|discriminate].
Qed.
(* ---- refusals ---- *)
Lemma ids_in l : ids l <> [] <-> exists id, In (PRaster id) l.
Proof.
  unfold ids. split.
  - intros H. destruct (flat_map _ l) as [|i t] eqn:E; [congruence|]. assert (I : In i (i :: t)) by now left. rewrite <- E in I. apply in_flat_map in I as (o & I & J). destruct o; try contradiction. destruct J as [->|[]]. now exists i.
  - intros (id & I) E. assert (J : In id (flat_map (fun o => match o with PRaster i => [i] | _ => [] end) l)) by (apply in_flat_map; exists (PRaster id); split; [exact I|now left]). now rewrite E in J.
Qed.
Lemma refuse_other s u inputs out kw : len inputs = u_nin u -> out = [] \/ len out = u_nout u -> (exists id, In (PRaster id) (inputs ++ out)) -> In POther (inputs ++ out) -> call_ufunc s u inputs out kw = Raise XTypeError.
Proof.
  intros LN LO EX I. apply ids_in in EX. destruct (ids (inputs ++ out)) as [|self rest] eqn:EI; [congruence|]. rewrite (call_as s u inputs out kw self rest LN LO EI). unfold array_ufunc.
  replace (forallb handled (inputs ++ out)) with false; [reflexivity|]. symmetry. destruct (forallb handled (inputs ++ out)) eqn:E; [|reflexivity]. rewrite forallb_forall in E. now specialize (E _ I).
Qed.
Lemma handled_all l : ~ In POther l -> forallb handled l = true.
Proof. intros H. apply forallb_forall. intros o I. destruct o; try reflexivity. now destruct H. Qed.
Lemma refuse_kind s u inputs out kw : len inputs = u_nin u -> out = [] \/ len out = u_nout u -> (exists id, In (PRaster id) (inputs ++ out)) -> ~ In POther (inputs ++ out) ->
  (u_unsupported u = true -> call_ufunc s u inputs out kw = Raise XTypeError)
  /\ (u_unsupported u = false -> u_gufunc u = true -> call_ufunc s u inputs out kw = Raise XNotImplementedError)
  /\ (u_unsupported u = false -> u_gufunc u = false -> 1 < len out -> call_ufunc s u inputs out kw = Raise XNotImplementedError)
  /\ (forall first o, u_unsupported u = false -> u_gufunc u = false -> hd_error (rasters inputs) = Some (PRaster first) -> out = [o] -> o <> PRaster first -> call_ufunc s u inputs out kw = Raise XNotImplementedError).
Proof.
  intros LN LO EX AH. apply ids_in in EX. destruct (ids (inputs ++ out)) as [|self rest] eqn:EI; [congruence|]. rewrite (call_as s u inputs out kw self rest LN LO EI). unfold array_ufunc.
  rewrite (handled_all _ AH). cbn [negb]. split; [|split; [|split]].
  - intros ->. reflexivity.
  - intros -> ->. reflexivity.
  - intros -> -> L. replace (u_nin u <? len inputs) with false by lia. replace (1 <? len out) with true by lia. reflexivity.
  - intros f o -> -> HF -> NE. replace (u_nin u <? len inputs) with false by lia. change (1 <? len [o]) with false. cbn iota.
    assert (self = f).
    { unfold ids in EI. rewrite flat_map_app in EI. clear -EI HF. induction inputs as [|p t IH]; [discriminate|]. destruct p; cbn in EI, HF; try (now apply IH); congruence. }
    subst f. replace (forallb (fun o0 => is_raster o0 self) [o]) with false; [reflexivity|]. symmetry. cbn [forallb]. rewrite andb_true_r. destruct o; try reflexivity. cbn. apply Z.eqb_neq. congruence.
Qed.
(* operands that do not go together *)
Lemma to_numpy_overflow z : ~ (- 2 ^ 63 <= z < 2 ^ 63) -> to_numpy false (AScalar WeakInt (of_Z z)) = Raise XOverflowError.
Proof. intros H. cbn [to_numpy]. rewrite !of_Z_leb. replace ((- 2 ^ 63 <=? z) && (z <=? 2 ^ 63 - 1)) with false by lia. reflexivity. Qed.
Lemma refuse_operand s u kw self this o : cellwise u -> u_nin u = 2 -> get s self = Ok this ->
  (forall d, o = PArray d None -> call_ufunc s u [PRaster self; o] [] kw = Raise XValueError /\ call_ufunc s u [o; PRaster self] [] kw = Raise XValueError)
  /\ (forall z, o = PInt z -> ~ (- 2 ^ 63 <= z < 2 ^ 63) -> call_ufunc s u [PRaster self; o] [] kw = Raise XOverflowError /\ (u_name u <> "ldexp"%string -> call_ufunc s u [o; PRaster self] [] kw = Raise XOverflowError)).
Proof.
  intros (U1 & U2 & _) NI G. split.
  - intros d ->. split.
    + rewrite (call_as s u [PRaster self; PArray d None] [] kw self []) by (auto; reflexivity). unfold array_ufunc. rewrite U1, U2, NI, G. cbn. now rewrite Z.eqb_refl.
    + rewrite (call_as s u [PArray d None; PRaster self] [] kw self []) by (auto; reflexivity). unfold array_ufunc. rewrite U1, U2, NI, G. reflexivity.
  - intros z -> H. split.
    + rewrite (call_as s u [PRaster self; PInt z] [] kw self []) by (auto; reflexivity). unfold array_ufunc. rewrite U1, U2, NI, G. cbn [app forallb handled andb negb len length is_raster]. change (2 <? Z.of_nat 2) with false. change (1 <? Z.of_nat 0) with false. change (2 =? 2) with true. rewrite Z.eqb_refl. cbn [obind normalize_other plain]. unfold apply. rewrite to_numpy_raster. cbn [obind]. rewrite (to_numpy_overflow z H). reflexivity.
    + intros NL. rewrite (call_as s u [PInt z; PRaster self] [] kw self []) by (auto; reflexivity). unfold array_ufunc. rewrite U1, U2, NI, G. cbn [app forallb handled andb negb len length is_raster]. change (2 <? Z.of_nat 2) with false. change (1 <? Z.of_nat 0) with false. change (2 =? 2) with true. cbn [obind normalize_other plain]. rewrite G. cbn [obind]. unfold apply.
      replace (String.eqb (u_name u) "ldexp") with false by (symmetry; now apply String.eqb_neq). rewrite (to_numpy_overflow z H). reflexivity.
Qed.
