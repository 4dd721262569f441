From Coq Require Import QArith Permutation.
From Verif Require Import Base BaseFacts Scalars NumFacts Chunks ChunksProofs Arr2 Arr2Facts Dtypes DtypesSpec DtypesProofs Raster FocalSpec FocalValues RasterSpec.
Open Scope Z_scope.

(* ---------------- arrays ---------------- *)
Lemma zip2_tab {A B C} (f : A -> B -> C) ny nx a b :
  zip2 f (tab2 ny nx a) (tab2 ny nx b) = tab2 ny nx (fun i j => f (a i j) (b i j)).
Proof.
  unfold zip2, tab2, tab at 1 3. rewrite combine_map, map_map. apply map_ext. intros i.
  unfold tab. rewrite combine_map, map_map. apply map_ext. intros j. reflexivity.
Qed.
Lemma map2_tab' {A B} (f : A -> B) ny nx a : map2 f (tab2 ny nx a) = tab2 ny nx (fun i j => f (a i j)).
Proof. apply map2_tab. Qed.
Lemma fill_tab {A} (x : A) ny nx m a :
  fill_where (tab2 ny nx m) x (tab2 ny nx a) = tab2 ny nx (fun i j => if m i j : bool then x else a i j).
Proof. unfold fill_where. apply zip2_tab. Qed.
Lemma select_tab {A} ny nx c (x y : Z -> Z -> A) :
  select (tab2 ny nx c) (tab2 ny nx x) (tab2 ny nx y) = tab2 ny nx (fun i j => if c i j : bool then x i j else y i j).
Proof. unfold select. now rewrite !zip2_tab. Qed.
Lemma mask_tab ny nx a nv : mask_from_data (tab2 ny nx a) nv
  = tab2 ny nx (fun i j => match nv with None => false | Some v => same_value (a i j) v end).
Proof.
  unfold mask_from_data. destruct nv as [v|]; rewrite map2_tab'; [|reflexivity]. apply tab2_ext. intros i j _ _.
  unfold same_value. destruct (a i j), v; reflexivity.
Qed.
Lemma list_eqb_refl l : list_eqb l l = true.
Proof. induction l as [|x l IH]; [reflexivity|]. cbn. now rewrite Z.eqb_refl. Qed.
Lemma shape2_tab {A} ny nx (a : Z -> Z -> A) : 0 <= nx -> shape2 (tab2 ny nx a) = map (fun _ => nx) (zrange 0 ny).
Proof. intros. unfold shape2, tab2, tab at 1. rewrite map_map. apply map_ext. intros. now apply len_tab. Qed.
Lemma same_shape_tab {A B} ny nx (a : Z -> Z -> A) (b : Z -> Z -> B) : 0 <= nx -> same_shape (tab2 ny nx a) (tab2 ny nx b) = true.
Proof. intros. unfold same_shape. rewrite !shape2_tab by lia. apply list_eqb_refl. Qed.
Lemma tab_full {A} n (x : A) : 0 <= n -> full n x = tab n (fun _ => x).
Proof. intros. apply list_tab; [lia| now rewrite full_len by lia|]. intros. now apply get_full. Qed.
Lemma broadcast_tab {A} nb nm nx (a : Z -> Z -> A) : 0 < nb -> nm = 1 \/ nm = nb ->
  broadcast_bands nb (tab2 nm nx a) = tab2 nb nx (fun i j => a (if nm =? 1 then 0 else i) j).
Proof.
  intros Hnb H. destruct (nm =? 1) eqn:E.
  - replace nm with 1 by lia. unfold broadcast_bands, tab2, tab at 1. change (zrange 0 1) with [0]. cbn [map]. now rewrite tab_full by lia.
  - replace nm with nb by lia. unfold broadcast_bands. cbn beta iota.
    assert (EL : len (tab2 nb nx a) = nb) by (apply len_tab; lia). change (tab2 nb nx (fun i j => a i j)) with (tab2 nb nx a).
    destruct (tab2 nb nx a) as [|x [|y l]]; try reflexivity. cbn in EL. lia.
Qed.

(* ---------------- rasters as tables ---------------- *)
Definition mk nb nc d nv (v : Z -> Z -> num) (m : Z -> Z -> bool) : raster := Raster d nv (tab2 nb nc v) (tab2 nb nc m).
Lemma wf_mk nb nc r : wf nb nc r -> r = mk nb nc (r_dtype r) (r_nv r) (value r) (null r).
Proof.
  intros (H1 & H2 & SD & SM & _). destruct r as [d nv data mask]. unfold mk, value, null. cbn [r_dtype r_nv r_data r_mask] in *.
  f_equal; [exact (shaped_tab NaN nb nc data SD ltac:(lia))|exact (shaped_tab false nb nc mask SM ltac:(lia))].
Qed.
Lemma value_mk nb nc d nv v m b c : in_raster nb nc b c -> value (mk nb nc d nv v m) b c = v b c.
Proof. intros [? ?]. unfold value, mk. cbn. now apply val2_tab. Qed.
Lemma null_mk nb nc d nv v m b c : in_raster nb nc b c -> null (mk nb nc d nv v m) b c = m b c.
Proof. intros [? ?]. unfold null, mk. cbn. now apply val2_tab. Qed.
Lemma mk_ext nb nc d nv v v' m m' : (forall b c, in_raster nb nc b c -> v b c = v' b c) -> (forall b c, in_raster nb nc b c -> m b c = m' b c) ->
  mk nb nc d nv v m = mk nb nc d nv v' m'.
Proof. intros H H'. unfold mk. f_equal; apply tab2_ext; intros; [apply H|apply H']; now split. Qed.
Lemma mk_wf nb nc d nv v m : 0 < nb -> 0 <= nc -> (nv = None -> forall b c, in_raster nb nc b c -> m b c = false) -> wf nb nc (mk nb nc d nv v m).
Proof.
  intros Hb Hc H. split; [exact Hb|]. split; [exact Hc|]. split; [apply rect_tab2; lia|]. split; [apply rect_tab2; lia|].
  intros HN b c HI. rewrite null_mk by exact HI. now apply H.
Qed.
Lemma len_mk nb nc d nv v m : 0 <= nb -> len (r_data (mk nb nc d nv v m)) = nb.
Proof. intros. cbn. now apply len_tab. Qed.
Lemma same_value_nan a b : same_value a b = nan_equal a b.
Proof. unfold same_value, nan_equal. destruct a, b; reflexivity. Qed.

(* burn_mask *)
Definition burn_nv (d : dtype) (nv : num) : num := match d with BOOL => default_null BOOL | _ => nv end.
Lemma burn_mk nb nc d nv v m : burn_mask (mk nb nc d (Some nv) v m)
  = mk nb nc d (Some nv) (fun b c => if m b c : bool then burn_nv d nv else v b c) m.
Proof. unfold burn_mask, mk. cbn [r_nv r_dtype r_mask r_data]. rewrite fill_tab. reflexivity. Qed.
Lemma mk_burned nb nc d nv v m : (forall b c, in_raster nb nc b c -> m b c = true -> nv = Some (v b c)) ->
  (d = BOOL -> nv = None \/ nv = Some (of_Z 1)) -> burned nb nc (mk nb nc d nv v m).
Proof.
  intros H HB. split; [|exact HB]. intros b c HI. rewrite null_mk, value_mk by exact HI. now apply H.
Qed.
Lemma wf_ex nb nc r : wf nb nc r -> exists d nv v m, r = mk nb nc d nv v m /\ 0 < nb /\ 0 <= nc
  /\ (nv = None -> forall b c, in_raster nb nc b c -> m b c = false).
Proof.
  intros W. exists (r_dtype r), (r_nv r), (value r), (null r). split; [now apply wf_mk|]. destruct W as (Hb & Hc & _ & _ & HN).
  auto.
Qed.
Ltac cells HI := rewrite ?null_mk, ?value_mk by exact HI.
Lemma burn_none nb nc d v m : burn_mask (mk nb nc d None v m) = mk nb nc d None v m.
Proof. reflexivity. Qed.
Lemma burn_wf nb nc r : wf nb nc r -> wf nb nc (burn_mask r).
Proof.
  intros W. destruct (wf_ex _ _ _ W) as (d & [nv|] & v & m & -> & Hb & Hc & HN); [|exact W].
  rewrite burn_mk. apply mk_wf; [lia|lia|discriminate].
Qed.
Lemma burn_spec nb nc r : wf nb nc r -> let r' := burn_mask r in
  wf nb nc r' /\ r_dtype r' = r_dtype r /\ r_nv r' = r_nv r
  /\ (forall b c, in_raster nb nc b c ->
       null r' b c = null r b c
       /\ (null r b c = false -> value r' b c = value r b c)
       /\ (null r b c = true -> r_dtype r <> BOOL -> r_nv r = Some (value r' b c))
       /\ (null r b c = true -> r_dtype r = BOOL -> value r' b c = of_Z 1))
  /\ burn_mask r' = r'.
Proof.
  intros W r'. split; [now apply burn_wf|]. unfold r'. clear r'. destruct (wf_ex _ _ _ W) as (d & [nv|] & v & m & -> & Hb & Hc & HN).
  - rewrite burn_mk. split; [reflexivity|]. split; [reflexivity|]. split.
    + intros b c HI. cells HI. split; [reflexivity|].
      split; [now intros ->|]. split; intros ->; [|cbn; now intros ->]. cbn. intros HD. destruct d; try reflexivity. congruence.
    + rewrite !burn_mk. apply mk_ext; [|reflexivity]. intros b c _. now destruct (m b c).
  - rewrite burn_none. split; [reflexivity|]. split; [reflexivity|]. split; [|reflexivity].
    intros b c HI. cells HI. rewrite (HN eq_refl b c HI). repeat split; discriminate.
Qed.
(* burning does nothing to a burned raster *)
Lemma burn_burned nb nc r : wf nb nc r -> burned nb nc r -> burn_mask r = r.
Proof.
  intros W [HB HD]. destruct (wf_ex _ _ _ W) as (d & [nv|] & v & m & -> & Hb & Hc & HN); [|reflexivity].
  rewrite burn_mk. apply mk_ext; [|reflexivity].
  intros b c HI. specialize (HB b c HI). revert HB. cells HI. cbn. destruct (m b c); [|reflexivity]. intros HB. specialize (HB eq_refl). injection HB as ->. unfold burn_nv.
  cbn in HD. destruct d; try reflexivity. destruct (HD eq_refl) as [HX|HX]; [discriminate|]. injection HX as ->. reflexivity.
Qed.

(* constructor *)
Lemma data_to_raster_nomask nb nc d v nv burn : 
  data_to_raster d (tab2 nb nc v) None nv burn
  = Ok (mk nb nc d nv v (fun b c => match nv with None => false | Some x => same_value (v b c) x end)).
Proof. unfold data_to_raster, mk. now rewrite mask_tab. Qed.
Lemma data_to_raster_mask nb nc d v m nv burn : 0 <= nc ->
  data_to_raster d (tab2 nb nc v) (Some (tab2 nb nc m)) nv burn
  = let nv := match nv with None => default_null d | Some x => x end in
    Ok (mk nb nc d (Some nv) (fun b c => if burn && m b c then nv else v b c) m).
Proof.
  intros. unfold data_to_raster. rewrite same_shape_tab by lia. cbn [negb]. cbv zeta. unfold mk. do 2 f_equal.
  destruct burn; [|reflexivity]. now rewrite fill_tab.
Qed.
Lemma data_to_raster_spec nb nc d data mask nv burn : 0 < nb -> 0 <= nc -> shaped2 nb nc data ->
  match mask with None => True | Some m => shaped2 nb nc m end ->
  exists r, data_to_raster d data mask nv burn = Ok r /\ wf nb nc r /\ r_dtype r = d
    /\ r_nv r = match mask, nv with None, None => None | _, Some v => Some v | Some _, None => Some (default_null d) end
    /\ forall b c, in_raster nb nc b c ->
      null r b c = match mask with
                   | Some m => val2 false m b c
                   | None => match nv with Some v => same_value (val2 NaN data b c) v | None => false end
                   end
      /\ (burn = true -> mask <> None -> null r b c = true -> r_nv r = Some (value r b c))
      /\ (burn = false \/ null r b c = false -> value r b c = val2 NaN data b c)
      /\ (mask = None -> null r b c = true -> exists v, r_nv r = Some v /\ same_value (value r b c) v = true).
Proof.
  intros Hb Hc SD SM. rewrite (shaped_tab NaN nb nc data SD) by lia. destruct mask as [m|].
  - rewrite (shaped_tab false nb nc m SM) by lia. rewrite data_to_raster_mask by lia. cbv zeta. eexists. split; [reflexivity|].
    split; [apply mk_wf; [lia|lia|discriminate]|]. split; [reflexivity|]. split; [now destruct nv|].
    intros b c HI. rewrite null_mk, value_mk by exact HI. rewrite !val2_tab by (unfold in_raster in HI; lia). split; [reflexivity|].
    split; [intros -> _ ->; now destruct nv|]. split; [|discriminate]. intros [-> | ->]; [reflexivity|]. now rewrite andb_false_r.
  - rewrite data_to_raster_nomask. eexists. split; [reflexivity|]. split; [apply mk_wf; [lia|lia|now intros ->]|].
    split; [reflexivity|]. split; [now destruct nv|]. intros b c HI. rewrite null_mk, value_mk by exact HI.
    rewrite !val2_tab by (unfold in_raster in HI; lia). split; [reflexivity|]. split; [congruence|]. split; [reflexivity|].
    intros _. destruct nv as [x|]; [|discriminate]. intros H. exists x. now split.
Qed.
Lemma data_to_raster_shape d data m nv burn : same_shape data m = false -> data_to_raster d data (Some m) nv burn = Err ValueError.
Proof. intros H. unfold data_to_raster. now rewrite H. Qed.

(* ---------------- set_null_value ---------------- *)
Section Cast.
Variable cast : dtype -> num -> num.
Variable float_dtype : num -> dtype.

(* numpy: bool(nan) is True *)
Hypothesis cast_bool_nan : cast BOOL NaN = of_Z 1.

Lemma promote_not_bool d : get_common_dtype [IOther d; IDtype BOOL] = Ok d.
Proof. destruct d; reflexivity. Qed.

Lemma set_null_value_clear nb nc r : wf nb nc r ->
  exists r', set_null_value cast float_dtype r None = Ok r' /\ wf nb nc r' /\ r_nv r' = None /\ r_dtype r' = r_dtype r
  /\ forall b c, in_raster nb nc b c -> null r' b c = false /\ (null r b c = false -> value r' b c = value r b c)
     /\ (null r b c = true -> r_dtype r <> BOOL -> r_nv r = Some (value r' b c)).
Proof.
  intros W. unfold set_null_value. eexists. split; [reflexivity|].
  pose proof (burn_spec nb nc r W) as (WB & ED & EN & HC & _). destruct (wf_ex _ _ _ WB) as (d & nv & v & m & E & Hb & Hc & HN).
  rewrite E in *. cbn [r_data r_dtype mk] in *. rewrite map2_tab'.
  change (Raster d None (tab2 nb nc v) (tab2 nb nc (fun _ _ => false))) with (mk nb nc d None v (fun _ _ => false)).
  split; [apply mk_wf; [lia|lia|reflexivity]|]. split; [reflexivity|]. split; [exact ED|].
  intros b c HI. specialize (HC b c HI). revert HC. cells HI. tauto.
Qed.

(* the dtype bool only survives NaN *)
Definition fits (s : scalar) : Prop := match s with SInt z => - 2 ^ 63 <= z < 2 ^ 64 | SFloat _ => True end.
Lemma literal_exists1 z : - 2 ^ 63 <= z < 2 ^ 64 -> exists dt, literal_dtype [z] = [dt] /\ In dt int_types.
Proof.
  intros H. assert (X : exists dt, In dt int_types /\ int_min dt <= z <= int_max dt).
  { destruct (z <? 0) eqn:E; [exists I64|exists U64]; (split; [unfold int_types; cbn; tauto|cbn; lia]). }
  destruct X as (dt & HT & HF). destruct (DtypesProofs.literal_exists [z] dt) as (dt' & EL & _); [discriminate|exact HT|intros y [<-|[]]; exact HF|].
  exists dt'. split; [exact EL|]. now apply DtypesProofs.literal_fits in EL.
Qed.
Lemma null_value_dtype_bool d s o : null_value_dtype float_dtype d s = Ok o -> (forall v, float_dtype v <> BOOL) -> fits s ->
  match o with Some d' => d' <> BOOL | None => d = BOOL -> exists v, s = SFloat v /\ is_nan v = true end.
Proof.
  unfold null_value_dtype. intros H HF HS. destruct s as [z|v].
  - destruct (is_float_dtype d) eqn:E1.
    + cbn in H. injection H as <-. specialize (HF (of_Z z)). destruct d; try discriminate E1; destruct (float_dtype (of_Z z)); cbn; congruence.
    + destruct (is_int_dtype d && _) eqn:E2. { injection H as <-. intros ->. discriminate E2. }
      unfold get_common_dtype in H. change (dtypes_of [IInt z; IDtype d]) with [d] in H. change (literals_of [IInt z; IDtype d]) with [z] in H.
      destruct (literal_exists1 z HS) as (dt & EL & HT). rewrite EL in H. cbn in H. injection H as <-. unfold int_types in HT.
      repeat (destruct HT as [<-|HT]; [destruct d; (discriminate E1 || (cbn; discriminate))|]). destruct HT.
  - destruct (is_nan v) eqn:EV.
    + destruct (is_int_dtype d) eqn:EI. { destruct d; try discriminate EI; cbn in H; try discriminate H; injection H as <-; discriminate. }
      injection H as <-. intros _. eauto.
    + cbn in H. injection H as <-. specialize (HF v). destruct d, (float_dtype v); cbn; congruence.
Qed.
Lemma set_null_value_gen nb nc r s r' : (forall v, float_dtype v <> BOOL) -> fits s ->
  wf nb nc r -> set_null_value cast float_dtype r (Some s) = Ok r' ->
  exists v conv, r_nv r' = Some v /\ wf nb nc r'
  /\ ((forall x, conv x = cast (r_dtype r') x) /\ v = scalar_num s
      \/ r_dtype r' = r_dtype r /\ (forall x, conv x = x) /\ v = cast (r_dtype r) (scalar_num s))
  /\ (r_dtype r' = BOOL -> v = of_Z 1)
  /\ forall b c, in_raster nb nc b c ->
     null r' b c = (null r b c || same_value (conv (value r b c)) v)
     /\ value r' b c = if null r' b c then v else conv (value r b c).
Proof.
  intros HF HS W H. destruct (wf_ex _ _ _ W) as (d & nv & v & m & -> & Hb & Hc & HN). unfold set_null_value in H. cbn [r_dtype mk r_data r_mask] in *.
  destruct (null_value_dtype float_dtype d s) as [o|] eqn:EO; [|discriminate]. cbn [rbind] in H.
  pose proof (null_value_dtype_bool _ _ _ EO HF HS) as HB.
  set (P := match o with Some d => _ | None => _ end) in H.
  assert (EP : exists d' x conv, P = (d', tab2 nb nc (fun b c => conv (v b c)), x) /\ burn_nv d' x = x
            /\ ((forall y, conv y = cast d' y) /\ x = scalar_num s \/ d' = d /\ (forall y, conv y = y) /\ x = cast d (scalar_num s))).
  { unfold P. destruct o as [d'|]; cbn beta iota in HB.
    - exists d', (scalar_num s), (cast d'). split; [now rewrite map2_tab'|].
      split; [destruct d'; (reflexivity || congruence)|]. left. auto.
    - exists d, (cast d (scalar_num s)), (fun y => y). split; [reflexivity|].
      split; [|right; auto]. destruct d; try reflexivity. cbn.
      destruct (HB eq_refl) as (x & -> & HV). destruct x; try discriminate HV. cbn [scalar_num]. now rewrite cast_bool_nan. }
  destruct EP as (d' & x & conv & EP & HV & HO). rewrite EP in H. cbn beta iota in H.
  assert (EM : (if masked (mk nb nc d nv v m) then zip2 orb (tab2 nb nc m) (mask_from_data (tab2 nb nc (fun b c => conv (v b c))) (Some x)) else mask_from_data (tab2 nb nc (fun b c => conv (v b c))) (Some x))
    = tab2 nb nc (fun b c => m b c || same_value (conv (v b c)) x)).
  { rewrite mask_tab. unfold masked. cbn [r_nv mk]. destruct nv.
    - now rewrite zip2_tab.
    - apply tab2_ext. intros i j Hi Hj. now rewrite HN by (auto; split; assumption). }
  rewrite EM in H.
  match type of H with Ok (burn_mask (Raster ?d0 ?n0 (tab2 _ _ ?v0) (tab2 _ _ ?m0))) = _ =>
    change (Raster d0 n0 (tab2 nb nc v0) (tab2 nb nc m0)) with (mk nb nc d0 n0 v0 m0) in H end. rewrite burn_mk in H. injection H as <-.
  exists x, conv. split; [reflexivity|]. split; [apply mk_wf; [lia|lia|discriminate]|]. split; [exact HO|]. split; [cbn [r_dtype mk]; intros ->; symmetry; exact HV|].
  intros b c HI. cells HI. rewrite HV. split; reflexivity.
Qed.
Lemma set_null_value_spec nb nc r s r' : (forall v, float_dtype v <> BOOL) -> fits s ->
  wf nb nc r -> set_null_value cast float_dtype r (Some s) = Ok r' ->
  (forall b c, in_raster nb nc b c -> cast (r_dtype r') (value r b c) = value r b c) ->
  exists v, r_nv r' = Some v /\ wf nb nc r'
  /\ (v = scalar_num s \/ r_dtype r' = r_dtype r /\ v = cast (r_dtype r) (scalar_num s))
  /\ (r_dtype r' = BOOL -> v = of_Z 1)
  /\ forall b c, in_raster nb nc b c ->
     null r' b c = (null r b c || same_value (value r b c) v)
     /\ value r' b c = if null r' b c then v else value r b c.
Proof.
  intros HF HS W H HC. destruct (set_null_value_gen nb nc r s r' HF HS W H) as (v & conv & EN & W' & HO & HB & HV).
  exists v. split; [exact EN|]. split; [exact W'|]. split; [tauto|]. split; [exact HB|]. intros b c HI.
  assert (E : conv (value r b c) = value r b c) by (destruct HO as [[-> _]|(_ & -> & _)]; [now apply HC|reflexivity]).
  destruct (HV b c HI) as [E1 E2]. rewrite E in *. auto.
Qed.
Lemma burn_makes_burned nb nc r : wf nb nc r -> (r_dtype r = BOOL -> r_nv r = None \/ r_nv r = Some (of_Z 1)) -> burned nb nc (burn_mask r).
Proof.
  intros W HB. destruct (burn_spec nb nc r W) as (_ & ED & EN & HC & _). split; [|now rewrite ED, EN].
  intros b c HI H. destruct (HC b c HI) as (E & _ & H1 & H2). rewrite E in H. rewrite EN. destruct (r_dtype r) eqn:EDT; try (apply H1; congruence).
  rewrite (H2 H eq_refl). destruct (HB eq_refl) as [K|K]; [|exact K]. destruct W as (_ & _ & _ & _ & HN). rewrite (HN K b c HI) in H. discriminate.
Qed.
Lemma set_null_value_burned nb nc r s r' : (forall v, float_dtype v <> BOOL) -> match s with Some s => fits s | None => True end ->
  wf nb nc r -> set_null_value cast float_dtype r s = Ok r' -> wf nb nc r' /\ burned nb nc r'.
Proof.
  intros HF HS W H. destruct s as [s|].
  - destruct (set_null_value_gen nb nc r s r' HF HS W H) as (v & conv & EN & W' & HO & HB & HV). split; [exact W'|]. split.
    + intros b c HI E. destruct (HV b c HI) as [_ E2]. rewrite E2, E. exact EN.
    + intros E. right. rewrite EN. now rewrite HB.
  - destruct (set_null_value_clear nb nc r W) as (r2 & E & W' & EN & ED & HC). rewrite H in E. injection E as <-. split; [exact W'|]. split.
    + intros b c HI E. destruct (HC b c HI) as [E' _]. congruence.
    + intros _. now left.
Qed.

End Cast.

(* ---------------- set_null ---------------- *)
Definition mask_dtype (d : dtype) : bool := match d with BOOL | I8 | U8 => true | _ => false end.
(* the cells a mask raster of nm bands selects *)
Definition selects (nm : Z) (m : raster) (b c : Z) : bool :=
  let b := if nm =? 1 then 0 else b in negb (num_eqb (value m b c) (of_Z 0)) && negb (null m b c).
Lemma firstn_shape {A} nb nc (a : Z -> Z -> A) : 0 < nb -> 0 <= nc -> firstn 1 (shape2 (tab2 nb nc a)) = [nc].
Proof. intros. rewrite shape2_tab by lia. rewrite zrange_cons by lia. reflexivity. Qed.
Definition with_nulls nb nc r (s : Z -> Z -> bool) : raster :=
  mk nb nc (r_dtype r) (Some (null_value_of r))
    (fun b c => if null r b c || s b c then burn_nv (r_dtype r) (null_value_of r) else value r b c)
    (fun b c => null r b c || s b c).
Lemma set_null_eq nb nc nm r m : wf nb nc r -> wf nm nc m -> nm = 1 \/ nm = nb -> mask_dtype (r_dtype m) = true ->
  set_null r m = Ok (with_nulls nb nc r (selects nm m)).
Proof.
  intros W WM HM HD. destruct (wf_ex _ _ _ W) as (d & nv & v & mm & -> & Hb & Hc & HN).
  destruct (wf_ex _ _ _ WM) as (d' & nv' & v' & m' & -> & Hb' & _ & HN'). clear W WM. unfold set_null.
  rewrite !len_mk by lia. cbn [r_data r_mask mk r_dtype r_nv] in *.
  replace ((1 <? nm) && negb (nm =? nb)) with false by lia. rewrite !firstn_shape by lia. rewrite list_eqb_refl. cbn [negb].
  unfold mask_dtype in HD. rewrite HD. cbn [negb]. rewrite map2_tab'.
  assert (ES : (if masked (mk nm nc d' nv' v' m') then zip2 (fun x y => x && negb y) (tab2 nm nc (fun b c => negb (num_eqb (v' b c) (of_Z 0)))) (tab2 nm nc m')
     else tab2 nm nc (fun b c => negb (num_eqb (v' b c) (of_Z 0)))) = tab2 nm nc (fun b c => negb (num_eqb (v' b c) (of_Z 0)) && negb (m' b c))).
  { unfold masked. cbn [r_nv mk]. destruct nv'; [now rewrite zip2_tab|]. apply tab2_ext. intros i j Hi Hj.
    rewrite HN' by (auto; split; assumption). cbn [negb]. now rewrite andb_true_r. }
  rewrite ES. rewrite broadcast_tab by lia. rewrite zip2_tab. cbv zeta.
  match goal with |- Ok (burn_mask (Raster d (Some ?nv0) _ (tab2 nb nc ?mm0))) = _ =>
    change (Raster d (Some nv0) (tab2 nb nc v) (tab2 nb nc mm0)) with (mk nb nc d (Some nv0) v mm0) end.
  rewrite burn_mk. f_equal. unfold with_nulls, null_value_of. cbn [r_nv r_dtype mk].
  assert (HS : forall b c, in_raster nb nc b c -> selects nm (mk nm nc d' nv' v' m') b c
    = negb (num_eqb (v' (if nm =? 1 then 0 else b) c) (of_Z 0)) && negb (m' (if nm =? 1 then 0 else b) c)).
  { intros b c HI. unfold selects. cbv zeta. assert (HI' : in_raster nm nc (if nm =? 1 then 0 else b) c).
    { unfold in_raster in *. destruct (nm =? 1) eqn:E; lia. } now cells HI'. }
  apply mk_ext; intros b c HI; cells HI; now rewrite HS.
Qed.
Lemma with_nulls_twice nb nc r s t : wf nb nc r -> with_nulls nb nc (with_nulls nb nc r s) t = with_nulls nb nc r (fun b c => s b c || t b c).
Proof.
  intros W. unfold with_nulls at 1 3. change (null_value_of (with_nulls nb nc r s)) with (null_value_of r).
  change (r_dtype (with_nulls nb nc r s)) with (r_dtype r).
  apply mk_ext; intros b c HI; unfold with_nulls; cells HI; destruct (null r b c), (s b c), (t b c); reflexivity.
Qed.
Lemma with_nulls_wf nb nc r s : wf nb nc r -> wf nb nc (with_nulls nb nc r s).
Proof. intros (Hb & Hc & _). apply mk_wf; [lia|lia|discriminate]. Qed.
Lemma with_nulls_ext nb nc r s t : (forall b c, in_raster nb nc b c -> s b c = t b c) -> with_nulls nb nc r s = with_nulls nb nc r t.
Proof. intros H. apply mk_ext; intros b c HI; now rewrite H. Qed.
(* a sequence of masks *)
Definition mask_ok nb nc (m : raster) : Prop := exists nm, (nm = 1 \/ nm = nb) /\ wf nm nc m /\ mask_dtype (r_dtype m) = true.
Definition selected_by (m : raster) (b c : Z) : bool := selects (len (r_data m)) m b c.
Lemma set_null_ok nb nc r m : wf nb nc r -> mask_ok nb nc m -> set_null r m = Ok (with_nulls nb nc r (selected_by m)).
Proof.
  intros W (nm & HM & WM & HD). rewrite (set_null_eq nb nc nm) by assumption. unfold selected_by.
  destruct WM as (_ & _ & (-> & _) & _). reflexivity.
Qed.
Lemma set_null_seq_acc nb nc r ms : wf nb nc r -> Forall (mask_ok nb nc) ms -> forall s,
  foldM set_null ms (with_nulls nb nc r s) = Ok (with_nulls nb nc r (fun b c => s b c || existsb (fun m => selected_by m b c) ms)).
Proof.
  intros W HM. induction HM as [|m ms HM' HMS IH]; intros s; cbn [foldM existsb].
  - f_equal. apply with_nulls_ext. intros. now rewrite orb_false_r.
  - rewrite (set_null_ok nb nc) by (auto using with_nulls_wf). cbn [rbind]. rewrite with_nulls_twice by exact W. rewrite IH. f_equal.
    apply with_nulls_ext. intros. now rewrite orb_assoc.
Qed.
Lemma set_null_seq nb nc r ms : wf nb nc r -> Forall (mask_ok nb nc) ms -> ms <> [] ->
  foldM set_null ms r = Ok (with_nulls nb nc r (fun b c => existsb (fun m => selected_by m b c) ms)).
Proof.
  intros W HM NE. destruct ms as [|m ms]; [congruence|]. inversion HM; subst. cbn [foldM]. rewrite (set_null_ok nb nc) by assumption. cbn [rbind].
  rewrite set_null_seq_acc by assumption. reflexivity.
Qed.
Lemma existsb_perm {A} (f : A -> bool) l l' : Permutation l l' -> existsb f l = existsb f l'.
Proof. induction 1; cbn; try congruence. destruct (f x), (f y); reflexivity. Qed.
Lemma set_null_perm nb nc r ms ms' : wf nb nc r -> Forall (mask_ok nb nc) ms -> Permutation ms ms' -> foldM set_null ms r = foldM set_null ms' r.
Proof.
  intros W HM HP. assert (HM' : Forall (mask_ok nb nc) ms') by (apply (Permutation_Forall HP HM)).
  destruct ms as [|m ms]. { apply Permutation_nil in HP. now subst. }
  rewrite (set_null_seq nb nc) by (auto; discriminate).
  rewrite (set_null_seq nb nc); [|exact W|exact HM'|intros ->; symmetry in HP; apply Permutation_nil in HP; discriminate].
  f_equal. apply with_nulls_ext. intros b c _. now apply existsb_perm.
Qed.
Lemma set_null_idem nb nc r m r' : wf nb nc r -> mask_ok nb nc m -> set_null r m = Ok r' -> set_null r' m = Ok r'.
Proof.
  intros W HM H. rewrite (set_null_ok nb nc) in H by assumption. injection H as <-.
  rewrite (set_null_ok nb nc) by (auto using with_nulls_wf). f_equal. rewrite with_nulls_twice by exact W.
  apply with_nulls_ext. intros. apply orb_diag.
Qed.
Lemma with_nulls_spec nb nc r s : wf nb nc r -> let r' := with_nulls nb nc r s in
  wf nb nc r' /\ r_dtype r' = r_dtype r /\ r_nv r' = Some (null_value_of r)
  /\ forall b c, in_raster nb nc b c ->
     null r' b c = null r b c || s b c
     /\ (null r' b c = false -> value r' b c = value r b c)
     /\ (null r' b c = true -> value r' b c = if dtype_eqb (r_dtype r) BOOL then of_Z 1 else null_value_of r).
Proof.
  intros W. split; [now apply with_nulls_wf|]. split; [reflexivity|]. split; [reflexivity|]. intros b c HI. unfold with_nulls. cells HI.
  split; [reflexivity|]. split; [now intros ->|]. intros ->. destruct (r_dtype r); reflexivity.
Qed.
Lemma set_null_errors nb nc nm nc' r m : wf nb nc r -> wf nm nc' m ->
  (1 < nm /\ nm <> nb \/ nc' <> nc -> set_null r m = Err ValueError)
  /\ ((nm = 1 \/ nm = nb) -> nc' = nc -> mask_dtype (r_dtype m) = false -> set_null r m = Err TypeError).
Proof.
  intros W WM. destruct (wf_ex _ _ _ W) as (d & nv & v & mm & -> & Hb & Hc & HN).
  destruct (wf_ex _ _ _ WM) as (d' & nv' & v' & m' & -> & Hb' & Hc' & HN'). clear W WM. unfold set_null. rewrite !len_mk by lia.
  cbn [r_data mk]. rewrite !firstn_shape by lia. cbn [list_eqb r_dtype]. split.
  - intros H. destruct ((1 <? nm) && negb (nm =? nb)) eqn:E; [reflexivity|]. replace (nc' =? nc) with false by lia. reflexivity.
  - intros H -> HD. replace ((1 <? nm) && negb (nm =? nb)) with false by lia. rewrite Z.eqb_refl. cbn [negb andb].
    unfold mask_dtype in HD. rewrite HD. reflexivity.
Qed.

(* ---------------- ufuncs ---------------- *)
Definition op_ok nb nc (o : operand) : Prop := match o with ORaster r => wf nb nc r | OScalar _ _ => True end.
Definition op_value (b c : Z) (o : operand) : num := match o with ORaster r => value r b c | OScalar v _ => v end.
Definition op_null (b c : Z) (o : operand) : bool := match o with ORaster r => null r b c | OScalar _ _ => false end.
(* one or two operands, at least one raster *)
Definition op_args (os : list operand) : Prop :=
  match os with
  | [ORaster _] | [ORaster _; _] | [OScalar _ _; ORaster _] => True
  | _ => False
  end.
Lemma ufunc_data_eq nb nc f os : op_args os -> Forall (op_ok nb nc) os ->
  ufunc_data f os = Ok (tab2 nb nc (fun b c => f (map (op_value b c) os))).
Proof.
  intros HA HO. destruct os as [|o1 [|o2 [|o3 os]]]; [contradiction| | |destruct o1, o2; contradiction].
  - destruct o1 as [r|]; [|contradiction]. inversion HO as [|? ? W _]; subst. cbn in W. destruct (wf_ex _ _ _ W) as (d & nv & v & m & -> & Hb & Hc & _).
    cbn [ufunc_data r_data mk]. rewrite map2_tab'. f_equal. apply tab2_ext. intros b c Hi Hj. cbn. now rewrite value_mk by (split; assumption).
  - inversion HO as [|? ? W1 HO']; subst. inversion HO' as [|? ? W2 _]; subst. destruct o1 as [r|s fl], o2 as [r2|s2 fl2]; try contradiction; cbn in W1, W2.
    + destruct (wf_ex _ _ _ W1) as (d & nv & v & m & -> & Hb & Hc & _). destruct (wf_ex _ _ _ W2) as (d' & nv' & v' & m' & -> & _ & _ & _).
      cbn [ufunc_data r_data mk]. rewrite same_shape_tab by lia. rewrite zip2_tab. f_equal. apply tab2_ext. intros b c Hi Hj. cbn.
      now rewrite !value_mk by (split; assumption).
    + destruct (wf_ex _ _ _ W1) as (d & nv & v & m & -> & Hb & Hc & _).
      cbn [ufunc_data r_data mk]. rewrite map2_tab'. f_equal. apply tab2_ext. intros b c Hi Hj. cbn. now rewrite value_mk by (split; assumption).
    + destruct (wf_ex _ _ _ W2) as (d & nv & v & m & -> & Hb & Hc & _).
      cbn [ufunc_data r_data mk]. rewrite map2_tab'. f_equal. apply tab2_ext. intros b c Hi Hj. cbn. now rewrite value_mk by (split; assumption).
Qed.
Lemma merge_masks_acc nb nc ms : forall a, 
  fold_left (fun acc m => match acc with None => Some m | Some a => Some (zip2 orb a m) end) (map (fun m => tab2 nb nc m) ms) (Some (tab2 nb nc a))
  = Some (tab2 nb nc (fun b c => a b c || existsb (fun m : Z -> Z -> bool => m b c) ms)).
Proof.
  induction ms as [|m ms IH]; intros a; cbn [fold_left map existsb].
  - f_equal. apply tab2_ext. intros. now rewrite orb_false_r.
  - rewrite zip2_tab, IH. f_equal. apply tab2_ext. intros. now rewrite orb_assoc.
Qed.
Lemma merge_masks_eq nb nc os : op_args os -> Forall (op_ok nb nc) os ->
  merge_masks (op_masks os) = Some (tab2 nb nc (fun b c => existsb (op_null b c) os)).
Proof.
  intros HA HO.
  assert (EM : op_masks os = map (fun m => tab2 nb nc m) (flat_map (fun o => match o with ORaster r => [null r] | _ => [] end) os)).
  { clear HA. induction HO as [|o os W _ IH]; [reflexivity|]. unfold op_masks in *. cbn [flat_map]. rewrite map_app. rewrite <- IH. f_equal.
    destruct o as [r|]; [|reflexivity]. cbn in W. cbn. f_equal. rewrite (wf_mk _ _ _ W) at 1. reflexivity. }
  assert (EX : forall b c, existsb (op_null b c) os = existsb (fun m : Z -> Z -> bool => m b c) (flat_map (fun o => match o with ORaster r => [null r] | _ => [] end) os)).
  { intros b c. clear. induction os as [|o os IH]; [reflexivity|]. cbn [existsb flat_map]. rewrite existsb_app, IH. f_equal. destruct o; cbn; [now rewrite orb_false_r|reflexivity]. }
  unfold merge_masks. rewrite EM.
  assert (NE : flat_map (fun o => match o with ORaster r => [null r] | OScalar _ _ => [] end) os <> []).
  { destruct os as [|[?|? ?] [|[?|? ?] [|]]]; cbn in *; try contradiction; discriminate. }
  destruct (flat_map _ os) as [|m ms]; [congruence|]. cbn [map fold_left]. rewrite merge_masks_acc. f_equal. apply tab2_ext. intros b c _ _. now rewrite EX.
Qed.
Lemma ufunc_out_eq nb nc os f d : op_args os -> Forall (op_ok nb nc) os ->
  (let* out := ufunc_data f os in
   if negb (existsb op_masked os) then Ok (Raster d None out (mask_from_data out None))
   else match merge_masks (op_masks os) with
        | None => Err TypeError
        | Some m => let nv := default_null d in Ok (Raster d (Some nv) (fill_where m nv out) m)
        end)
  = Ok (mk nb nc d (if existsb op_masked os then Some (default_null d) else None)
         (fun b c => if existsb op_masked os && existsb (op_null b c) os then default_null d else f (map (op_value b c) os))
         (fun b c => existsb op_masked os && existsb (op_null b c) os)).
Proof.
  intros HA HO. rewrite (ufunc_data_eq nb nc) by assumption. cbn [rbind]. destruct (existsb op_masked os); cbn [negb andb].
  - rewrite (merge_masks_eq nb nc) by assumption. cbv zeta. rewrite fill_tab. reflexivity.
  - rewrite mask_tab. reflexivity.
Qed.
Lemma op_masked_null nb nc os b c : Forall (op_ok nb nc) os -> in_raster nb nc b c -> existsb (op_null b c) os = true -> existsb op_masked os = true.
Proof.
  intros HO HI H. apply existsb_exists in H. destruct H as (o & HIn & H). apply existsb_exists. exists o. split; [exact HIn|].
  rewrite Forall_forall in HO. specialize (HO o HIn). destruct o as [r|]; [|discriminate]. cbn in *. unfold masked.
  destruct (r_nv r) eqn:E; [reflexivity|]. destruct HO as (_ & _ & _ & _ & HN). rewrite (HN E b c HI) in H. discriminate.
Qed.
Lemma op_shape nb nc os : op_args os -> Forall (op_ok nb nc) os -> 0 < nb /\ 0 <= nc.
Proof.
  intros HA HO. assert (X : exists r, In (ORaster r) os).
  { destruct os as [|[?|? ?] [|[?|? ?] [|]]]; cbn in *; try contradiction; eauto. }
  destruct X as (r & HI). rewrite Forall_forall in HO. specialize (HO _ HI). cbn in HO. destruct HO as (? & ? & _). auto.
Qed.
Lemma apply_ufunc_spec nb nc int_only outputs os : op_args os -> Forall (op_ok nb nc) os ->
  int_only = false \/ existsb op_float os = false -> existsb op_masked os = true \/ len outputs <= 1 ->
  exists rs, apply_ufunc int_only outputs os = Ok rs /\ len rs = len outputs /\
  forall k f d, get outputs k = Ok (f, d) -> exists r, get rs k = Ok r /\ wf nb nc r /\ r_dtype r = d
    /\ r_nv r = (if existsb op_masked os then Some (default_null d) else None)
    /\ forall b c, in_raster nb nc b c ->
       null r b c = existsb (op_null b c) os
       /\ value r b c = if null r b c then default_null d else f (map (op_value b c) os).
Proof.
  intros HA HO HI HM. unfold apply_ufunc. replace (int_only && existsb op_float os) with false
    by (destruct HI as [-> | ->]; [reflexivity|now rewrite andb_false_r]).
  replace (negb (existsb op_masked os) && (1 <? len outputs)) with false by (destruct HM as [-> |HM]; [reflexivity|symmetry; apply andb_false_intro2; lia]).
  pose proof (op_shape _ _ _ HA HO) as [Hb Hc].
  set (g := fun p : (list num -> num) * dtype => mk nb nc (snd p) (if existsb op_masked os then Some (default_null (snd p)) else None)
         (fun b c => if existsb op_masked os && existsb (op_null b c) os then default_null (snd p) else (fst p) (map (op_value b c) os))
         (fun b c => existsb op_masked os && existsb (op_null b c) os)).
  exists (map g outputs). split.
  - apply traverse_ok. intros [f d] _. apply (ufunc_out_eq nb nc); assumption.
  - split; [apply len_map|]. intros k f d G. exists (g (f, d)). split; [now rewrite get_map_eq, G|]. unfold g. cbn [fst snd].
    split; [apply mk_wf; [lia|lia|destruct (existsb op_masked os); [discriminate|reflexivity]]|]. split; [reflexivity|]. split; [reflexivity|].
    intros b c HIn. cells HIn. assert (E : existsb op_masked os && existsb (op_null b c) os = existsb (op_null b c) os).
    { destruct (existsb (op_null b c) os) eqn:E; [|now rewrite andb_false_r]. now rewrite (op_masked_null nb nc os b c). }
    rewrite E. split; reflexivity.
Qed.
Lemma apply_ufunc_float outputs os : existsb op_float os = true -> apply_ufunc true outputs os = Err TypeError.
Proof. intros H. unfold apply_ufunc. now rewrite H. Qed.
Lemma apply_ufunc_outputs int_only outputs os : existsb op_masked os = false -> 1 < len outputs -> apply_ufunc int_only outputs os = Err TypeError.
Proof. intros H L. unfold apply_ufunc. rewrite H. destruct (int_only && existsb op_float os); [reflexivity|]. replace (1 <? len outputs) with true by lia. reflexivity. Qed.
