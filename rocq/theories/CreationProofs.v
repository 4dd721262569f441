(* Proofs for C67. *)
From Coq Require Import QArith Lia ZifyBool ZifyNat String.
From Verif Require Import Base BaseFacts Scalars Arr2 Arr2Facts FocalSpec BandsSpec Bands BandsProofs ChunksProofs MapBlocks MapBlocksSpec MapBlocksProofs Normalize NormalizeSpec NormalizeProofs Ingest IngestSpec IngestProofs PointsProofs
  Creation CreationSpec.
Open Scope Z_scope.

Lemma not_both l : increasing l -> decreasing l -> 1 < len l -> False.
Proof.
  intros I D L. destruct (get_range l 0) as [p E]; [lia|]. destruct (get_range l (0 + 1)) as [q F]; [lia|].
  specialize (I _ _ _ E F). specialize (D _ _ _ E F). cbn in I, D. apply (Qlt_irrefl p). now apply Qlt_trans with q.
Qed.
Lemma orient_north {A} nb ys xs (a : arr3 A) : north_up ys xs -> orient nb ys xs a = RasterArray (zrange 1 (nb + 1)) ys xs a.
Proof.
  intros [DY IX]. unfold orient.
  assert (is_strictly_decreasing xs = false) as ->.
  { destruct (is_strictly_decreasing xs) eqn:E; [|reflexivity]. apply decreasing_iff in E. exfalso. now apply (not_both xs). }
  assert (is_strictly_increasing ys = false) as ->.
  { destruct (is_strictly_increasing ys) eqn:E; [|reflexivity]. apply increasing_iff in E. exfalso. now apply (not_both ys). }
  reflexivity.
Qed.

Lemma full_tab3 {A} (v : A) nb ny nx : 0 <= nb -> 0 <= ny -> 0 <= nx -> full nb (full ny (full nx v)) = tab3 nb ny nx (fun _ _ _ => v).
Proof.
  intros. assert (T : forall B (x : B) n, full n x = tab n (fun _ => x)).
  { intros B x n. unfold full, tab, zrange. rewrite map_map. rewrite Z.sub_0_r. induction (Z.to_nat n) as [|k IH]; [reflexivity|].
    rewrite seq_S, map_app, <- IH. cbn. now rewrite <- repeat_cons. }
  unfold tab3, tab2. rewrite (T _ v nx), (T _ _ ny), (T _ _ nb). reflexivity.
Qed.
Lemma full_at {A} (v : A) nb ny nx : 0 <= nb -> 0 <= ny -> 0 <= nx ->
  shaped3 nb ny nx (full nb (full ny (full nx v)))
  /\ forall b i j, 0 <= b < nb -> 0 <= i < ny -> 0 <= j < nx -> at3 (full nb (full ny (full nx v))) b i j v.
Proof.
  intros. rewrite full_tab3 by assumption. split; [now apply shaped3_tab3|]. intros. now apply (at3_tab3 nb ny nx (fun _ _ _ => v)).
Qed.
Lemma shape3_at {A} nb ny nx (a : list (list (list A))) b i j : shaped3 nb ny nx a -> 0 <= b < nb -> 0 <= i < ny -> 0 <= j < nx -> exists v, at3 a b i j v.
Proof.
  intros S Hb Hi Hj. destruct (has_default nb ny nx a) as [d E]; try lia; try assumption. rewrite E. eexists. apply at3_tab3; assumption.
Qed.

Section Build.
Variables (t : raster_ds) (td : dtype) (nb0 nb : Z) (ys xs : list Q).
Hypotheses (T : is_raster nb0 ys xs t) (N : north_up ys xs) (HB : 0 < nb).

Lemma copied nb1 (m : list (list (list bool))) : 0 < nb1 -> shaped3 nb1 (len ys) (len xs) m ->
  exists mask, copied_mask m nb = Ok mask /\ shaped3 nb (len ys) (len xs) mask
    /\ forall b i j, 0 <= b < nb -> 0 <= i < len ys -> 0 <= j < len xs ->
       exists v, at3 mask b i j v /\ at3 m (if nb =? nb1 then b else 0) i j v.
Proof.
  intros H1 S. unfold copied_mask. destruct S as [L F]. unfold arr3, arr2. rewrite L.
  destruct (nb =? nb1) eqn:E.
  - exists m. split; [reflexivity|]. assert (nb = nb1) as -> by lia. split; [now split|]. intros b i j Hb Hi Hj.
    destruct (shape3_at nb1 (len ys) (len xs) m b i j) as [v V]; [now split|assumption|assumption|assumption|]. now exists v.
  - destruct (get_range m 0) as [m0 G]; [lia|]. rewrite G. cbn [rbind].
    eexists. split; [reflexivity|].
    assert (S0 : len m0 = len ys /\ Forall (fun r => len r = len xs) m0).
    { rewrite Forall_forall in F. destruct (F m0 (get_in _ _ _ G)) as [A B]. now split. }
    split.
    + split; [apply full_len; lia|]. apply Forall_forall. intros r I. unfold full in I. apply repeat_spec in I. subst r. exact S0.
    + intros b i j Hb Hi Hj. destruct (shape3_at nb1 (len ys) (len xs) m 0 i j) as [v V]; [now split|lia|assumption|assumption|].
      exists v. split; [|exact V]. destruct V as (m1 & G1 & V). rewrite G in G1. injection G1 as <-.
      exists m0. split; [|exact V]. now apply get_full.
Qed.

Lemma build_like d data copy_mask copy_nv : shaped3 nb (len ys) (len xs) data ->
  exists r, build_result (Like td t) d data nb copy_mask copy_nv = Ok r
    /\ created copy_mask t (copy_nv = true) d nb0 nb ys xs (at3 data) r.
Proof.
  intros S. destruct t as [[tnv rd] rm]. destruct T as [T1 T2 T3 (B1 & Y1 & X1 & S1) (B2 & Y2 & X2 & S2)].
  assert (LIKE : forall mask nv burn, match mask with Some m => shaped3 nb (len ys) (len xs) m | None => True end ->
    data_to_xr_raster_ds_like d data rd mask nv burn
    = data_to_xr_raster_ds d data mask (Given xs ys) (match mask, nv with Some _, None => Some (default_null d) | _, _ => nv end) burn).
  { intros mask nv burn SM. unfold data_to_xr_raster_ds_like, yx_shape. rewrite (size3_shaped nb (len ys) (len xs)) by assumption.
    rewrite (size3_shaped nb0 (len ys) (len xs)) by assumption. rewrite !Z.eqb_refl. cbn [andb negb]. rewrite X1, Y1.
    destruct mask as [m|]; [|reflexivity]. rewrite (same_shape_ok nb (len ys) (len xs) m data) by assumption. cbn [negb rbind]. now destruct nv. }
  assert (PUT : forall A (a : list (list (list A))), shaped3 nb (len ys) (len xs) a ->
    data_to_xr_raster a (Given xs ys) = Ok (RasterArray (zrange 1 (nb + 1)) ys xs a)).
  { intros A a Sa. unfold data_to_xr_raster. rewrite (size3_shaped nb (len ys) (len xs)) by assumption. rewrite !Z.eqb_refl. cbn [andb rbind].
    now rewrite orient_north. }
  assert (PLAIN : build_result (Like td (tnv, rd, rm)) d data nb copy_mask copy_nv = data_to_xr_raster_ds_like d data rd None None false ->
    (copy_mask = false \/ tnv = None) ->
    exists r, build_result (Like td (tnv, rd, rm)) d data nb copy_mask copy_nv = Ok r
    /\ created copy_mask (tnv, rd, rm) (copy_nv = true) d nb0 nb ys xs (at3 data) r).
  { intros E U. rewrite E, LIKE by exact I. unfold data_to_xr_raster_ds. cbn [rbind].
    assert (SM : shaped3 nb (len ys) (len xs) (map3 (is_null None) data)) by now apply map3_shaped.
    rewrite PUT by assumption. cbn [rbind]. rewrite PUT by assumption. cbn [rbind]. eexists. split; [reflexivity|].
    split; [constructor; cbn; auto; lia|]. split.
    { unfold null_like. cbn [null_value]. destruct U as [->| ->]; [reflexivity|]. now destruct copy_mask. }
    intros b i j v Hb Hi Hj V. exists false, v. cbn [masked cell null_value r_data].
    split; [exact (at3_map3 (is_null None) _ _ _ _ _ V)|]. split; [exact V|]. split; [|split; [reflexivity|discriminate]].
    unfold mask_like. cbn [null_value]. destruct U as [->| ->]; [reflexivity|]. now destruct copy_mask. }
  destruct tnv as [nv|]; [|apply PLAIN; [reflexivity|now right]].
  assert (copy_mask = true \/ copy_mask = false) as [CM|CM] by (destruct copy_mask; auto); [|apply PLAIN; [now rewrite CM|now left]].
  rewrite CM. cbn [build_result].
  destruct (copied nb0 (r_data rm) T1 S2) as (mask & E & SM & V). rewrite E. cbn [rbind]. rewrite LIKE by exact SM.
  set (n := if copy_nv then nv else default_null d). unfold data_to_xr_raster_ds.
  rewrite (same_shape_ok nb (len ys) (len xs) data mask) by assumption. cbn [negb rbind].
  rewrite PUT by (apply where3_shaped; assumption). cbn [rbind]. rewrite PUT by assumption. cbn [rbind]. eexists. split; [reflexivity|].
  split; [constructor; cbn; auto; try lia; repeat split; try reflexivity; try apply where3_shaped; auto|].
  { apply (where3_shaped nb (len ys) (len xs) n data mask); assumption. }
  { apply (where3_shaped nb (len ys) (len xs) n data mask); assumption. }
  split.
  { unfold null_like. cbn [null_value]. subst n. split; intros H; [now rewrite H|]. destruct copy_nv; [now contradiction H|reflexivity]. }
  intros b i j v Hb Hi Hj Vv. destruct (V b i j Hb Hi Hj) as (m & M1 & M2). exists m, (if m then n else v). cbn [masked cell null_value r_data].
  split; [exact M1|]. split; [exact (where3_at nb (len ys) (len xs) n data mask b i j v m HB T2 T3 S SM Vv M1)|].
  split; [|split; intros ->; reflexivity]. unfold mask_like. cbn [null_value masked]. exact M2.
Qed.
End Build.

Lemma turned_moved {A} nb ys xs (a : arr3 A) i j :
  moved ys (r_y (orient nb ys xs a)) i (turn_y ys i) /\ moved xs (r_x (orient nb ys xs a)) j (turn_x xs j).
Proof.
  unfold orient, turn_y, turn_x, moved. destruct (is_strictly_decreasing xs), (is_strictly_increasing ys); cbn [r_y r_x]; auto.
Qed.
Lemma build_on d data nb ys xs copy_mask copy_nv : 0 < nb -> 0 < len ys -> 0 < len xs -> shaped3 nb (len ys) (len xs) data ->
  exists r, build_result (GeoBox xs ys) d data nb copy_mask copy_nv = Ok r /\ created_on nb ys xs (at3 data) r.
Proof.
  intros Hb Hy Hx S. cbn [build_result]. unfold data_to_xr_raster_ds. cbn [rbind].
  assert (SM : shaped3 nb (len ys) (len xs) (map3 (is_null None) data)) by now apply map3_shaped.
  unfold data_to_xr_raster. rewrite !(size3_shaped nb (len ys) (len xs)) by assumption. cbn [rbind].
  eexists. split; [reflexivity|]. split; [reflexivity|].
  destruct (orient_places nb ys xs data S) as (P1 & (P2 & P3 & P4) & P5 & P6 & P7).
  destruct (orient_places nb ys xs _ SM) as (Q1 & (Q2 & Q3 & Q4) & _).
  destruct (orient_coords nb ys xs data (map3 (is_null None) data)) as [C1 C2].
  exists (r_y (orient nb ys xs data)), (r_x (orient nb ys xs data)). split.
  { constructor; try lia; cbn; rewrite ?P3, ?P4; auto. }
  split; [exact P5|]. split; [exact P6|].
  intros b i j v Rb Ri Rj V. exists (turn_y ys i), (turn_x xs j).
  pose proof (orient_at nb ys xs data b i j v S V) as O1.
  pose proof (orient_at nb ys xs _ b i j _ SM (at3_map3 (is_null None) _ _ _ _ _ V)) as O2.
  destruct (turned_moved nb ys xs data i j) as [M1 M2]. cbn [masked cell]. auto.
Qed.

(* ---- the functions ---- *)
Lemma resolve_like d t nb ys xs : is_raster nb ys xs t -> resolve_template (Like d t) = (Some (d, t), (len ys, len xs)).
Proof.
  intros [T1 T2 T3 T4 T5]. destruct t as [[nv rd] rm]. destruct T4 as (_ & _ & _ & S). cbn [resolve_template].
  now rewrite (size3_shaped nb (len ys) (len xs)) by assumption.
Qed.
Lemma same_dtype d t d' : copy_null (Some (d, t)) d' = true <-> d' = None \/ d' = Some d.
Proof.
  cbn. destruct d' as [d'|]; [|intuition]. rewrite dtype_eqb_eq. intuition congruence.
Qed.
Lemma created_ext copy_mask t (P Q : Prop) d nb0 nb ys xs (v w : Z -> Z -> Z -> num -> Prop) r : (P <-> Q) ->
  (forall b i j x, 0 <= b < nb -> 0 <= i < len ys -> 0 <= j < len xs -> w b i j x -> v b i j x) ->
  created copy_mask t P d nb0 nb ys xs v r -> created copy_mask t Q d nb0 nb ys xs w r.
Proof.
  intros E VW (C1 & C2 & C3). split; [exact C1|]. split.
  - unfold null_like in *. destruct copy_mask; [|exact C2]. destruct (null_value t); [|exact C2]. destruct C2. tauto.
  - intros b i j x Hb Hi Hj X. apply C3; auto.
Qed.

Lemma full_like_raster cast t td nb0 ys xs value bands d' copy_mask vd v x : is_raster nb0 ys xs t -> north_up ys xs -> 0 < bands ->
  value = (vd, v) -> cast (match d' with None => vd | Some d => d end) v = Ok x ->
  exists r, full_like cast (Some (Like td t)) None (Some (Some value)) (Some bands) (option_map Some d') copy_mask
      = Ok (match d' with None => vd | Some d => d end, r)
    /\ created copy_mask t (d' = None \/ d' = Some td) (match d' with None => vd | Some d => d end) nb0 bands ys xs (fun _ _ _ w => w = x) r.
Proof.
  intros T N HB -> CV. unfold full_like. cbn [coalesce_template rbind]. rewrite (resolve_like td t nb0 ys xs T).
  cbn [check_copy_mask rbind get_bands]. replace (bands <? 1) with false by lia. cbn [rbind].
  assert (get_dtype (option_map Some d') = Ok d') as -> by (destruct d'; reflexivity). cbn [rbind]. rewrite CV. cbn [rbind].
  pose proof T as [T1 T2 T3 _ _].
  destruct (full_at x bands (len ys) (len xs)) as [S V]; try lia.
  destruct (build_like t td nb0 bands ys xs T N HB (match d' with None => vd | Some d => d end) _ copy_mask (copy_null (Some (td, t)) d') S) as (r & E & C).
  rewrite E. cbn [rbind]. exists r. split; [reflexivity|]. revert C. apply created_ext; [apply same_dtype|].
  intros b i j w Hb Hi Hj ->. now apply V.
Qed.
Lemma full_like_geobox cast xs ys bands d' vd v x : 0 < len ys -> 0 < len xs -> 0 < bands ->
  cast (match d' with None => vd | Some d => d end) v = Ok x ->
  exists r, full_like cast (Some (GeoBox xs ys)) None (Some (Some (vd, v))) (Some bands) (option_map Some d') false
      = Ok (match d' with None => vd | Some d => d end, r)
    /\ created_on bands ys xs (fun _ _ _ w => w = x) r.
Proof.
  intros HY HX HB CV. unfold full_like. cbn [coalesce_template rbind resolve_template].
  cbn [check_copy_mask rbind get_bands]. replace (bands <? 1) with false by lia. cbn [rbind].
  assert (get_dtype (option_map Some d') = Ok d') as -> by (destruct d'; reflexivity). cbn [rbind]. rewrite CV. cbn [rbind].
  destruct (full_at x bands (len ys) (len xs)) as [S V]; try lia.
  destruct (build_on (match d' with None => vd | Some d => d end) _ bands ys xs false (copy_null None d') HB HY HX S) as (r & E & C).
  rewrite E. cbn [rbind]. exists r. split; [reflexivity|]. destruct C as (C1 & ys' & xs' & C2 & C3 & C4 & C5).
  split; [exact C1|]. exists ys', xs'. repeat (split; [assumption|]). intros b i j w Hb Hi Hj ->. apply C5; auto.
Qed.

Lemma empty_like_raster junk t td nb0 ys xs bands d' copy_mask : is_raster nb0 ys xs t -> north_up ys xs -> 0 < bands ->
  (forall n m k, 0 < n -> 0 < m -> 0 < k -> shaped3 n m k (junk n m k)) ->
  exists r, empty_like junk (Some (Like td t)) None (Some bands) (option_map Some d') copy_mask
      = Ok (match d' with None => F64 | Some d => d end, r)
    /\ created copy_mask t (d' = None \/ d' = Some td) (match d' with None => F64 | Some d => d end) nb0 bands ys xs (at3 (junk bands (len ys) (len xs))) r.
Proof.
  intros T N HB J. unfold empty_like. cbn [coalesce_template rbind]. rewrite (resolve_like td t nb0 ys xs T).
  cbn [check_copy_mask rbind get_bands]. replace (bands <? 1) with false by lia. cbn [rbind].
  assert (get_dtype (option_map Some d') = Ok d') as -> by (destruct d'; reflexivity). cbn [rbind].
  destruct (build_like t td nb0 bands ys xs T N HB (match d' with None => F64 | Some d => d end) (junk bands (len ys) (len xs)) copy_mask (copy_null (Some (td, t)) d')) as (r & E & C).
  { destruct T. now apply J. }
  rewrite E. cbn [rbind]. exists r. split; [reflexivity|]. revert C. apply created_ext; [apply same_dtype|auto].
Qed.

Lemma random_like {P} (draw : distribution -> list P -> Z -> Z -> Z -> dtype * arr3 num) t td nb0 ys xs bands dist k params copy_mask : is_raster nb0 ys xs t -> north_up ys xs -> 0 < bands ->
  (forall k p n m l, 0 < n -> 0 < m -> 0 < l -> shaped3 n m l (snd (draw k p n m l))) ->
  distribution_of dist = Some k -> (match k with Normal | Binomial => 2 | Poisson | Weibull => 1 | Uniform => 0 end) <= len params ->
  exists r, random_raster draw (Some (Like td t)) None dist (Some bands) (Some params) copy_mask = Ok (fst (draw k params bands (len ys) (len xs)), r)
    /\ created copy_mask t False (fst (draw k params bands (len ys) (len xs))) nb0 bands ys xs (at3 (snd (draw k params bands (len ys) (len xs)))) r.
Proof.
  intros T N HB J D L. unfold random_raster. cbn [coalesce_template rbind]. rewrite (resolve_like td t nb0 ys xs T).
  cbn [check_copy_mask rbind get_bands]. replace (bands <? 1) with false by lia. cbn [rbind]. rewrite D.
  replace (len params <? match k with Normal | Binomial => 2 | Poisson | Weibull => 1 | Uniform => 0 end) with false by lia.
  pose proof T as [T1 T2 T3 _ _].
  pose proof (J k params bands (len ys) (len xs) HB T2 T3) as S.
  destruct (draw k params bands (len ys) (len xs)) as [d data]. cbn [fst snd] in *.
  destruct (build_like t td nb0 bands ys xs T N HB d data copy_mask false S) as (r & E & C).
  rewrite E. cbn [rbind]. exists r. split; [reflexivity|]. revert C. apply created_ext; [split; [discriminate|contradiction]|auto].
Qed.

Lemma refused cast t rt value bands d' copy_mask :
  (t = None /\ rt = None) \/ (t <> None /\ rt <> None) \/ value = None
  \/ (exists xs ys, (t = Some (GeoBox xs ys) \/ rt = Some (GeoBox xs ys)) /\ copy_mask = true)
  \/ bands = None \/ (exists n, bands = Some n /\ n < 1) \/ value = Some None \/ d' = Some None ->
  exists e, full_like cast t rt value bands d' copy_mask = Err e /\ (e = TypeError \/ e = ValueError).
Proof.
  intros H. unfold full_like. destruct (coalesce_template t rt) as [t'|e] eqn:E.
  2:{ exists e. split; [reflexivity|]. destruct t, rt; cbn in E; try discriminate; left; congruence. }
  cbn [rbind]. destruct value as [value|]; [|eauto]. destruct (resolve_template t') as [rst [ny nx]] eqn:R.
  destruct (check_copy_mask rst copy_mask) as [[]|e] eqn:C.
  2:{ exists e. split; [reflexivity|]. destruct rst; [discriminate|]. cbn in C. destruct copy_mask; [|discriminate]. right. congruence. }
  cbn [rbind]. destruct (get_bands bands) as [n|e] eqn:B.
  2:{ exists e. split; [reflexivity|]. destruct bands as [n|]; cbn in B; [destruct (n <? 1)|]; try discriminate; [right|left]; congruence. }
  cbn [rbind]. destruct value as [[vd v]|]; [|eauto]. destruct d' as [[d'|]|]; cbn [get_dtype rbind]; [| |]; [exfalso| |exfalso].
  2:{ eauto. }
  all: destruct H as [[-> ->]|[[H1 H2]|[H|[(xs & ys & G & CM)|[H|[(m & H & L)|[H|H]]]]]]]; try discriminate.
  all: try (destruct t, rt; [discriminate E|congruence|congruence|congruence]).
  all: try (subst copy_mask; destruct G as [G|G]; rewrite G in E; destruct t, rt; cbn in E; try discriminate; injection E as <-; try injection G as ->; try discriminate G; cbn in R; injection R as <- <- <-; discriminate C).
  all: try (subst bands; cbn in B; try (destruct (m <? 1) eqn:Q; [discriminate|lia]); discriminate).
Qed.

Lemma ordered2 (R : Q -> Q -> Prop) p q : R p q -> ordered R [p; q].
Proof. intros H. apply ordered_cons. split; [exact H|]. apply short_ordered. cbn. lia. Qed.
Lemma ex_template :
  let ys := [3#2; 1#2]%Q in let xs := [1#2; 3#2; 5#2]%Q in
  is_raster 1 ys xs (Some (of_Z 0), RasterArray [1] ys xs [[[of_Z 0; of_Z 4; of_Z 5]; [of_Z 6; of_Z 7; of_Z 0]]],
    RasterArray [1] ys xs [[[true; false; false]; [false; false; true]]])
  /\ north_up ys xs.
Proof.
  cbv zeta. split.
  - constructor; cbn; try lia; repeat split; repeat constructor.
  - split; [now apply ordered2|]. apply ordered_cons. split; [reflexivity|now apply ordered2].
Qed.
Lemma valid_null_refuted :
  ~ (forall cast t td nb0 ys xs bands d r b i j w n, is_raster nb0 ys xs t -> north_up ys xs -> 0 < bands ->
       zeros_like cast (Some (Like td t)) None (Some bands) None true = Ok (d, r) ->
       masked r b i j false -> cell r b i j w -> null_value r = Some n -> num_eqb w n = false).
Proof.
  intros H. destruct ex_template as [T N]. cbv zeta in T, N.
  pose proof (H (fun _ v => Ok v) _ F32 1 _ _ 1 _ _ 0 0 1 (of_Z 0) (of_Z 0) T N ltac:(lia) eq_refl) as E.
  assert (num_eqb (of_Z 0) (of_Z 0) = false); [|discriminate].
  apply E; [| |reflexivity]; cbn; eexists; (split; [reflexivity|]); eexists; split; reflexivity.
Qed.
