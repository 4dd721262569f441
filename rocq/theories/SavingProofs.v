From Coq Require Import QArith Qabs Lqa String.
From Verif Require Import Base BaseFacts Scalars NumFacts Chunks ChunksProofs Arr2 Arr2Facts Dtypes Raster FocalSpec FocalValues RasterSpec RasterProofs RasterValues Reconcile ReconcileSpec ReconcileProofs Saving SavingSpec.
From Coq Require Import ZifyBool.
Open Scope Z_scope.

(* ---- rounding ---- *)
Lemma inj_abs_half (n : Z) : (Qabs (inject_Z n) <= 1 # 2)%Q -> n = 0.
Proof. intros H. change (Qabs (inject_Z n)) with (Z.abs n # 1) in H. unfold Qle in H. cbn in H. lia. Qed.
Lemma rounded_exact d v w : is_float_dtype d = true -> value_of d v -> rounded_to d v w -> same_value w v = true.
Proof.
  intros F V R. destruct v as [q| | |]; [|cbn in R; subst; reflexivity..].
  destruct w as [r| | |]; cbn [rounded_to] in R; [|discriminate R..].
  cbn [value_of] in V. rewrite F in V. destruct V as (m & k & Hm & Hk & Eq), R as (e & He & HE & HD & m' & Er & _).
  assert (L : e <= k).
  { destruct HE as [-> |HE]; [lia|]. assert (K : (two (e + significand d - 1) < two (significand d + k))%Q).
    { eapply Qle_lt_trans; [exact HE|]. rewrite Eq. rewrite Qabs_Qmult, (Qabs_pos (two k)) by (apply Qlt_le_weak, two_pos).
      rewrite two_plus. apply Qmult_lt_compat_r; [apply two_pos|]. assert (0 <= significand d) by (destruct d; cbn; lia). rewrite two_Z by lia.
      change (Qabs (inject_Z m)) with (inject_Z (Z.abs m)). rewrite <- Zlt_Qlt. lia. }
    apply two_lt_inv in K. lia. }
  assert (D : (q - r == inject_Z (m * 2 ^ (k - e) - m') * two e)%Q).
  { rewrite Eq, Er. unfold Z.sub at 1. rewrite inject_Z_plus, inject_Z_opp, inject_Z_mult, <- (two_Z (k - e)) by lia.
    replace k with (k - e + e) at 1 by lia. rewrite two_plus. ring. }
  rewrite D, Qabs_Qmult, (Qabs_pos (two e)) in HD by (apply Qlt_le_weak, two_pos).
  apply Qmult_le_r in HD; [|apply two_pos]. apply inj_abs_half in HD. rewrite HD in D.
  cbn. apply Qeq_bool_iff. change (inject_Z 0) with 0%Q in D. lra.
Qed.
(* integers beyond 2^53 stay beyond *)
Lemma rounded_large q z w : (q == inject_Z z)%Q -> 2 ^ 53 < Z.abs z -> rounded_to F64 (Fin q) w -> exists r, w = Fin r /\ (inject_Z (2 ^ 53) <= Qabs r)%Q.
Proof.
  intros Eq H R. destruct w as [r| | |]; cbn [rounded_to] in R; [|discriminate R..]. exists r. split; [reflexivity|].
  destruct R as (e & He & HE & HD & m & Er & _). rewrite Eq in HE, HD. change (significand F64) with 53 in *. change (lowest F64) with (-1074) in *.
  assert (A : (Qabs (inject_Z z) - (1 # 2) * two e <= Qabs r)%Q).
  { pose proof (Qabs_triangle r (inject_Z z - r)) as T. setoid_replace (r + (inject_Z z - r))%Q with (inject_Z z) in T by ring. lra. }
  change (Qabs (inject_Z z)) with (inject_Z (Z.abs z)) in *.
  destruct (Z.le_gt_cases e 0) as [L|L].
  - pose proof (two_le e 0 L) as T. change (two 0) with 1%Q in T. assert (Z1 : (inject_Z (2 ^ 53 + 1) <= inject_Z (Z.abs z))%Q) by (rewrite <- Zle_Qle; lia).
    rewrite inject_Z_plus in Z1. change (inject_Z 1) with 1%Q in Z1. lra.
  - destruct HE as [HE|HE]; [lia|]. replace (e + 53 - 1) with (52 + e) in HE by lia. rewrite two_plus in HE. rewrite (two_Z 52) in HE by lia.
    assert (Ar : (Qabs r == inject_Z (Z.abs m) * two e)%Q) by (rewrite Er, Qabs_Qmult, (Qabs_pos (two e)) by (apply Qlt_le_weak, two_pos); reflexivity).
    pose proof (two_pos e) as P. rewrite Ar in A |- *.
    assert (M : 2 ^ 52 <= Z.abs m).
    { apply Z.le_ngt. intros K. assert (K' : (inject_Z (Z.abs m) <= inject_Z (2 ^ 52) - 1)%Q).
      { setoid_replace (inject_Z (2 ^ 52) - 1)%Q with (inject_Z (2 ^ 52 - 1)) by reflexivity. rewrite <- Zle_Qle. lia. }
      nra. }
    assert (T : (two 1 <= two e)%Q) by (apply two_le; lia). change (two 1) with (inject_Z 2) in T.
    assert (M' : (inject_Z (2 ^ 52) <= inject_Z (Z.abs m))%Q) by (rewrite <- Zle_Qle; exact M).
    change (2 ^ 53) with (2 ^ 52 * 2). rewrite inject_Z_mult. assert (0 <= inject_Z 2)%Q by discriminate. assert (0 <= inject_Z (2 ^ 52))%Q by discriminate.
    apply Qle_trans with (inject_Z (2 ^ 52) * two e)%Q; [rewrite !(Qmult_comm (inject_Z (2 ^ 52))); apply Qmult_le_compat_r; assumption|apply Qmult_le_compat_r; [assumption|lra]].
Qed.

(* ---- opening ---- *)
Definition hit (nv : option num) (x : num) : bool := match nv with Some v => same_value x v | None => false end.
Lemma open_eq cast nb nc d nd v : open_raster cast (File d nd (tab2 nb nc v))
  = Ok (mk nb nc d (normalize_null_value cast (file_null_value (File d nd (tab2 nb nc v))) d) v
         (fun b c => hit (normalize_null_value cast (file_null_value (File d nd (tab2 nb nc v))) d) (v b c))).
Proof. unfold open_raster. cbn [f_dtype f_data]. now rewrite data_to_raster_nomask. Qed.

(* ---- saving ---- *)
Lemma moderate_spec v : num_leb (of_Z (- 2 ^ 53)) v && num_leb v (of_Z (2 ^ 53)) = true <-> moderate v.
Proof. unfold moderate. apply andb_true_iff. Qed.
Lemma preservable_spec r : null_preservable (r_nv r) = true <-> ~ large_null r.
Proof.
  unfold null_preservable, large_null. destruct (r_nv r) as [v|].
  - rewrite moderate_spec. split.
    + intros M (w & E & N). injection E as <-. contradiction.
    + intros N. destruct (num_leb (of_Z (- 2 ^ 53)) v && num_leb v (of_Z (2 ^ 53))) eqn:E; [now apply moderate_spec|]. exfalso. apply N. exists v. split; [reflexivity|]. rewrite <- moderate_spec, E. discriminate.
  - split; [|reflexivity]. intros _ (w & E & _). discriminate.
Qed.
Lemma native_spec gdal_has ext driver : supports_native_int64 gdal_has (resolve_driver ext driver) = true <-> native_int64 gdal_has ext driver.
Proof.
  unfold supports_native_int64, native_int64, resolve_driver. destruct driver as [d|]; cbn [existsb].
  - rewrite andb_true_iff, !orb_true_iff, !String.eqb_eq. split.
    + intros [[-> |[-> |K]] H]; [tauto|tauto|discriminate].
    + intros [[E|[E|[E _]]] H]; try discriminate E; injection E as ->; tauto.
  - destruct (String.eqb_spec ext ".tif"), (String.eqb_spec ext ".tiff"); subst; cbn; try (split; [tauto|intros [_ K]; exact K]).
    split; [discriminate|]. intros [[K|[K|[_ [K|K]]]] _]; congruence.
Qed.
Lemma int_moderate d v : int_min d >= - 2 ^ 53 -> int_max d <= 2 ^ 53 -> is_float_dtype d = false -> value_of d v -> moderate v.
Proof.
  intros L U F V. destruct v as [q| | |]; cbn [value_of] in V; rewrite F in V; [|discriminate V..]. destruct V as (z & Hz & E).
  split; unfold num_leb; [rewrite (num_ltb_eqb_r _ (Fin q) (of_Z z)), orb_true_iff|rewrite (num_ltb_eqb_l (Fin q) (of_Z z)), orb_true_iff]; try (cbn; now apply Qeq_bool_iff).
  - destruct (Z.eq_dec z (- 2 ^ 53)) as [-> |N]; [right; cbn; now apply Qeq_bool_iff|left]. cbn [num_ltb of_Z]. apply Qlt_bool_iff. rewrite <- Zlt_Qlt. lia.
  - destruct (Z.eq_dec z (2 ^ 53)) as [-> |N]; [right; cbn; now apply Qeq_bool_iff|left]. cbn [num_ltb of_Z]. apply Qlt_bool_iff. rewrite <- Zlt_Qlt. lia.
Qed.

Lemma bool_u8 v : value_of BOOL v -> value_of U8 v /\ same_value v (of_Z 255) = false.
Proof.
  destruct v as [q| | |]; cbn [value_of is_float_dtype]; try discriminate. intros (z & Hz & E). change (int_min BOOL) with 0 in Hz. change (int_max BOOL) with 1 in Hz. split.
  - exists z. change (int_min U8) with 0. change (int_max U8) with 255. split; [lia|exact E].
  - cbn. destruct (Qeq_bool q (inject_Z 255)) eqn:Q; [|reflexivity]. apply Qeq_bool_iff in Q. rewrite E in Q. rewrite inject_Z_injective in Q. lia.
Qed.

Section Save.
Variable cast : dtype -> num -> num.
Variable float_dtype : num -> dtype.
Variable reconcile_other : num -> dtype -> num * bool.
Variable gdal_has : dtype -> bool.
Variable gdal_nodata : dtype -> num -> num.
Hypothesis C : casts cast.
Hypothesis G : gdal_ok cast gdal_nodata.
Notation write := (write_raster cast gdal_has gdal_nodata).
Notation save := (save cast float_dtype reconcile_other gdal_has gdal_nodata).
Notation save_raster := (save_raster cast float_dtype reconcile_other gdal_has gdal_nodata).

Lemma write_eq ext driver nb nc d0 nv v m d : existsb (String.eqb ext) write_not_implemented = false ->
  (forall b c, in_raster nb nc b c -> value_of d0 (v b c)) ->
  file_dtype (native_int64 gdal_has ext driver) (mk nb nc d0 nv v m) d -> gdal_has d = true ->
  write ext driver (mk nb nc d0 nv v m) = Ok (File d (option_map (gdal_nodata d) nv) (tab2 nb nc (fun b c => cast d (v b c)))).
Proof.
  intros HE HV HD HG. unfold write_raster. rewrite HE. cbn [r_dtype r_data r_nv mk].
  assert (ID : d = d0 -> tab2 nb nc v = tab2 nb nc (fun b c => cast d (v b c))).
  { intros ->. apply tab2_ext. intros i j Hi Hj. symmetry. apply (proj1 C). apply HV. split; assumption. }
  unfold file_dtype in HD. cbn [r_dtype mk] in HD.
  destruct d0; cbn beta iota; try (subst d; rewrite HG; now rewrite (ID eq_refl)).
  - subst d. rewrite HG. now rewrite map2_tab'.
  - pose proof (native_spec gdal_has ext driver) as N. pose proof (preservable_spec (mk nb nc I64 nv v m)) as P. cbn [r_nv mk] in P.
    destruct HD as [[[H1 H2] ->]|[H ->]].
    + apply N in H1. apply P in H2. rewrite H1, H2. cbn [negb orb]. rewrite HG. now rewrite (ID eq_refl).
    + assert (K : negb (supports_native_int64 gdal_has (resolve_driver ext driver)) || negb (null_preservable nv) = true).
      { destruct (supports_native_int64 _ _), (null_preservable nv); try reflexivity. exfalso. destruct H as [H|H]; [apply H, N; reflexivity|]. revert H. apply P. reflexivity. }
      rewrite K, HG. now rewrite map2_tab'.
Qed.
Lemma null_eq ext driver nb nc d0 nv v m d nd data : d0 <> BOOL -> (forall x, nv = Some x -> value_of d0 x) ->
  (d0 = U64 -> ~ large_null (mk nb nc d0 nv v m)) ->
  file_dtype (native_int64 gdal_has ext driver) (mk nb nc d0 nv v m) d -> nd = option_map (gdal_nodata d) nv ->
  normalize_null_value cast (file_null_value (File d nd data)) d = file_null cast (mk nb nc d0 nv v m) d.
Proof.
  intros NB HV HU HD ->. unfold file_null, file_null_value. cbn [r_nv r_dtype mk f_nodata f_dtype].
  destruct nv as [x|]; cbn [option_map]; [|destruct (is_float_dtype d); [|reflexivity]; cbn; now rewrite andb_false_r].
  specialize (HV x eq_refl).
  assert (K : gdal_nodata d x = cast d x /\ value_of d (cast d x) \/ d0 = I64 /\ d = F64 /\ gdal_nodata d x = cast d x).
  { destruct C as [C1 C2], G as [G1 G2].
    assert (S : d = d0 -> is_float_dtype d0 = true \/ moderate x -> gdal_nodata d x = cast d x /\ value_of d (cast d x)).
    { intros -> H. rewrite G1, C1 by assumption. auto. }
    unfold file_dtype in HD. cbn [r_dtype mk] in HD.
    destruct d0; try congruence; try (left; apply S; [exact HD|]; (left; reflexivity) || (right; refine (int_moderate _ _ _ _ _ HV); cbn; lia)).
    - left. apply S; [exact HD|]. right. pose proof (preservable_spec (mk nb nc U64 (Some x) v m)) as P. cbn [r_nv mk] in P. apply moderate_spec, P, HU. reflexivity.
    - destruct HD as [[[H1 H2] ->]|[H ->]].
      + left. apply S; [reflexivity|]. right. pose proof (preservable_spec (mk nb nc I64 (Some x) v m)) as P. cbn [r_nv mk] in P. apply moderate_spec, P, H2.
      + right. repeat split. now apply G2. }
  assert (E : gdal_nodata d x = cast d x) by tauto. unfold normalize_null_value. rewrite E. destruct (dtype_eqb d F32) eqn:ED.
  - apply dtype_eqb_eq in ED. subst d. destruct K as [[_ V]|[_ [K _]]]; [|discriminate]. cbn [andb]. destruct d0; try congruence; (destruct (isclose_esri _); [|reflexivity]); now rewrite (proj1 C).
  - destruct d0; try congruence; reflexivity.
Qed.

Lemma no_ext_spec ext : no_ext ext -> existsb (String.eqb ext) write_not_implemented = false.
Proof.
  intros H. destruct (existsb _ _) eqn:E; [|reflexivity]. exfalso. apply H. apply existsb_exists in E. destruct E as (x & I & E). apply String.eqb_eq in E. now subst.
Qed.
Lemma bool_null nb nc old v m : (forall b c, in_raster nb nc b c -> value_of BOOL (v b c)) ->
  (let* u := astype cast reconcile_other (mk nb nc BOOL (Some old) v m) U8 None in set_null_value cast float_dtype u (Some (SInt 255)))
  = Ok (mk nb nc U8 (Some (of_Z 255)) (fun b c => if m b c then of_Z 255 else cast U8 (v b c)) m).
Proof.
  intros HV. unfold astype. cbn [r_dtype r_nv r_data r_mask mk dtype_eqb andb]. destruct (Raster.reconcile reconcile_other old U8) as [n w]. cbn [rbind].
  assert (E255 : cast U8 (of_Z 255) = of_Z 255) by (apply (proj1 C); exists 255; split; [cbn; lia|reflexivity]).
  unfold set_null_value. cbn [r_dtype r_data r_mask null_value_dtype is_float_dtype is_int_dtype andb]. replace ((int_min U8 <=? 255) && (255 <=? int_max U8)) with true by reflexivity.
  cbn [rbind scalar_num]. rewrite E255, map2_tab', fill_tab, mask_tab. unfold masked. cbn [r_nv]. rewrite zip2_tab.
  match goal with |- Ok (burn_mask (Raster _ _ (tab2 _ _ ?a) (tab2 _ _ ?b))) = _ => change (Raster U8 (Some (of_Z 255)) (tab2 nb nc a) (tab2 nb nc b)) with (mk nb nc U8 (Some (of_Z 255)) a b) end.
  rewrite burn_mk. f_equal.
  assert (M : forall b c, in_raster nb nc b c -> m b c || same_value (if m b c then n else cast U8 (v b c)) (of_Z 255) = m b c).
  { intros b c HI. destruct (m b c); [reflexivity|]. cbn [orb]. destruct (bool_u8 _ (HV b c HI)) as [VU N]. now rewrite (proj1 C). }
  apply mk_ext; intros b c HI; rewrite (M b c HI); [|reflexivity]. destruct (m b c); reflexivity.
Qed.

Theorem saved ext driver nb nc r d : no_ext ext -> wf nb nc r -> burned nb nc r -> typed_raster nb nc r ->
  (r_dtype r = U64 -> ~ large_null r) -> file_dtype (native_int64 gdal_has ext driver) r d -> gdal_has d = true ->
  exists r', save_raster ext driver None None r = Ok r' /\ wf nb nc r' /\ r_dtype r' = d /\ r_nv r' = file_null cast r d
  /\ forall b c, in_raster nb nc b c ->
     null r' b c = (null r b c || hits r' (cast d (value r b c)))
     /\ (null r b c = false -> value r' b c = cast d (value r b c))
     /\ (null r' b c = true -> hits r' (value r' b c) = true).
Proof.
  intros HE W B [T1 T2] HU HD HG. destruct (wf_ex _ _ _ W) as (d0 & nv & v & m & -> & Hb & Hc & HN). cbn [r_dtype r_nv mk] in T1, T2, HU.
  assert (HV : forall b c, in_raster nb nc b c -> value_of d0 (v b c)) by (intros b c HI; specialize (T1 b c HI); rewrite value_mk in T1 by exact HI; exact T1).
  assert (HB : forall b c, in_raster nb nc b c -> m b c = true -> nv = Some (v b c)).
  { intros b c HI. destruct B as [B _]. specialize (B b c HI). rewrite null_mk, value_mk in B by exact HI. exact B. }
  pose proof (no_ext_spec ext HE) as HE'. unfold Saving.save_raster, Saving.save. cbn [rbind]. cbn [r_dtype mk].
  set (rs := match d0 with BOOL => _ | _ => _ end).
  assert (CASE : (rs = Ok (mk nb nc d0 nv v m) /\ (d0 = BOOL -> nv = None)) \/ d0 = BOOL /\ rs = Ok (mk nb nc U8 (Some (of_Z 255)) (fun b c => if m b c then of_Z 255 else cast U8 (v b c)) m) /\ nv <> None).
  { unfold rs. destruct d0; try (left; split; [reflexivity|discriminate]). unfold masked. cbn [r_nv mk]. destruct nv as [old|]; [right|left; auto].
    split; [reflexivity|]. split; [now apply bool_null|discriminate]. }
  destruct CASE as [[-> HBN]|(-> & -> & HS)]; cbn [rbind].
  - rewrite (write_eq ext driver nb nc d0 nv v m d HE' HV HD HG). cbn [rbind]. rewrite open_eq.
    assert (EN : normalize_null_value cast (file_null_value (File d (option_map (gdal_nodata d) nv) (tab2 nb nc (fun b c => cast d (v b c))))) d = file_null cast (mk nb nc d0 nv v m) d).
    { destruct (dtype_eqb d0 BOOL) eqn:E0.
      - apply dtype_eqb_eq in E0. subst d0. specialize (HBN eq_refl). subst nv. cbn in HD. subst d. reflexivity.
      - eapply null_eq; try reflexivity; eauto. intros ->. discriminate. }
    rewrite EN. set (nv' := file_null _ _ _). eexists. split; [reflexivity|].
    split; [apply mk_wf; [lia|lia|]; intros E b c _; now rewrite E|]. split; [reflexivity|]. split; [reflexivity|].
    intros b c HI. cells HI. unfold hits. cbn [r_nv mk]. split; [|split; [reflexivity|intros H; exact H]].
    destruct (m b c) eqn:EM; [|reflexivity]. pose proof (HB b c HI EM) as E. unfold nv', file_null. cbn [r_nv r_dtype mk]. rewrite E.
    destruct d0; try (cbn [hit orb]; apply same_value_refl). rewrite (HBN eq_refl) in E. discriminate.
  - cbn in HD. subst d.
    rewrite (write_eq ext driver nb nc U8 _ _ m U8 HE'); [|intros b c HI; destruct (m b c)|reflexivity|exact HG].
    2: { exists 255. split; [cbn; lia|reflexivity]. }
    2: { destruct (bool_u8 _ (HV b c HI)) as [VU N]. now rewrite (proj1 C). }
    cbn [rbind]. rewrite open_eq. assert (E255 : value_of U8 (of_Z 255)) by (exists 255; split; [cbn; lia|reflexivity]).
    assert (EN : forall data, normalize_null_value cast (file_null_value (File U8 (option_map (gdal_nodata U8) (Some (of_Z 255))) data)) U8 = Some (of_Z 255)).
    { intros data. cbn. rewrite (proj1 G); [reflexivity|exact E255|]. right. now apply (int_moderate U8). }
    rewrite EN. eexists. split; [reflexivity|]. split; [apply mk_wf; [lia|lia|discriminate]|]. split; [reflexivity|].
    split; [unfold file_null; cbn [r_nv r_dtype mk]; destruct nv; [reflexivity|congruence]|].
    intros b c HI. cells HI. unfold hits. cbn [r_nv mk]. cbn [hit]. split; [|split; [intros E; rewrite E|intros H; exact H]].
    + destruct (m b c); [rewrite (proj1 C) by exact E255; reflexivity|]. destruct (bool_u8 _ (HV b c HI)) as [VU N]. now rewrite !(proj1 C _ _ VU).
    + destruct (bool_u8 _ (HV b c HI)) as [VU N]. now rewrite !(proj1 C _ _ VU).
Qed.

Lemma exact_value v : value_of I64 v -> exact_double v -> value_of F64 v.
Proof.
  intros V [L U]. destruct v as [q| | |]; cbn [value_of is_float_dtype] in V |- *; try discriminate V. destruct V as (z & Hz & E).
  cbn [num_ltb of_Z] in L, U. apply Qlt_bool_iff in L, U. rewrite E in L, U. rewrite <- Zlt_Qlt in L, U.
  exists z, 0. change (significand F64) with 53. split; [lia|]. split; [cbn; lia|]. rewrite E. change (two 0) with 1%Q. ring.
Qed.
(* the null value stays different from exact doubles *)
Lemma null_differs n v : value_of I64 n -> value_of I64 v -> exact_double v -> same_value v n = false -> same_value v (cast F64 n) = false.
Proof.
  intros N V X D. destruct n as [p| | |]; cbn [value_of is_float_dtype] in N; try discriminate N. destruct N as (k & Hk & Ek).
  destruct (Z.le_gt_cases (Z.abs k) (2 ^ 53)) as [L|L].
  - assert (F : value_of F64 (Fin p)).
    { cbn [value_of is_float_dtype]. change (significand F64) with 53. destruct (Z.eq_dec (Z.abs k) (2 ^ 53)) as [E|E].
      - exists (k / 2), 1. assert (k = 2 ^ 53 \/ k = - 2 ^ 53) as [-> | ->] by lia; (split; [cbn; lia|]; split; [cbn; lia|]; rewrite Ek; reflexivity).
      - exists k, 0. split; [lia|]. split; [cbn; lia|]. rewrite Ek. change (two 0) with 1%Q. ring. }
    now rewrite (proj1 C).
  - assert (R : rounded_to F64 (Fin p) (cast F64 (Fin p))) by (apply (proj2 C); exists k; split; assumption).
    destruct (rounded_large p k _ Ek L R) as (r & -> & B). destruct v as [q| | |]; try reflexivity. destruct X as [XL XU].
    cbn [num_ltb of_Z] in XL, XU. apply Qlt_bool_iff in XL, XU. cbn. destruct (Qeq_bool q r) eqn:E; [|reflexivity]. apply Qeq_bool_iff in E. rewrite E in XL, XU.
    assert ((Qabs r < inject_Z (2 ^ 53))%Q); [|lra]. apply Qabs_Qlt_condition. split; [exact XL|exact XU].
Qed.
Theorem round_trip ext driver nb nc r d : no_ext ext -> wf nb nc r -> burned nb nc r -> typed_raster nb nc r ->
  (r_dtype r = U64 -> ~ large_null r) -> file_dtype (native_int64 gdal_has ext driver) r d -> gdal_has d = true ->
  (forall b c, in_raster nb nc b c -> null r b c = false -> hits r (value r b c) = false) ->
  (r_dtype r = I64 -> d = F64 -> forall b c, in_raster nb nc b c -> null r b c = false -> exact_double (value r b c)) ->
  (r_nv r = None -> is_float_dtype (r_dtype r) = true -> forall b c, in_raster nb nc b c -> value r b c <> NaN) ->
  exists r', save_raster ext driver None None r = Ok r' /\ wf nb nc r' /\ r_dtype r' = d
  /\ forall b c, in_raster nb nc b c -> null r' b c = null r b c /\ (null r b c = false -> value r' b c = value r b c).
Proof.
  intros HE W B T HU HD HG HN HX HF. destruct (saved ext driver nb nc r d HE W B T HU HD HG) as (r' & ER & W' & ED & EN & HC).
  exists r'. split; [exact ER|]. split; [exact W'|]. split; [exact ED|]. intros b c HI. destruct (HC b c HI) as (H1 & H2 & _). destruct T as [T1 T2]. specialize (T1 b c HI).
  destruct (null r b c) eqn:NU; [split; [exact H1|discriminate]|]. cbn [orb] in H1. specialize (HN b c HI NU).
  assert (V : value_of d (value r b c)).
  { unfold file_dtype in HD. destruct (r_dtype r) eqn:E0; try (subst d; exact T1).
    - subst d. apply (proj1 (bool_u8 _ T1)).
    - destruct HD as [[_ ->]|[_ ->]]; [exact T1|]. apply exact_value; [exact T1|]. now apply HX. }
  rewrite (proj1 C _ _ V) in *. split; [|exact H2]. rewrite H1. unfold hits in *. rewrite EN. unfold file_null. destruct (r_nv r) as [n|] eqn:E.
  - specialize (T2 n eq_refl). unfold file_dtype in HD. destruct (r_dtype r) eqn:E0; try (subst d; rewrite (proj1 C _ _ T2); exact HN).
    + apply (proj2 (bool_u8 _ T1)).
    + destruct HD as [[_ ->]|[_ ->]]; [rewrite (proj1 C _ _ T2); exact HN|]. apply null_differs; auto.
  - destruct (is_float_dtype d) eqn:F; [|reflexivity].
    assert (NN : value r b c <> NaN).
    { destruct (is_float_dtype (r_dtype r)) eqn:F0; [now apply HF|]. intros K. rewrite K in T1. cbn in T1. congruence. }
    destruct (value r b c); try reflexivity. congruence.
Qed.

Theorem saved_null_value ext driver v r rs : set_null_value cast float_dtype r (Some v) = Ok rs ->
  save_raster ext driver (Some v) None r = save_raster ext driver None None rs /\ save_raster ext driver None (Some v) r = save_raster ext driver None None rs.
Proof. intros H. unfold Saving.save_raster, Saving.save. rewrite H. auto. Qed.
Theorem save_refused ext driver r v w : save_raster ext driver (Some v) (Some w) r = Err TypeError
  /\ (~ no_ext ext -> (r_dtype r = BOOL -> r_nv r = None) -> save_raster ext driver None None r = Err ValueError)
  /\ (no_ext ext -> r_dtype r <> BOOL -> forall d, file_dtype (native_int64 gdal_has ext driver) r d -> gdal_has d = false -> save_raster ext driver None None r = Err TypeError).
Proof.
  split; [reflexivity|]. split.
  - intros I B. unfold Saving.save_raster, Saving.save. cbn [rbind].
    assert (K : write_raster cast gdal_has gdal_nodata ext driver r = Err ValueError).
    { unfold write_raster. replace (existsb (String.eqb ext) write_not_implemented) with true; [reflexivity|]. symmetry. destruct (existsb _ _) eqn:X; [reflexivity|]. exfalso. apply I. intros J. assert (existsb (String.eqb ext) write_not_implemented = true) by (apply existsb_exists; exists ext; split; [exact J|apply String.eqb_refl]). congruence. }
    destruct (r_dtype r) eqn:E; cbn [rbind]; try (rewrite K; reflexivity). unfold masked. rewrite (B eq_refl). cbn [rbind]. now rewrite K.
  - intros HE NB d HD HG. unfold Saving.save_raster, Saving.save. cbn [rbind].
    assert (K : write_raster cast gdal_has gdal_nodata ext driver r = Err TypeError).
    { unfold write_raster. rewrite (no_ext_spec ext HE). unfold file_dtype in HD. destruct (r_dtype r) eqn:E; try congruence; try (subst d; now rewrite HG).
      pose proof (native_spec gdal_has ext driver) as N. pose proof (preservable_spec r) as P.
      destruct HD as [[[H1 H2] ->]|[H ->]].
      - apply N in H1. apply P in H2. rewrite H1, H2. cbn [negb orb]. now rewrite HG.
      - assert (K : negb (supports_native_int64 gdal_has (resolve_driver ext driver)) || negb (null_preservable (r_nv r)) = true).
        { destruct (supports_native_int64 _ _), (null_preservable (r_nv r)); try reflexivity. exfalso. destruct H as [H|H]; [apply H, N; reflexivity|]. revert H. apply P. reflexivity. }
        rewrite K. now rewrite HG. }
    destruct (r_dtype r) eqn:E; try congruence; cbn [rbind]; now rewrite K.
Qed.
End Save.

(* ---- opening any file ---- *)
Theorem opened cast nb nc f : 0 < nb -> 0 <= nc -> shaped2 nb nc (f_data f) ->
  exists r, open_raster cast f = Ok r /\ wf nb nc r /\ r_dtype r = f_dtype f
  /\ (forall b c, in_raster nb nc b c -> value r b c = val2 NaN (f_data f) b c /\ null r b c = hits r (val2 NaN (f_data f) b c))
  /\ match f_nodata f with
     | Some v => r_nv r = Some v \/ f_dtype f = F32 /\ near_lowest v /\ r_nv r = Some (cast F32 v)
     | None => r_nv r = (if is_float_dtype (f_dtype f) then Some NaN else None)
     end.
Proof.
  intros Hb Hc S. destruct f as [d nd data]. cbn [f_data f_dtype f_nodata] in *. rewrite (shaped_tab NaN nb nc data S ltac:(lia)). rewrite open_eq.
  eexists. split; [reflexivity|]. set (nv := normalize_null_value _ _ _). assert (EN : nv = normalize_null_value cast (match nd with Some v => Some v | None => if is_float_dtype d then Some NaN else None end) d) by reflexivity. clearbody nv.
  split; [apply mk_wf; [lia|lia|]; intros -> b c _; reflexivity|]. split; [reflexivity|]. split.
  - intros b c HI. cells HI. unfold hits. cbn [r_nv mk]. destruct HI. rewrite val2_tab by assumption. auto.
  - cbn [r_nv mk]. destruct nd as [v|].
    + cbn [normalize_null_value] in EN. destruct (dtype_eqb d F32) eqn:E; [|left; exact EN]. apply dtype_eqb_eq in E. cbn [andb] in EN. destruct (isclose_esri v) eqn:K; [right|left]; auto. split; [exact E|]. split; [|exact EN].
      destruct v as [q| | |]; try discriminate K. exists q. split; [reflexivity|]. cbn [isclose_esri] in K. unfold allclose in K. apply Qle_bool_iff in K. exact K.
    + rewrite EN. destruct (is_float_dtype d); [|reflexivity]. cbn. now rewrite andb_false_r.
Qed.

(* ---- tiles ---- *)
Lemma promote_same d l : Forall (fun x => x = d) l -> fold_left promote_types l d = d.
Proof. induction 1 as [|x l -> _ IH]; [reflexivity|]. cbn [fold_left]. replace (promote_types d d) with d by (destruct d; reflexivity). exact IH. Qed.
Lemma bands_concat {A B} (data : list (list A)) (mask : list (list B)) : len data = len mask ->
  concat (map (fun p => [fst p]) (combine data mask)) = data /\ concat (map (fun p => [snd p]) (combine data mask)) = mask.
Proof.
  revert mask. induction data as [|x data IH]; intros [|y mask] H; try (cbn in H; lia); [auto|]. rewrite !len_cons in H.
  destruct (IH mask ltac:(lia)) as [E1 E2]. cbn [combine map concat fst snd app]. now rewrite E1, E2.
Qed.
Lemma traverse_map {A B C} (f : A -> res C) (g : B -> A) (h : B -> C) l : (forall x, f (g x) = Ok (h x)) -> traverse f (map g l) = Ok (map h l).
Proof. intros H. induction l as [|x l IH]; [reflexivity|]. cbn [map traverse]. now rewrite H, IH. Qed.
Lemma shapes_ok {A B} nb nc (a : arr2 A) (b : arr2 B) : shaped2 nb nc a -> shaped2 nb nc b -> same_shape a b = true.
Proof.
  intros [L1 F1] [L2 F2]. unfold same_shape. replace (shape2 b) with (shape2 a); [apply list_eqb_refl|].
  assert (len a = len b) by congruence. clear L1 L2. revert b F2 H. induction F1 as [|x a E F IH]; intros [|y b] F2 H; try (cbn in H; lia); [reflexivity|].
  rewrite !len_cons in H. inversion F2; subst. cbn [shape2 map]. f_equal; [congruence|]. apply IH; [assumption|lia].
Qed.
Lemma nv_first d nv l : flat_map (fun r => match r_nv r with Some v => [v] | None => [] end) (map (fun p : list num * list bool => Raster d nv [fst p] [snd p]) l)
  = match nv with Some v => map (fun _ => v) l | None => [] end.
Proof. induction l as [|p l IH]; [now destruct nv|]. cbn [map flat_map r_nv]. rewrite IH. now destruct nv. Qed.
Section Tiles.
Variable cast : dtype -> num -> num.
Variable float_dtype : num -> dtype.
Variable reconcile_other : num -> dtype -> num * bool.
Variable gdal_has : dtype -> bool.
Variable gdal_nodata : dtype -> num -> num.
Lemma stack_bands_of nb nc r : wf nb nc r -> 1 < nb ->
  stack_bands cast reconcile_other (bands_of r) None None
  = Ok match r_nv r with
       | Some _ => r
       | None => Raster (r_dtype r) (Some (default_null (r_dtype r))) (map2 (cast (r_dtype r)) (r_data r)) (r_mask r)
       end.
Proof.
  intros (Hb & Hc & SD & SM & _) H2. destruct r as [d nv data mask]. unfold bands_of. cbn [r_dtype r_nv r_data r_mask] in *.
  assert (EL : len data = len mask) by (destruct SD, SM; congruence). destruct (bands_concat data mask EL) as [E1 E2].
  assert (NB : len data = nb) by (destruct SD; assumption).
  destruct data as [|r0 [|r1 data]]; try (cbn in NB; lia). destruct mask as [|m0 [|m1 mask]]; try (exfalso; rewrite !len_cons in EL; change (len (@nil (list bool))) with 0 in EL; pose proof (len_nonneg data); lia).
  set (l := combine (r0 :: r1 :: data) (m0 :: m1 :: mask)) in *. assert (El : l = (r0, m0) :: (r1, m1) :: combine data mask) by reflexivity.
  set (f := fun p : list num * list bool => Raster d nv [fst p] [snd p]).
  assert (ED : forall o, map f l = f (r0, m0) :: o -> fold_left promote_types (map r_dtype o) (r_dtype (f (r0, m0))) = d).
  { intros o Eo. apply promote_same. rewrite El in Eo. cbn [map] in Eo. injection Eo as <-. apply Forall_forall. intros x Hx. rewrite map_map in Hx || cbn [map] in Hx.
    destruct Hx as [<-|Hx]; [reflexivity|]. rewrite map_map in Hx. apply in_map_iff in Hx. now destruct Hx as (p & <- & _). }
  unfold stack_bands. destruct (map f l) as [|x o] eqn:EM; [rewrite El in EM; discriminate|]. assert (Ex : x = f (r0, m0)) by (rewrite El in EM; cbn [map] in EM; congruence). subst x.
  rewrite (ED o eq_refl). assert (Eo : o <> []) by (rewrite El in EM; cbn [map] in EM; congruence).
  set (nodata := match flat_map _ _ with v :: _ => v | [] => default_null d end).
  assert (EN : nodata = match nv with Some v => v | None => default_null d end).
  { unfold nodata. rewrite <- EM. unfold f. rewrite nv_first. destruct nv; [rewrite El; reflexivity|reflexivity]. }
  destruct o as [|o1 o]; [congruence|]. rewrite <- EM. clearbody nodata. subst nodata. clear Eo ED EM.
  destruct nv as [v|].
  - rewrite (traverse_map _ f f) by (intros p; unfold cast_if_needed, f; cbn [r_dtype r_nv null_values_equal]; rewrite (proj2 (dtype_eqb_eq d d) eq_refl), nan_equal_refl; reflexivity).
    cbn [rbind]. rewrite !map_map. unfold f. cbn [r_data r_mask]. unfold arr2. rewrite E1, E2. unfold data_to_raster. now rewrite (shapes_ok nb nc _ _ SD SM).
  - rewrite (traverse_map _ f (fun p => Raster d None [map (cast d) (fst p)] [snd p])).
    2: { intros p. unfold cast_if_needed, f. cbn [r_dtype r_nv null_values_equal]. rewrite andb_false_r. unfold astype. cbn [r_dtype r_nv null_values_equal]. rewrite andb_false_r. reflexivity. }
    cbn [rbind]. rewrite !map_map. cbn [r_data r_mask]. unfold arr2. rewrite E2.
    assert (E3 : concat (map (fun p : list num * list bool => [map (cast d) (fst p)]) l) = map2 (cast d) (r0 :: r1 :: data)).
    { unfold map2. rewrite <- E1 at 1. rewrite concat_map, !map_map. reflexivity. }
    rewrite E3. unfold data_to_raster.
    assert (S2 : shaped2 nb nc (map2 (cast d) (r0 :: r1 :: data))).
    { destruct SD as [L F]. split; [unfold map2, len in *; now rewrite map_length|]. unfold map2. apply Forall_map. eapply Forall_impl; [|exact F]. cbn beta. intros x Ex. unfold len in *. now rewrite map_length. }
    now rewrite (shapes_ok nb nc _ _ S2 SM).
Qed.
Theorem tile_saved ext driver nb nc r null_value : wf nb nc r -> (1 < nb -> r_nv r <> None) ->
  save_tile cast float_dtype reconcile_other gdal_has gdal_nodata ext driver null_value None (bands_of r)
  = save_raster cast float_dtype reconcile_other gdal_has gdal_nodata ext driver null_value None r
  /\ save_tile cast float_dtype reconcile_other gdal_has gdal_nodata ext driver None null_value (bands_of r)
  = save_raster cast float_dtype reconcile_other gdal_has gdal_nodata ext driver null_value None r.
Proof.
  intros W HN. assert (K : match bands_of r with [chunk] => Ok chunk | _ => stack_bands cast reconcile_other (bands_of r) None None end = Ok r).
  { destruct (Z.lt_ge_cases 1 nb) as [L|L].
    - rewrite (stack_bands_of nb nc r W L). specialize (HN L). destruct (r_nv r); [|congruence].
      pose proof W as (_ & _ & [L1 _] & [L2 _] & _). unfold bands_of. destruct (r_data r) as [|r0 [|r1 data]]; try (cbn in L1; lia). destruct (r_mask r) as [|m0 [|m1 mask]]; try (cbn in L2; lia). reflexivity.
    - destruct W as (Hb & _ & [L1 _] & [L2 _] & _). assert (nb = 1) as -> by lia. destruct r as [d nv data mask]. unfold bands_of. cbn [r_data r_mask r_dtype r_nv] in *.
      destruct data as [|r0 [|r1 data]]; try discriminate L1; try (exfalso; rewrite !len_cons in L1; pose proof (len_nonneg data); lia). destruct mask as [|m0 [|m1 mask]]; try discriminate L2; try (exfalso; rewrite !len_cons in L2; pose proof (len_nonneg mask); lia). reflexivity. }
  unfold save_tile. rewrite K. cbn [rbind]. split; [reflexivity|]. now destruct null_value.
Qed.
End Tiles.
