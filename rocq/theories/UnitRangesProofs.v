(* remap_range with ranges of one whole number is reclassify *)
From Coq Require Import QArith Lqa Permutation.
From Verif Require Import Base BaseFacts Scalars Dtypes DtypesProofs Arr2 Arr2Facts Raster FocalSpec RasterSpec RasterProofs RasterValues UnitRangesSpec.
Open Scope Z_scope.

Lemma unit_contains k v : whole v -> in_range ILeft (of_Z k) (of_Z (k + 1)) v = num_eqb (of_Z k) v.
Proof.
  unfold in_range, num_leb. destruct v as [q| | |]; intros W; try reflexivity. destruct W as [n W]. unfold of_Z, num_ltb, num_eqb, Qlt_bool.
  rewrite W. apply Bool.eq_iff_eq_true. rewrite Bool.andb_true_iff, Bool.orb_true_iff, !Bool.negb_true_iff, Qeq_bool_iff.
  assert (L : forall a b, Qle_bool (inject_Z a) (inject_Z b) = (a <=? b)). { intros a b. unfold Qle_bool, inject_Z. cbn [Qnum Qden]. now rewrite !Z.mul_1_r. }
  rewrite !L. assert (E : (inject_Z k == inject_Z n)%Q <-> k = n). { unfold Qeq, inject_Z. cbn [Qnum Qden]. lia. }
  rewrite E, !Z.leb_gt. lia.
Qed.
Lemma leb_of_Z a b : num_leb (of_Z a) (of_Z b) = (a <=? b).
Proof.
  unfold num_leb, of_Z, num_ltb, num_eqb, Qlt_bool. apply Bool.eq_iff_eq_true. rewrite Bool.orb_true_iff, Bool.negb_true_iff, Qeq_bool_iff.
  unfold Qle_bool, Qeq, inject_Z. cbn [Qnum Qden]. rewrite Z.leb_gt, Z.leb_le. lia.
Qed.
Lemma normalize_units ms : ms <> [] -> normalize_mappings (as_ranges ms) = Ok (as_ranges ms).
Proof.
  intros N. unfold normalize_mappings. assert (T : exists u, traverse check_mapping (as_ranges ms) = Ok u).
  { clear N. induction ms as [|[k o] ms [u IH]]; [now exists []|]. cbn [as_ranges map traverse]. fold (as_ranges ms). rewrite IH.
    assert (C : check_mapping (SInt k, SInt (k + 1), o) = Ok tt).
    { unfold check_mapping. cbn [scalar_num]. rewrite leb_of_Z, (proj2 (Z.leb_gt _ _)) by lia. reflexivity. }
    rewrite C. cbn [rbind]. now exists (tt :: u). }
  destruct T as [u T]. rewrite T. destruct ms as [|[k o] ms]; [congruence|]. reflexivity.
Qed.

Lemma of_Z_inj a b v : num_eqb (of_Z a) v = true -> num_eqb (of_Z b) v = true -> a = b.
Proof.
  intros E E'. rewrite num_eqb_sym in E'. pose proof (num_eqb_trans _ _ _ E E') as X. unfold of_Z, num_eqb in X. apply Qeq_bool_iff in X. unfold Qeq, inject_Z in X. cbn [Qnum Qden] in X. lia.
Qed.
Lemma first_unit ms v o : NoDup (map fst ms) -> whole v ->
  (first_mapping ILeft (as_ranges ms) v = Some o <-> exists k, In (k, o) ms /\ num_eqb (of_Z k) v = true).
Proof.
  intros ND W. unfold first_mapping. induction ms as [|[k o'] ms IH]; [split; [discriminate|now intros (? & [] & _)]|].
  inversion ND as [|? ? NI ND2]; subst. specialize (IH ND2). cbn [as_ranges map find]. fold (as_ranges ms). cbn [scalar_num].
  change (contains ILeft (of_Z k) (of_Z (k + 1)) v) with (in_range ILeft (of_Z k) (of_Z (k + 1)) v). rewrite unit_contains by exact W.
  destruct (num_eqb (of_Z k) v) eqn:E.
  - cbn [option_map snd]. split.
    + intros H. exists k. split; [left; congruence|exact E].
    + intros (k' & [I|I] & E'); [congruence|]. exfalso. apply NI. rewrite (of_Z_inj _ _ _ E E'). now apply (in_map fst) in I.
  - rewrite IH. split; intros (k' & I & E'); exists k'; (split; [|exact E']); [now right|]. destruct I as [I|I]; [|exact I]. congruence.
Qed.
Theorem unit_order ms ms' v : NoDup (map fst ms) -> Permutation ms ms' -> whole v ->
  first_mapping ILeft (as_ranges ms) v = first_mapping ILeft (as_ranges ms') v.
Proof.
  intros ND P W. assert (ND' : NoDup (map fst ms')) by exact (Permutation_NoDup (Permutation_map fst P) ND).
  assert (S : forall o, first_mapping ILeft (as_ranges ms) v = Some o <-> first_mapping ILeft (as_ranges ms') v = Some o).
  { intros o. rewrite !first_unit by assumption. split; intros (k & I & E); exists k; (split; [|exact E]); [now apply (Permutation_in _ P)|now apply (Permutation_in _ (Permutation_sym P))]. }
  destruct (first_mapping ILeft (as_ranges ms) v) as [o|] eqn:E; [symmetry; now apply S|].
  destruct (first_mapping ILeft (as_ranges ms') v) as [o|] eqn:E'; [|reflexivity]. now apply (proj2 (S o)).
Qed.

Section WithCast.
Variables (cast : dtype -> num -> num) (float_dtype : num -> dtype).
Lemma outs_same ms : flat_map (fun '(_, _, o) => match o with Some v => [scalar_item float_dtype v] | None => [] end) (as_ranges ms)
  = flat_map (fun '(_, o) => match o with Some v => [scalar_item float_dtype v] | None => [] end) (as_dict ms).
Proof. induction ms as [|[k o] ms IH]; [reflexivity|]. cbn [as_ranges as_dict map flat_map]. now f_equal. Qed.
Lemma none_same ms : existsb (fun '(_, _, o) => match o with None => true | Some _ => false end) (as_ranges ms)
  = existsb (fun '(_, o) => match o with None => true | Some _ => false end) (as_dict ms).
Proof. induction ms as [|[k o] ms IH]; [reflexivity|]. cbn [as_ranges as_dict map existsb]. now f_equal. Qed.

Lemma lookup_none (f : option scalar -> num) ms v k : ~ In k (map fst ms) -> num_eqb (of_Z k) v = true ->
  lookup (map (fun '(k, o) => (k, f o)) (as_dict ms)) v = None.
Proof.
  intros N E. induction ms as [|[k' o] ms IH]; [reflexivity|]. cbn [as_dict map] in *. fold (as_dict ms). rewrite lookup_cons, IH by (intros I; apply N; now right).
  destruct (num_eqb (of_Z k') v) eqn:E'; [|reflexivity]. exfalso. apply N. left. cbn [fst].
  rewrite num_eqb_sym in E. pose proof (num_eqb_trans _ _ _ E' E) as X. unfold of_Z, num_eqb in X. apply Qeq_bool_iff in X. unfold Qeq, inject_Z in X. cbn [Qnum Qden] in X. lia.
Qed.
Lemma cell_same d nvr nv0 ms v : NoDup (map fst ms) -> whole v ->
  ((exists o, In o (map snd ms) /\ o = None) -> nvr = nv0) -> cast d v = v ->
  cast d (match lookup (map (fun '(k, o) => (k, match o with Some s => scalar_num s | None => nvr end)) (as_dict ms)) v with Some w => w | None => v end)
  = remap_cell ILeft (map (fun '(lo, hi, o) => (scalar_num lo, scalar_num hi, cast d (match o with Some s => scalar_num s | None => nv0 end))) (as_ranges ms)) v.
Proof.
  intros ND W HN X. induction ms as [|[k o] ms IH]; [exact X|]. cbn [as_dict as_ranges map remap_cell scalar_num]. fold (as_dict ms) (as_ranges ms).
  inversion ND as [|? ? NI ND2]; subst. rewrite unit_contains by exact W. rewrite lookup_cons. destruct (num_eqb (of_Z k) v) eqn:E.
  - rewrite (lookup_none (fun o => match o with Some s => scalar_num s | None => nvr end) ms v k NI E). destruct o; [reflexivity|]. rewrite HN; [reflexivity|]. exists None. split; [now left|reflexivity].
  - rewrite <- IH; [destruct (lookup _ v); reflexivity|exact ND2|]. intros (o' & I & ->). apply HN. exists None. split; [now right|reflexivity].
Qed.

Theorem unit_ranges nb nc r ms : wf nb nc r -> ms <> [] -> NoDup (map fst ms) ->
  (forall b c, in_raster nb nc b c -> null r b c = false -> whole (value r b c)) ->
  (forall r' b c, remap_range cast float_dtype r (as_ranges ms) ILeft = Ok r' -> in_raster nb nc b c -> null r b c = false -> cast (r_dtype r') (value r b c) = value r b c) ->
  result_of (reclassify cast float_dtype r (as_dict ms) false) = remap_range cast float_dtype r (as_ranges ms) ILeft.
Proof.
  intros W NE ND WH X. destruct (wf_ex _ _ _ W) as (d & nv & v & m & -> & Hb & Hc & HN).
  unfold remap_range in *. rewrite normalize_units in * by exact NE. cbn [rbind] in *. rewrite outs_same, none_same in *.
  unfold reclassify. cbn [r_dtype r_nv mk r_data r_mask] in *. rewrite Bool.orb_false_r.
  set (outs := flat_map _ (as_dict ms)) in *. set (anyn := existsb _ (as_dict ms)) in *.
  assert (CD : (match outs with [] => Ok d | _ => let* c := get_common_dtype outs in Ok (promote_types c d) end)
    = (let* common := match outs with [] => Ok d | _ => get_common_dtype outs end in Ok (promote_types d common))).
  { destruct outs; [cbn [rbind]; now destruct d|]. destruct (get_common_dtype _); [|reflexivity]. cbn [rbind]. now rewrite promote_comm. }
  rewrite CD. destruct (match outs with [] => Ok d | _ => get_common_dtype outs end) as [common|e]; [|reflexivity]. cbn [rbind] in *.
  set (od := promote_types d common) in *.
  unfold result_of. unfold remap_values in *.
  assert (ED : (if dtype_eqb od d then tab2 nb nc v else map2 (cast od) (tab2 nb nc v)) = tab2 nb nc (fun b c => if dtype_eqb od d then v b c else cast od (v b c))).
  { destruct (dtype_eqb od d); [reflexivity|apply map2_tab']. }
  rewrite ED in *. rewrite !zip2_tab in *. unfold data_to_raster in *. cbn [rbind].
  assert (NV : (if masked (mk nb nc d nv v m) || anyn then Some match nv with Some v0 => v0 | None => default_null od end else None)
     = match nv with Some v0 => Some v0 | None => if anyn then Some (default_null od) else None end).
  { unfold masked. cbn [r_nv mk]. destruct nv; [reflexivity|]. cbn [orb]. now destruct anyn. }
  rewrite NV. set (nv' := match nv with Some v0 => Some v0 | None => _ end) in *. set (nv0 := match nv' with Some v0 => v0 | None => of_Z 0 end) in *.
  match goal with |- Ok (Raster _ _ (tab2 _ _ ?f) _) = Ok (Raster _ _ (tab2 _ _ ?g) _) => assert (EQ : tab2 nb nc f = tab2 nb nc g) end; [|now rewrite EQ].
  apply tab2_ext. intros b c Hb' Hc'. assert (HI : in_raster nb nc b c) by (split; assumption). unfold reclassify_cell.
  specialize (WH b c HI). specialize (X _ b c eq_refl HI). cbn [r_dtype] in X. revert WH X. cells HI. intros WH X.
  destruct (m b c) eqn:EM.
  - f_equal. unfold nv0, nv'. destruct nv as [w|]; [reflexivity|]. rewrite (HN eq_refl b c HI) in EM. discriminate.
  - specialize (WH eq_refl). specialize (X eq_refl). rewrite X. replace (if dtype_eqb od d then v b c else v b c) with (v b c) by now destruct (dtype_eqb od d).
    apply cell_same; try assumption. intros (o & I & ->). unfold nv0, nv'. destruct nv; [reflexivity|].
    assert (A : anyn = true). { unfold anyn. apply existsb_exists. apply in_map_iff in I as ([k o] & E & I). cbn [snd] in E. subst o. exists (of_Z k, None). split; [|reflexivity]. unfold as_dict. apply in_map_iff. now exists (k, None). }
    now rewrite A.
Qed.
End WithCast.
