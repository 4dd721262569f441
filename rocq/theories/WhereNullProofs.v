(* where(cond, None, r) is r.set_null(cond) *)
From Coq Require Import QArith.
From Verif Require Import Base BaseFacts Scalars Dtypes Arr2 Arr2Facts Raster FocalSpec RasterSpec RasterProofs RasterValues RasterStack WhereNullSpec.
Open Scope Z_scope.

Lemma positive_nonzero v : num_leb (of_Z 0) v = true -> num_ltb (of_Z 0) v = negb (num_eqb v (of_Z 0)).
Proof.
  unfold num_leb. destruct v as [q| | |]; try reflexivity; try discriminate. unfold num_ltb, num_eqb, of_Z, Qlt_bool. intros H.
  apply Bool.orb_true_iff in H. apply Bool.eq_iff_eq_true. rewrite !Bool.negb_true_iff in *. rewrite Qeq_bool_comm.
  destruct H as [H|H].
  - rewrite H. split; [intros _|reflexivity]. apply Bool.not_true_is_false. intros E. apply Qeq_bool_iff in E. apply Bool.not_true_iff_false in H. apply H. apply Qle_bool_iff. rewrite E. apply Qle_refl.
  - rewrite H. split; [|discriminate]. intros L. apply Bool.not_true_iff_false in L. exfalso. apply L. apply Qeq_bool_iff in H. apply Qle_bool_iff. rewrite H. apply Qle_refl.
Qed.

Section WithCast.
Variables (cast : dtype -> num -> num) (float_dtype : num -> dtype).
Lemma where_returns nb nc out cond r : wf nb nc cond -> wf nb nc r -> is_float_dtype (r_dtype cond) = false ->
  exists r', where_raster cast float_dtype out cond BNone (BRaster r) = Ok r'.
Proof.
  intros Wc W F. destruct (wf_ex _ _ _ Wc) as (d & nv & v & m & -> & Hb & Hc & _). destruct (wf_ex _ _ _ W) as (d' & nv' & v' & m' & -> & _).
  unfold where_raster. rewrite F. cbn [r_data mk]. rewrite same_shape_tab by lia. cbn [andb negb where_nv rbind].
  destruct (_ || _ || _); eexists; reflexivity.
Qed.
Theorem where_set_null nb nc cond r : wf nb nc cond -> wf nb nc r -> plain_condition nb nc cond -> null_value_free nb nc r ->
  (forall b c, in_raster nb nc b c -> null r b c = false -> cast (r_dtype r) (value r b c) = value r b c) -> cast (r_dtype r) (null_value_of r) = null_value_of r ->
  exists r1 r2, set_null r cond = Ok r1 /\ where_raster cast float_dtype (r_dtype r) cond BNone (BRaster r) = Ok r2
  /\ r_dtype r1 = r_dtype r2 /\ r_nv r1 = r_nv r2
  /\ forall b c, in_raster nb nc b c -> null r1 b c = null r2 b c /\ (null r1 b c = false -> value r1 b c = value r2 b c).
Proof.
  intros Wc W [DC PC] NF XV XN.
  assert (MD : mask_dtype (r_dtype cond) = true) by (destruct DC as [->|[->| ->]]; reflexivity).
  assert (FD : is_float_dtype (r_dtype cond) = false) by (destruct DC as [->|[->| ->]]; reflexivity).
  destruct (set_null_spec nb nc r cond W) as (r1 & E1 & _ & D1 & N1 & C1). { exists nb. split; [now right|]. now split. }
  destruct (where_returns nb nc (r_dtype r) cond r Wc W FD) as (r2 & E2).
  destruct (where_spec cast float_dtype nb nc (r_dtype r) cond BNone (BRaster r) r2 Wc I W E2) as (_ & D2 & N2 & V2 & C2).
  - (* the null value *)
    intros v Hv. unfold exact. assert (v = null_value_of r) as ->; [|exact XN].
    unfold where_raster in E2. rewrite FD in E2. destruct (negb _); [discriminate|]. cbn [branch_masked] in E2. rewrite Bool.orb_true_r in E2. cbn [orb where_nv rbind] in E2.
    injection E2 as <-. cbn [r_nv] in Hv. unfold null_value_of. congruence.
  - intros b c HI. cbv zeta. destruct (cond_true cond b c); cbn [branch_null branch_value]; [discriminate|]. now apply XV.
  - assert (NV : r_nv r2 = Some (null_value_of r)).
    { destruct (r_nv r2) as [v|] eqn:E; [specialize (V2 v eq_refl); cbn [where_nv] in V2; unfold null_value_of; congruence|].
      destruct N2 as [N2 _]. specialize (N2 eq_refl). cbn [branch_masked] in N2. rewrite Bool.orb_true_r in N2. discriminate. }
    exists r1, r2. split; [exact E1|]. split; [exact E2|]. split; [congruence|]. split; [congruence|]. intros b c HI.
    destruct (C1 b c HI) as (A1 & A2 & _). destruct (C2 b c HI) as (B1 & _ & B3). destruct (PC b c HI) as [NC PCb].
    assert (SEL : selected_by cond b c = cond_true cond b c).
    { unfold selected_by, selects, cond_true. destruct Wc as (_ & _ & (-> & _) & _). replace (if nb =? 1 then 0 else b) with b.
      2:{ destruct (nb =? 1) eqn:Q; [|reflexivity]. apply Z.eqb_eq in Q. destruct HI as [HB _]. lia. }
      rewrite NC, Bool.andb_true_r. destruct PCb as [->|P]; [reflexivity|]. destruct DC as [->|[->| ->]]; [reflexivity| |]; now rewrite (positive_nonzero _ P). }
    rewrite SEL in A1. rewrite NC in B1. cbn [orb] in B1.
    destruct (cond_true cond b c); cbn [branch_null branch_value] in B1, B3.
    + rewrite Bool.orb_true_r in A1. rewrite A1, B1. split; [reflexivity|discriminate].
    + rewrite Bool.orb_false_r in A1. unfold hits in B1. rewrite NV in B1. rewrite A1, B1. destruct (null r b c) eqn:EN; [split; [reflexivity|discriminate]|].
      cbn [orb] in *. rewrite (NF b c HI EN) in *. split; [reflexivity|]. intros _. rewrite (A2 A1). symmetry. now apply B3.
Qed.
End WithCast.
(* which null value where gives its result *)
Lemma where_null_value cast float_dtype out cond x y r' v : where_raster cast float_dtype out cond x y = Ok r' -> r_nv r' = Some v ->
  match x, y with
  | BRaster a, BRaster b => v = default_null (promote_types (r_dtype a) (r_dtype b))
  | BRaster a, _ | _, BRaster a => v = null_value_of a
  | BScalar s, BScalar t => exists d, get_common_dtype [scalar_item float_dtype s; scalar_item float_dtype t] = Ok d /\ v = default_null d
  | BScalar s, BNone | BNone, BScalar s => exists d, get_common_dtype [scalar_item float_dtype s] = Ok d /\ v = default_null d
  | BNone, BNone => False
  end.
Proof.
  intros H N. unfold where_raster in H. destruct (is_float_dtype (r_dtype cond)); [discriminate|].
  destruct x as [a|s|], y as [b|t|]; try discriminate; destruct (negb _); try discriminate;
    (destruct (_ || _ || _); [|injection H as <-; discriminate]); cbn [where_nv branch_item app] in H; unfold null_value_of.
  all: try (cbn [rbind] in H; injection H as <-; cbn [r_nv] in N; congruence).
  all: destruct (get_common_dtype _) as [d|] eqn:E; [|discriminate]; cbn [rbind] in H; injection H as <-; cbn [r_nv] in N; exists d; split; [reflexivity|congruence].
Qed.

