(* the detour through points *)
From Coq Require Import QArith Qreals Reals Lra Lia Qfield String.
From Flocq Require Import Core BinarySingleNaN.
From Verif Require Import Base BaseFacts Scalars FocalSpec FocalResults BandsSpec F64 Grids GridsFloat Vectors Frames Points PointsSpec PointsProofs
  Extract ExtractSpec ExtractProofs RoundTripSpec.
Open Scope Z_scope.

Lemma Q2R_inject z : Q2R (inject_Z z) = IZR z.
Proof. unfold Q2R, inject_Z. cbn [Qnum Qden]. field. Qed.
(* a number near the middle of the n-th interval of length a from o *)
Lemma offset (a o x : Q) (n : Z) : ~ (a == 0)%Q -> (Rabs (Q2R x - (Q2R a * (IZR n + / 2) + Q2R o)) <= / 512 * Rabs (Q2R a))%R ->
  exists u, (0 <= u < 1)%Q /\ (x == a * (inject_Z n + u) + o)%Q.
Proof.
  intros N H. exists ((x - o) / a - inject_Z n)%Q. assert (NR : Q2R a <> 0%R) by (intros C; apply N; apply eqR_Qeq; rewrite C; unfold Q2R; cbn; field).
  assert (E : Q2R ((x - o) / a - inject_Z n) = ((Q2R x - Q2R o) / Q2R a - IZR n)%R).
  { unfold Qdiv. rewrite Q2R_minus, Q2R_mult, Q2R_minus, Q2R_inv, Q2R_inject by exact N. reflexivity. }
  assert (B : (Rabs ((Q2R x - Q2R o) / Q2R a - IZR n - / 2) <= / 512)%R).
  { replace ((Q2R x - Q2R o) / Q2R a - IZR n - / 2)%R with ((Q2R x - (Q2R a * (IZR n + / 2) + Q2R o)) / Q2R a)%R by (field; exact NR).
    unfold Rdiv. rewrite Rabs_mult, Rabs_inv. pose proof (Rabs_pos_lt _ NR) as P. apply Rmult_le_reg_r with (Rabs (Q2R a)); [exact P|]. rewrite Rmult_assoc, Rinv_l by lra. lra. }
  apply Rabs_le_inv in B. split; [split|].
  - apply Rle_Qle. rewrite E. replace (Q2R 0) with 0%R by (unfold Q2R; cbn; field). lra.
  - apply Rlt_Qlt. rewrite E. replace (Q2R 1) with 1%R by (unfold Q2R; cbn; field). lra.
  - field. exact N.
Qed.
Lemma points_back cast reproject junk xcoord ycoord t q raster_crs points_crs nb ny nx bcs ycs xcs (data : list (list (list num))) mask name skip :
  plain_grid t -> centres t ny nx xcoord ycoord -> exact_grid q t -> 0 < nb -> 0 <= ny <= 2 ^ 40 -> 0 <= nx <= 2 ^ 40 ->
  cuts nb bcs -> cuts ny ycs -> cuts nx xcs -> shaped3 nb ny nx data -> shaped3 nb ny nx mask -> same_crs raster_crs points_crs -> name <> ""%string ->
  exists parts, to_points junk xcoord ycoord t nb ny nx bcs ycs xcs data mask = Ok parts
  /\ forall gs, Forall2 geometry_of (concat parts) gs ->
     exists cols, extract_points cast reproject raster_crs points_crs gs q nb ny nx data mask name skip 1 = Ok (Frame (zrange 0 (len gs)) cols) /\ len cols = nb
     /\ forall k p, get (concat parts) k = Ok p -> exists values, get cols (p_band p - 1) = Ok (numbered (name ++ "_") (p_band p), NumCol values) /\ get values k = Ok (cast F64 (p_value p)).
Proof.
  intros PG CE (Ea & Eb & Ec & Ed & Ee & Ef) Hnb Hny Hnx CB CY CX SD SM SC NN.
  destruct (to_points_spec junk xcoord ycoord t nb ny nx bcs ycs xcs data mask PG CE ltac:(lia) Hny Hnx CB CY CX SD SM) as (parts & EP & _ & HP & _).
  exists parts. split; [exact EP|]. intros gs F. destruct PG as (_ & _ & _ & _ & _ & _ & Zb & Zd & Sa & Se & _). unfold exactly in *.
  assert (Z0 : forall a, Q2R a = 0%R -> (a == 0)%Q) by (intros a H; apply eqR_Qeq; rewrite H; unfold Q2R; cbn; field).
  assert (NZ : forall a, sized (Q2R a) -> ~ (a == 0)%Q).
  { intros a S C. apply Qeq_eqR in C. rewrite C in S. unfold sized in S. replace (Q2R 0) with 0%R in S by (unfold Q2R; cbn; field). rewrite Rabs_R0 in S.
    destruct S as [S _]. pose proof (bpow_gt_0 radix2 (-400)). lra. }
  rewrite Zb in Eb. rewrite Zd in Ed. rewrite <- Ea in Sa. rewrite <- Ee in Se.
  assert (Na := NZ _ Sa). assert (Ne := NZ _ Se). apply Z0 in Eb, Ed.
  assert (PO : points_only gs). { intros C. apply In_nth_error in C as (n & C). clear -F C. revert gs n F C. induction (concat parts) as [|p l IH]; intros [|g gs] n F C; inversion F; subst; [destruct n; discriminate|]. destruct n as [|n]; [|eapply IH; eauto].
    cbn in C. injection C as ->. destruct H2 as (x & y & H & _). discriminate. }
  assert (PR : proper q). { unfold proper. rewrite Eb. intros C. assert (P : (aa q * ae q == 0)%Q) by (rewrite C; ring). apply Qmult_integral in P. tauto. }
  destruct (columns_spec cast reproject raster_crs points_crs gs q nb ny nx data mask name skip SC PO NN Hnb PR SD SM) as (cols & E & L & H).
  exists cols. split; [exact E|]. split; [exact L|]. intros k p G.
  assert (GG : exists g, get gs k = Ok g /\ geometry_of p g).
  { assert (R := get_ok_range _ _ _ G). unfold get in *. destruct (k <? 0); [discriminate|]. destruct (nth_error (concat parts) (Z.to_nat k)) as [p'|] eqn:NE; [|discriminate]. injection G as ->.
    clear -F NE. revert gs F NE. generalize (Z.to_nat k). induction (concat parts) as [|y l IH]; intros n gs F NE; [destruct n; discriminate|]. inversion F as [|? g ? gs' HG FT]; subst. destruct n as [|n].
    - cbn in NE. injection NE as ->. exists g. auto.
    - exact (IH n gs' FT NE). }
  destruct GG as (g & Gg & x & y & -> & Ex & Ey). destruct (HP p ltac:(eapply ChunksProofs.get_in; eauto)) as (b & EB & _ & MK & DT & HX & HY).
  unfold exactly in Ex, Ey. rewrite <- Ex, <- Ea, <- Ec in HX. rewrite <- Ey, <- Ee, <- Ef in HY.
  destruct (offset _ _ _ _ Na HX) as (u & Ru & EX). destruct (offset _ _ _ _ Ne HY) as (v & Rv & EY).
  destruct MK as (bm & Gm & MK). destruct DT as (bd & Gd & DT). rewrite EB. replace (b + 1 - 1) with b by lia.
  destruct (H b bd bm Gd Gm) as (values & GC & _ & HV). exists values. split; [exact GC|]. destruct (HV k _ Gg) as (w & GW & VU). rewrite GW. f_equal.
  cbn [value_under] in VU. destruct VU as [VU _].
  assert (SH : forall (A : Type) (a : list (list A)) r c z, shaped2 ny nx a -> at2 a r c z -> 0 <= r < ny /\ 0 <= c < nx).
  { intros A a r c z (L1 & F1) (row & G1 & G2). pose proof (get_ok_range _ _ _ G1). pose proof (get_ok_range _ _ _ G2). rewrite Forall_forall in F1. rewrite (F1 row) in * by (eapply ChunksProofs.get_in; eauto). lia. }
  assert (SB : shaped2 ny nx bd). { destruct SD as (_ & FD). rewrite Forall_forall in FD. apply FD. eapply ChunksProofs.get_in; eauto. }
  destruct (SH _ _ _ _ _ SB DT) as [Hr Hc]. destruct (VU (p_row p) (p_col p) Hr Hc) as [_ VV]; [|now apply VV].
  exists u, v. split; [exact Ru|]. split; [exact Rv|]. split; [rewrite Eb, EX; ring|rewrite Ed, EY; ring].
Qed.
