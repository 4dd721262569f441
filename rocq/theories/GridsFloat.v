(* In binary64 the index of a cell centre is that cell, for grids of axis-parallel
   cells that are not extremely small, large or far from the origin. *)
From Coq Require Import ZArith Reals Lra Lia.
From Flocq Require Import Core BinarySingleNaN Relative.
From Verif Require Import Base F64 F64Facts F64Exact Grids GridsF64.
Open Scope R_scope.

Definition val (x : f64) (v : R) : Prop := is_finite x = true /\ B2R x = v.
Definition u53 : R := bpow radix2 (-53).
Definition eta : R := bpow radix2 (-1075).
Definition near (r v : R) : Prop := Rabs (r - v) <= u53 * Rabs v + eta.

Lemma rnd_near v : near (rnd v) v.
Proof.
  destruct (error_N_FLT radix2 (-1074) 53 eq_refl (fun x => negb (Z.even x)) v) as (eps & et & H1 & H2 & _ & E).
  unfold near. replace (rnd v) with (v * (1 + eps) + et) by (symmetry; exact E).
  replace (v * (1 + eps) + et - v) with (v * eps + et) by ring.
  eapply Rle_trans; [apply Rabs_triang|]. rewrite Rabs_mult.
  assert (U1 : / 2 * bpow radix2 (Z.opp 53 + 1) = u53) by (unfold u53; change (-53)%Z with (Z.opp 53 + 1 + -1)%Z; rewrite (bpow_plus _ _ (-1)); change (bpow radix2 (-1)) with (/ 2); lra).
  assert (U2 : / 2 * bpow radix2 (-1074) = eta) by (unfold eta; change (-1075)%Z with (-1074 + -1)%Z; rewrite bpow_plus; change (bpow radix2 (-1)) with (/ 2); lra).
  rewrite U1 in H1. rewrite U2 in H2. pose proof (Rabs_pos v). rewrite Rmult_comm. apply Rplus_le_compat; [|assumption].
  apply Rmult_le_compat_r; assumption.
Qed.
Lemma u53_le : u53 <= / 9007199254740992 /\ 0 <= u53.
Proof. split; [unfold u53; cbn; lra|apply bpow_ge_0]. Qed.
Lemma eta_small : 0 <= eta /\ eta <= bpow radix2 (-600).
Proof. split; [apply bpow_ge_0|apply bpow_le; lia]. Qed.

Lemma no_overflow v : Rabs v <= bpow radix2 1000 -> Rlt_bool (Rabs (rnd v)) (bpow radix2 1024) = true.
Proof.
  intros H. apply Rlt_bool_true. pose proof (rnd_near v) as N. unfold near in N.
  pose proof u53_le as [U1 U2]. pose proof eta_small as [E1 E2].
  assert (E3 : bpow radix2 (-600) <= 1) by (change 1 with (bpow radix2 0); apply bpow_le; lia).
  assert (B : bpow radix2 1024 = bpow radix2 1000 * bpow radix2 24) by (rewrite <- bpow_plus; reflexivity).
  assert (B1 : 1 <= bpow radix2 1000) by (change 1 with (bpow radix2 0); apply bpow_le; lia).
  assert (B2 : bpow radix2 24 = 16777216) by (cbn; lra).
  rewrite B, B2. set (big := bpow radix2 1000) in *. clearbody big.
  pose proof (Rabs_pos v). replace (rnd v) with (rnd v - v + v) by ring. eapply Rle_lt_trans; [apply Rabs_triang|].
  assert (u53 * Rabs v <= 1 * Rabs v) by (apply Rmult_le_compat_r; lra). lra.
Qed.
Lemma add_val x y X Y : val x X -> val y Y -> Rabs (X + Y) <= bpow radix2 1000 -> val (fadd x y) (rnd (X + Y)).
Proof.
  intros [Fx Ex] [Fy Ey] H. pose proof (@Bplus_correct 53 1024 f64_prec f64_emax mode_NE x y Fx Fy) as C. fold (fadd x y) in C.
  change Rdefinitions.RbaseSymbolsImpl.Rplus with Rplus in C. rewrite Ex, Ey in C. rewrite no_overflow in C by assumption. split; apply C.
Qed.
Lemma mul_val x y X Y : val x X -> val y Y -> Rabs (X * Y) <= bpow radix2 1000 -> val (fmul x y) (rnd (X * Y)).
Proof.
  intros [Fx Ex] [Fy Ey] H. pose proof (@Bmult_correct 53 1024 f64_prec f64_emax mode_NE x y) as C. fold (fmul x y) in C.
  change Rdefinitions.RbaseSymbolsImpl.Rmult with Rmult in C. rewrite Ex, Ey in C. rewrite no_overflow in C by assumption. rewrite Fx, Fy in C. split; apply C.
Qed.
Lemma div_val x y X Y : val x X -> val y Y -> Y <> 0 -> Rabs (X / Y) <= bpow radix2 1000 -> val (fdiv x y) (rnd (X / Y)).
Proof.
  intros [Fx Ex] [Fy Ey] N H. pose proof (@Bdiv_correct 53 1024 f64_prec f64_emax mode_NE x y) as C. fold (fdiv x y) in C.
  rewrite Ex, Ey in C. specialize (C N). rewrite no_overflow in C by assumption. rewrite Fx in C. split; apply C.
Qed.
Lemma opp_val x X : val x X -> val (fopp x) (- X).
Proof. intros [Fx Ex]. split; [unfold fopp; now rewrite is_finite_Bopp|unfold fopp; now rewrite B2R_Bopp, Ex]. Qed.
Lemma rnd_val x X : val x X -> rnd X = X.
Proof. intros [F <-]. apply round_generic; [apply valid_rnd_N|]. apply (generic_format_B2R 53 1024). Qed.
Lemma val_bound x X : val x X -> Rabs X < bpow radix2 1024.
Proof. intros [F <-]. apply (abs_B2R_lt_emax 53 1024). Qed.
(* sums with 0 and products with 0 and 1 are exact *)
Lemma add_exact x y X Y : val x X -> val y Y -> (X = 0 \/ Y = 0) -> val (fadd x y) (X + Y).
Proof.
  intros Hx Hy H. assert (E : rnd (X + Y) = X + Y).
  { destruct H as [-> | ->]; [rewrite Rplus_0_l|rewrite Rplus_0_r]; eapply rnd_val; eassumption. }
  destruct Hx as [Fx Ex], Hy as [Fy Ey]. pose proof (@Bplus_correct 53 1024 f64_prec f64_emax mode_NE x y Fx Fy) as C. fold (fadd x y) in C.
  change Rdefinitions.RbaseSymbolsImpl.Rplus with Rplus in C. rewrite Ex, Ey in C. rewrite E in C.
  rewrite Rlt_bool_true in C; [split; apply C|]. destruct H as [-> | ->]; [rewrite Rplus_0_l; apply (val_bound y)|rewrite Rplus_0_r; apply (val_bound x)]; now split.
Qed.
Lemma mul_exact x y X Y : val x X -> val y Y -> (X = 0 \/ Y = 0 \/ X = 1 \/ Y = 1) -> val (fmul x y) (X * Y).
Proof.
  intros Hx Hy H. assert (E : rnd (X * Y) = X * Y).
  { destruct H as [-> | [-> |[-> | ->]]]; rewrite ?Rmult_0_l, ?Rmult_0_r, ?Rmult_1_l, ?Rmult_1_r; [apply (rnd_val fzero); now split|apply (rnd_val fzero); now split|eapply rnd_val; eassumption|eapply rnd_val; eassumption]. }
  assert (B : Rabs (X * Y) < bpow radix2 1024).
  { destruct H as [-> | [-> |[-> | ->]]]; rewrite ?Rmult_0_l, ?Rmult_0_r, ?Rmult_1_l, ?Rmult_1_r; rewrite ?Rabs_R0; try apply bpow_gt_0; eapply val_bound; eassumption. }
  destruct Hx as [Fx Ex], Hy as [Fy Ey]. pose proof (@Bmult_correct 53 1024 f64_prec f64_emax mode_NE x y) as C. fold (fmul x y) in C.
  change Rdefinitions.RbaseSymbolsImpl.Rmult with Rmult in C. rewrite Ex, Ey, E, Rlt_bool_true, Fx, Fy in C by assumption. split; apply C.
Qed.
Lemma of_Z_val n : (Z.abs n <= 2 ^ 53)%Z -> val (f64_of_Z n) (IZR n).
Proof. intros H. destruct (f64_of_exact n 0 H ltac:(lia)) as [F E]. split; [exact F|]. unfold f64_of_Z. rewrite E. cbn. lra. Qed.
Lemma half_val : val fhalf (/ 2).
Proof. destruct (f64_of_exact 1 (-1) ltac:(lia) ltac:(lia)) as [F E]. split; [exact F|]. unfold fhalf. rewrite E. cbn. lra. Qed.
Lemma zero_val : val fzero 0. Proof. split; reflexivity. Qed.
Lemma ffloor_val x X : val x X -> ffloor x = Zfloor X.
Proof.
  intros [F <-]. destruct x as [s|s| |s m e B]; try discriminate F; cbn [ffloor B2R]; [symmetry; exact (Zfloor_IZR 0)|].
  unfold F2R, cond_Zopp. cbn [Fnum Fexp]. set (k := if s then Z.neg m else Z.pos m). change (if s then (- Z.pos m)%Z else Z.pos m) with k.
  destruct (0 <=? e)%Z eqn:E.
  - apply Z.leb_le in E. rewrite <- IZR_Zpower by assumption. rewrite <- mult_IZR, Zfloor_IZR. reflexivity.
  - apply Z.leb_gt in E. replace e with (- (- e))%Z at 2 by lia. rewrite bpow_opp, <- IZR_Zpower by lia. change (IZR k * / IZR (radix2 ^ (- e)))%R with (IZR k / IZR (radix2 ^ (- e)))%R.
    rewrite Zfloor_div; [reflexivity|]. pose proof (Z.pow_pos_nonneg 2 (- e) ltac:(lia) ltac:(lia)). cbn. lia.
Qed.

(* ---- error analysis ---- *)
Definition sized (A : R) : Prop := bpow radix2 (-400) <= Rabs A <= bpow radix2 400.
Lemma rnd_rel v : bpow radix2 (-900) <= Rabs v -> exists d, Rabs d <= / 4503599627370496 /\ rnd v = v * (1 + d).
Proof.
  intros H. pose proof (bpow_gt_0 radix2 (-900)) as P. assert (NZ : v <> 0) by (intros ->; rewrite Rabs_R0 in H; lra).
  exists ((rnd v - v) / v). split; [|field; assumption].
  unfold Rdiv. rewrite Rabs_mult, Rabs_inv. pose proof (rnd_near v) as N. unfold near in N.
  assert (E : eta <= u53 * Rabs v).
  { apply Rle_trans with (u53 * bpow radix2 (-900)); [|apply Rmult_le_compat_l; [apply u53_le|assumption]].
    unfold u53, eta. rewrite <- bpow_plus. apply bpow_le. lia. }
  assert (P' : 0 < Rabs v) by lra. apply Rmult_le_reg_r with (Rabs v); [assumption|]. rewrite Rmult_assoc, Rinv_l, Rmult_1_r by lra.
  assert (u53 * Rabs v <= / 9007199254740992 * Rabs v) by (apply Rmult_le_compat_r; [lra|apply u53_le]). lra.
Qed.
Lemma sized_nz A : sized A -> A <> 0 /\ 0 < Rabs A.
Proof. intros [H _]. pose proof (bpow_gt_0 radix2 (-400)). split; [intros ->; rewrite Rabs_R0 in H|]; lra. Qed.
Lemma one_plus d : Rabs d <= / 4503599627370496 -> / 2 <= 1 + d <= 2.
Proof. intros H. unfold Rabs in H. destruct (Rcase_abs d); lra. Qed.
Lemma Rabs_1p d : Rabs d <= / 4503599627370496 -> / 2 <= Rabs (1 + d) <= 2.
Proof. intros H. pose proof (one_plus d H). rewrite Rabs_pos_eq; lra. Qed.
Lemma inv_sized A : sized A -> bpow radix2 (-400) <= Rabs (/ A) <= bpow radix2 400.
Proof.
  intros S. pose proof (sized_nz A S) as [N P]. destruct S as [S1 S2]. rewrite Rabs_inv.
  split.
  - change (-400)%Z with (- (400))%Z. rewrite bpow_opp. apply Rinv_le; [lra|assumption].
  - replace (bpow radix2 400) with (/ bpow radix2 (-400)); [|change (-400)%Z with (- (400))%Z; rewrite bpow_opp, Rinv_inv; reflexivity].
    apply Rinv_le; [apply bpow_gt_0|assumption].
Qed.
Lemma two_bpow e : 2 * bpow radix2 e = bpow radix2 (e + 1).
Proof. rewrite bpow_plus. change (bpow radix2 1) with 2. ring. Qed.
Lemma half_bpow e : / 2 * bpow radix2 e = bpow radix2 (e - 1).
Proof. unfold Z.sub. rewrite bpow_plus. change (bpow radix2 (- (1))) with (/ 2). ring. Qed.
Lemma Rmult_between a b x y p q : 0 <= a -> 0 <= b -> a <= x <= p -> b <= y <= q -> a * b <= x * y <= p * q.
Proof. intros. split; apply Rmult_le_compat; lra. Qed.

(* The computed inverse of one scale: e * (1 / (a * e)). *)
Lemma inverse_scale A E : sized A -> sized E ->
  let det := rnd (A * E) in let idet := rnd (1 / det) in
  Rabs (A * E) <= bpow radix2 1000 /\ det <> 0 /\ Rabs (1 / det) <= bpow radix2 1000 /\ Rabs (E * idet) <= bpow radix2 1000
  /\ Rabs (rnd (E * idet) * A - 1) <= / 1125899906842624.
Proof.
  intros SA SE det idet. pose proof (sized_nz A SA) as [NA PA]. pose proof (sized_nz E SE) as [NE PE].
  pose proof (bpow_gt_0 radix2 (-400)) as B0.
  assert (AE : bpow radix2 (-800) <= Rabs (A * E) <= bpow radix2 800).
  { rewrite Rabs_mult. change (-800)%Z with (-400 + -400)%Z. change 800%Z with (400 + 400)%Z. rewrite !bpow_plus. apply Rmult_between; try lra; assumption. }
  destruct (rnd_rel (A * E)) as (d1 & H1 & E1); [eapply Rle_trans; [|apply AE]; apply bpow_le; lia|]. fold det in E1.
  pose proof (Rabs_1p d1 H1) as P1. pose proof (one_plus d1 H1) as Q1.
  assert (ND : det <> 0).
  { rewrite E1. apply Rmult_integral_contrapositive_currified; [now apply Rmult_integral_contrapositive_currified|lra]. }
  assert (ID : 1 / det = / A * / E * / (1 + d1)).
  { rewrite E1. field. repeat split; lra. }
  pose proof (inv_sized A SA) as IA. pose proof (inv_sized E SE) as IE.
  assert (I1 : / 2 <= Rabs (/ (1 + d1)) <= 2).
  { rewrite Rabs_inv. split; [apply Rinv_le; lra|]. replace 2 with (/ / 2) by lra. apply Rinv_le; lra. }
  assert (DB : bpow radix2 (-801) <= Rabs (1 / det) <= bpow radix2 801).
  { rewrite ID, !Rabs_mult. change (-801)%Z with (-400 + -400 - 1)%Z. change 801%Z with (400 + 400 + 1)%Z.
    rewrite <- two_bpow, <- half_bpow, !bpow_plus. rewrite (Rmult_comm (/ 2)), (Rmult_comm 2). apply Rmult_between; try lra; [apply Rmult_le_pos; lra|]. apply Rmult_between; lra. }
  destruct (rnd_rel (1 / det)) as (d2 & H2 & E2); [eapply Rle_trans; [|apply DB]; apply bpow_le; lia|]. fold idet in E2.
  pose proof (Rabs_1p d2 H2) as P2. pose proof (one_plus d2 H2) as Q2.
  assert (IE2 : E * idet = / A * / (1 + d1) * (1 + d2)).
  { rewrite E2, ID. field. repeat split; lra. }
  assert (EB : bpow radix2 (-402) <= Rabs (E * idet) <= bpow radix2 402).
  { rewrite IE2, !Rabs_mult. change (-402)%Z with (-400 - 1 - 1)%Z. change 402%Z with (400 + 1 + 1)%Z.
    rewrite <- !two_bpow, <- !half_bpow. replace (/ 2 * (/ 2 * bpow radix2 (-400))) with (bpow radix2 (-400) * / 2 * / 2) by ring.
    replace (2 * (2 * bpow radix2 400)) with (bpow radix2 400 * 2 * 2) by ring. apply Rmult_between; try lra. apply Rmult_between; lra. }
  destruct (rnd_rel (E * idet)) as (d3 & H3 & E3); [eapply Rle_trans; [|apply EB]; apply bpow_le; lia|].
  pose proof (one_plus d3 H3) as Q3.
  split; [eapply Rle_trans; [apply AE|apply bpow_le; lia]|]. split; [assumption|]. split; [eapply Rle_trans; [apply DB|apply bpow_le; lia]|].
  split; [eapply Rle_trans; [apply EB|apply bpow_le; lia]|].
  rewrite E3, IE2. replace (/ A * / (1 + d1) * (1 + d2) * (1 + d3) * A - 1) with ((d2 + d3 + d2 * d3 - d1) * / (1 + d1)) by (field; split; lra).
  rewrite Rabs_mult. apply Rle_trans with (((/ 4503599627370496) * (3 + / 4503599627370496)) * (1 + / 1000)).
  - apply Rmult_le_compat; [apply Rabs_pos|apply Rabs_pos| |].
    + assert (Rabs (d2 * d3) <= / 4503599627370496 * / 4503599627370496) by (rewrite Rabs_mult; apply Rmult_le_compat; try apply Rabs_pos; assumption).
      eapply Rle_trans; [apply Rabs_triang|]. rewrite Rabs_Ropp. eapply Rle_trans; [apply Rplus_le_compat_r; apply Rabs_triang|].
      pose proof (Rabs_triang d2 d3). lra.
    + rewrite Rabs_inv. replace (1 + / 1000) with (/ (1000 / 1001)) by lra. apply Rinv_le; [lra|]. unfold Rabs in *. destruct (Rcase_abs d1), (Rcase_abs (1 + d1)); lra.
  - lra.
Qed.

Notation K40 := 1099511627776.
Lemma abs_le x b : - b <= x <= b -> Rabs x <= b.
Proof. intros. apply Rabs_le. lra. Qed.
Lemma le_abs x b : Rabs x <= b -> - b <= x <= b.
Proof. unfold Rabs. destruct (Rcase_abs x); lra. Qed.
Lemma near_le r v b : near r v -> Rabs v <= b -> Rabs (r - v) <= / 9007199254740992 * b + eta.
Proof.
  unfold near. intros N H. pose proof u53_le as [U1 U2]. pose proof (Rabs_pos v).
  assert (u53 * Rabs v <= / 9007199254740992 * b) by (apply Rmult_le_compat; assumption). lra.
Qed.
Lemma eta_le_size A : sized A -> eta <= / 1152921504606846976 * Rabs A.
Proof.
  intros [S _]. apply Rle_trans with (/ 1152921504606846976 * bpow radix2 (-400)); [|apply Rmult_le_compat_l; lra].
  replace (/ 1152921504606846976) with (bpow radix2 (-60)) by (cbn; lra). rewrite <- bpow_plus. apply bpow_le. lia.
Qed.
Lemma eta_le_one : eta <= / 1152921504606846976.
Proof. replace (/ 1152921504606846976) with (bpow radix2 (-60)) by (cbn; lra). apply bpow_le. lia. Qed.
Lemma size_big A k : sized A -> Rabs k <= 8 * K40 * Rabs A -> Rabs k <= bpow radix2 1000.
Proof.
  intros [_ S] H. eapply Rle_trans; [exact H|]. apply Rle_trans with (bpow radix2 43 * bpow radix2 400).
  - replace (bpow radix2 43) with (8 * K40) by (cbn; lra). apply Rmult_le_compat_l; lra.
  - rewrite <- bpow_plus. apply bpow_le. lia.
Qed.
Lemma const_big k : Rabs k <= 8 * K40 -> Rabs k <= bpow radix2 1000.
Proof. intros H. eapply Rle_trans; [exact H|]. replace (8 * K40) with (bpow radix2 43) by (cbn; lra). apply bpow_le. lia. Qed.

(* the computed coordinate of a centre *)
Lemma centre_error A C n : sized A -> Rabs C <= K40 * Rabs A -> Rabs n <= K40 ->
  let h := rnd (A * / 2) in let x0 := rnd (h + C) in let k := rnd (n * A) in let X := rnd (k + x0) in
  Rabs (A * / 2) <= bpow radix2 1000 /\ Rabs (h + C) <= bpow radix2 1000 /\ Rabs (n * A) <= bpow radix2 1000 /\ Rabs (k + x0) <= bpow radix2 1000
  /\ Rabs (X - (A * (n + / 2) + C)) <= / 512 * Rabs A.
Proof.
  intros S HC Hn h x0 k X. pose proof (sized_nz A S) as [_ P]. pose proof (eta_le_size A S) as ET.
  assert (A2 : Rabs (A * / 2) <= / 2 * Rabs A) by (rewrite Rabs_mult, (Rabs_pos_eq (/ 2)); lra).
  pose proof (near_le _ _ _ (rnd_near (A * / 2)) A2) as N1. fold h in N1.
  assert (B1 : Rabs (h + C) <= (K40 + 1) * Rabs A).
  { apply abs_le. apply le_abs in N1. apply le_abs in HC. apply le_abs in A2. set (m := Rabs A) in *. lra. }
  pose proof (near_le _ _ _ (rnd_near (h + C)) B1) as N2. fold x0 in N2.
  assert (B2 : Rabs (n * A) <= K40 * Rabs A) by (rewrite Rabs_mult; apply Rmult_le_compat_r; lra).
  pose proof (near_le _ _ _ (rnd_near (n * A)) B2) as N3. fold k in N3.
  set (m := Rabs A) in *.
  assert (B3 : Rabs (k + x0) <= (2 * K40 + 3) * m).
  { apply abs_le. apply le_abs in N2, N3, B1, B2. lra. }
  pose proof (near_le _ _ _ (rnd_near (k + x0)) B3) as N4. fold X in N4.
  split; [apply (size_big A); [assumption|fold m; lra]|]. split; [apply (size_big A); [assumption|fold m; lra]|].
  split; [apply (size_big A); [assumption|fold m; lra]|]. split; [apply (size_big A); [assumption|fold m; lra]|].
  apply abs_le. apply le_abs in N1, N2, N3, N4. lra.
Qed.
(* the index computed from it *)
Lemma index_error A C n w X ra : 0 <= w <= 1 -> sized A -> Rabs C <= K40 * Rabs A -> Rabs n <= K40 ->
  Rabs (X - (A * (n + w) + C)) <= / 512 * Rabs A -> Rabs (ra * A - 1) <= / 1125899906842624 ->
  let rc := rnd (- (C * ra)) in let t := rnd (X * ra) in let s := rnd (t + rc) in
  Rabs (C * ra) <= bpow radix2 1000 /\ Rabs (X * ra) <= bpow radix2 1000 /\ Rabs (t + rc) <= bpow radix2 1000 /\ Rabs (s - (n + w)) <= / 64.
Proof.
  intros Hw S HC Hn HX Hra rc t s. pose proof (sized_nz A S) as [NZ P]. pose proof eta_le_one as ET.
  set (p := C / A). set (q := X / A). set (d := ra * A - 1) in *.
  assert (EC : C * ra = p * (1 + d)) by (unfold p, d; field; assumption).
  assert (EX : X * ra = q * (1 + d)) by (unfold q, d; field; assumption).
  assert (Hp : Rabs p <= K40).
  { unfold p, Rdiv. rewrite Rabs_mult, Rabs_inv. apply Rmult_le_reg_r with (Rabs A); [assumption|]. rewrite Rmult_assoc, Rinv_l by lra. lra. }
  assert (Hq : Rabs (q - (n + w + p)) <= / 512).
  { replace (q - (n + w + p)) with ((X - (A * (n + w) + C)) * / A) by (unfold q, p; field; assumption).
    rewrite Rabs_mult, Rabs_inv. apply Rmult_le_reg_r with (Rabs A); [assumption|]. rewrite Rmult_assoc, Rinv_l by lra. lra. }
  assert (Bq : Rabs q <= 2 * K40 + 2) by (apply abs_le; apply le_abs in Hp, Hq, Hn; lra).
  assert (Dp : Rabs (p * d) <= / 1024).
  { rewrite Rabs_mult. apply Rle_trans with (K40 * / 1125899906842624); [apply Rmult_le_compat; try apply Rabs_pos; assumption|lra]. }
  assert (Dq : Rabs (q * d) <= / 256).
  { rewrite Rabs_mult. apply Rle_trans with ((2 * K40 + 2) * / 1125899906842624); [apply Rmult_le_compat; try apply Rabs_pos; assumption|lra]. }
  assert (B1 : Rabs (- (C * ra)) <= K40 + 1).
  { rewrite Rabs_Ropp, EC. apply abs_le. apply le_abs in Hp, Dp. lra. }
  assert (B2 : Rabs (X * ra) <= 2 * K40 + 3).
  { rewrite EX. apply abs_le. apply le_abs in Bq, Dq. lra. }
  pose proof (near_le _ _ _ (rnd_near (- (C * ra))) B1) as N1. fold rc in N1.
  pose proof (near_le _ _ _ (rnd_near (X * ra)) B2) as N2. fold t in N2.
  rewrite EC in N1. rewrite EX in N2.
  assert (B3 : Rabs (t + rc) <= K40 + 2).
  { apply abs_le. apply le_abs in N1, N2, Hp, Hq, Dp, Dq, Hn. lra. }
  pose proof (near_le _ _ _ (rnd_near (t + rc)) B3) as N3. fold s in N3.
  split; [rewrite <- Rabs_Ropp; apply const_big; lra|]. split; [apply const_big; lra|]. split; [apply const_big; lra|].
  apply abs_le. apply le_abs in N1, N2, N3, Hp, Hq, Dp, Dq, Hn. lra.
Qed.

Lemma floor_in s n w : / 64 <= w < 1 - / 64 -> Rabs (s - (IZR n + w)) <= / 64 -> Zfloor s = n.
Proof. intros Hw H. apply Zfloor_imp. rewrite plus_IZR. apply le_abs in H. lra. Qed.

Lemma mul_1 x X : val x X -> val (fmul x fone) X.
Proof. intros H. rewrite <- (Rmult_1_r X). apply mul_exact; [assumption|exact (of_Z_val 1 ltac:(lia))|auto]. Qed.
Lemma mul_0 x y X Y : val x X -> val y Y -> (X = 0 \/ Y = 0) -> val (fmul x y) 0.
Proof. intros Hx Hy H. replace 0 with (X * Y) by (destruct H as [-> | ->]; ring). apply mul_exact; tauto. Qed.
Lemma add_0r x y X : val x X -> val y 0 -> val (fadd x y) X.
Proof. intros Hx Hy. rewrite <- (Rplus_0_r X). apply add_exact; auto. Qed.
Lemma add_0l x y X : val x 0 -> val y X -> val (fadd x y) X.
Proof. intros Hx Hy. rewrite <- (Rplus_0_l X). apply add_exact; auto. Qed.
Lemma opp_0 x : val x 0 -> val (fopp x) 0.
Proof. intros H. rewrite <- Ropp_0. now apply opp_val. Qed.
Lemma rnd_opp v : rnd (- v) = - rnd v.
Proof. apply round_NE_opp. Qed.

(* points of axis-parallel grids, not too close to a border *)
Lemma index_f64 a c e f b d x y A C E F X Y w v row col :
  val a A -> val c C -> val e E -> val f F -> val b 0 -> val d 0 -> val x X -> val y Y ->
  sized A -> sized E -> Rabs C <= K40 * Rabs A -> Rabs F <= K40 * Rabs E ->
  (Z.abs row <= 2 ^ 40)%Z -> (Z.abs col <= 2 ^ 40)%Z -> / 64 <= w < 1 - / 64 -> / 64 <= v < 1 - / 64 ->
  Rabs (X - (A * (IZR col + w) + C)) <= / 512 * Rabs A -> Rabs (Y - (E * (IZR row + v) + F)) <= / 512 * Rabs E ->
  findex x y (Affine a b c d e f) = (row, col).
Proof.
  intros Va Vc Ve Vf Vb Vd VX VY SA SE HC HF Hr Hc Hw Hv EX EY.
  assert (Nr : Rabs (IZR row) <= K40) by (rewrite <- abs_IZR; change K40 with (IZR (2 ^ 40)); now apply IZR_le).
  assert (Nc : Rabs (IZR col) <= K40) by (rewrite <- abs_IZR; change K40 with (IZR (2 ^ 40)); now apply IZR_le).
  pose proof (of_Z_val 1 ltac:(lia)) as V1.
  unfold findex, xy_to_rowcol, affine_inv, affine_apply. cbn [aa ab ac ad ae af].
  destruct (inverse_scale A E SA SE) as (i1 & i2 & i3 & i4 & IR). destruct (inverse_scale E A SE SA) as (j1 & j2 & j3 & j4 & JR).
  rewrite (Rmult_comm E A) in *. set (idet := rnd (1 / rnd (A * E))) in *.
  assert (VI : val (fdiv fone (fadd (fmul a e) (fopp (fmul b d)))) idet).
  { apply div_val; [exact V1| |assumption|assumption]. apply add_0r; [now apply mul_val|]. apply opp_0. eapply mul_0; eauto. }
  set (fi := fdiv fone _) in *. clearbody fi.
  assert (Vra : val (fmul e fi) (rnd (E * idet))) by (now apply mul_val).
  assert (Vre : val (fmul a fi) (rnd (A * idet))) by (now apply mul_val).
  assert (Vrb : val (fmul (fopp b) fi) 0) by (eapply mul_0; [apply opp_0; exact Vb|exact VI|auto]).
  assert (Vrd : val (fmul (fopp d) fi) 0) by (eapply mul_0; [apply opp_0; exact Vd|exact VI|auto]).
  destruct (index_error A C (IZR col) w X _ ltac:(lra) SA HC Nc EX IR) as (p1 & p2 & p3 & PE).
  destruct (index_error E F (IZR row) v Y _ ltac:(lra) SE HF Nr EY JR) as (q1 & q2 & q3 & QE).
  set (ra := rnd (E * idet)) in *. set (re := rnd (A * idet)) in *.
  f_equal.
  - erewrite ffloor_val; [eapply floor_in; [exact Hv|exact QE]|]. apply add_val; [| |exact q3].
    + apply add_0l; [eapply mul_0; eauto|now apply mul_val].
    + rewrite rnd_opp. apply add_0l; [eapply mul_0; [apply opp_val; eassumption|eassumption|auto]|]. apply opp_val. now apply mul_val.
  - erewrite ffloor_val; [eapply floor_in; [exact Hw|exact PE]|]. apply add_val; [| |exact p3].
    + apply add_0r; [now apply mul_val|eapply mul_0; eauto].
    + replace (- (C * ra)) with (- C * ra) by ring. apply add_0r; [|apply opp_0; eapply mul_0; eauto].
      apply mul_val; [now apply opp_val|assumption|]. rewrite Ropp_mult_distr_l_reverse, Rabs_Ropp. assumption.
Qed.
(* cell centres of axis-parallel grids *)
Lemma index_xy_f64 a c e f b d A C E F row col :
  val a A -> val c C -> val e E -> val f F -> val b 0 -> val d 0 ->
  sized A -> sized E -> Rabs C <= K40 * Rabs A -> Rabs F <= K40 * Rabs E ->
  (Z.abs row <= 2 ^ 40)%Z -> (Z.abs col <= 2 ^ 40)%Z ->
  let t := Affine a b c d e f in
  findex (fst (fxy row col t OCenter)) (snd (fxy row col t OCenter)) t = (row, col).
Proof.
  intros Va Vc Ve Vf Vb Vd SA SE HC HF Hr Hc t.
  assert (Vr : val (f64_of_Z row) (IZR row)) by (apply of_Z_val; lia). assert (Vl : val (f64_of_Z col) (IZR col)) by (apply of_Z_val; lia).
  assert (Nr : Rabs (IZR row) <= K40) by (rewrite <- abs_IZR; change K40 with (IZR (2 ^ 40)); now apply IZR_le).
  assert (Nc : Rabs (IZR col) <= K40) by (rewrite <- abs_IZR; change K40 with (IZR (2 ^ 40)); now apply IZR_le).
  pose proof zero_val as V0. pose proof half_val as Vh. pose proof (of_Z_val 1 ltac:(lia)) as V1.
  destruct (centre_error A C (IZR col) SA HC Nc) as (x1 & x2 & x3 & x4 & EX).
  destruct (centre_error E F (IZR row) SE HF Nr) as (y1 & y2 & y3 & y4 & EY).
  set (X := rnd (rnd (IZR col * A) + rnd (rnd (A * / 2) + C))) in *. set (Y := rnd (rnd (IZR row * E) + rnd (rnd (E * / 2) + F))) in *.
  unfold fxy, rowcol_to_xy, affine_mul, affine_apply, rc_offset, t. cbn [aa ab ac ad ae af fst snd].
  assert (VX : val (fadd (fadd (fmul (f64_of_Z col) (fadd (fmul a fone) (fmul b fzero))) (fmul (f64_of_Z row) (fadd (fmul a fzero) (fmul b fone)))) (fadd (fadd (fmul a fhalf) (fmul b fhalf)) c)) X).
  { apply add_val; [|apply add_val; [|assumption|assumption]|assumption].
    - apply add_0r; [apply mul_val; [assumption| |assumption]|].
      + apply add_0r; [now apply mul_1|eapply mul_0; eauto].
      + eapply mul_0; [eassumption|apply add_0r; [eapply mul_0; [eassumption|exact V0|auto]|now apply mul_1]|auto].
    - apply add_0r; [now apply mul_val|eapply mul_0; eauto]. }
  assert (VY : val (fadd (fadd (fmul (f64_of_Z col) (fadd (fmul d fone) (fmul e fzero))) (fmul (f64_of_Z row) (fadd (fmul d fzero) (fmul e fone)))) (fadd (fadd (fmul d fhalf) (fmul e fhalf)) f)) Y).
  { apply add_val; [|apply add_val; [|assumption|assumption]|assumption].
    - apply add_0l; [|apply mul_val; [assumption| |assumption]].
      + eapply mul_0; [eassumption|apply add_0r; [apply mul_1; exact Vd|eapply mul_0; eauto]|auto].
      + apply add_0l; [eapply mul_0; eauto|now apply mul_1].
    - apply add_0l; [eapply mul_0; eauto|now apply mul_val]. }
  refine (index_f64 a c e f b d _ _ A C E F X Y (/ 2) (/ 2) row col Va Vc Ve Vf Vb Vd VX VY SA SE HC HF Hr Hc _ _ EX EY); lra.
Qed.

Lemma val_of x : is_finite x = true -> val x (B2R x). Proof. intros H. now split. Qed.
Lemma centre_f64 a b c d e f row col :
  is_finite a = true -> is_finite b = true -> is_finite c = true -> is_finite d = true -> is_finite e = true -> is_finite f = true ->
  B2R b = 0 -> B2R d = 0 -> sized (B2R a) -> sized (B2R e) ->
  Rabs (B2R c) <= IZR (2 ^ 40) * Rabs (B2R a) -> Rabs (B2R f) <= IZR (2 ^ 40) * Rabs (B2R e) ->
  (Z.abs row <= 2 ^ 40)%Z -> (Z.abs col <= 2 ^ 40)%Z ->
  let t := Affine a b c d e f in
  let '(x, y) := fxy row col t OCenter in findex x y t = (row, col).
Proof.
  intros Fa Fb Fc Fd Fe Ff Eb Ed SA SE HC HF Hr Hc t. change (IZR (2 ^ 40)) with K40 in *.
  pose proof (index_xy_f64 a c e f b d (B2R a) (B2R c) (B2R e) (B2R f) row col (val_of a Fa) (val_of c Fc) (val_of e Fe) (val_of f Ff)
    (conj Fb Eb) (conj Fd Ed) SA SE HC HF Hr Hc) as H. cbv zeta in H. unfold t. destruct (fxy _ _ _ _) as [x y]. exact H.
Qed.
Lemma point_f64 a b c d e f x y row col w v :
  is_finite a = true -> is_finite b = true -> is_finite c = true -> is_finite d = true -> is_finite e = true -> is_finite f = true ->
  is_finite x = true -> is_finite y = true ->
  B2R b = 0 -> B2R d = 0 -> sized (B2R a) -> sized (B2R e) ->
  Rabs (B2R c) <= IZR (2 ^ 40) * Rabs (B2R a) -> Rabs (B2R f) <= IZR (2 ^ 40) * Rabs (B2R e) ->
  (Z.abs row <= 2 ^ 40)%Z -> (Z.abs col <= 2 ^ 40)%Z ->
  B2R x = B2R a * (IZR col + w) + B2R c -> B2R y = B2R e * (IZR row + v) + B2R f ->
  / 64 <= w < 1 - / 64 -> / 64 <= v < 1 - / 64 ->
  findex x y (Affine a b c d e f) = (row, col).
Proof.
  intros Fa Fb Fc Fd Fe Ff Fx Fy Eb Ed SA SE HC HF Hr Hc Ex Ey Hw Hv. change (IZR (2 ^ 40)) with K40 in *.
  apply (index_f64 a c e f b d x y (B2R a) (B2R c) (B2R e) (B2R f) (B2R x) (B2R y) w v row col); try assumption; try (now apply val_of); try (now split).
  - rewrite Ex. replace (_ - _) with 0 by ring. rewrite Rabs_R0. pose proof (Rabs_pos (B2R a)). lra.
  - rewrite Ey. replace (_ - _) with 0 by ring. rewrite Rabs_R0. pose proof (Rabs_pos (B2R e)). lra.
Qed.
Lemma sized_of_Z n : (n <> 0)%Z -> (Z.abs n <= 2 ^ 53)%Z -> is_finite (f64_of_Z n) = true /\ B2R (f64_of_Z n) = IZR n /\ sized (B2R (f64_of_Z n)).
Proof.
  intros NZ H. destruct (of_Z_val n H) as [F E]. split; [exact F|]. split; [exact E|]. rewrite E. unfold sized. rewrite <- abs_IZR. split.
  - apply Rle_trans with 1; [change 1 with (bpow radix2 0); apply bpow_le; lia|apply IZR_le; lia].
  - apply Rle_trans with (IZR (2 ^ 53)); [now apply IZR_le|]. change (IZR (2 ^ 53)) with (bpow radix2 53). apply bpow_le. lia.
Qed.
