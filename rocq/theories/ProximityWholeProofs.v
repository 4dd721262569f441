(* Proximity analysis of a whole raster. *)
From Coq Require Import ZArith Bool Reals Lra Lia.
From Flocq Require Import Core BinarySingleNaN.
From Verif Require Import Base BaseFacts F64 F64Facts F64Exact GridsF64 GridsFloat.
From Verif Require Import AggregateProofs FocalValues FocalSpec BandsSpec Bands Arr2Facts BandsProofs FocalResults ChunksSpec Chunks ChunksProofs BlockArgs BlockArgsProofs
  Blocks MapBlocks MapBlocksSpec MapBlocksProofs MapOverlapProofs.
From Verif Require Import Proximity ProximitySpec ProximityProofs ProximityMain ProximityChunk ProximityTaxi ProximityWhole ProximityWholeSpec.
From Coq Require Import ZifyBool ZifyNat.
Open Scope Z_scope.

(* ---------------- the depth ---------------- *)

Lemma fceil_val x X : val x X -> fceil x = Ok (Zceil X).
Proof.
  intros V. unfold fceil. rewrite (proj1 V). f_equal. unfold Zceil. f_equal. apply ffloor_val.
  destruct V as [F <-]. split; [unfold fopp; now rewrite is_finite_Bopp|apply B2R_Bopp].
Qed.

Lemma fdiv_finite x y : is_finite x = true -> (B2R y <> 0)%R -> (Rabs (rnd (B2R x / B2R y)) < bpow radix2 1024)%R ->
  val (fdiv x y) (rnd (B2R x / B2R y)).
Proof.
  intros F NZ L. pose proof (@Bdiv_correct 53 1024 f64_prec f64_emax mode_NE x y NZ) as C. fold (fdiv x y) in C.
  rewrite Rlt_bool_true in C by exact L.
  rewrite F in C. split; apply C.
Qed.

Lemma fdiv_exact e x y a b : scaled e x (a * b) -> scaled 0 y b -> b <> 0 -> Z.abs a <= 2 ^ 53 -> -1074 <= e <= 900 ->
  scaled e (fdiv x y) a.
Proof.
  intros [Fx Ex] [Fy Ey] NZ Ha He. cbn [bpow] in Ey. rewrite Rmult_1_r in Ey.
  assert (NB : IZR b <> 0%R) by (now apply not_0_IZR).
  assert (E : (B2R x / B2R y)%R = (IZR a * bpow radix2 e)%R) by (rewrite Ex, Ey, mult_IZR; field; exact NB).
  assert (R : rnd (B2R x / B2R y) = (IZR a * bpow radix2 e)%R) by (rewrite E; apply exact_round; lia).
  destruct (fdiv_finite x y Fx) as [F V]; [rewrite Ey; exact NB|rewrite R; apply exact_bound; lia|].
  split; [exact F|]. rewrite V. exact R.
Qed.

Lemma rnd_int n : Z.abs n <= 2 ^ 53 -> rnd (IZR n) = IZR n.
Proof. intros H. pose proof (exact_round n 0 H ltac:(lia)) as E. cbn [bpow] in E. now rewrite Rmult_1_r in E. Qed.

Lemma depth_bounds e M r B d : scaled e M B -> scaled e r d -> 0 < B <= 2 ^ 26 -> 0 < d ->
  exists D, fceil (fdiv M r) = Ok D /\ 0 <= D /\ B < (D + 1) * d
    /\ (forall n, B <= n * d -> D <= n) /\ (forall n, n * d <= B -> n <= D).
Proof.
  intros [FM EM] [Fr Er] HB Hd.
  assert (P : (0 < bpow radix2 e)%R) by apply bpow_gt_0.
  assert (PD : (0 < IZR d)%R) by (now apply (IZR_lt 0)).
  assert (NZ : B2R r <> 0%R) by (rewrite Er; apply Rgt_not_eq; apply Rmult_lt_0_compat; lra).
  set (X := (IZR B / IZR d)%R).
  assert (EX : (B2R M / B2R r)%R = X) by (rewrite EM, Er; unfold X; field; lra).
  assert (X0 : (0 <= X)%R) by (apply Rle_mult_inv_pos; [apply (IZR_le 0); lia|lra]).
  assert (XB : (X <= IZR B)%R).
  { unfold X. apply (Rmult_le_reg_r (IZR d)); [lra|]. unfold Rdiv. rewrite Rmult_assoc, Rinv_l by lra.
    rewrite Rmult_1_r. rewrite <- mult_IZR. apply IZR_le. nia. }
  assert (LO : forall n, n * d <= B -> Z.abs n <= 2 ^ 53 -> (IZR n <= rnd X)%R).
  { intros n Hn Hb. rewrite <- (rnd_int n Hb). apply rnd_mono. unfold X.
    apply (Rmult_le_reg_r (IZR d)); [lra|]. unfold Rdiv. rewrite Rmult_assoc, Rinv_l by lra. rewrite Rmult_1_r.
    rewrite <- mult_IZR. now apply IZR_le. }
  assert (UP : forall n, B <= n * d -> Z.abs n <= 2 ^ 53 -> (rnd X <= IZR n)%R).
  { intros n Hn Hb. rewrite <- (rnd_int n Hb). apply rnd_mono. unfold X.
    apply (Rmult_le_reg_r (IZR d)); [lra|]. unfold Rdiv. rewrite Rmult_assoc, Rinv_l by lra. rewrite Rmult_1_r.
    rewrite <- mult_IZR. now apply IZR_le. }
  assert (V : val (fdiv M r) (rnd X)).
  { rewrite <- EX. apply fdiv_finite; [exact FM|exact NZ|]. rewrite EX.
    rewrite Rabs_pos_eq by (now apply rnd_nonneg).
    apply Rle_lt_trans with (IZR B); [apply UP; [nia|lia]|].
    pose proof (exact_bound B 0 ltac:(lia) ltac:(lia)) as EB. cbn [bpow] in EB. rewrite Rmult_1_r in EB.
    rewrite Rabs_pos_eq in EB; [exact EB|apply (IZR_le 0); lia]. }
  exists (Zceil (rnd X)). split; [now apply fceil_val|].
  assert (L : forall n, n * d <= B -> n <= Zceil (rnd X)).
  { intros n Hn. destruct (Z_lt_ge_dec n 0) as [N|N].
    - assert (0 <= Zceil (rnd X)); [|lia]. apply le_IZR. eapply Rle_trans; [|apply Zceil_ub]. now apply rnd_nonneg.
    - apply le_IZR. eapply Rle_trans; [|apply Zceil_ub]. apply LO; [exact Hn|]. assert (n <= B) by nia. lia. }
  split; [apply L; lia|]. split.
  { pose proof (L (B / d)) as Q. pose proof (Z.mul_div_le B d Hd). pose proof (Z.mul_succ_div_gt B d Hd).
    specialize (Q ltac:(lia)). nia. }
  split; [|exact L].
  intros n Hn. destruct (Z_lt_ge_dec B n) as [N|N].
  - assert (Zceil (rnd X) <= B); [|lia]. apply Zceil_glb. apply UP; [nia|lia].
  - apply Zceil_glb. apply UP; [exact Hn|]. assert (0 <= n) by nia. lia.
Qed.

Lemma fceil_nonneg M r D : fnonneg M = true -> fceil (fdiv M (fabs r)) = Ok D -> 0 <= D.
Proof.
  intros HM H. unfold fceil in H. destruct (is_finite (fdiv M (fabs r))) eqn:F; [|discriminate H].
  injection H as <-.
  set (q := fdiv M (fabs r)) in *.
  assert (V : val q (B2R q)) by (now split).
  assert (0 <= B2R q)%R.
  2:{ replace (- ffloor (fopp q)) with (Zceil (B2R q)).
      - apply le_IZR. eapply Rle_trans; [exact H|apply Zceil_ub].
      - pose proof (fceil_val q _ V) as E. unfold fceil in E. rewrite F in E. injection E as E. now rewrite E. }
  assert (S : Bsign q = false \/ B2R q = 0%R).
  { destruct (fnonneg_sign M) as [H1 _]. destruct (H1 HM) as [OK [Z0|SG]]; clear H1.
    - unfold q in *. destruct Z0 as (s0 & ->). destruct r; try discriminate F; right; reflexivity.
    - destruct r as [s|s| |s m e Hb].
      + unfold q in *. destruct M; try discriminate F.
      + unfold q in *. destruct M; try discriminate F; right; reflexivity.
      + unfold q in *. destruct M; discriminate F.
      + pose proof (@Bdiv_correct 53 1024 f64_prec f64_emax mode_NE M (fabs (B754_finite s m e Hb))) as C.
        fold (fdiv M (fabs (B754_finite s m e Hb))) in C. fold q in C.
        assert (NZ : B2R (fabs (B754_finite s m e Hb)) <> 0%R) by (cbn; intros E; apply eq_0_F2R in E; cbn in E; discriminate E).
        specialize (C NZ). left. match type of C with if ?b then _ else _ => destruct b end.
        * destruct C as (_ & _ & C). rewrite C; [|clear -F; now destruct q]. rewrite SG. reflexivity.
        * clearbody q. clear -C F SG. destruct q; cbn in C; try discriminate F; discriminate C. }
  destruct S as [S|S]; [|rewrite S; lra]. clearbody q. destruct q as [s|s| |s m e Hb]; cbn in *; try lra.
  subst s. apply F2R_ge_0. cbn. lia.
Qed.

(* ---------------- blocks ---------------- *)

Lemma grid_shaped2 {B} ny nx (a : list (list B)) : grid ny nx a <-> shaped2 ny nx a.
Proof.
  unfold grid, shaped2. split; intros [L H]; (split; [exact L|]).
  - apply Forall_forall. intros row I. apply in_get in I. destruct I as (i & G). eauto.
  - intros i row G. rewrite Forall_forall in H. apply H. eapply get_in; eauto.
Qed.

(* the chunk of cell (i, j) *)
Definition chunk_of (ycs xcs : list Z) (i j : Z) : chunk :=
  let rs := snd (loc_of ycs i) in let cs := snd (loc_of xcs j) in mkChunk (fst rs) (snd rs) (fst cs) (snd cs).

Lemma chunk_of_range ny nx ycs xcs i j : cuts ny ycs -> cuts nx xcs -> 0 <= i < ny -> 0 <= j < nx ->
  let k := chunk_of ycs xcs i j in
  (0 <= k_r0 k <= k_r1 k /\ k_r1 k <= ny /\ 0 <= k_c0 k <= k_c1 k /\ k_c1 k <= nx)
  /\ k_r0 k <= i < k_r1 k /\ k_c0 k <= j < k_c1 k.
Proof.
  intros Cy Cx Hi Hj. destruct (cuts_sum _ _ Cy) as [Fy Sy]. destruct (cuts_sum _ _ Cx) as [Fx Sx].
  destruct (loc_of_in ycs i Fy ltac:(lia)) as [G2 R2]. destruct (loc_of_in xcs j Fx ltac:(lia)) as [G3 R3].
  unfold chunk_of. destruct (loc_of ycs i) as [ky [r0 r1]], (loc_of xcs j) as [kx [c0 c1]]. cbn [fst snd k_r0 k_r1 k_c0 k_c1] in *.
  pose proof (locations_range ycs Fy _ _ (get_in _ _ _ G2)). pose proof (locations_range xcs Fx _ _ (get_in _ _ _ G3)). lia.
Qed.

Lemma one_band bcs nb k bs : cuts nb bcs -> Forall (fun c => c = 1) bcs -> get (chunks_to_array_locations bcs) k = Ok bs ->
  snd bs - fst bs = 1 /\ 0 <= fst bs < nb.
Proof.
  intros C F G. destruct (cuts_sum _ _ C) as [Fc S]. destruct bs as [b0 b1]. cbn [fst snd].
  destruct (locations_spec bcs Fc) as (_ & _ & L). pose proof (L _ _ _ G) as E. apply get_in in E.
  rewrite Forall_forall in F. specialize (F _ E). pose proof (locations_range bcs Fc _ _ (get_in _ _ _ G)). lia.
Qed.

(* dask over the chunks of one band each *)
Section Mapped.
Context {A R : Type}.
Variables (dflt : R) (nb ny nx : Z) (bcs ycs xcs : list Z) (bands : arr3 A) (depth : Z * Z).
Variable run : list (list A) -> Z * Z -> chunk -> res (list (list R)).
Hypothesis (Cb : cuts nb bcs) (C1 : Forall (fun c => c = 1) bcs) (Cy : cuts ny ycs) (Cx : cuts nx xcs) (Nx : xcs <> []).
Hypothesis SH : shaped3 nb ny nx bands.
Hypothesis RUN : forall b band k, get bands b = Ok band ->
  0 <= k_r0 k <= k_r1 k /\ k_r1 k <= ny /\ 0 <= k_c0 k <= k_c1 k /\ k_c1 k <= nx ->
  exists out, run band depth k = Ok out /\ grid (k_r1 k - k_r0 k) (k_c1 k - k_c0 k) out.

Lemma mapped : exists G,
  dask_map_blocks (fun _ '(kb, ky, kx) =>
      let* bs := get (chunks_to_array_locations bcs) kb in
      let* rs := get (chunks_to_array_locations ycs) ky in
      let* cs := get (chunks_to_array_locations xcs) kx in
      if 1 <? snd bs - fst bs then Err TypeError
      else
        let* band := get bands (fst bs) in
        let* out := run band depth (mkChunk (fst rs) (snd rs) (fst cs) (snd cs)) in
        Ok [out]) (fun bs => snd bs - fst bs) (bcs, ycs, xcs) [] = Ok (tab3 nb ny nx G)
  /\ forall b i j band, get bands b = Ok band -> 0 <= i < ny -> 0 <= j < nx ->
       let k := chunk_of ycs xcs i j in
       exists out, run band depth k = Ok out /\ at2 out (i - k_r0 k) (j - k_c0 k) (G b i j).
Proof.
  destruct SH as [LB FB].
  match goal with |- exists G, dask_map_blocks ?f _ _ _ = _ /\ _ =>
    destruct (dask_blocks dflt f [] bcs ycs xcs nb ny nx Cb Cy Cx Nx) as (G & E & HG) end.
  { intros kb bs ky rs kx cs BA. pose proof (block_range _ _ _ _ _ _ _ _ _ _ Cb Cy Cx BA) as BR.
    destruct BA as (B1 & B2 & B3). destruct (one_band _ _ _ _ Cb C1 B1) as [S1 R1].
    cbn [map]. rewrite B1, B2, B3. cbn [rbind]. replace (1 <? snd bs - fst bs) with false by lia.
    destruct (get_range bands (fst bs)) as (band & EB); [lia|]. rewrite EB. cbn [rbind].
    destruct (RUN _ _ (mkChunk (fst rs) (snd rs) (fst cs) (snd cs)) EB) as (out & EO & SO); [cbn [k_r0 k_r1 k_c0 k_c1]; lia|].
    rewrite EO. cbn [rbind]. exists [out]. split; [reflexivity|]. unfold size. rewrite S1. split; [reflexivity|].
    constructor; [|constructor]. now apply grid_shaped2. }
  exists G. split; [exact E|]. intros b i j band EB Hi Hj k.
  pose proof (get_ok_range _ _ _ EB) as Rb.
  destruct (cuts_sum _ _ Cb) as [Fb Sb]. destruct (cuts_sum _ _ Cy) as [Fy Sy]. destruct (cuts_sum _ _ Cx) as [Fx Sx].
  destruct (loc_of_in bcs b Fb ltac:(lia)) as [G1 R1]. destruct (loc_of_in ycs i Fy ltac:(lia)) as [G2 R2]. destruct (loc_of_in xcs j Fx ltac:(lia)) as [G3 R3].
  unfold k, chunk_of. destruct (loc_of bcs b) as [kb bs]. destruct (loc_of ycs i) as [ky rs]. destruct (loc_of xcs j) as [kx cs]. cbn [fst snd k_r0 k_c0] in *.
  destruct (one_band _ _ _ _ Cb C1 G1) as [S1 R0]. assert (Eb : fst bs = b) by lia.
  specialize (HG kb bs ky rs kx cs (conj G1 (conj G2 G3))). cbn [map] in HG. rewrite G1, G2, G3 in HG. cbn [rbind] in HG.
  replace (1 <? snd bs - fst bs) with false in HG by lia. rewrite Eb, EB in HG. cbn [rbind] in HG.
  destruct (run band depth (mkChunk (fst rs) (snd rs) (fst cs) (snd cs))) as [out|e] eqn:EO; [|discriminate HG]. cbn [rbind] in HG.
  exists out. split; [reflexivity|].
  assert (EQ : [out] = tab3 (size bs) (size rs) (size cs) (fun b0 i0 j0 => G (b + b0) (fst rs + i0) (fst cs + j0))) by congruence.
  unfold size at 1 in EQ. rewrite S1 in EQ. unfold tab3, tab in EQ. cbn [map zrange] in EQ. change (zrange 0 1) with [0] in EQ. cbn [map] in EQ.
  injection EQ as EQ. rewrite EQ.
  pose proof (at2_tab (size rs) (size cs) (fun i0 j0 => G (b + 0) (fst rs + i0) (fst cs + j0)) (i - fst rs) (j - fst cs)) as AT.
  cbv beta in AT. replace (b + 0) with b in * by lia. replace (fst rs + (i - fst rs)) with i in AT by lia. replace (fst cs + (j - fst cs)) with j in AT by lia.
  apply AT; unfold size; lia.
Qed.
End Mapped.

(* ---------------- the whole raster ---------------- *)

Definition mapped_blocks {A R} (bcs ycs xcs : list Z) (bands : arr3 A) (depth : Z * Z)
  (run : list (list A) -> Z * Z -> chunk -> res (list (list R))) : res (arr3 R) :=
  dask_map_blocks (fun _ '(kb, ky, kx) =>
      let* bs := get (chunks_to_array_locations bcs) kb in
      let* rs := get (chunks_to_array_locations ycs) ky in
      let* cs := get (chunks_to_array_locations xcs) kx in
      if 1 <? snd bs - fst bs then Err TypeError
      else
        let* band := get bands (fst bs) in
        let* out := run band depth (mkChunk (fst rs) (snd rs) (fst cs) (snd cs)) in
        Ok [out]) (fun bs => snd bs - fst bs) (bcs, ycs, xcs) [].

Definition depth_of (d : option (Z * Z)) : Z * Z := match d with None => (0, 0) | Some d => d end.

Lemma cuts_ones nb : 0 <= nb -> cuts nb (full nb 1) /\ Forall (fun c => c = 1) (full nb 1).
Proof.
  intros H. unfold full. replace nb with (Z.of_nat (Z.to_nat nb)) at 1 by lia. generalize (Z.to_nat nb) as n. intros n.
  assert (F : Forall (fun c => c = 1) (repeat 1 n)) by (apply Forall_forall; intros x I; now apply repeat_spec in I).
  split; [split|exact F]; [eapply Forall_impl; [|exact F]; cbn; intros; lia|]. clear F. induction n as [|n IH]; [reflexivity|].
  cbn [repeat fold_right]. rewrite IH. lia.
Qed.
Lemma cuts_one n : 0 < n -> cuts n [n] /\ [n] <> [].
Proof. intros H. split; [split|discriminate]; [constructor; [lia|constructor]|cbn; lia]. Qed.

Lemma pa_depth_nonneg m dist cached xc yc M d : fnonneg M = true -> pa_depth m dist cached xc yc M = Ok d ->
  0 <= fst (depth_of d) /\ 0 <= snd (depth_of d).
Proof.
  intros HM H. unfold pa_depth in H.
  apply rbind_ok in H as (x0 & _ & H). apply rbind_ok in H as (y0 & _ & H). apply rbind_ok in H as (x1 & _ & H). apply rbind_ok in H as (y1 & _ & H).
  destruct (fleb _ M); [injection H as <-; cbn; lia|].
  apply rbind_ok in H as ([rx ry] & _ & H). apply rbind_ok in H as (dx & Ex & H). apply rbind_ok in H as (dy & Ey & H).
  injection H as <-. cbn. split; eapply fceil_nonneg; eauto.
Qed.

Section Plan.
Context {A : Type}.
Variables (m : metric) (dist : distance) (tf : bool) (cached : option (f64 * f64)) (xc yc : list f64) (M : f64)
  (bcs ycs xcs : list Z) (bands : arr3 A) (nb ny nx : Z).
Hypothesis IN : input nb ny nx xc yc (bcs, ycs, xcs) bands.
Hypothesis HM : fnonneg M = true.

Definition planned (d : option (Z * Z)) (bcs' ycs' xcs' : list Z) : Prop :=
  (0 <= fst (depth_of d) /\ 0 <= snd (depth_of d))
  /\ cuts nb bcs' /\ Forall (fun c => c = 1) bcs' /\ cuts ny ycs' /\ cuts nx xcs' /\ xcs' <> []
  /\ (d = None -> ycs' = [ny] /\ xcs' = [nx])
  /\ forall R run, proximity_analysis (R := R) m dist tf cached xc yc M (bcs, ycs, xcs) bands run
       = mapped_blocks bcs' ycs' xcs' bands (depth_of d) run.

Definition accepted : Prop :=
  tf = true /\ fleb M fzero = false /\ (if is_great_circle m then validate_lonlat xc yc else Ok tt) = Ok tt.

Lemma plan_ok d : accepted -> pa_depth m dist cached xc yc M = Ok d ->
  fst (depth_of d) <= ny -> snd (depth_of d) <= nx -> exists bcs' ycs' xcs', planned d bcs' ycs' xcs'.
Proof.
  intros (TF & NM & V) E Ly Lx. pose proof (pa_depth_nonneg _ _ _ _ _ _ _ HM E) as P.
  destruct IN as [Hb Hy Hx Lxc Lyc SH (Cb & C1 & Cy & Ny & Cx & Nx)].
  destruct d as [[dy dx]|].
  - cbn [depth_of fst snd] in *.
    destruct (grow_ok (Sym dy) ny ycs) as (ycs' & Gy & _ & Cy' & Ny'); [unfold sides; cbn; lia|exact Ly|exact Cy|exact Ny|].
    destruct (grow_ok (Sym dx) nx xcs) as (xcs' & Gx & _ & Cx' & Nx'); [unfold sides; cbn; lia|exact Lx|exact Cx|exact Nx|].
    cbn [depth_for_axis] in *.
    exists bcs, ycs', xcs'. do 6 (split; [assumption|]). split; [discriminate|]. intros R run.
    unfold proximity_analysis. rewrite TF. cbn [negb]. rewrite NM, V. cbn [rbind]. rewrite E. cbn [rbind fst snd]. rewrite Gy. cbn [rbind]. rewrite Gx. reflexivity.
  - exists (full nb 1), [ny], [nx]. destruct (cuts_ones nb ltac:(lia)) as [O1 O2].
    destruct (cuts_one ny Hy) as [Y1 _]. destruct (cuts_one nx Hx) as [X1 X2].
    do 6 (split; [assumption|]). split; [auto|]. intros R run.
    unfold proximity_analysis. rewrite TF. cbn [negb]. rewrite NM, V. cbn [rbind]. rewrite E. cbn [rbind fst snd].
    change (grow 0 [len yc]) with (Ok [len yc]). change (grow 0 [len xc]) with (Ok [len xc]). cbn [rbind].
    rewrite (proj1 SH), Lxc, Lyc. reflexivity.
Qed.

Lemma grow_large d n c : n < d -> 0 <= n -> cuts n c -> c <> [] -> grow d c = Err ValueError.
Proof.
  intros L H C N. destruct (cuts_sum _ _ C) as [F S]. unfold grow. destruct (d =? 0) eqn:E; [lia|].
  apply (minimum_spec d c ltac:(lia) N F). lia.
Qed.

Lemma plan_large d : accepted -> pa_depth m dist cached xc yc M = Ok (Some d) ->
  ny < fst d \/ nx < snd d -> forall R run,
  proximity_analysis (R := R) m dist tf cached xc yc M (bcs, ycs, xcs) bands run = Err ValueError.
Proof.
  intros (TF & NM & V) E L R run. pose proof (pa_depth_nonneg _ _ _ _ _ _ _ HM E) as P. cbn [depth_of] in P.
  destruct IN as [Hb Hy Hx Lxc Lyc SH (Cb & C1 & Cy & Ny & Cx & Nx)].
  unfold proximity_analysis. rewrite TF. cbn [negb]. rewrite NM, V. cbn [rbind]. rewrite E. cbn [rbind].
  destruct (Z_lt_ge_dec ny (fst d)) as [G|G].
  - rewrite (grow_large _ ny) by (auto; lia). reflexivity.
  - destruct (grow_ok (Sym (fst d)) ny ycs) as (ycs' & Gy & _); [unfold sides; cbn; lia|cbn [depth_for_axis]; lia|exact Cy|exact Ny|].
    cbn [depth_for_axis] in Gy. rewrite Gy. cbn [rbind]. rewrite (grow_large _ nx) by (auto; lia). reflexivity.
Qed.

Lemma plan : (exists e, forall R run, proximity_analysis (R := R) m dist tf cached xc yc M (bcs, ycs, xcs) bands run = Err e)
  \/ exists d bcs' ycs' xcs', planned d bcs' ycs' xcs'.
Proof.
  assert (CT : tf = true \/ tf = false) by (destruct tf; auto).
  destruct CT as [ET|ET]; [|left; exists ValueError; intros; unfold proximity_analysis; now rewrite ET].
  destruct (fleb M fzero) eqn:EM; [left; exists ValueError; intros; unfold proximity_analysis; rewrite ET; cbn [negb]; now rewrite EM|].
  destruct (if is_great_circle m then validate_lonlat xc yc else Ok tt) as [[]|e] eqn:EV.
  2:{ left. exists e. intros. unfold proximity_analysis. rewrite ET. cbn [negb]. rewrite EM, EV. reflexivity. }
  assert (AC : accepted) by (repeat split; assumption).
  destruct (pa_depth m dist cached xc yc M) as [d|e] eqn:ED.
  2:{ left. exists e. intros. unfold proximity_analysis. rewrite ET. cbn [negb]. rewrite EM, EV. cbn [rbind]. rewrite ED. reflexivity. }
  destruct d as [d|].
  - destruct (Z_lt_ge_dec ny (fst d)) as [G|G]; [left; exists ValueError; intros; apply (plan_large d); auto|].
    destruct (Z_lt_ge_dec nx (snd d)) as [G'|G']; [left; exists ValueError; intros; apply (plan_large d); auto|].
    right. exists (Some d). apply plan_ok; auto; cbn [depth_of]; lia.
  - right. exists None. destruct IN. apply plan_ok; auto; cbn [depth_of fst snd]; lia.
Qed.
End Plan.
