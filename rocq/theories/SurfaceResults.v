(* The results of the surface operations, cell by cell. *)
From Verif Require Import Base BaseFacts Arr2 Arr2Facts Focal FocalSpec FocalValues FocalResults Surface.
From Coq Require Import Reals Lra.
From Verif Require Import SurfaceSpec SurfaceProofs SurfaceReal.
Open Scope Z_scope.

Section Any.
Context {F : Type} (A : arith F).
Variables (f16 : option F) (nv : F) (junk : Z -> Z -> arr2 F) (ny nx : Z) (ycs xcs : list Z) (rs : @sband F).
Hypotheses (J : allocates junk) (Hy : 0 < ny) (Hx : 0 < nx) (Cy : cuts ny ycs) (Cx : cuts nx xcs) (SH : band_shaped ny nx rs).

Lemma nulls fn : exists out m, surface_op A (kernel_of A fn) f16 nv junk ny nx ycs xcs rs = Ok (SBand out (Some m))
  /\ shaped2 ny nx out /\ shaped2 ny nx m
  /\ forall i j, 0 <= i < ny -> 0 <= j < nx ->
     at2 m i j (on_ring ny nx i j || is_null rs i j)
     /\ at2 out i j (if on_ring ny nx i j || is_null rs i j then nv else value_at A (kernel_of A fn) f16 rs i j).
Proof using J Hy Hx Cy Cx SH.
  do 2 eexists. split; [apply surface_op_spec; auto; apply kernel_local|].
  split; [apply rect_tab2; lia|]. split; [apply rect_tab2; lia|]. intros i j Hi Hj.
  split; [apply (at2_tab ny nx (fun i j => on_ring ny nx i j || is_null rs i j) i j Hi Hj)|].
  apply (at2_tab ny nx (fun i j => if on_ring ny nx i j || is_null rs i j then nv else value_at A (kernel_of A fn) f16 rs i j) i j Hi Hj).
Qed.
Lemma hillshade_nulls res0 res1 azimuth altitude : exists out m,
  hillshade A res0 res1 azimuth altitude f16 nv junk ny nx ycs xcs rs = Ok (SBand out (Some m))
  /\ forall i j, 0 <= i < ny -> 0 <= j < nx ->
     let v := value_at A (kernel_of A (Shade res0 res1 azimuth altitude)) f16 rs i j in
     let null := on_ring ny nx i j || is_null rs i j || eqb A v (lit A 255) in
     at2 m i j null /\ at2 out i j (if null then lit A 255 else to_u8 A v).
Proof using J Hy Hx Cy Cx SH.
  unfold hillshade. change (hillshade_kernel A res0 res1 azimuth altitude) with (kernel_of A (Shade res0 res1 azimuth altitude)).
  rewrite surface_op_spec by (auto; apply kernel_local). cbn [rbind].
  set (v := value_at A (kernel_of A (Shade res0 res1 azimuth altitude)) f16 rs). set (r := fun i j => on_ring ny nx i j || is_null rs i j).
  assert (E1 : forall (d : Z -> Z -> F) (m : Z -> Z -> bool), set_null_255 A (SBand (tab2 ny nx d) (Some (tab2 ny nx m)))
     = SBand (tab2 ny nx (fun i j => if m i j || eqb A (d i j) (lit A 255) then lit A 255 else d i j)) (Some (tab2 ny nx (fun i j => m i j || eqb A (d i j) (lit A 255))))).
  { intros d m. unfold set_null_255; cbn [s_data s_mask]. rewrite map2_tab, or2_tab, where2_tab. reflexivity. }
  rewrite !E1. cbn [s_data s_mask]. rewrite map2_tab, where2_tab.
  assert (NN : forall i j, (((r i j || eqb A (if r i j then nv else v i j) (lit A 255))
      || eqb A (if r i j || eqb A (if r i j then nv else v i j) (lit A 255) then lit A 255 else if r i j then nv else v i j) (lit A 255))
      = (r i j || eqb A (v i j) (lit A 255)))%bool).
  { intros i j. destruct (r i j); [reflexivity|]. cbn [orb]. destruct (eqb A (v i j) (lit A 255)) eqn:E; [reflexivity|]. exact E. }
  exists (tab2 ny nx (fun i j => if r i j || eqb A (v i j) (lit A 255) then lit A 255 else to_u8 A (v i j))),
    (tab2 ny nx (fun i j => r i j || eqb A (v i j) (lit A 255))). split.
  { f_equal. f_equal; [|f_equal]; apply tab2_ext; intros i j Hi Hj; change (on_ring ny nx i j || is_null rs i j) with (r i j);
    rewrite NN; [|reflexivity].
    destruct (r i j); [reflexivity|]. cbn [orb]. destruct (eqb A (v i j) (lit A 255)) eqn:E; [reflexivity|]. now rewrite ?E. }
  intros i j Hi Hj. cbv zeta. split; [exact (at2_tab ny nx (fun i j => r i j || eqb A (v i j) (lit A 255)) i j Hi Hj)|].
  exact (at2_tab ny nx (fun i j => if r i j || eqb A (v i j) (lit A 255) then lit A 255 else to_u8 A (v i j)) i j Hi Hj).
Qed.
Lemma northing_cells north : exists out m, northing_of_dem A north f16 nv junk ny nx ycs xcs rs = Ok (SBand out (Some m))
  /\ forall i j, 0 <= i < ny -> 0 <= j < nx ->
     at2 m i j (on_ring ny nx i j || is_null rs i j)
     /\ at2 out i j (if on_ring ny nx i j || is_null rs i j then nv else trig A north (value_at A (kernel_of A Aspect) f16 rs i j)).
Proof using J Hy Hx Cy Cx SH.
  unfold northing_of_dem. change (aspect_kernel A) with (kernel_of A Aspect). rewrite surface_op_spec by (auto; apply kernel_local). cbn [rbind].
  unfold northing_easting, null_to_nan; cbn [s_data s_mask]. rewrite where2_tab, map2_tab, where2_tab.
  set (v := value_at A (kernel_of A Aspect) f16 rs).
  do 2 eexists. split; [reflexivity|]. intros i j Hi Hj. split; [exact (at2_tab ny nx (fun i j => on_ring ny nx i j || is_null rs i j) i j Hi Hj)|].
  match goal with |- at2 (tab2 ny nx ?f) i j ?x => assert (EX : x = f i j) end.
  { cbv beta. fold (v i j). destruct (on_ring ny nx i j || is_null rs i j); reflexivity. }
  rewrite EX. now apply at2_tab.
Qed.
Lemma value_nan fn i j dr dc : nan_laws A -> f16 = None -> needs fn dr dc -> is_null rs (i + dr) (j + dc) = true ->
  value_at A (kernel_of A fn) f16 rs i j = nan A.
Proof.
  intros NL -> N H. unfold value_at. apply (nan_centre A fn _ dr dc NL N). unfold filled. now rewrite H.
Qed.
End Any.

(* the elevations around cell (i, j), all of them valid *)
Definition elevations (rs : @sband (option R)) (i j : Z) (z : Z -> Z -> R) : Prop :=
  forall dr dc, -1 <= dr <= 1 -> -1 <= dc <= 1 ->
    is_null rs (i + dr) (j + dc) = false /\ at2 (s_data rs) (i + dr) (j + dc) (Some (z dr dc)).
Lemma at2_val {A} (d : A) a i j x : at2 a i j x -> val2 d a i j = x.
Proof. intros (row & G1 & G2). unfold val2. now rewrite G1, G2. Qed.
Lemma value_exact r32 u8 k f16 rs i j z : elevations rs i j z -> value_at (exact r32 u8) k f16 rs i j = at_centre (exact r32 u8) k (some2 z).
Proof.
  intros H. unfold value_at. apply at_centre_ext. intros di dj Hdi Hdj. destruct (H di dj Hdi Hdj) as [N V]. unfold filled. rewrite N.
  exact (at2_val _ _ _ _ _ V).
Qed.
Lemma inner_valid rs ny nx i j z : 0 < i < ny - 1 -> 0 < j < nx - 1 -> elevations rs i j z -> on_ring ny nx i j || is_null rs i j = false.
Proof.
  intros Hi Hj H. destruct (H 0 0) as [N _]; try lia. rewrite !Z.add_0_r in N. rewrite N. unfold on_ring. lia.
Qed.

Section Exact.
Variables (r32 u8 : option R -> option R) (f16 : option (option R)) (nv : option R) (junk : Z -> Z -> arr2 (option R)) (ny nx : Z) (ycs xcs : list Z)
  (rs : @sband (option R)) (i j : Z) (z : Z -> Z -> R).
Hypotheses (J : allocates junk) (Hi : 0 < i < ny - 1) (Hj : 0 < j < nx - 1) (Cy : cuts ny ycs) (Cx : cuts nx xcs) (SH : band_shaped ny nx rs)
  (EL : elevations rs i j z).
Notation E := (exact r32 u8).

Lemma exact_cell fn v : at_centre E (kernel_of E fn) (some2 z) = v ->
  exists out m, surface_op E (kernel_of E fn) f16 nv junk ny nx ycs xcs rs = Ok (SBand out (Some m)) /\ at2 m i j false /\ at2 out i j v.
Proof using J Hi Hj Cy Cx SH EL.
  intros V. destruct (nulls E f16 nv junk ny nx ycs xcs rs J ltac:(lia) ltac:(lia) Cy Cx SH fn) as (out & m & S & _ & _ & C).
  exists out, m. split; [exact S|]. destruct (C i j) as [C1 C2]; try lia. rewrite (inner_valid rs ny nx i j z Hi Hj EL) in C1, C2.
  rewrite (value_exact r32 u8 _ f16 rs i j z EL), V in C2. auto.
Qed.
Lemma slope_cell res0 res1 degrees : (res0 <> 0 -> res1 <> 0 ->
  exists out m, surface_op E (kernel_of E (Slope (Some res0) (Some res1) degrees)) f16 nv junk ny nx ycs xcs rs = Ok (SBand out (Some m))
   /\ at2 m i j false /\ at2 out i j (Some (slope_spec res0 res1 degrees z)))%R.
Proof using J Hi Hj Cy Cx SH EL. intros. apply exact_cell. now apply slope_exact. Qed.
Lemma aspect_cell : exists out m a, surface_op E (kernel_of E Aspect) f16 nv junk ny nx ycs xcs rs = Ok (SBand out (Some m))
   /\ at2 m i j false /\ at2 out i j (Some a) /\ aspect_spec z a.
Proof using J Hi Hj Cy Cx SH EL.
  destruct (aspect_exact r32 u8 z) as (a & V & S). destruct (exact_cell Aspect _ V) as (out & m & H1 & H2 & H3). now exists out, m, a.
Qed.
Lemma curvature_cell res0 res1 : (res0 <> 0 -> res1 <> 0 ->
  exists out m, surface_op E (kernel_of E (Curvature (Some res0) (Some res1))) f16 nv junk ny nx ycs xcs rs = Ok (SBand out (Some m))
   /\ at2 m i j false /\ at2 out i j (Some (curvature_spec res0 res1 z)))%R.
Proof using J Hi Hj Cy Cx SH EL. intros. apply exact_cell. now apply curvature_exact. Qed.
Lemma area_cell s :
  exists out m, surface_op E (kernel_of E (SurfaceArea (Some s))) f16 nv junk ny nx ycs xcs rs = Ok (SBand out (Some m))
   /\ at2 m i j false /\ at2 out i j (Some (area_spec s z)).
Proof using J Hi Hj Cy Cx SH EL. apply exact_cell. apply area_exact. Qed.
Lemma hillshade_cell res0 res1 azimuth altitude : (res0 <> 0 -> res1 <> 0 ->
  exists out m, hillshade E (Some res0) (Some res1) (Some azimuth) (Some altitude) f16 nv junk ny nx ycs xcs rs = Ok (SBand out (Some m))
   /\ let v := r32 (Some (hillshade_spec res0 res1 azimuth altitude z)) in
      (v = Some 255 -> at2 m i j true /\ at2 out i j (Some 255)) /\ (v <> Some 255 -> at2 m i j false /\ at2 out i j (u8 v)))%R.
Proof using J Hi Hj Cy Cx SH EL.
  intros N0 N1. destruct (hillshade_nulls E f16 nv junk ny nx ycs xcs rs J ltac:(lia) ltac:(lia) Cy Cx SH (Some res0) (Some res1) (Some azimuth) (Some altitude)) as (out & m & S & C).
  exists out, m. split; [exact S|]. destruct (C i j) as [C1 C2]; try lia. rewrite (inner_valid rs ny nx i j z Hi Hj EL) in C1, C2.
  rewrite (value_exact r32 u8 _ f16 rs i j z EL), (hillshade_exact r32 u8 res0 res1 azimuth altitude z N0 N1) in C1, C2. cbn [orb] in C1, C2.
  cbv zeta. set (v := r32 (Some (hillshade_spec res0 res1 azimuth altitude z))) in *.
  change (to_u8 E v) with (u8 v) in C2. change (lit E 255) with (Some 255%R) in C1, C2.
  assert (Q : eqb E v (Some 255%R) = true <-> v = Some 255%R).
  { cbn. destruct v as [x|]; cbn; [|split; discriminate]. unfold Reqb. destruct (Req_EM_T x 255) as [->|N]; [tauto|]. split; [discriminate|]. now intros [= ->]. }
  split; intros H.
  - rewrite (proj2 Q H) in C1, C2. auto.
  - destruct (eqb E v (Some 255%R)) eqn:EQ; [tauto|]. auto.
Qed.
(* northing and easting: the horizontal direction in which the surface falls *)
Lemma northing_cell north : (grad_x 1 z <> 0 \/ grad_y (-1) z <> 0)%R ->
  exists out m v, northing_of_dem E north f16 nv junk ny nx ycs xcs rs = Ok (SBand out (Some m))
   /\ at2 m i j false /\ at2 out i j (Some v)
   /\ (length2 (grad_x 1 z) (grad_y (-1) z) * v = - (if north then grad_y (-1) z else grad_x 1 z))%R.
Proof using J Hi Hj Cy Cx SH EL.
  intros NF. destruct (northing_cells E f16 nv junk ny nx ycs xcs rs J ltac:(lia) ltac:(lia) Cy Cx SH north) as (out & m & S & C).
  destruct (C i j) as [C1 C2]; try lia. rewrite (inner_valid rs ny nx i j z Hi Hj EL) in C1, C2.
  destruct (aspect_exact r32 u8 z) as (a & V & SP). rewrite (value_exact r32 u8 _ f16 rs i j z EL), V in C2.
  unfold trig, degrees_to_radians in C2. cbn in C2. destruct (Req_EM_T 180 0) as [Z0|_]; [lra|]. cbn in C2.
  change (a * (PI / 180))%R with (radians_of a) in C2.
  exists out, m. unfold aspect_spec in SP. cbv zeta in SP. destruct SP as [[? [? _]]|[_ [_ [SN CS]]]]; [tauto|].
  destruct north; eexists; (split; [exact S|]); (split; [exact C1|]); (split; [exact C2|]); assumption.
Qed.
Lemma northing_flat : (grad_x 1 z = 0)%R -> (grad_y (-1) z = 0)%R ->
  exists out m, northing_of_dem E true f16 nv junk ny nx ycs xcs rs = Ok (SBand out (Some m))
   /\ at2 m i j false /\ at2 out i j (Some (Rtrigo_def.cos (PI / 180))).
Proof using J Hi Hj Cy Cx SH EL.
  intros X0 Y0. destruct (northing_cells E f16 nv junk ny nx ycs xcs rs J ltac:(lia) ltac:(lia) Cy Cx SH true) as (out & m & S & C).
  destruct (C i j) as [C1 C2]; try lia. rewrite (inner_valid rs ny nx i j z Hi Hj EL) in C1, C2.
  destruct (aspect_exact r32 u8 z) as (a & V & SP). rewrite (value_exact r32 u8 _ f16 rs i j z EL), V in C2.
  unfold trig, degrees_to_radians in C2. cbn in C2. destruct (Req_EM_T 180 0) as [Z0|_]; [lra|]. cbn in C2.
  exists out, m. split; [exact S|]. split; [exact C1|]. destruct SP as [[_ [_ A1]]|[[?|?] _]]; try tauto.
  rewrite A1 in C2. replace (-1 * (PI / 180))%R with (- (PI / 180))%R in C2 by ring. now rewrite cos_neg in C2.
Qed.
End Exact.

Lemma nulls_only {F} (A : arith F) fn f16 nv junk ny nx ycs xcs rs :
  allocates junk -> 0 < ny -> 0 < nx -> cuts ny ycs -> cuts nx xcs -> band_shaped ny nx rs ->
  exists out m, surface_op A (kernel_of A fn) f16 nv junk ny nx ycs xcs rs = Ok (SBand out (Some m))
  /\ shaped2 ny nx out /\ shaped2 ny nx m
  /\ forall i j, 0 <= i < ny -> 0 <= j < nx ->
     at2 m i j (on_ring ny nx i j || is_null rs i j)
     /\ (on_ring ny nx i j || is_null rs i j = true -> at2 out i j nv)
     /\ (on_ring ny nx i j || is_null rs i j = false -> nan_laws A -> f16 = None ->
         forall dr dc, needs fn dr dc -> is_null rs (i + dr) (j + dc) = true -> at2 out i j (nan A)).
Proof.
  intros J Hy Hx Cy Cx SH. destruct (nulls A f16 nv junk ny nx ycs xcs rs J Hy Hx Cy Cx SH fn) as (out & m & S & S1 & S2 & C).
  exists out, m. repeat (split; [assumption|]). intros i j Hi Hj. destruct (C i j Hi Hj) as [C1 C2]. split; [exact C1|].
  split; [intros E; now rewrite E in C2|]. intros E NL F16 dr dc N IN. rewrite E in C2.
  now rewrite (value_nan A f16 rs fn i j dr dc NL F16 N IN) in C2.
Qed.
Lemma chunks_irrelevant {F} (A : arith F) fn f16 nv junk junk' ny nx ycs xcs ycs' xcs' rs :
  allocates junk -> allocates junk' -> 0 < ny -> 0 < nx -> cuts ny ycs -> cuts nx xcs -> cuts ny ycs' -> cuts nx xcs' -> band_shaped ny nx rs ->
  surface_op A (kernel_of A fn) f16 nv junk ny nx ycs xcs rs = surface_op A (kernel_of A fn) f16 nv junk' ny nx ycs' xcs' rs.
Proof. intros. rewrite !surface_op_spec by (auto; apply kernel_local). reflexivity. Qed.
Lemma hillshade_ring {F} (A : arith F) res0 res1 azimuth altitude f16 nv junk ny nx ycs xcs rs :
  allocates junk -> 0 < ny -> 0 < nx -> cuts ny ycs -> cuts nx xcs -> band_shaped ny nx rs ->
  exists out m, hillshade A res0 res1 azimuth altitude f16 nv junk ny nx ycs xcs rs = Ok (SBand out (Some m))
  /\ forall i j, 0 <= i < ny -> 0 <= j < nx -> on_ring ny nx i j || is_null rs i j = true -> at2 m i j true /\ at2 out i j (lit A 255).
Proof.
  intros J Hy Hx Cy Cx SH. destruct (hillshade_nulls A f16 nv junk ny nx ycs xcs rs J Hy Hx Cy Cx SH res0 res1 azimuth altitude) as (out & m & S & C).
  exists out, m. split; [exact S|]. intros i j Hi Hj E. specialize (C i j Hi Hj). cbv zeta in C. now rewrite E in C.
Qed.

Lemma plane_slope res0 res1 c p q : (res0 <> 0 -> res1 <> 0 ->
  slope_spec res0 res1 true (plane res0 res1 c p q) = Ratan.atan (R_sqrt.sqrt (p * p + q * q)) * (180 / PI))%R.
Proof. intros N0 N1. unfold slope_spec, length2. now destruct (plane_gradient res0 res1 c p q N0 N1) as [-> ->]. Qed.
Lemma overhead_flat res0 res1 azimuth c : (res0 <> 0 -> res1 <> 0 ->
  hillshade_spec res0 res1 azimuth 90 (fun _ _ => c) = 255)%R.
Proof.
  intros N0 N1. unfold hillshade_spec, norm, dot, normal, sun.
  replace (grad_x res0 (fun _ _ => c)) with 0%R by (unfold grad_x, sum3; field; auto).
  replace (grad_y res1 (fun _ _ => c)) with 0%R by (unfold grad_y, sum3; field; auto).
  replace (radians_of 90) with (PI / 2)%R by (unfold radians_of; field). rewrite cos_PI2, sin_PI2.
  replace (- 0 * - 0 + - 0 * - 0 + 1 * 1)%R with 1%R by ring. rewrite sqrt_1.
  rewrite Rmax_right; lra.
Qed.

(* a flat raster with the sun overhead *)
Definition junk_r (n m : Z) : arr2 (option R) := full n (full m None).
Lemma junk_r_ok : allocates junk_r.
Proof.
  intros n m Hn Hm. split; [now apply BaseFacts.full_len|]. apply Forall_forall. intros r Hr.
  unfold junk_r, full in Hr. apply repeat_spec in Hr. subst. now apply BaseFacts.full_len.
Qed.
Definition flat : @sband (option R) := SBand (full 3 (full 3 (Some 7%R))) None.
Lemma overhead_null u8 : exists out m,
  hillshade (exact (fun x => x) u8) (Some 1%R) (Some (-1)%R) (Some 315%R) (Some 90%R) None None junk_r 3 3 [3] [3] flat = Ok (SBand out (Some m))
  /\ is_null flat 1 1 = false /\ on_ring 3 3 1 1 = false /\ at2 m 1 1 true.
Proof.
  destruct (hillshade_cell (fun x => x) u8 None None junk_r 3 3 [3] [3] flat 1 1 (fun _ _ => 7%R)) with (res0 := 1%R) (res1 := (-1)%R) (azimuth := 315%R) (altitude := 90%R)
    as (out & m & H & V & _); try lia; try lra.
  - exact junk_r_ok.
  - split; [repeat constructor; lia|reflexivity].
  - split; [repeat constructor; lia|reflexivity].
  - split; [|exact I]. split; [reflexivity|]. repeat constructor.
  - intros dr dc H1 H2. split; [reflexivity|].
    assert (D : dr = -1 \/ dr = 0 \/ dr = 1) by lia. assert (D' : dc = -1 \/ dc = 0 \/ dc = 1) by lia.
    destruct D as [-> | [-> | ->]], D' as [-> | [-> | ->]]; eexists; split; reflexivity.
  - exists out, m. split; [exact H|]. split; [reflexivity|]. split; [reflexivity|].
    cbv zeta in V. rewrite overhead_flat in V by lra. now apply V.
Qed.
