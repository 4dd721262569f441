(* C49, C53, C54: surface operations.  [cuts n cs]: the chunk sizes cs cut n
   cells; [allocates junk]: junk n m is some n x m array (np.empty). *)
From Coq Require Import QArith Reals Lra.
From Verif Require Import Base Arr2 Focal FocalSpec FocalResults Surface SurfaceSpec SurfaceProofs SurfaceReal SurfaceResults.
Open Scope Z_scope.

(* ---- C49: nulls, in any arithmetic ---- *)
(* The output is null exactly on the outermost ring and where the input is null.
   A valid cell that needs a null neighbour becomes NaN without being null. *)
Theorem C49_nulls {F} (A : arith F) fn f16 nv junk ny nx ycs xcs rs :
  allocates junk -> 0 < ny -> 0 < nx -> cuts ny ycs -> cuts nx xcs -> band_shaped ny nx rs ->
  exists out m, surface_op A (kernel_of A fn) f16 nv junk ny nx ycs xcs rs = Ok (SBand out (Some m))
  /\ shaped2 ny nx out /\ shaped2 ny nx m
  /\ forall i j, 0 <= i < ny -> 0 <= j < nx ->
     at2 m i j (on_ring ny nx i j || is_null rs i j)
     /\ (on_ring ny nx i j || is_null rs i j = true -> at2 out i j nv)
     /\ (on_ring ny nx i j || is_null rs i j = false -> nan_laws A -> f16 = None ->
         forall dr dc, needs fn dr dc -> is_null rs (i + dr) (j + dc) = true -> at2 out i j (nan A)).
Proof. exact (nulls_only A fn f16 nv junk ny nx ycs xcs rs). Qed.
Print Assumptions C49_nulls.

Theorem C49_chunks {F} (A : arith F) fn f16 nv junk junk' ny nx ycs xcs ycs' xcs' rs :
  allocates junk -> allocates junk' -> 0 < ny -> 0 < nx -> cuts ny ycs -> cuts nx xcs -> cuts ny ycs' -> cuts nx xcs' -> band_shaped ny nx rs ->
  surface_op A (kernel_of A fn) f16 nv junk ny nx ycs xcs rs = surface_op A (kernel_of A fn) f16 nv junk' ny nx ycs' xcs' rs.
Proof. exact (chunks_irrelevant A fn f16 nv junk junk' ny nx ycs xcs ycs' xcs' rs). Qed.
Print Assumptions C49_chunks.

Theorem C49_hillshade {F} (A : arith F) res0 res1 azimuth altitude f16 nv junk ny nx ycs xcs rs :
  allocates junk -> 0 < ny -> 0 < nx -> cuts ny ycs -> cuts nx xcs -> band_shaped ny nx rs ->
  exists out m, hillshade A res0 res1 azimuth altitude f16 nv junk ny nx ycs xcs rs = Ok (SBand out (Some m))
  /\ forall i j, 0 <= i < ny -> 0 <= j < nx -> on_ring ny nx i j || is_null rs i j = true -> at2 m i j true /\ at2 out i j (lit A 255).
Proof. exact (hillshade_ring A res0 res1 azimuth altitude f16 nv junk ny nx ycs xcs rs). Qed.
Print Assumptions C49_hillshade.

(* Rational arithmetic with a NaN.  The roots and angles, which curvature does
   not use, are placeholders. *)
Definition rational : arith (option Q) :=
  let l2 f x y := match x, y with Some x, Some y => Some (Qred (f x y)) | _, _ => None end in
  let c f x y := match x, y with Some x, Some y => f x y | _, _ => false end in
  {| nan := None; lit := fun z => Some (inject_Z z); half := Some (1 # 2)%Q; pi := Some (22 # 7)%Q;
     add := l2 Qplus; sub := l2 Qminus; mul := l2 Qmult; div := l2 Qdiv; opp := option_map Qopp;
     Surface.sqrt := fun x => x; Surface.atan := fun x => x; atan2 := l2 Qplus; Surface.cos := fun x => x; Surface.sin := fun x => x;
     eqb := c Qeq_bool; ltb := c (fun x y => negb (Qle_bool y x)); Surface.leb := c Qle_bool;
     round32 := fun x => x; to_u8 := fun x => x |}.
Definition junk_q (n m : Z) : arr2 (option Q) := full n (full m (Some 77%Q)).
Definition q_raster (l : list (list Z)) (m : option (arr2 bool)) : sband := SBand (map (map (fun z => Some (inject_Z z))) l) m.
Definition hole : sband := q_raster [[1; 2; 3; 4]; [5; 9; 7; 8]; [9; 10; 11; 12]; [13; 14; 15; 16]]
  (Some [[false; false; false; false]; [false; false; true; false]; [false; false; false; false]; [false; false; false; false]]).

Example C49_rational_laws : nan_laws rational.
Proof. constructor; cbn; intros; try destruct x; reflexivity. Qed.
Example C49_exact_laws r32 u8 : nan_laws (exact r32 u8).
Proof. constructor; cbn; intros; try destruct x; reflexivity. Qed.
(* a 4 x 4 raster with one null, in one chunk and in four: cells (1, 1) and
   (2, 2), beside the null, are NaN (None) but not null *)
Example C49_ex :
  let ring i := map (fun j => (i =? 0) || (i =? 3) || (j =? 0) || (j =? 3)) [0; 1; 2; 3] in
  let nv := Some (-999999)%Q in
  let expected := SBand [[nv; nv; nv; nv]; [nv; None; nv; nv]; [nv; Some (-300)%Q; None; nv]; [nv; nv; nv; nv]]
                        (Some [ring 0; [true; false; true; true]; ring 2; ring 3]) in
  surface_op rational (kernel_of rational (Curvature (Some 1%Q) (Some 1%Q))) None nv junk_q 4 4 [4] [4] hole = Ok expected
  /\ surface_op rational (kernel_of rational (Curvature (Some 1%Q) (Some 1%Q))) None nv junk_q 4 4 [1; 3] [2; 2] hole = Ok expected
  /\ needs (Curvature (Some 1%Q) (Some 1%Q)) 0 1 /\ is_null hole 1 2 = true.
Proof. vm_compute. repeat split. Qed.

(* "null wherever a needed neighbour is null" does not hold *)
Theorem C49_null_neighbour_refuted : exists out m,
  surface_op rational (kernel_of rational (Curvature (Some 1%Q) (Some 1%Q))) None (Some (-999999)%Q) junk_q 4 4 [4] [4] hole = Ok (SBand out (Some m))
  /\ is_null hole 1 2 = true /\ needs (Curvature (Some 1%Q) (Some 1%Q)) 0 1
  /\ at2 m 1 1 false /\ at2 out 1 1 None.
Proof. do 2 eexists. split; [vm_compute; reflexivity|]. repeat split; eexists; split; vm_compute; reflexivity. Qed.
Print Assumptions C49_null_neighbour_refuted.

(* A masked raster of 8 bits (or float16) gets its null value written back into
   the null cells: the null value, here 255, takes part in the curvature of its
   neighbours. *)
Theorem C49_float16_refuted : exists out m,
  surface_op rational (kernel_of rational (Curvature (Some 1%Q) (Some 1%Q))) (Some (Some 255%Q)) (Some (-999999)%Q) junk_q 4 4 [4] [4] hole = Ok (SBand out (Some m))
  /\ is_null hole 1 2 = true /\ needs (Curvature (Some 1%Q) (Some 1%Q)) 0 1
  /\ at2 m 1 1 false /\ at2 out 1 1 (Some (-23600)%Q).
Proof. do 2 eexists. split; [vm_compute; reflexivity|]. repeat split; eexists; split; vm_compute; reflexivity. Qed.
Print Assumptions C49_float16_refuted.

(* ---- C53: slope, aspect, curvature, hillshade in exact arithmetic ---- *)
(* [elevations rs i j z]: the cells around (i, j) are valid, with elevations z *)
Theorem C53_slope r32 u8 f16 nv junk ny nx ycs xcs rs i j z res0 res1 degrees :
  allocates junk -> 0 < i < ny - 1 -> 0 < j < nx - 1 -> cuts ny ycs -> cuts nx xcs -> band_shaped ny nx rs -> elevations rs i j z ->
  (res0 <> 0 -> res1 <> 0 ->
  exists out m, surface_op (exact r32 u8) (kernel_of (exact r32 u8) (Slope (Some res0) (Some res1) degrees)) f16 nv junk ny nx ycs xcs rs = Ok (SBand out (Some m))
   /\ at2 m i j false /\ at2 out i j (Some (slope_spec res0 res1 degrees z)))%R.
Proof. intros J Hi Hj Cy Cx SH EL. exact (slope_cell r32 u8 f16 nv junk ny nx ycs xcs rs i j z J Hi Hj Cy Cx SH EL res0 res1 degrees). Qed.
Print Assumptions C53_slope.

Theorem C53_aspect r32 u8 f16 nv junk ny nx ycs xcs rs i j z :
  allocates junk -> 0 < i < ny - 1 -> 0 < j < nx - 1 -> cuts ny ycs -> cuts nx xcs -> band_shaped ny nx rs -> elevations rs i j z ->
  exists out m a, surface_op (exact r32 u8) (kernel_of (exact r32 u8) Aspect) f16 nv junk ny nx ycs xcs rs = Ok (SBand out (Some m))
   /\ at2 m i j false /\ at2 out i j (Some a) /\ aspect_spec z a.
Proof. exact (aspect_cell r32 u8 f16 nv junk ny nx ycs xcs rs i j z). Qed.
Print Assumptions C53_aspect.

Theorem C53_curvature r32 u8 f16 nv junk ny nx ycs xcs rs i j z res0 res1 :
  allocates junk -> 0 < i < ny - 1 -> 0 < j < nx - 1 -> cuts ny ycs -> cuts nx xcs -> band_shaped ny nx rs -> elevations rs i j z ->
  (res0 <> 0 -> res1 <> 0 ->
  exists out m, surface_op (exact r32 u8) (kernel_of (exact r32 u8) (Curvature (Some res0) (Some res1))) f16 nv junk ny nx ycs xcs rs = Ok (SBand out (Some m))
   /\ at2 m i j false /\ at2 out i j (Some (curvature_spec res0 res1 z)))%R.
Proof. intros J Hi Hj Cy Cx SH EL. exact (curvature_cell r32 u8 f16 nv junk ny nx ycs xcs rs i j z J Hi Hj Cy Cx SH EL res0 res1). Qed.
Print Assumptions C53_curvature.

Theorem C53_hillshade r32 u8 f16 nv junk ny nx ycs xcs rs i j z res0 res1 azimuth altitude :
  allocates junk -> 0 < i < ny - 1 -> 0 < j < nx - 1 -> cuts ny ycs -> cuts nx xcs -> band_shaped ny nx rs -> elevations rs i j z ->
  (res0 <> 0 -> res1 <> 0 ->
  exists out m, hillshade (exact r32 u8) (Some res0) (Some res1) (Some azimuth) (Some altitude) f16 nv junk ny nx ycs xcs rs = Ok (SBand out (Some m))
   /\ let v := r32 (Some (hillshade_spec res0 res1 azimuth altitude z)) in
      (v = Some 255 -> at2 m i j true /\ at2 out i j (Some 255)) /\ (v <> Some 255 -> at2 m i j false /\ at2 out i j (u8 v)))%R.
Proof. intros J Hi Hj Cy Cx SH EL. exact (hillshade_cell r32 u8 f16 nv junk ny nx ycs xcs rs i j z J Hi Hj Cy Cx SH EL res0 res1 azimuth altitude). Qed.
Print Assumptions C53_hillshade.

(* the northing and easting are the components of the unit vector pointing downhill *)
Theorem C53_northing r32 u8 f16 nv junk ny nx ycs xcs rs i j z north :
  allocates junk -> 0 < i < ny - 1 -> 0 < j < nx - 1 -> cuts ny ycs -> cuts nx xcs -> band_shaped ny nx rs -> elevations rs i j z ->
  (grad_x 1 z <> 0 \/ grad_y (-1) z <> 0)%R ->
  exists out m v, northing_of_dem (exact r32 u8) north f16 nv junk ny nx ycs xcs rs = Ok (SBand out (Some m))
   /\ at2 m i j false /\ at2 out i j (Some v)
   /\ (length2 (grad_x 1 z) (grad_y (-1) z) * v = - (if north then grad_y (-1) z else grad_x 1 z))%R.
Proof. intros J Hi Hj Cy Cx SH EL. exact (northing_cell r32 u8 f16 nv junk ny nx ycs xcs rs i j z J Hi Hj Cy Cx SH EL north). Qed.
Print Assumptions C53_northing.

(* what the formulas mean on a plane and on a surface of second degree *)
Theorem C53_plane res0 res1 c p q : (res0 <> 0 -> res1 <> 0 ->
  slope_spec res0 res1 true (plane res0 res1 c p q) = Ratan.atan (R_sqrt.sqrt (p * p + q * q)) * (180 / PI))%R.
Proof. exact (plane_slope res0 res1 c p q). Qed.
Print Assumptions C53_plane.
Theorem C53_quadric s0 s1 c p q u v w : (s0 <> 0 -> s1 * s1 = s0 * s0 ->
  curvature_spec (Rabs s0) (Rabs s1) (quadric s0 s1 c p q u v w) = - 100 * (2 * u + 2 * w))%R.
Proof. exact (quadric_curvature s0 s1 c p q u v w). Qed.
Print Assumptions C53_quadric.

(* ---- C54: surface area ---- *)
Theorem C54_area r32 u8 f16 nv junk ny nx ycs xcs rs i j z s :
  allocates junk -> 0 < i < ny - 1 -> 0 < j < nx - 1 -> cuts ny ycs -> cuts nx xcs -> band_shaped ny nx rs -> elevations rs i j z ->
  exists out m, surface_op (exact r32 u8) (kernel_of (exact r32 u8) (SurfaceArea (Some s))) f16 nv junk ny nx ycs xcs rs = Ok (SBand out (Some m))
   /\ at2 m i j false /\ at2 out i j (Some (area_spec s z)).
Proof. intros J Hi Hj Cy Cx SH EL. exact (area_cell r32 u8 f16 nv junk ny nx ycs xcs rs i j z J Hi Hj Cy Cx SH EL s). Qed.
Print Assumptions C54_area.
Theorem C54_plane s c p q : (area_spec s (plane s s c p q) = s * s * R_sqrt.sqrt (1 + p * p + q * q))%R.
Proof. exact (plane_area s c p q). Qed.
Print Assumptions C54_plane.
Theorem C54_at_least s z : (s * s <= area_spec s z)%R.
Proof. exact (area_ge s z). Qed.
Print Assumptions C54_at_least.

(* a raster that meets the hypotheses: the plane z = 3 x - 4 y *)
Definition slanted : @sband (option R) :=
  SBand (map (fun i => map (fun j => Some (plane 1 (-1) 0 3 (-4) i j)) (zrange 0 3)) (zrange 0 4)) None.
Lemma slanted_elevations : elevations slanted 2 1 (fun dr dc => plane 1 (-1) 0 3 (-4) (2 + dr) (1 + dc)).
Proof.
  intros dr dc H1 H2. split; [reflexivity|].
  assert (D : dr = -1 \/ dr = 0 \/ dr = 1) by lia. assert (D' : dc = -1 \/ dc = 0 \/ dc = 1) by lia.
  destruct D as [-> | [-> | ->]], D' as [-> | [-> | ->]]; eexists; split; reflexivity.
Qed.
Example C53_ex r32 u8 : exists out m,
  surface_op (exact r32 u8) (kernel_of (exact r32 u8) (Slope (Some 1%R) (Some (-1)%R) false)) None None junk_r 4 3 [1; 3] [2; 1] slanted = Ok (SBand out (Some m))
  /\ at2 m 2 1 false /\ at2 out 2 1 (Some 5%R).
Proof.
  destruct (C53_slope r32 u8 None None junk_r 4 3 [1; 3] [2; 1] slanted 2 1 (fun dr dc => plane 1 (-1) 0 3 (-4) (2 + dr) (1 + dc)) 1 (-1) false junk_r_ok) as (out & m & H1 & H2 & H3).
  - lia.
  - lia.
  - split; [repeat constructor; lia|reflexivity].
  - split; [repeat constructor; lia|reflexivity].
  - split; [|exact I]. split; [reflexivity|]. repeat constructor.
  - exact slanted_elevations.
  - lra.
  - lra.
  - exists out, m. split; [exact H1|]. split; [exact H2|]. replace 5%R with (slope_spec 1 (-1) false (fun dr dc => plane 1 (-1) 0 3 (-4) (2 + dr) (1 + dc))); [exact H3|].
    unfold slope_spec, length2. replace (grad_x _ _) with 3%R by (unfold grad_x, sum3, weight, plane; cbn; field).
    replace (grad_y _ _) with (-4)%R by (unfold grad_y, sum3, weight, plane; cbn; field).
    replace (3 * 3 + -4 * -4)%R with (5 * 5)%R by ring. apply sqrt_square. lra.
Qed.

(* With the sun overhead, flat ground is as bright as can be; the value 255 makes
   it null although neither it nor a neighbour was null. *)
Theorem C49_hillshade_255_refuted u8 : exists out m,
  hillshade (exact (fun x => x) u8) (Some 1%R) (Some (-1)%R) (Some 315%R) (Some 90%R) None None junk_r 3 3 [3] [3] flat = Ok (SBand out (Some m))
  /\ is_null flat 1 1 = false /\ on_ring 3 3 1 1 = false /\ at2 m 1 1 true.
Proof. exact (overhead_null u8). Qed.
Print Assumptions C49_hillshade_255_refuted.
(* Flat ground has the northing of a slope facing north (almost), not 0. *)
Theorem C53_flat_northing_refuted r32 u8 f16 nv junk ny nx ycs xcs rs i j z :
  allocates junk -> 0 < i < ny - 1 -> 0 < j < nx - 1 -> cuts ny ycs -> cuts nx xcs -> band_shaped ny nx rs -> elevations rs i j z ->
  (grad_x 1 z = 0)%R -> (grad_y (-1) z = 0)%R ->
  exists out m, northing_of_dem (exact r32 u8) true f16 nv junk ny nx ycs xcs rs = Ok (SBand out (Some m))
   /\ at2 m i j false /\ at2 out i j (Some (Rtrigo_def.cos (PI / 180))).
Proof. exact (northing_flat r32 u8 f16 nv junk ny nx ycs xcs rs i j z). Qed.
Print Assumptions C53_flat_northing_refuted.
