(* C98: cost distance where every cell costs the same is taxicab distance *)
From Coq Require Import ZArith Bool Reals List Lia Lra.
From Flocq Require Import Core BinarySingleNaN.
From Verif Require Import Base BaseFacts Heap F64 F64Facts F64Exact CostDist CostSpec CostPublicProofs UniformSpec UniformProofs.
From Verif Require Import ChunksSpec Chunks ChunksProofs FocalSpec BandsSpec FocalResults BlockArgs Proximity ProximitySpec ProximityTaxi ProximityWhole ProximityWholeSpec ProximityWholeMain ProximityWholeProps UniformMain.
Import ListNotations.
Open Scope Z_scope.

(* connectivity 4, no elevation, costs W * 2^ec, cells of |sx| * 2^e by |sy| * 2^e: the exact
   distance to the nearest source times the cost, and the label of such a source; null
   everywhere if there is no source *)
Theorem C98_uniform : forall costs nrows ncols sources snull xres yres e ec sx sy W,
  0 <= nrows -> 0 <= ncols -> uniform costs (nrows * ncols) ec W -> len sources = nrows * ncols ->
  scaled e xres sx -> scaled e yres sy -> 0 < Z.abs sx <= 2 ^ 26 -> 0 < Z.abs sy <= 2 ^ 26 -> 0 <= W -> -500 <= e <= 400 -> -500 <= ec <= 400 ->
  W * (nrows * Z.abs sy + ncols * Z.abs sx) <= 2 ^ 53 ->
  exists cd tr al mask nv, cost_distance_analysis costs nrows ncols sources snull None (xres, yres) 4 = Ok ((cd, nv), (tr, -1), (al, snull), mask)
  /\ forall r c, 0 <= r < nrows -> 0 <= c < ncols -> exists b d a,
       get mask (r * ncols + c) = Ok b /\ get cd (r * ncols + c) = Ok d /\ get al (r * ncols + c) = Ok a
       /\ (b = true /\ d = nv /\ a = snull /\ (forall sr sc l, 0 <= sr < nrows -> 0 <= sc < ncols -> ~ source_at sources snull ncols sr sc l)
           \/ b = false /\ exists sr sc, (0 <= sr < nrows /\ 0 <= sc < ncols) /\ source_at sources snull ncols sr sc a
              /\ scaled (e + ec) d (W * blocks_apart (Z.abs sy) (Z.abs sx) r c sr sc)
              /\ forall sr' sc' l, 0 <= sr' < nrows -> 0 <= sc' < ncols -> source_at sources snull ncols sr' sc' l ->
                 W * blocks_apart (Z.abs sy) (Z.abs sx) r c sr sc <= W * blocks_apart (Z.abs sy) (Z.abs sx) r c sr' sc').
Proof. exact uniform_taxi. Qed.
Print Assumptions C98_uniform.

(* with cost 1 it is what proximity analysis with the metric taxi gives, whatever the chunks *)
Theorem C98_proximity : forall {A} hav st (target : A -> bool) boundary cached xc yc bcs ycs xcs bands junk nb ny nx e x0 dx y0 dy K nodata costs sources snull xres yres b band,
  input nb ny nx xc yc (bcs, ycs, xcs) bands -> target boundary = false -> allocates junk -> dx <> 0 -> dy <> 0 ->
  (st = double /\ -500 <= e <= 400 /\ K = 2 ^ 26) \/ (st = single /\ -63 <= e <= 30 /\ K = 2 ^ 24) ->
  (forall j x, get xc j = Ok x -> scaled e x (x0 + j * dx) /\ 4 * Z.abs (x0 + j * dx) <= K) ->
  (forall i y, get yc i = Ok y -> scaled e y (y0 + i * dy) /\ 4 * Z.abs (y0 + i * dy) <= K) ->
  (nx = 1 \/ ny = 1 -> exists rx ry, cached = Some (rx, ry) /\ scaled e rx dx /\ scaled e ry dy) ->
  fltb nodata fzero = true ->
  uniform costs (ny * nx) 0 1 -> len sources = ny * nx -> scaled e xres dx -> scaled e yres dy -> Z.abs dx <= 2 ^ 26 -> Z.abs dy <= 2 ^ 26 -> ny * Z.abs dy + nx * Z.abs dx <= 2 ^ 53 ->
  get bands b = Ok band ->
  (forall i j, 0 <= i < ny -> 0 <= j < nx -> ((exists l, source_at sources snull nx i j l) <-> exists v, target_at target band i j v)) ->
  exists prox null cd tr al mask nv, pa_proximity Taxi hav st target true boundary cached xc yc finf (bcs, ycs, xcs) bands junk nodata = Ok (prox, null)
  /\ cost_distance_analysis costs ny nx sources snull None (xres, yres) 4 = Ok ((cd, nv), (tr, -1), (al, snull), mask)
  /\ forall i j, 0 <= i < ny -> 0 <= j < nx -> exists m p d, at3 null b i j m /\ get mask (i * nx + j) = Ok m /\ at3 prox b i j p /\ get cd (i * nx + j) = Ok d
     /\ (m = false -> feqb p d = true).
Proof. exact @uniform_proximity. Qed.
Print Assumptions C98_proximity.

(* ---- examples: the first band of the example of C66 ---- *)
Definition ones (n : Z) : raster1 := mkRaster1 (full n (f64_of_Z 1)) (full n false) None.
Definition ex_costs : raster1 := mkRaster1 (full 6 (f64_of 3 (-1))) (full 6 false) (Some (f64_of_Z (-1))).
Definition ex_sources : list Z := [0; 0; 5; 7; 0; 0].
Definition seen (r : res (list f64 * f64 * (list Z * Z) * (list Z * Z) * list bool)) :=
  let* '((cd, nv), (tr, _), (al, _), mask) := r in Ok (map B2SF cd, al, mask).
Example C98_example :
  seen (cost_distance_analysis ex_costs 2 3 ex_sources 0 None (f64_of_Z 10, f64_of_Z (-20)) 4)
  = Ok ([z 30; z 15; z 0; z 0; z 15; z 30], [7; 5; 5; 7; 7; 5], [false; false; false; false; false; false])
  /\ seen (cost_distance_analysis (ones 6) 2 3 ex_sources 0 None (f64_of_Z 10, f64_of_Z (-20)) 4)
  = Ok ([z 20; z 10; z 0; z 0; z 10; z 20], [7; 5; 5; 7; 7; 5], [false; false; false; false; false; false])
  /\ shown (pa_proximity Taxi ex_hav double ex_t true 0 None ex_x ex_y finf ex_chunks ex_bands ex_empty (f64_of_Z (-9)))
  = Ok ([[[z 20; z 10; z 0]; [z 0; z 10; z 20]]; [[z 40; z 30; z 20]; [z 20; z 10; z 0]]],
        [[[false; false; false]; [false; false; false]]; [[false; false; false]; [false; false; false]]])
  /\ seen (cost_distance_analysis (ones 2) 1 2 [4; 4] 4 None (f64_of_Z 1, f64_of_Z 1) 4) = Ok (full 2 (B2SF default_null_f64), [4; 4], [true; true]).
Proof. vm_compute. repeat split; reflexivity. Qed.
Lemma full_get {A} n (x y : A) i : get (full n x) i = Ok y -> y = x.
Proof. intros H. pose proof (get_ok_range _ _ _ H) as R. rewrite (get_nth x _ _ R) in H. unfold full in H. rewrite nth_repeat in H. congruence. Qed.
Lemma ok_inj {A} (x y : A) : Ok x = Ok y -> x = y.
Proof. congruence. Qed.
Example C98_hypotheses :
  uniform ex_costs (2 * 3) (-1) 3 /\ uniform (ones 6) (2 * 3) 0 1 /\ scaled 0 (f64_of_Z 10) 10 /\ scaled 0 (f64_of_Z (-20)) (-20)
  /\ input 2 2 3 ex_x ex_y ex_chunks ex_bands /\ allocates ex_empty
  /\ (forall j x, get ex_x j = Ok x -> scaled 0 x (10 + j * 10) /\ 4 * Z.abs (10 + j * 10) <= 2 ^ 26)
  /\ (forall i y, get ex_y i = Ok y -> scaled 0 y (80 + i * -20) /\ 4 * Z.abs (80 + i * -20) <= 2 ^ 26)
  /\ (forall i j, 0 <= i < 2 -> 0 <= j < 3 -> ((exists l, source_at ex_sources 0 3 i j l) <-> exists v, target_at ex_t [[0; 0; 5]; [7; 0; 0]] i j v)).
Proof.
  split. { split; [reflexivity|]. split; [reflexivity|]. split; [intros i x H; apply full_get in H as ->; apply f64_of_exact; lia|]. intros nv [= <-]. left. reflexivity. }
  split. { split; [reflexivity|]. split; [reflexivity|]. split; [intros i x H; apply full_get in H as ->; apply f64_of_exact; lia|discriminate]. }
  split; [apply f64_of_exact; lia|]. split; [apply f64_of_exact; lia|]. split; [exact (proj1 ex_input)|]. split; [exact (proj2 ex_input)|].
  split. { intros j x H. pose proof (get_ok_range _ _ _ H) as R. change (len ex_x) with 3 in R. assert (D : j = 0 \/ j = 1 \/ j = 2) by lia. destruct D as [-> |[-> | ->]]; [pose proof (ok_inj (f64_of_Z 10) x H) as <-|pose proof (ok_inj (f64_of_Z 20) x H) as <-|pose proof (ok_inj (f64_of_Z 30) x H) as <-]; (split; [apply f64_of_exact; lia|lia]). }
  split. { intros j x H. pose proof (get_ok_range _ _ _ H) as R. change (len ex_y) with 2 in R. assert (D : j = 0 \/ j = 1) by lia. destruct D as [-> | ->]; [pose proof (ok_inj (f64_of_Z 80) x H) as <-|pose proof (ok_inj (f64_of_Z 60) x H) as <-]; (split; [apply f64_of_exact; lia|lia]). }
  intros i j Hi Hj. assert (D : i = 0 \/ i = 1) by lia. assert (D' : j = 0 \/ j = 1 \/ j = 2) by lia.
  destruct D as [-> | ->], D' as [-> |[-> | ->]]; (split; intros [l H]; [destruct H as [H N]; (exfalso; pose proof (ok_inj 0 l H) as <-; now apply N) || (exists l; split; [eexists; split; [reflexivity|exact H]|pose proof (ok_inj 5 l H) as <-; reflexivity]) || (exists l; split; [eexists; split; [reflexivity|exact H]|pose proof (ok_inj 7 l H) as <-; reflexivity])
  |destruct H as [(row & H1 & H2) N]; apply ok_inj in H1; subst row; exists l; split; [exact H2|intros ->; discriminate N]]).
Qed.

(* with connectivity 8 it is neither taxicab nor straight distance: two cells to the right
   and one down cost 1 + sqrt 2 *)
Theorem C98_eight_refuted :
  ~ (forall costs nrows ncols sources snull cd nv tr al mask r c d, uniform costs (nrows * ncols) 0 1 -> len sources = nrows * ncols ->
       cost_distance_analysis costs nrows ncols sources snull None (f64_of_Z 1, f64_of_Z 1) 8 = Ok ((cd, nv), tr, al, mask) ->
       get mask (r * ncols + c) = Ok false -> get cd (r * ncols + c) = Ok d ->
       exists sr sc l, (0 <= sr < nrows /\ 0 <= sc < ncols) /\ source_at sources snull ncols sr sc l
         /\ (scaled 0 d (blocks_apart 1 1 r c sr sc) \/ d = fsqrt (f64_of_Z ((r - sr) * (r - sr) + (c - sc) * (c - sc))))).
Proof.
  intros H.
  assert (V : (let* '((cd, _), _, _, mask) := cost_distance_analysis (ones 6) 2 3 [9; 0; 0; 0; 0; 0] 0 None (f64_of_Z 1, f64_of_Z 1) 8 in
               let* d := get cd 5 in let* m := get mask 5 in Ok (m, Beqb d (f64_of_Z 3), Beqb d (fsqrt (f64_of_Z 5)))) = Ok (false, false, false))
    by (vm_compute; reflexivity).
  destruct (cost_distance_analysis (ones 6) 2 3 [9; 0; 0; 0; 0; 0] 0 None (f64_of_Z 1, f64_of_Z 1) 8) as [[[[[cd nv] tr] al] mask]|] eqn:E; [|discriminate V].
  cbn [rbind] in V. destruct (get cd 5) as [d|] eqn:G; [|discriminate V]. cbn [rbind] in V. destruct (get mask 5) as [m|] eqn:GM; [|discriminate V]. cbn [rbind] in V.
  assert (m = false /\ Beqb d (f64_of_Z 3) = false /\ Beqb d (fsqrt (f64_of_Z 5)) = false) as (-> & N3 & N5) by (repeat split; congruence). clear V.
  destruct (H (ones 6) 2 3 [9; 0; 0; 0; 0; 0] 0 cd nv tr al mask 1 2 d (proj1 (proj2 C98_hypotheses)) eq_refl E GM G) as (sr & sc & l & R & [S N] & D).
  assert (X : sr * 3 + sc = 0).
  { set (k := sr * 3 + sc) in *. assert (K : k = 0 \/ k = 1 \/ k = 2 \/ k = 3 \/ k = 4 \/ k = 5) by lia. clearbody k.
    decompose [or] K; subst k; try reflexivity; pose proof (ok_inj 0 l S) as <-; now contradiction N. }
  assert (sr = 0 /\ sc = 0) as [-> ->] by lia. destruct D as [D| ->].
  - change (blocks_apart 1 1 1 2 0 0) with 3 in D. pose proof (scaled_unique 0 d (f64_of_Z 3) 3 D ltac:(apply f64_of_exact; lia)) as Y. unfold feqb in Y. congruence.
  - revert N5. change ((1 - 0) * (1 - 0) + (2 - 0) * (2 - 0)) with 5. vm_compute. discriminate.
Qed.
Print Assumptions C98_eight_refuted.
