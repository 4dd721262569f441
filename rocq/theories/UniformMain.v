(* Cost distance of uniform costs and proximity *)
From Coq Require Import ZArith Bool Reals List Lia Lra.
From Flocq Require Import Core BinarySingleNaN.
From Verif Require Import Base BaseFacts Heap F64 F64Facts F64Exact CostDist CostSpec CostPublicProofs UniformSpec UniformProofs.
From Verif Require Import ChunksSpec Chunks ChunksProofs FocalSpec BandsSpec FocalResults BlockArgs Proximity ProximitySpec ProximityTaxi ProximityWhole ProximityWholeSpec ProximityWholeProofs ProximityWholeMain.
Import ListNotations.
Open Scope Z_scope.

Lemma taxi_apart dx dy i j ti tj : taxi dx dy i j ti tj = blocks_apart (Z.abs dy) (Z.abs dx) i j ti tj.
Proof. unfold taxi, blocks_apart. now rewrite !Z.abs_mul. Qed.

Theorem uniform_proximity {A} hav st (target : A -> bool) boundary cached xc yc bcs ycs xcs bands junk nb ny nx e x0 dx y0 dy K nodata costs sources snull xres yres b band :
  input nb ny nx xc yc (bcs, ycs, xcs) bands -> target boundary = false -> allocates junk -> dx <> 0 -> dy <> 0 ->
  (st = double /\ -500 <= e <= 400 /\ K = 2 ^ 26) \/ (st = single /\ -63 <= e <= 30 /\ K = 2 ^ 24) ->
  (forall j x, get xc j = Ok x -> scaled e x (x0 + j * dx) /\ 4 * Z.abs (x0 + j * dx) <= K) ->
  (forall i y, get yc i = Ok y -> scaled e y (y0 + i * dy) /\ 4 * Z.abs (y0 + i * dy) <= K) ->
  (nx = 1 \/ ny = 1 -> exists rx ry, cached = Some (rx, ry) /\ scaled e rx dx /\ scaled e ry dy) ->
  fltb nodata fzero = true ->
  uniform costs (ny * nx) 0 1 -> len sources = ny * nx -> scaled e xres dx -> scaled e yres dy -> Z.abs dx <= 2 ^ 26 -> Z.abs dy <= 2 ^ 26 -> ny * Z.abs dy + nx * Z.abs dx <= 2 ^ 53 ->
  get bands b = Ok band ->
  (forall i j, 0 <= i < ny -> 0 <= j < nx -> ((exists l, source_at sources snull nx i j l) <-> exists v, target_at target band i j v)) ->
  exists prox null cd tr al mask nv, pa_proximity Taxi hav st target true boundary cached xc yc finf (bcs, ycs, xcs) bands junk nodata = Ok (prox, null)
  /\ cost_distance_analysis costs ny nx sources snull None (xres, yres) 4 = Ok ((cd, nv), (tr, -1), (al, snull), mask)
  /\ forall i j, 0 <= i < ny -> 0 <= j < nx -> exists m p d, at3 null b i j m /\ get mask (i * nx + j) = Ok m /\ at3 prox b i j p /\ get cd (i * nx + j) = Ok d
     /\ (m = false -> feqb p d = true).
Proof.
  intros IN TB HJ NX NY HS XS YS ONE HN UC LS SX SY BX BY BT GB SRC.
  destruct (whole_nearest false hav st target boundary cached xc yc finf bcs ycs xcs bands junk nb ny nx e x0 dx y0 dy K 0 IN TB HJ NX NY HS XS YS ONE nodata HN (or_introl eq_refl) (or_introl eq_refl)) as (prox & null & EP & _ & CP).
  pose proof (in_rows _ _ _ _ _ _ _ IN) as Hny. pose proof (in_cols _ _ _ _ _ _ _ IN) as Hnx. pose proof (in_shape _ _ _ _ _ _ _ IN) as SH.
  destruct (uniform_taxi costs ny nx sources snull xres yres e 0 dx dy 1) as (cd & tr & al & mask & nv & EC & CC); try assumption; try lia.
  exists prox, null, cd, tr, al, mask, nv. split; [exact EP|]. split; [exact EC|]. intros i j Hi Hj.
  destruct (CP b band i j GB Hi Hj) as (p & AP & D). destruct (CC i j Hi Hj) as (m & d & a & GM & GD & _ & DC).
  assert (RNG : forall ti tj v, target_at target band ti tj v -> 0 <= ti < ny /\ 0 <= tj < nx).
  { intros ti tj v [(row & G1 & G2) _]. destruct SH as [_ SH]. rewrite Forall_forall in SH. destruct (SH band (get_in _ _ _ GB)) as [L1 L2]. rewrite Forall_forall in L2. pose proof (get_ok_range _ _ _ G1). pose proof (get_ok_range _ _ _ G2). rewrite (L2 row (get_in _ _ _ G1)) in *. lia. }
  change (apart dx dy false) with (taxi dx dy) in D.
  destruct D as [(AN & ti & tj & v & T & SP & MP)|(AN & -> & NP)].
  - pose proof (RNG ti tj v T) as [R1 R2]. destruct DC as [(-> & _ & _ & NS)|(-> & sr & sc & (Q1 & Q2) & S & SD & MD)].
    + exfalso. destruct (proj2 (SRC ti tj R1 R2)) as [l S]; [now exists v|]. exact (NS ti tj l R1 R2 S).
    + exists false, p, d. repeat split; try assumption. intros _. rewrite taxi_apart in SP. rewrite Z.mul_1_l in SD. replace (e + 0) with e in SD by lia.
      assert (E : blocks_apart (Z.abs dy) (Z.abs dx) i j ti tj = blocks_apart (Z.abs dy) (Z.abs dx) i j sr sc).
      { apply Z.le_antisymm.
        - destruct (proj1 (SRC sr sc Q1 Q2)) as [v' T']; [now exists a|]. specialize (MP sr sc v' T'). now rewrite !taxi_apart in MP.
        - destruct (proj2 (SRC ti tj R1 R2)) as [l S']; [now exists v|]. specialize (MD ti tj l R1 R2 S'). lia. }
      rewrite E in SP. exact (scaled_unique e p d _ SP SD).
  - destruct DC as [(-> & _)|(-> & sr & sc & (Q1 & Q2) & S & _)].
    + exists true, nodata, d. repeat split; try assumption. discriminate.
    + exfalso. destruct (proj1 (SRC sr sc Q1 Q2)) as [v' T']; [now exists a|]. destruct (NP sr sc v' T') as [X _]. now apply X.
Qed.
