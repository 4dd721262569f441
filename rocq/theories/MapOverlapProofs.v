(* Proofs about MapOverlap.v. *)
From Coq Require Import Lia ZifyBool ZifyNat.
From Verif Require Import Base BaseFacts Scalars Arr2 Arr2Facts Chunks ChunksSpec ChunksProofs ProximityChunk CostPublicProofs FocalSpec FocalValues FocalResults FocalCorr RasterStack PadProofs AggregateProofs
  Bands BandsSpec BandsProofs BlockArgs BlockArgsSpec BlockArgsProofs MapBlocks MapBlocksSpec MapBlocksProofs MapOverlap MapOverlapSpec.
Open Scope Z_scope.

(* ---- continuing an array ---- *)
Definition pads {A} (k : kind) (b : dbound A) (c : A) : Prop :=
  match k with
  | Unpadded => b = DNone \/ b = DNamed s_none
  | Mirrored => b = DNamed s_reflect
  | Repeated => b = DNamed s_periodic
  | Closest => b = DNamed s_nearest
  | Null | Number _ => b = DConst c
  end.
Definition added (k : kind) (d : Z) : Z := match k with Unpadded => 0 | _ => d end.
Lemma tab_parts {A} d n e (g1 g2 g3 : Z -> A) : 0 <= d -> 0 <= n -> 0 <= e ->
  tab d g1 ++ tab n g2 ++ tab e g3 = tab (d + n + e) (fun i => if i <? d then g1 i else if i <? d + n then g2 (i - d) else g3 (i - d - n)).
Proof.
  intros Hd Hn He. set (h := fun i => if i <? d then g1 i else if i <? d + n then g2 (i - d) else g3 (i - d - n)).
  rewrite <- Z.add_assoc. rewrite <- (tab_app d (n + e) h) by lia. f_equal; [apply tab_ext; intros i Hi; unfold h; now replace (i <? d) with true by lia|].
  rewrite <- (tab_app n e (fun i => h (d + i))) by lia. f_equal; apply tab_ext; intros i Hi; unfold h.
  - replace (d + i <? d) with false by lia. replace (d + i <? d + n) with true by lia. f_equal. lia.
  - replace (d + (n + i) <? d) with false by lia. replace (d + (n + i) <? d + n) with false by lia. f_equal. lia.
Qed.
Definition beyond_or {A} (c : A) (f : Z -> A) (o : option Z) : A := match o with Some i => f i | None => c end.
Lemma repeat_edge {A} d (x : A) : 0 <= d -> flat_map (fun a => full d a) [x] = tab d (fun _ => x).
Proof. intros Hd. cbn. rewrite app_nil_r. now apply full_is_tab. Qed.
Lemma pad_tab {A} k (b : dbound A) c d n f : pads k b c -> 0 <= d <= n ->
  dask_pad b d (tab n f) = tab (n + 2 * added k d) (fun i => beyond_or c f (source k n (i - added k d))).
Proof.
  intros P Hd. unfold dask_pad. destruct k; cbn [pads added] in *.
  - replace (n + 2 * 0) with n by lia. assert (E : tab n f = tab n (fun i => beyond_or c f (source Unpadded n (i - 0)))).
    { apply tab_ext. intros i Hi. unfold source. replace ((0 <=? i - 0) && (i - 0 <? n)) with true by lia. cbn [beyond_or]. f_equal; lia. }
    destruct P as [-> | ->]; [exact E|]. exact E.
  - subst b. change (str_eqb s_reflect s_reflect) with true. cbv iota. rewrite len_tab, !slice_tab by lia. replace (d - 0) with d by lia. replace (n - (n - d)) with d by lia. rewrite !rev_tab, tab_parts by lia.
    apply tab_eq_n; [lia|]. intros i Hi. unfold source. destruct (i <? d) eqn:E1; [|destruct (i <? d + n) eqn:E2].
    + replace ((0 <=? i - d) && (i - d <? n)) with false by lia. replace (i - d <? 0) with true by lia. cbn [beyond_or]. f_equal; lia.
    + replace ((0 <=? i - d) && (i - d <? n)) with true by lia. reflexivity.
    + replace ((0 <=? i - d) && (i - d <? n)) with false by lia. replace (i - d <? 0) with false by lia. cbn [beyond_or]. f_equal; lia.
  - subst b. change (str_eqb s_periodic s_reflect) with false. change (str_eqb s_periodic s_periodic) with true. cbv iota. rewrite len_tab, !slice_tab by lia. replace (d - 0) with d by lia. replace (n - (n - d)) with d by lia. rewrite tab_parts by lia.
    apply tab_eq_n; [lia|]. intros i Hi. unfold source. destruct (i <? d) eqn:E1; [|destruct (i <? d + n) eqn:E2].
    + replace ((0 <=? i - d) && (i - d <? n)) with false by lia. replace (i - d <? 0) with true by lia. cbn [beyond_or]. f_equal; lia.
    + replace ((0 <=? i - d) && (i - d <? n)) with true by lia. reflexivity.
    + replace ((0 <=? i - d) && (i - d <? n)) with false by lia. replace (i - d <? 0) with false by lia. cbn [beyond_or]. f_equal; lia.
  - subst b. change (str_eqb s_nearest s_reflect) with false. change (str_eqb s_nearest s_periodic) with false. change (str_eqb s_nearest s_nearest) with true. cbv iota.
    destruct (Z.eq_dec n 0) as [->|N].
    { replace d with 0 by lia. reflexivity. }
    rewrite len_tab, !slice_tab by lia.
    replace (n - (n - 1)) with 1 by lia. replace (1 - 0) with 1 by lia. change (tab 1 (fun i => f (0 + i))) with [f (0 + 0)]. change (tab 1 (fun i => f (n - 1 + i))) with [f (n - 1 + 0)].
    rewrite !repeat_edge, tab_parts by lia.
    apply tab_eq_n; [lia|]. intros i Hi. unfold source. destruct (i <? d) eqn:E1; [|destruct (i <? d + n) eqn:E2].
    + replace ((0 <=? i - d) && (i - d <? n)) with false by lia. replace (i - d <? 0) with true by lia. cbn [beyond_or]. f_equal; lia.
    + replace ((0 <=? i - d) && (i - d <? n)) with true by lia. reflexivity.
    + replace ((0 <=? i - d) && (i - d <? n)) with false by lia. replace (i - d <? 0) with false by lia. cbn [beyond_or]. f_equal; lia.
  - subst b. rewrite !full_is_tab, tab_parts by lia.
    apply tab_eq_n; [lia|]. intros i Hi. unfold source. destruct (i <? d) eqn:E1; [|destruct (i <? d + n) eqn:E2].
    + replace ((0 <=? i - d) && (i - d <? n)) with false by lia. reflexivity.
    + replace ((0 <=? i - d) && (i - d <? n)) with true by lia. reflexivity.
    + replace ((0 <=? i - d) && (i - d <? n)) with false by lia. reflexivity.
  - subst b. rewrite !full_is_tab, tab_parts by lia.
    apply tab_eq_n; [lia|]. intros i Hi. unfold source. destruct (i <? d) eqn:E1; [|destruct (i <? d + n) eqn:E2].
    + replace ((0 <=? i - d) && (i - d <? n)) with false by lia. reflexivity.
    + replace ((0 <=? i - d) && (i - d <? n)) with true by lia. reflexivity.
    + replace ((0 <=? i - d) && (i - d <? n)) with false by lia. reflexivity.
Qed.
Lemma pads_map {A B} (h : A -> B) k b c : pads k b c -> pads k (bound_map h b) (h c).
Proof. destruct k; cbn; intros H; try (now subst b). destruct H as [-> | ->]; cbn; auto. Qed.
Definition continued {A} (c : A) k ny nx (f : Z -> Z -> Z -> A) (b y x : Z) : A :=
  match source k ny y, source k nx x with Some y', Some x' => f b y' x' | _, _ => c end.
Lemma pad3_tab {A} k (b : dbound A) c dy dx nb ny nx f w : pads k b c -> 0 <= dy <= ny -> 0 <= dx <= nx -> (0 < ny -> w = nx) ->
  pad3 b dy dx w (tab3 nb ny nx f)
  = tab3 nb (ny + 2 * added k dy) (nx + 2 * added k dx) (fun o i j => continued c k ny nx f o (i - added k dy) (j - added k dx)).
Proof.
  intros P Hy Hx Hw. unfold pad3, tab3. rewrite map_tab. apply tab_ext. intros o _. unfold tab2 at 1.
  destruct (Z.eq_dec ny 0) as [N|N].
  { subst ny. replace dy with 0 by lia. replace (0 + 2 * added k 0) with 0 by (destruct k; reflexivity). change (tab 0 _) with (@nil (list A)).
    assert (E : dask_pad (bound_map (full w) b) 0 (@nil (list A)) = []).
    { destruct k; cbn in P; try (subst b; reflexivity). destruct P as [-> | ->]; reflexivity. }
    rewrite E. reflexivity. }
  rewrite Hw by lia.
  rewrite (pad_tab k (bound_map (full nx) b) (full nx c) dy ny) by (try apply pads_map; assumption). rewrite map_tab. unfold tab2. apply tab_ext. intros i Hi.
  unfold continued. destruct (source k ny (i - added k dy)) as [i'|] eqn:E; cbn [beyond_or].
  - rewrite (pad_tab k b c dx nx) by assumption. apply tab_ext. intros j Hj. unfold beyond_or. reflexivity.
  - rewrite full_is_tab by lia. rewrite (pad_tab k b c dx nx) by assumption. apply tab_ext. intros j Hj. unfold beyond_or. now destruct (source k nx _).
Qed.

(* ---- the chunks and what is around them ---- *)
Lemma slice3_tab3 {A} nb ny nx (f : Z -> Z -> Z -> A) b0 b1 y0 y1 x0 x1 : 0 <= b0 <= b1 -> b1 <= nb -> 0 <= y0 <= y1 -> y1 <= ny -> 0 <= x0 <= x1 -> x1 <= nx ->
  slice3 (tab3 nb ny nx f) (b0, b1) (y0, y1) (x0, x1) = tab3 (b1 - b0) (y1 - y0) (x1 - x0) (fun b i j => f (b0 + b) (y0 + i) (x0 + j)).
Proof.
  intros. unfold slice3. cbn [fst snd]. unfold tab3. rewrite slice_tab by lia. unfold tab at 1. rewrite map_map. apply map_ext. intros b.
  unfold tab2. rewrite slice_tab by lia. unfold tab at 1. rewrite map_map. apply map_ext. intros i. now rewrite slice_tab by lia.
Qed.
Lemma trim3_tab3 {A} n m k (f : Z -> Z -> Z -> A) l r l' r' : 0 <= l -> 0 <= r -> 0 <= l' -> 0 <= r' -> l + r <= m -> l' + r' <= k ->
  trim3 (l, r) (l', r') (tab3 n m k f) = tab3 n (m - l - r) (k - l' - r') (fun b i j => f b (l + i) (l' + j)).
Proof.
  intros. unfold trim3, tab3. cbn [fst snd]. rewrite map_tab. apply tab_ext. intros b _. unfold tab2 at 1 2. rewrite len_tab, slice_tab by lia. rewrite map_tab.
  unfold tab2. apply tab_eq_n; [lia|]. intros i Hi. rewrite len_tab, slice_tab by lia. apply tab_eq_n; [lia|]. intros j Hj. reflexivity.
Qed.
Lemma locations_edges d cs : 0 <= d -> Forall (fun c => d <= c) cs -> forall k lo hi, get (chunks_to_array_locations cs) k = Ok (lo, hi) ->
  0 <= k < len cs /\ (k = 0 -> lo = 0) /\ (k <> 0 -> d <= lo) /\ (k = len cs - 1 -> hi = sum cs) /\ (k <> len cs - 1 -> hi + d <= sum cs).
Proof.
  intros Hd F. induction cs as [|c cs IH]; intros k lo hi G; [apply get_ok_range in G; unfold len in G; cbn in G; lia|].
  inversion F as [|? ? Hc F']; subst. specialize (IH F'). rewrite locs_cons in G. rewrite len_cons, sum_cons. pose proof (len_nonneg cs) as LN.
  assert (SN : 0 <= sum cs) by (apply sum_nonneg; eapply Forall_impl; [|exact F']; cbn; intros; lia).
  destruct (Z.eq_dec k 0) as [->|K].
  - rewrite get_cons0 in G. inversion G; subst. split; [lia|]. split; [reflexivity|]. split; [lia|]. split.
    + intros L. destruct cs as [|e cs]; [change (sum []) with 0; lia|]. rewrite len_cons in L. pose proof (len_nonneg cs). lia.
    + intros L. destruct cs as [|e cs]; [unfold len in L; cbn in L; lia|]. inversion F' as [|? ? He F'']; subst. rewrite sum_cons in *.
      assert (0 <= sum cs) by (apply sum_nonneg; eapply Forall_impl; [|exact F'']; cbn; intros; lia). lia.
  - pose proof (get_ok_range _ _ _ G) as R. rewrite get_cons in G by lia. rewrite get_map_eq in G. destruct (get (chunks_to_array_locations cs) (k - 1)) as [[lo' hi']|] eqn:E; [|discriminate]. cbn [rbind fst snd] in G. inversion G; subst.
    destruct (IH _ _ _ E) as (R' & I1 & I2 & I3 & I4). assert (0 <= lo') by (destruct (Z.eq_dec (k - 1) 0); lia). lia.
Qed.

Definition sides (d : axdepth) : Prop := 0 <= before d /\ 0 <= after d.
Lemma sides_max d : sides d -> 0 <= depth_for_axis d /\ before d <= depth_for_axis d /\ after d <= depth_for_axis d.
Proof. unfold sides. destruct d; cbn; lia. Qed.
(* a chunk (lo, hi) is handed over as the cells lo - l .. hi + r - 1 of the array, which
   is continued by [plus] cells on either side *)
Definition plus (none : bool) (d : axdepth) : Z := if none then 0 else before d.
Lemma surroundings_ok none d n cs k lo hi : sides d -> (none = false -> symmetric d) -> Forall (fun c => depth_for_axis d <= c) cs -> sum cs = n ->
  get (chunks_to_array_locations cs) k = Ok (lo, hi) ->
  exists l r, surroundings none d cs k = Ok ((lo - l + plus none d, hi + r + plus none d), (l, r))
  /\ l = (if none && (k =? 0) then 0 else before d) /\ r = (if none && (k =? len cs - 1) then 0 else after d)
  /\ 0 <= l /\ 0 <= r /\ 0 <= lo - l + plus none d /\ hi + r + plus none d <= n + 2 * plus none d /\ 0 <= lo <= hi
  /\ (none = false -> l = low d /\ r = high d)
  /\ (none = true -> (l = low d \/ l = 0 /\ lo = 0) /\ (r = high d \/ r = 0 /\ hi = n)).
Proof.
  intros S SY F <- G. destruct (sides_max d S) as (M0 & M1 & M2). destruct S as [S1 S2].
  assert (F0 : Forall (fun c => 0 <= c) cs) by (eapply Forall_impl; [|exact F]; cbn; intros; lia).
  pose proof (locations_range cs F0 _ _ (get_in _ _ _ G)) as R.
  destruct (locations_edges _ cs M0 F k lo hi G) as (K & E1 & E2 & E3 & E4).
  unfold surroundings. rewrite G. cbn [rbind].
  exists (if none && (k =? 0) then 0 else before d), (if none && (k =? len cs - 1) then 0 else after d).
  change (if none then 0 else before d) with (plus none d). unfold plus, low, high, before, after in *.
  split; [do 2 f_equal; f_equal; lia|]. split; [reflexivity|]. split; [reflexivity|].
  destruct none; cbn [andb].
  - destruct (k =? 0) eqn:Z0; destruct (k =? len cs - 1) eqn:ZL; repeat split; try lia; try discriminate; destruct d; lia.
  - destruct (SY eq_refl) as [q ->]. repeat split; try lia; try discriminate.
Qed.

(* ---- one block after the other ---- *)
Lemma grow_ok d n c : sides d -> depth_for_axis d <= n -> cuts n c -> c <> [] -> exists out, grow (depth_for_axis d) c = Ok out /\ Forall (fun k => depth_for_axis d <= k) out /\ cuts n out /\ out <> [].
Proof.
  intros S L C N. destruct (sides_max d S) as (M0 & _). destruct (cuts_sum _ _ C) as [F SM].
  assert (G : exists out, grow (depth_for_axis d) c = Ok out /\ (out = [] -> False)).
  { unfold grow. destruct (depth_for_axis d =? 0) eqn:E; [exists c; split; [reflexivity|exact N]|].
    destruct (minimum_spec (depth_for_axis d) c ltac:(lia) N F) as [M1 _]. destruct M1 as (o & Eo & _ & So & _); [lia|]. exists o. split; [exact Eo|]. intros ->. change (sum []) with 0 in So. lia. }
  destruct G as (out & G & NE). destruct (grow_spec _ _ _ M0 N F G) as (G1 & G2 & _). exists out. split; [exact G|]. split; [exact G1|]. split; [|exact NE].
  split; [eapply Forall_impl; [|exact G1]; cbn; intros; lia|]. rewrite <- SM, <- G2. clear. induction out as [|a out IH]; [reflexivity|]. rewrite sum_cons. cbn. lia.
Qed.
Section Blocks.
Context {B : Type}.
Variables (dflt : B) (f : list blk -> Z * Z * Z -> res (arr3 B)) (none : bool) (dy dx : axdepth) (bcs ycs xcs : list Z) (nb ny nx : Z) (inputs : list blk).
Hypothesis (Cb : cuts nb bcs) (Cy : cuts ny ycs) (Cx : cuts nx xcs) (Ny : ycs <> []) (Nx : xcs <> []).
Hypothesis (Sy : sides dy) (Sx : sides dx) (Fy : depth_for_axis dy <= ny) (Fx : depth_for_axis dx <= nx).
Hypothesis (SYy : none = false -> symmetric dy) (SYx : none = false -> symmetric dx).

(* chunk id after small chunks were merged, with its margins *)
Definition chunk_at (id : Z * Z * Z) (bs ys xs : Z * Z) (ly ry lx rx : Z) : Prop :=
  exists ycs' xcs', grow (depth_for_axis dy) ycs = Ok ycs' /\ grow (depth_for_axis dx) xcs = Ok xcs' /\ block_at (bcs, ycs', xcs') id bs ys xs
  /\ let '(_, ky, kx) := id in
     ly = (if none && (ky =? 0) then 0 else before dy) /\ ry = (if none && (ky =? len ycs' - 1) then 0 else after dy)
     /\ lx = (if none && (kx =? 0) then 0 else before dx) /\ rx = (if none && (kx =? len xcs' - 1) then 0 else after dx).
(* the margins of a chunk *)
Definition margins (d : axdepth) (n : Z) (p : Z * Z) (l r : Z) : Prop :=
  0 <= l /\ 0 <= r /\ 0 <= fst p <= snd p /\ 0 <= fst p - l + plus none d /\ snd p + r + plus none d <= n + 2 * plus none d
  /\ (none = false -> l = low d /\ r = high d)
  /\ (none = true -> (l = low d \/ l = 0 /\ fst p = 0) /\ (r = high d \/ r = 0 /\ snd p = n)).
Definition around (d : axdepth) (p : Z * Z) (l r : Z) : Z * Z := (fst p - l + plus none d, snd p + r + plus none d).

Lemma overlap_blocks :
  (forall id bs ys xs ly ry lx rx, chunk_at id bs ys xs ly ry lx rx -> 0 <= fst bs <= snd bs -> snd bs <= nb -> margins dy ny ys ly ry -> margins dx nx xs lx rx ->
     exists a, f (map (cut_blk bs (around dy ys ly ry) (around dx xs lx rx)) inputs) id = Ok a
       /\ shaped3 (size bs) (size (around dy ys ly ry)) (size (around dx xs lx rx)) a) ->
  exists G, dask_map_overlap f none dy dx (bcs, ycs, xcs) inputs = Ok (tab3 nb ny nx G)
  /\ forall b y x, 0 <= b < nb -> 0 <= y < ny -> 0 <= x < nx ->
     exists id bs ys xs ly ry lx rx a, chunk_at id bs ys xs ly ry lx rx /\ fst bs <= b < snd bs /\ fst ys <= y < snd ys /\ fst xs <= x < snd xs
       /\ 0 <= fst bs <= snd bs /\ snd bs <= nb /\ margins dy ny ys ly ry /\ margins dx nx xs lx rx
       /\ f (map (cut_blk bs (around dy ys ly ry) (around dx xs lx rx)) inputs) id = Ok a
       /\ at3 a (b - fst bs) (y - fst ys + ly) (x - fst xs + lx) (G b y x).
Proof.
  intros H. destruct (grow_ok dy ny ycs Sy Fy Cy Ny) as (ycs' & Ey & My & Cy' & Ny'). destruct (grow_ok dx nx xcs Sx Fx Cx Nx) as (xcs' & Ex & Mx & Cx' & Nx').
  destruct (cuts_sum _ _ Cy') as [Fy' Sy']. destruct (cuts_sum _ _ Cx') as [Fx' Sx'].
  set (g := fun (_ : list blk) '(kb, ky, kx) =>
    let* bs := get (chunks_to_array_locations bcs) kb in
    let* '(ys, ym) := surroundings none dy ycs' ky in
    let* '(xs, xm) := surroundings none dx xcs' kx in
    let* o := f (map (cut_blk bs ys xs) inputs) (kb, ky, kx) in
    Ok (trim3 ym xm o)).
  assert (BLK : forall kb bs ky ys kx xs, block_at (bcs, ycs', xcs') (kb, ky, kx) bs ys xs ->
     exists ly ry lx rx a, g [] (kb, ky, kx) = Ok (trim3 (ly, ry) (lx, rx) a) /\ chunk_at (kb, ky, kx) bs ys xs ly ry lx rx
     /\ margins dy ny ys ly ry /\ margins dx nx xs lx rx
     /\ f (map (cut_blk bs (around dy ys ly ry) (around dx xs lx rx)) inputs) (kb, ky, kx) = Ok a
     /\ shaped3 (size bs) (size (around dy ys ly ry)) (size (around dx xs lx rx)) a).
  { intros kb bs ky ys kx xs BA. pose proof (block_range bcs ycs' xcs' nb ny nx (kb, ky, kx) bs ys xs Cb Cy' Cx' BA) as R. destruct BA as (B1 & B2 & B3). destruct ys as [y0 y1], xs as [x0 x1].
    destruct (surroundings_ok none dy ny ycs' ky y0 y1 Sy SYy My Sy' B2) as (ly & ry & EY & LY & RY & Y). destruct (surroundings_ok none dx nx xcs' kx x0 x1 Sx SYx Mx Sx' B3) as (lx & rx & EX & LX & RX & X).
    assert (MY : margins dy ny (y0, y1) ly ry) by (unfold margins; cbn [fst snd]; tauto). assert (MX : margins dx nx (x0, x1) lx rx) by (unfold margins; cbn [fst snd]; tauto).
    assert (CA : chunk_at (kb, ky, kx) bs (y0, y1) (x0, x1) ly ry lx rx) by (exists ycs', xcs'; repeat split; assumption).
    destruct (H (kb, ky, kx) bs (y0, y1) (x0, x1) ly ry lx rx) as (a & EA & SA); try tauto.
    exists ly, ry, lx, rx, a. split; [|tauto]. unfold g. rewrite B1. cbn [rbind]. rewrite EY. cbn [rbind]. rewrite EX. cbn [rbind].
    change (y0 - ly + plus none dy, y1 + ry + plus none dy) with (around dy (y0, y1) ly ry). change (x0 - lx + plus none dx, x1 + rx + plus none dx) with (around dx (x0, x1) lx rx). rewrite EA. reflexivity. }
  assert (TR : forall bs ys xs ly ry lx rx (a : arr3 B), 0 <= fst bs <= snd bs -> margins dy ny ys ly ry -> margins dx nx xs lx rx -> shaped3 (size bs) (size (around dy ys ly ry)) (size (around dx xs lx rx)) a ->
     trim3 (ly, ry) (lx, rx) a = tab3 (size bs) (size ys) (size xs) (fun b i j => val3 dflt a b (ly + i) (lx + j))).
  { intros bs ys xs ly ry lx rx a Rb MY MX SA. destruct MY as (Y1 & Y2 & Y3 & _), MX as (X1 & X2 & X3 & _). unfold size, around in *. cbn [fst snd] in *.
    rewrite (shaped3_is_tab3 dflt _ _ _ a SA) at 1 by lia. rewrite trim3_tab3 by lia.
    replace (snd ys + ry + plus none dy - (fst ys - ly + plus none dy) - ly - ry) with (snd ys - fst ys) by lia.
    replace (snd xs + rx + plus none dx - (fst xs - lx + plus none dx) - lx - rx) with (snd xs - fst xs) by lia. reflexivity. }
  destruct (dask_blocks dflt g (@nil blk) bcs ycs' xcs' nb ny nx Cb Cy' Cx' Nx') as (G & E & HG).
  { intros kb bs ky ys kx xs BA. pose proof (block_range bcs ycs' xcs' nb ny nx (kb, ky, kx) bs ys xs Cb Cy' Cx' BA) as R.
    destruct (BLK _ _ _ _ _ _ BA) as (ly & ry & lx & rx & a & E & _ & MY & MX & _ & SA). cbn [map]. rewrite E. eexists. split; [reflexivity|].
    rewrite (TR bs ys xs) by tauto. apply shaped3_tab3; unfold size; lia. }
  exists G. split; [unfold dask_map_overlap; rewrite Ey; cbn [rbind]; rewrite Ex; exact E|].
  intros b y x Hb Hy Hx. destruct (block_of bcs ycs' xcs' nb ny nx b y x Cb Cy' Cx' Hb Hy Hx) as ([[kb ky] kx] & bs & ys & xs & BA & R1 & R2 & R3).
  pose proof (block_range bcs ycs' xcs' nb ny nx _ bs ys xs Cb Cy' Cx' BA) as R.
  destruct (BLK _ _ _ _ _ _ BA) as (ly & ry & lx & rx & a & EG & CA & MY & MX & EA & SA).
  exists (kb, ky, kx), bs, ys, xs, ly, ry, lx, rx, a. split; [exact CA|]. split; [exact R1|]. split; [exact R2|]. split; [exact R3|]. split; [tauto|]. split; [tauto|]. split; [exact MY|]. split; [exact MX|]. split; [exact EA|].
  pose proof (HG _ _ _ _ _ _ BA) as E2. cbn [map] in E2. rewrite EG in E2. injection E2 as E2. rewrite (TR bs ys xs) in E2 by tauto.
  assert (V : G b y x = val3 dflt a (b - fst bs) (ly + (y - fst ys)) (lx + (x - fst xs))).
  { pose proof (at3_tab3 (size bs) (size ys) (size xs) (fun b i j => G (fst bs + b) (fst ys + i) (fst xs + j)) (b - fst bs) (y - fst ys) (x - fst xs)) as T1.
    pose proof (at3_tab3 (size bs) (size ys) (size xs) (fun b i j => val3 dflt a b (ly + i) (lx + j)) (b - fst bs) (y - fst ys) (x - fst xs)) as T2. cbv beta in T1, T2.
    replace (fst bs + (b - fst bs)) with b in T1 by lia. replace (fst ys + (y - fst ys)) with y in T1 by lia. replace (fst xs + (x - fst xs)) with x in T1 by lia.
    unfold arr3, arr2 in *. rewrite E2 in T2. eapply at3_fun; [apply T1|apply T2]; unfold size; lia. }
  rewrite V. destruct MY as (Y1 & Y2 & Y3 & _), MX as (X1 & X2 & X3 & _).
  pose proof (at3_tab3 (size bs) (size (around dy ys ly ry)) (size (around dx xs lx rx)) (val3 dflt a) (b - fst bs) (y - fst ys + ly) (x - fst xs + lx)) as T.
  rewrite <- (shaped3_is_tab3 dflt _ _ _ a SA) in T by (unfold size, around; cbn [fst snd]; lia).
  replace (ly + (y - fst ys)) with (y - fst ys + ly) by lia. replace (lx + (x - fst xs)) with (x - fst xs + lx) by lia.
  apply T; unfold size, around; cbn [fst snd]; lia.
Qed.
End Blocks.
