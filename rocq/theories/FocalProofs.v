From Coq Require Import QArith Permutation Sorted.
From Verif Require Import Base BaseFacts Scalars NumFacts Chunks ChunksSpec ChunksProofs Arr2 Arr2Facts
  Stats StatsSpec StatsProofs Focal FocalSpec.
Open Scope Z_scope.

(* ---------------- the loops over a chunk ---------------- *)

Lemma halves n : (n - 1) / 2 + n / 2 + 1 = n.
Proof.
  pose proof (Z.div_mod n 2 ltac:(lia)). pose proof (Z.mod_pos_bound n 2 ltac:(lia)).
  pose proof (Z.div_mod (n - 1) 2 ltac:(lia)). pose proof (Z.mod_pos_bound (n - 1) 2 ltac:(lia)). lia.
Qed.
Lemma half_max n : 0 < n -> Z.max ((n - 1) / 2) (n / 2) = n / 2 /\ 0 <= (n - 1) / 2 <= n / 2.
Proof.
  intros. pose proof (Z.div_mod n 2 ltac:(lia)). pose proof (Z.mod_pos_bound n 2 ltac:(lia)).
  pose proof (Z.div_mod (n - 1) 2 ltac:(lia)). pose proof (Z.mod_pos_bound (n - 1) 2 ltac:(lia)). lia.
Qed.

Lemma pairs_tab r0 r1 c0 c1 : r0 <= r1 -> c0 < c1 ->
  flat_map (fun r => map (fun c => (r, c)) (zrange c0 c1)) (zrange r0 r1)
  = tab ((r1 - r0) * (c1 - c0)) (fun k => (r0 + k / (c1 - c0), c0 + k mod (c1 - c0))).
Proof.
  intros H1 H2. rewrite <- (concat_tab2 (r1 - r0) (c1 - c0) (fun a b => (r0 + a, c0 + b))) by lia.
  rewrite flat_map_concat_map. f_equal. unfold tab2, tab. rewrite (zrange_shift r0 r1), map_map. apply map_ext. intros a.
  rewrite (zrange_shift c0 c1), map_map. reflexivity.
Qed.

Section Chunk.
Context {V : Type}.
Variable nanv : V.
Variables krows kcols : Z.
Hypothesis HKR : 0 < krows.
Hypothesis HKC : 0 < kcols.
Let top := (krows - 1) / 2.
Let lft := (kcols - 1) / 2.
Let dy := krows / 2.
Let dx := kcols / 2.

Lemma index_bounds k : 0 <= k < krows * kcols -> 0 <= k / kcols < krows /\ 0 <= k mod kcols < kcols.
Proof.
  intros H. split; [|apply Z.mod_pos_bound; lia]. split; [apply Z.div_pos; lia|]. apply Z.div_lt_upper_bound; lia.
Qed.

Lemma focal_cell_spec (K : Z -> Z -> bool) (g : Z -> Z -> V) rows cols r c :
  dy <= r < rows - dy -> dx <= c < cols - dx ->
  focal_cell nanv (concat (tab2 krows kcols K)) krows kcols (tab2 rows cols g) r c
  = Ok (concat (tab2 krows kcols (fun a b => if K a b then g (r + (a - top)) (c + (b - lft)) else nanv))).
Proof.
  intros Hr Hc. unfold focal_cell, get_offsets. fold top lft.
  pose proof (halves krows) as HH. pose proof (halves kcols) as HH'. fold top dy in HH. fold lft dx in HH'.
  destruct (half_max krows HKR) as [_ HT]. destruct (half_max kcols HKC) as [_ HL]. fold top dy in HT. fold lft dx in HL.
  fold dy dx.
  set (f := fun (s : list V * Z) (p : Z * Z) => let '(kv, ki) := s in
    let* k := get (concat (tab2 krows kcols K)) ki in
    let* kv := if k then let* v := get2 (tab2 rows cols g) (fst p) (snd p) in set kv ki v else Ok kv in
    Ok (kv, ki + 1)).
  transitivity (let* '(kv, _) := foldM f (flat_map (fun r => map (fun c => (r, c)) (zrange (c - lft) (c + dx + 1))) (zrange (r - top) (r + dy + 1)))
                   (full (krows * kcols) nanv, 0) in Ok kv).
  { rewrite <- foldM_nested. f_equal. apply foldM_ext. intros s kr _. apply foldM_ext. intros [kv ki] kc _. reflexivity. }
  rewrite pairs_tab by lia. replace (r + dy + 1 - (r - top)) with krows by lia. replace (c + dx + 1 - (c - lft)) with kcols by lia.
  unfold tab at 1. rewrite foldM_map.
  set (val := fun k => if K (k / kcols) (k mod kcols) then g (r + (k / kcols - top)) (c + (k mod kcols - lft)) else nanv).
  destruct (foldM_zrange (fun s k => f s (r - top + k / kcols, c - lft + k mod kcols))
    (fun k s => let '(kv, ki) := s in ki = k /\ len kv = krows * kcols
       /\ forall k', 0 <= k' < krows * kcols -> get kv k' = Ok (if k' <? k then val k' else nanv))
    (krows * kcols) (full (krows * kcols) nanv, 0)) as ([kv ki] & E & _ & L & G).
  - nia.
  - split; [reflexivity|]. split; [apply full_len; nia|]. intros k' Hk. rewrite get_full by lia.
    destruct (k' <? 0) eqn:E; [lia|reflexivity].
  - intros k [kv ki] Hk (-> & L & G). destruct (index_bounds k Hk) as [B1 B2]. unfold f. cbn [fst snd].
    rewrite concat_tab2 by lia. rewrite get_tab by lia. cbn [rbind]. destruct (K (k / kcols) (k mod kcols)) eqn:EK.
    + rewrite get2_tab2 by lia. cbn [rbind].
      destruct (set_range kv k (g (r - top + k / kcols) (c - lft + k mod kcols))) as [kv' ES]; [lia|]. rewrite ES. cbn [rbind].
      exists (kv', k + 1). split; [reflexivity|]. split; [reflexivity|]. split; [now rewrite (set_len _ _ _ _ ES)|].
      intros k' Hk'. destruct (Z.eq_dec k' k) as [->|N].
      * rewrite (get_set_same _ _ _ _ ES). replace (k <? k + 1) with true by lia. f_equal. unfold val. rewrite EK. f_equal; lia.
      * rewrite (get_set_other _ _ _ _ _ ES) by lia. rewrite G by lia. f_equal.
        destruct (Z.ltb_spec k' k), (Z.ltb_spec k' (k + 1)); try reflexivity; lia.
    + cbn [rbind]. exists (kv, k + 1). split; [reflexivity|]. split; [reflexivity|]. split; [exact L|].
      intros k' Hk'. rewrite G by lia. destruct (Z.eq_dec k' k) as [->|N].
      * replace (k <? k) with false by lia. replace (k <? k + 1) with true by lia. unfold val. now rewrite EK.
      * f_equal. destruct (Z.ltb_spec k' k), (Z.ltb_spec k' (k + 1)); try reflexivity; lia.
  - rewrite E. cbn [rbind]. f_equal. rewrite concat_tab2 by lia. fold val. apply list_tab; [nia|exact L|].
    intros i Hi. rewrite G by lia. now replace (i <? krows * kcols) with true by lia.
Qed.

Lemma chunk_spec {X} (cellv : Z -> Z -> res X) (val : Z -> Z -> V) (fin : X -> V) (junk : arr2 V) rows cols :
  2 * dy <= rows -> 2 * dx <= cols -> rect rows cols junk ->
  (forall r c, dy <= r < rows - dy -> dx <= c < cols - dx -> exists x, cellv r c = Ok x /\ fin x = val r c) ->
  exists o, foldM (fun out r => foldM (fun out c => let* x := cellv r c in set2 out r c (fin x)) (zrange dx (cols - dx)) out)
              (zrange dy (rows - dy)) junk = Ok o
    /\ rect rows cols o
    /\ forall i j, dy <= i < rows - dy -> dx <= j < cols - dx -> get2 o i j = Ok (val i j).
Proof.
  intros Hr Hc R H.
  destruct (half_max krows HKR) as [_ HT]. destruct (half_max kcols HKC) as [_ HL]. fold top dy in HT. fold lft dx in HL.
  rewrite (foldM_nested (fun out p => let* x := cellv (fst p) (snd p) in set2 out (fst p) (snd p) (fin x))).
  destruct (fill2 val (fun out p => let* x := cellv (fst p) (snd p) in set2 out (fst p) (snd p) (fin x)) rows cols
    (flat_map (fun r => map (fun c => (r, c)) (zrange dx (cols - dx))) (zrange dy (rows - dy)))) with (out := junk) as (o & E & RO & G).
  - intros i j HI. apply in_flat_map in HI. destruct HI as (r & Hr' & HI). apply in_map_iff in HI. destruct HI as (c & HE & Hc').
    injection HE as <- <-. apply zrange_in' in Hr', Hc'. lia.
  - intros out i j HI _. apply in_flat_map in HI. destruct HI as (r & Hr' & HI). apply in_map_iff in HI. destruct HI as (c & HE & Hc').
    injection HE as <- <-. apply zrange_in' in Hr', Hc'. cbn [fst snd].
    destruct (H r c Hr' Hc') as (x & Ex & Fx). rewrite Ex. cbn [rbind]. now rewrite Fx.
  - exact R.
  - exists o. split; [exact E|]. split; [exact RO|]. intros i j Hi Hj. apply G. apply in_flat_map. exists i.
    split; [apply zrange_in'; lia|]. apply in_map_iff. exists j. split; [reflexivity|apply zrange_in'; lia].
Qed.

(* the value that _focal_chunk computes at a cell around which the chunk is g *)
Definition focal_at (K : Z -> Z -> bool) (func : list V -> V) (g : Z -> Z -> V) : V :=
  func (concat (tab2 krows kcols (fun a b => if K a b then g (a - top) (b - lft) else nanv))).

Lemma focal_map_overlap (K : Z -> Z -> bool) (func : list V -> V) (junk : Z -> Z -> arr2 V) b cval ny nx ycs xcs (a : Z -> Z -> V) :
  (forall n m, 0 <= n -> 0 <= m -> rect n m (junk n m)) ->
  0 < ny -> 0 < nx -> dy <= ny -> dx <= nx ->
  Forall (fun c => 0 <= c) ycs -> Forall (fun c => 0 <= c) xcs -> sum ycs = ny -> sum xcs = nx ->
  map_overlap b cval ny nx dy dx ycs xcs
    (fun rows cols => focal_chunk nanv (tab2 krows kcols K) krows kcols func (junk rows cols) rows cols)
    (tab2 ny nx a)
  = Ok (tab2 ny nx (fun i j => focal_at K func (fun di dj => cellf b cval a ny nx (i + di) (j + dj)))).
Proof.
  intros HJ Hy Hx Dy Dx Fy Fx Sy Sx.
  pose proof (halves krows) as HH. pose proof (halves kcols) as HH'. fold top dy in HH. fold lft dx in HH'.
  destruct (half_max krows HKR) as [MT HT]. destruct (half_max kcols HKC) as [ML HL]. fold top dy in HT, MT. fold lft dx in HL, ML.
  apply map_overlap_spec; try assumption; try lia.
  - intros n m g Hn Hm. unfold focal_chunk, get_offsets. fold top dy lft dx. rewrite MT, ML.
    apply (chunk_spec (fun r c => focal_cell nanv (concat (tab2 krows kcols K)) krows kcols (tab2 n m g) r c)); try lia.
    + apply HJ; lia.
    + intros r c Hr Hc. eexists. split; [now apply focal_cell_spec|]. reflexivity.
  - intros g g' HG. unfold focal_at. f_equal. f_equal. apply tab2_ext. intros i j Hi Hj.
    destruct (K i j); [|reflexivity]. apply HG; lia.
Qed.

(* ---------------- correlation ---------------- *)
Variable isnan : V -> bool.
Variables (vzero : V) (vadd vmul : V -> V -> V).
(* sum over the kernel in row-major order, skipping NaN *)
Definition corr_at (W : Z -> Z -> V) (g : Z -> Z -> V) : V :=
  fold_left (fun acc k => let w := W (k / kcols) (k mod kcols) in
               let v := g (k / kcols - top) (k mod kcols - lft) in
               if isnan v then acc else vadd acc (vmul w v)) (zrange 0 (krows * kcols)) vzero.

Lemma correlate_cell_spec (W : Z -> Z -> V) (g : Z -> Z -> V) rows cols r c :
  dy <= r < rows - dy -> dx <= c < cols - dx ->
  correlate_cell isnan vzero vadd vmul (concat (tab2 krows kcols W)) krows kcols (tab2 rows cols g) r c
  = Ok (corr_at W (fun di dj => g (r + di) (c + dj))).
Proof.
  intros Hr Hc. unfold correlate_cell, get_offsets. fold top lft.
  pose proof (halves krows) as HH. pose proof (halves kcols) as HH'. fold top dy in HH. fold lft dx in HH'.
  destruct (half_max krows HKR) as [_ HT]. destruct (half_max kcols HKC) as [_ HL]. fold top dy in HT. fold lft dx in HL.
  fold dy dx.
  set (f := fun (s : V * Z) (p : Z * Z) => let '(v, ki) := s in
    let* val := get2 (tab2 rows cols g) (fst p) (snd p) in
    let* v := if isnan val then Ok v else let* k := get (concat (tab2 krows kcols W)) ki in Ok (vadd v (vmul k val)) in
    Ok (v, ki + 1)).
  transitivity (let* '(v, _) := foldM f (flat_map (fun r => map (fun c => (r, c)) (zrange (c - lft) (c + dx + 1))) (zrange (r - top) (r + dy + 1)))
                   (vzero, 0) in Ok v).
  { rewrite <- foldM_nested. f_equal. apply foldM_ext. intros s kr _. apply foldM_ext. intros [kv ki] kc _. reflexivity. }
  rewrite pairs_tab by lia. replace (r + dy + 1 - (r - top)) with krows by lia. replace (c + dx + 1 - (c - lft)) with kcols by lia.
  unfold tab at 1. rewrite foldM_map.
  set (st := fun acc k => let w := W (k / kcols) (k mod kcols) in
               let v := g (r + (k / kcols - top)) (c + (k mod kcols - lft)) in
               if isnan v then acc else vadd acc (vmul w v)).
  destruct (foldM_zrange (fun s k => f s (r - top + k / kcols, c - lft + k mod kcols))
    (fun k s => s = (fold_left st (zrange 0 k) vzero, k)) (krows * kcols) (vzero, 0)) as (s & E & ES).
  - nia.
  - reflexivity.
  - intros k s Hk ->. destruct (index_bounds k Hk) as [B1 B2]. unfold f. cbn [fst snd].
    rewrite get2_tab2 by lia. cbn [rbind]. eexists. split; [|reflexivity]. rewrite zrange_snoc, fold_left_app by lia.
    cbn [fold_left].
    assert (HS : forall acc, st acc k = if isnan (g (r + (k / kcols - top)) (c + (k mod kcols - lft))) then acc else
      vadd acc (vmul (W (k / kcols) (k mod kcols)) (g (r + (k / kcols - top)) (c + (k mod kcols - lft))))) by reflexivity.
    rewrite HS.
    replace (r - top + k / kcols) with (r + (k / kcols - top)) by lia.
    replace (c - lft + k mod kcols) with (c + (k mod kcols - lft)) by lia.
    destruct (isnan _); cbn [rbind]; [reflexivity|]. rewrite concat_tab2, get_tab by lia. reflexivity.
  - rewrite E, ES. reflexivity.
Qed.

Lemma correlate_map_overlap (W : Z -> Z -> V) (junk : Z -> Z -> arr2 V) b cval ny nx ycs xcs (a : Z -> Z -> V) :
  (forall n m, 0 <= n -> 0 <= m -> rect n m (junk n m)) ->
  0 < ny -> 0 < nx -> dy <= ny -> dx <= nx ->
  Forall (fun c => 0 <= c) ycs -> Forall (fun c => 0 <= c) xcs -> sum ycs = ny -> sum xcs = nx ->
  map_overlap b cval ny nx dy dx ycs xcs
    (fun rows cols => correlate2d_chunk isnan vzero vadd vmul (tab2 krows kcols W) krows kcols (junk rows cols) rows cols)
    (tab2 ny nx a)
  = Ok (tab2 ny nx (fun i j => corr_at W (fun di dj => cellf b cval a ny nx (i + di) (j + dj)))).
Proof.
  intros HJ Hy Hx Dy Dx Fy Fx Sy Sx.
  pose proof (halves krows) as HH. pose proof (halves kcols) as HH'. fold top dy in HH. fold lft dx in HH'.
  destruct (half_max krows HKR) as [MT HT]. destruct (half_max kcols HKC) as [ML HL]. fold top dy in HT, MT. fold lft dx in HL, ML.
  apply map_overlap_spec; try assumption; try lia.
  - intros n m g Hn Hm. unfold correlate2d_chunk, get_offsets. fold top dy lft dx. rewrite MT, ML.
    apply (chunk_spec (fun r c => correlate_cell isnan vzero vadd vmul (concat (tab2 krows kcols W)) krows kcols (tab2 n m g) r c)
             (fun i j => corr_at W (fun di dj => g (i + di) (j + dj))) (fun v => v)); try lia.
    + apply HJ; lia.
    + intros r c Hr Hc. eexists. split; [now apply correlate_cell_spec|]. reflexivity.
  - intros g g' HG. unfold corr_at.
    assert (X : forall l acc, (forall k, In k l -> 0 <= k < krows * kcols) ->
      fold_left (fun acc k => let w := W (k / kcols) (k mod kcols) in
               let v := g (k / kcols - top) (k mod kcols - lft) in
               if isnan v then acc else vadd acc (vmul w v)) l acc =
      fold_left (fun acc k => let w := W (k / kcols) (k mod kcols) in
               let v := g' (k / kcols - top) (k mod kcols - lft) in
               if isnan v then acc else vadd acc (vmul w v)) l acc).
    { induction l as [|k l IH]; intros acc HL'; [reflexivity|]. cbn [fold_left]. destruct (index_bounds k (HL' k (or_introl eq_refl))) as [B1 B2].
      cbv zeta. rewrite HG by lia. apply IH. intros. apply HL'. now right. }
    apply X. intros k. apply zrange_in.
Qed.
End Chunk.

(* ---------------- filters over the whole array ---------------- *)

Lemma combine_tab {A B} n (f : Z -> A) (g : Z -> B) : combine (tab n f) (tab n g) = tab n (fun i => (f i, g i)).
Proof. unfold tab. apply combine_map. Qed.

Lemma ndfilter_spec {W A B} b (cval : A) ny nx krows kcols cr cc (K : Z -> Z -> W) (f : list (W * A) -> B) a :
  0 < ny -> 0 < nx -> 0 < krows -> 0 < kcols ->
  ndfilter b cval ny nx krows kcols cr cc (tab2 krows kcols K) f (tab2 ny nx a)
  = Ok (tab2 ny nx (fun i j => f (concat (tab2 krows kcols (fun p q =>
      (K p q, cellf b cval a ny nx (i + (p - cr)) (j + (q - cc)))))))).
Proof.
  intros Hy Hx HKR HKC. unfold ndfilter.
  rewrite (traverse_ok _ (fun r => tab nx (fun j => f (concat (tab2 krows kcols (fun p q =>
      (K p q, cellf b cval a ny nx (r + (p - cr)) (j + (q - cc))))))))); [reflexivity|].
  intros r _. apply traverse_ok. intros c _. rewrite window_tab by lia. cbn [rbind]. f_equal. f_equal.
  replace (r - cr + krows - (r - cr)) with krows by lia. replace (c - cc + kcols - (c - cc)) with kcols by lia.
  rewrite !concat_tab2 by lia. rewrite combine_tab. apply tab_ext. intros k _. f_equal. f_equal; lia.
Qed.
