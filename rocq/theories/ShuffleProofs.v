(* Proofs about shuffling Vectors (C89). *)
From Coq Require Import QArith String Permutation Sorted.
From Verif Require Import Base BaseFacts Arr2 Arr2Facts ChunksProofs CostPublicProofs RasterStack GeoMapProofs Scalars Vectors VectorTable VectorTableSpec VectorTableProofs Shuffle ShuffleSpec ChunkBoxesProofs.
Open Scope Z_scope.

Section Parts.
Context {A : Type}.
Variable f : A -> Z.
Notation pick l i := (filter (fun r => f r =? i) l).

Lemma pick_none l a b : Forall (fun r => ~ a <= f r < b) l -> concat (map (fun i => pick l i) (zrange a b)) = [].
Proof.
  intros H. assert (HE : forall i, List.In i (zrange a b) -> pick l i = []).
  { intros i Hi. apply zrange_in' in Hi. induction H as [|x l Hx _ IH]; [reflexivity|]. cbn [filter]. replace (f x =? i) with false by lia. exact IH. }
  induction (zrange a b) as [|i is IH]; [reflexivity|]. cbn [map concat]. rewrite HE by now left. apply IH. intros j Hj. apply HE. now right.
Qed.
Lemma pick_cons x l is : NoDup is -> List.In (f x) is ->
  Permutation (concat (map (fun i => pick (x :: l) i) is)) (x :: concat (map (fun i => pick l i) is)).
Proof.
  intros N. induction N as [|i is Hi N IH]; intros Hx; [destruct Hx|]. cbn [map concat].
  change (pick (x :: l) i) with (if f x =? i then x :: pick l i else pick l i). destruct (Z.eqb_spec (f x) i) as [E|E].
  - cbn [app]. constructor. apply Permutation_app_head. subst i.
    assert (HE : forall j, List.In j is -> pick (x :: l) j = pick l j).
    { intros j Hj. cbn [filter]. destruct (Z.eqb_spec (f x) j); [subst; contradiction|reflexivity]. }
    rewrite (map_ext_in _ _ _ HE). reflexivity.
  - destruct Hx as [Hx|Hx]; [congruence|]. rewrite (IH Hx). apply Permutation_sym, Permutation_middle.
Qed.
Lemma pick_all l is : NoDup is -> Forall (fun r => List.In (f r) is) l -> Permutation (concat (map (fun i => pick l i) is)) l.
Proof.
  intros N H. induction H as [|x l Hx _ IH].
  - cbn [filter]. induction is as [|i is IHs]; [constructor|]. cbn [map concat app]. apply IHs. now inversion N.
  - rewrite (pick_cons x l is N Hx). now constructor.
Qed.
End Parts.

Lemma zrange_nodup n : NoDup (zrange 0 n).
Proof.
  pose proof (ChunksProofs.zrange_sorted n) as H. induction H as [|x l _ IH HF]; constructor; [|exact IH].
  intros Hin. rewrite Forall_forall in HF. specialize (HF x Hin). lia.
Qed.
Lemma bisect_nonneg divs x : 0 <= bisect_right divs x <= len divs.
Proof. induction divs as [|d divs IH]; cbn [bisect_right]; [cbn; lia|]. rewrite len_cons. pose proof (len_nonneg divs). destruct (d <=? x); lia. Qed.
Lemma bisect_mono divs x y : x <= y -> bisect_right divs x <= bisect_right divs y.
Proof.
  intros H. induction divs as [|d divs IH]; cbn [bisect_right]; [lia|]. pose proof (bisect_nonneg divs y).
  destruct (Z.leb_spec d x), (Z.leb_spec d y); lia.
Qed.
Lemma partition_range divs x : 2 <= len divs -> 0 <= partition_of divs x < len divs - 1.
Proof. unfold partition_of. pose proof (bisect_nonneg divs x). lia. Qed.
Lemma partition_mono divs x y : x <= y -> partition_of divs x <= partition_of divs y.
Proof. intros H. unfold partition_of. pose proof (bisect_mono divs x y H). lia. Qed.

Lemma set_index_perm divs rows : 2 <= len divs -> Permutation (concat (set_index divs rows)) rows.
Proof.
  intros H. unfold set_index. transitivity (concat (map (fun i => filter (fun r => partition_of divs (fst r) =? i) rows) (zrange 0 (len divs - 1)))).
  - induction (zrange 0 (len divs - 1)) as [|i is IH]; [constructor|]. cbn [map concat]. apply Permutation_app; [apply sort_perm|exact IH].
  - apply (pick_all (fun r => partition_of divs (fst r))); [apply zrange_nodup|]. apply Forall_forall. intros r _. apply zrange_in. now apply partition_range.
Qed.
Lemma app_sorted {A} (R : A -> A -> Prop) l l' : StronglySorted R l -> StronglySorted R l' -> (forall x y, List.In x l -> List.In y l' -> R x y) -> StronglySorted R (l ++ l').
Proof.
  intros S S' H. induction S as [|x l S IH F]; [exact S'|]. cbn [app]. constructor.
  - apply IH. intros a b Ha Hb. apply H; [now right|exact Hb].
  - apply Forall_app. split; [exact F|]. apply Forall_forall. intros b Hb. apply H; [now left|exact Hb].
Qed.
Lemma in_part divs rows i r : List.In r (sort_index (filter (fun r => partition_of divs (fst r) =? i) rows)) -> partition_of divs (fst r) = i.
Proof. intros H. apply (Permutation_in _ (sort_perm _)) in H. apply filter_In in H. lia. Qed.
Lemma set_index_sorted divs rows : StronglySorted le_label (concat (set_index divs rows)).
Proof.
  unfold set_index. pose proof (ChunksProofs.zrange_sorted (len divs - 1)) as S. induction S as [|i is S IH F]; [constructor|]. cbn [map concat].
  apply app_sorted; [apply sort_sorted|exact IH|]. intros x y Hx Hy. apply in_part in Hx.
  apply in_concat in Hy. destruct Hy as (p & Hp & Hy). apply in_map_iff in Hp. destruct Hp as (j & <- & Hj). apply in_part in Hy.
  rewrite Forall_forall in F. specialize (F j Hj). unfold le_label. destruct (Z_le_gt_dec (fst x) (fst y)) as [L|L]; [exact L|].
  pose proof (partition_mono divs (fst y) (fst x)). lia.
Qed.
Lemma set_index_len divs rows : 2 <= len divs -> len (set_index divs rows) = len divs - 1.
Proof. intros H. unfold set_index. rewrite len_map, GeoMapProofs.zrange_len; lia. Qed.

Section Shuffle.
Variable curve : Z -> Z.
Variable quantiles : list Z -> Z -> list Z.
Hypothesis divisions : forall labels n, quantiles_of labels (quantiles labels n).

Lemma shuffle_ok v : exists w, spatial_shuffle curve quantiles v = Ok w /\ shuffled curve v w
  /\ exists divs, c_divs (v_geo w) = Some divs /\ len divs = len (c_parts (v_geo w)) + 1
  /\ best_effort_len divs (len (List.last (c_parts (v_geo w)) [])) = Ok (v_size w).
Proof.
  unfold spatial_shuffle. cbv zeta. set (rows := map (fun '(_, w) => (curve (w_geom w), w)) (concat (c_parts (v_geo v)))). set (divs := quantiles _ _). assert (HD : 2 <= len divs) by apply divisions.
  unfold new_vector. cbn [normalize_geo_data c_divs rbind]. unfold vector_size. cbn [c_parts].
  assert (HB : exists n, best_effort_len divs (len (List.last (set_index divs rows) [])) = Ok n).
  { unfold best_effort_len. destruct (len divs =? 2); [eexists; reflexivity|]. rewrite VectorsProofs.len_divisions; [cbn [rbind]; eexists; reflexivity|].
    intros E. assert (L : len (slice divs 0 (len divs - 1)) = 0) by now rewrite E. rewrite slice_len in L; lia. }
  destruct HB as (n & HB). rewrite HB. cbn [rbind]. eexists. split; [reflexivity|].
  pose proof (set_index_perm divs rows HD) as P. split.
  - constructor; unfold rows_of, features; cbn [v_geo c_parts c_schema].
    + rewrite P. unfold rows. rewrite map_map. apply Permutation_refl'. apply map_ext. now intros [].
    + rewrite P. unfold rows. apply Forall_map, Forall_forall. now intros [] _.
    + apply set_index_sorted.
    + reflexivity.
  - exists divs. cbn [v_geo c_divs c_parts v_size]. rewrite set_index_len by exact HD. split; [reflexivity|]. split; [lia|exact HB].
Qed.
Lemma shuffle_one v w : spatial_shuffle curve quantiles v = Ok w -> len (c_parts (v_geo w)) = 1 -> v_size w = len (rows_of v).
Proof.
  intros E L. destruct (shuffle_ok v) as (w' & E' & S & divs & _ & HL & HB). rewrite E in E'. injection E' as <-.
  unfold best_effort_len in HB. replace (len divs =? 2) with true in HB by lia. injection HB as <-.
  destruct S as [P _ _ _]. apply Permutation_length in P. unfold rows_of, features in *. destruct (c_parts (v_geo w)) as [|p [|q ps]].
  - cbn in L. lia.
  - cbn [List.last concat] in *. rewrite app_nil_r in P. rewrite !map_length in P. unfold len. now rewrite P.
  - rewrite !len_cons in L. pose proof (len_nonneg ps). lia.
Qed.
Lemma shuffle_size v w first before rest : spatial_shuffle curve quantiles v = Ok w -> c_divs (v_geo w) = Some (first :: rest) -> 2 <= len rest ->
  get rest (len rest - 2) = Ok before -> v_size w = before - first + len (List.last (c_parts (v_geo w)) []).
Proof.
  intros E D L G. destruct (shuffle_ok v) as (w' & E' & _ & divs & D' & HL & HB). rewrite E in E'. injection E' as <-.
  rewrite D in D'. injection D' as <-. unfold best_effort_len in HB. rewrite len_cons in HB. replace (1 + len rest =? 2) with false in HB by lia.
  rewrite VectorsProofs.len_divisions in HB.
  2:{ intros E0. assert (L0 : len (slice (first :: rest) 0 (1 + len rest - 1)) = 0) by now rewrite E0. rewrite slice_len in L0; rewrite ?len_cons; lia. }
  cbn [rbind] in HB.
  assert (HS : slice (first :: rest) 0 (1 + len rest - 1) = first :: slice rest 0 (len rest - 1)).
  { unfold slice. change (Z.to_nat 0) with 0%nat. cbn [skipn]. replace (Z.to_nat (1 + len rest - 1 - 0)) with (S (Z.to_nat (len rest - 1 - 0))) by lia. reflexivity. }
  rewrite HS in HB. cbn [hd] in HB. replace before with (List.last (first :: slice rest 0 (len rest - 1)) 0); [congruence|]. clear HB HS.
  pose proof (slice_len rest 0 (len rest - 1)) as SL. pose proof (get_slice rest 0 (len rest - 1) (len rest - 2)) as GS.
  destruct (slice rest 0 (len rest - 1)) as [|y ys] eqn:ES; [cbn in SL; lia|].
  change (List.last (first :: y :: ys) 0) with (List.last (y :: ys) 0).
  assert (HG : get (y :: ys) (len (y :: ys) - 1) = Ok before).
  { rewrite SL by lia. replace (len rest - 1 - 0 - 1) with (len rest - 2) by lia. rewrite GS by lia. exact G. }
  assert (HLast : forall l : list Z, forall d, l <> [] -> get l (len l - 1) = Ok d -> List.last l 0 = d).
  { intros l d N Hg. destruct (exists_last N) as (l' & z & ->). rewrite last_last. rewrite len_app in Hg. change (len [z]) with 1 in Hg.
    rewrite get_app2 in Hg by lia. replace (len l' + 1 - 1 - len l') with 0 in Hg by lia. now injection Hg. }
  apply HLast; [discriminate|exact HG].
Qed.
End Shuffle.
Lemma partitions_ok a v : good a v -> calculate_spatial_partitions v = Ok v.
Proof. exact (copy_ok a v). Qed.
