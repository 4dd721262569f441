(* From the values under the kernel, as the loops collect them, to the
   specification. *)
From Coq Require Import QArith Permutation Sorted.
From Verif Require Import Base BaseFacts Scalars NumFacts Chunks ChunksSpec ChunksProofs Arr2 Arr2Facts
  Stats StatsSpec StatsProofs Focal FocalSpec FocalProofs.
Open Scope Z_scope.

(* ---------------- arrays ---------------- *)
Lemma where2_tab {A} ny nx m (x : A) a : where2 (tab2 ny nx m) x (tab2 ny nx a)
  = tab2 ny nx (fun i j => if m i j : bool then x else a i j).
Proof.
  unfold where2, tab2, tab at 1 3. rewrite combine_map, map_map. apply map_ext. intros i.
  unfold tab. rewrite combine_map, map_map. apply map_ext. intros j. reflexivity.
Qed.
Lemma or2_tab ny nx m n : or2 (tab2 ny nx m) (tab2 ny nx n) = tab2 ny nx (fun i j => m i j || n i j).
Proof.
  unfold or2, tab2, tab at 1 3. rewrite combine_map, map_map. apply map_ext. intros i.
  unfold tab. rewrite combine_map, map_map. apply map_ext. intros j. reflexivity.
Qed.
Lemma map2_tab {A B} (f : A -> B) ny nx a : map (map f) (tab2 ny nx a) = tab2 ny nx (fun i j => f (a i j)).
Proof. unfold tab2, tab. rewrite map_map. apply map_ext. intros i. apply map_map. Qed.
Lemma at2_tab {A} ny nx (a : Z -> Z -> A) i j : 0 <= i < ny -> 0 <= j < nx -> at2 (tab2 ny nx a) i j (a i j).
Proof. intros Hi Hj. exists (tab nx (a i)). unfold tab2. rewrite !get_tab by lia. auto. Qed.
Lemma val2_default {A} (d : A) a i j : val2 d a i j = default2 d a i j.
Proof. unfold val2, default2, get2. destruct (get a i); reflexivity. Qed.
Lemma val2_tab {A} (d : A) ny nx a i j : 0 <= i < ny -> 0 <= j < nx -> val2 d (tab2 ny nx a) i j = a i j.
Proof. intros. rewrite val2_default. unfold default2. now rewrite get2_tab2. Qed.
Lemma val2_out {A} (d : A) ny nx a i j : rect ny nx a -> ~ (0 <= i < ny /\ 0 <= j < nx) -> val2 d a i j = d.
Proof.
  intros [L F] H. unfold val2. destruct (get a i) eqn:E; [|reflexivity]. pose proof (get_ok_range _ _ _ E).
  rewrite Forall_forall in F. pose proof (F _ (get_in _ _ _ E)). destruct (get a0 j) eqn:E'; [|reflexivity].
  pose proof (get_ok_range _ _ _ E'). exfalso. apply H. lia.
Qed.
Lemma shaped_tab {A} (d : A) ny nx a : shaped2 ny nx a -> 0 <= ny -> a = tab2 ny nx (val2 d a).
Proof.
  intros R Hy. rewrite (rect_is_tab2 d ny nx a R Hy) at 1. apply tab2_ext. intros. symmetry. apply val2_default.
Qed.
Lemma cells_ndindex ny nx : cells ny nx = ndindex2 ny nx.
Proof. unfold cells, ndindex2. now rewrite flat_map_concat_map. Qed.

(* ---------------- the statistics see only the valid values ---------------- *)
Lemma valid_idem x : valid (valid x) = valid x.
Proof.
  unfold valid. induction x as [|v x IH]; [reflexivity|]. cbn [filter]. destruct (negb (is_nan v)) eqn:E; [|exact IH].
  cbn [filter]. rewrite E. now f_equal.
Qed.
Lemma nanmode_eq x : nanmode x = if len (valid x) =? 0 then Ok NaN else
  let* k := argmax (map (fun v => occurrences v x) (sort (valid x))) in get (sort (valid x)) k.
Proof.
  unfold nanmode. destruct (mode_loop x) as (c & xs & j & E & D & SV). rewrite E. cbn [rbind]. rewrite SV.
  destruct (len (valid x) =? 0); [reflexivity|].
  rewrite (mapE_ok _ (fun v => occurrences v x)); [reflexivity|].
  intros v HV. apply lookup_spec; [exact D| |]; apply (Permutation_in _ (sort_perm _)) in HV; now apply in_valid in HV.
Qed.
Lemma nanmode_valid x : nanmode (valid x) = nanmode x.
Proof.
  rewrite (nanmode_eq x), nanmode_eq, valid_idem. destruct (len (valid x) =? 0); [reflexivity|].
  f_equal. f_equal. apply map_ext. intros v. apply occ_valid.
Qed.
Lemma unique_valid x : nan_unique_count (valid x) = nan_unique_count x.
Proof.
  unfold nan_unique_count. f_equal. generalize (@nil num). induction x as [|v x IH]; intros s; [reflexivity|].
  unfold valid. cbn [filter]. destruct (is_nan v) eqn:E; cbn [negb fold_left]; rewrite ?E; apply IH.
Qed.
Lemma stat_valid other s x : stat_func other s (valid x) = stat_func other s x.
Proof.
  destruct s; cbn [stat_func]; unfold nanmin, nanmax, nansum; change drop_nan with valid; rewrite ?valid_idem, ?nanmode_valid, ?unique_valid; reflexivity.
Qed.
Lemma unique_zero x : num_eqb (of_Z (nan_unique_count x)) (of_Z 0) = (match valid x with [] => true | _ => false end).
Proof.
  rewrite <- unique_valid. destruct (valid x) as [|v l] eqn:E; [reflexivity|].
  assert (NV : is_nan v = false) by (assert (H : In v (valid x)) by (rewrite E; now left); now apply in_valid in H).
  assert (P : 0 < nan_unique_count (v :: l)).
  { pose proof (dict_distinct (v :: l)) as D. rewrite (unique_spec _ _ D). destruct D as (_ & D & _).
    destruct (D v (or_introl eq_refl) NV) as (k & Hk & _). destruct (map fst (fst (counts (v :: l)))); [destruct Hk|].
    rewrite len_cons. pose proof (len_nonneg l0). lia. }
  unfold num_eqb, of_Z. cbn. apply Qeq_bool_false. unfold Qeq. cbn. lia.
Qed.

(* ---------------- the cells under the kernel ---------------- *)
Lemma sorted_filter {A} (R : A -> A -> Prop) f l : StronglySorted R l -> StronglySorted R (filter f l).
Proof.
  induction 1 as [|a l SS IH F]; [constructor|]. cbn [filter]. destruct (f a); [|exact IH].
  constructor; [exact IH|]. rewrite Forall_forall in *. intros x Hx. apply filter_In in Hx. now apply F.
Qed.
Lemma sorted_unique (l : list (Z * Z)) : StronglySorted lex2 l -> forall l', StronglySorted lex2 l' ->
  (forall p, In p l <-> In p l') -> l = l'.
Proof.
  induction 1 as [|a l SS IH F]; intros l' SS' H.
  - destruct l' as [|b l']; [reflexivity|]. destruct (proj2 (H b) (or_introl eq_refl)).
  - destruct SS' as [|b l' SS' F']; [destruct (proj1 (H a) (or_introl eq_refl))|].
    rewrite Forall_forall in F, F'.
    assert (a = b).
    { destruct (proj1 (H a) (or_introl eq_refl)) as [E|Ha]; [now symmetry|].
      destruct (proj2 (H b) (or_introl eq_refl)) as [E|Hb]; [exact E|].
      pose proof (F b Hb) as L1. pose proof (F' a Ha) as L2. unfold lex2 in *. lia. }
    subst b. f_equal. apply IH; [exact SS'|]. intros p. split; intros Hp.
    + destruct (proj1 (H p) (or_intror Hp)) as [E|Hp']; [|exact Hp']. subst p. pose proof (F a Hp) as L. unfold lex2 in L. lia.
    + destruct (proj2 (H p) (or_intror Hp)) as [E|Hp']; [|exact Hp']. subst p. pose proof (F' a Hp) as L. unfold lex2 in L. lia.
Qed.

Section Under.
Variables krows kcols ny nx : Z.
Hypothesis HKR : 0 < krows.
Hypothesis HKC : 0 < kcols.
Variable kernel : arr2 bool.
Hypothesis HK : shaped2 krows kcols kernel.

(* shifting the true entries of the kernel onto the raster *)
Lemma under_shift i j :
  filter (fun p => (0 <=? fst p) && (fst p <? ny) && ((0 <=? snd p) && (snd p <? nx)))
    (map (fun p => (i + (fst p - (krows - 1) / 2), j + (snd p - (kcols - 1) / 2)))
       (filter (fun p => val2 false kernel (fst p) (snd p)) (ndindex2 krows kcols)))
  = filter (fun p => under kernel krows kcols i j (fst p) (snd p)) (cells ny nx).
Proof.
  rewrite cells_ndindex. apply sorted_unique.
  - apply sorted_filter. apply (sorted_map lex2); [apply sorted_filter, ndindex2_sorted|].
    intros [a b] [c d] _ _ H. unfold lex2 in *. cbn in *. lia.
  - apply sorted_filter, ndindex2_sorted.
  - intros [p q]. rewrite !filter_In, in_map_iff. cbn [fst snd]. rewrite ndindex2_in. unfold under. split.
    + intros ((x & E & Hx) & R). apply filter_In in Hx. destruct Hx as [HI HV]. injection E as <- <-.
      split; [lia|]. rewrite <- HV. f_equal; lia.
    + intros [R HV]. split; [|lia]. exists (p - i + (krows - 1) / 2, q - j + (kcols - 1) / 2). cbn [fst snd].
      split; [f_equal; lia|]. apply filter_In. cbn [fst snd]. split; [|exact HV]. apply ndindex2_in.
      destruct (Z_le_dec 0 (p - i + (krows - 1) / 2)), (Z_lt_dec (p - i + (krows - 1) / 2) krows),
        (Z_le_dec 0 (q - j + (kcols - 1) / 2)), (Z_lt_dec (q - j + (kcols - 1) / 2) kcols); try lia;
      rewrite (val2_out false krows kcols) in HV; (exact HK || discriminate HV || lia).
Qed.

Lemma valid_fuse {P Q} (F : P -> num) (D : Q -> num) (sh : P -> Q) (k : P -> bool) (inr : Q -> bool) l :
  (forall p, F p = if k p then if inr (sh p) then D (sh p) else NaN else NaN) ->
  valid (map F l) = valid (map D (filter inr (map sh (filter k l)))).
Proof.
  intros H. unfold valid. induction l as [|p l IH]; [reflexivity|]. cbn [map filter]. rewrite H.
  destruct (k p); cbn [map filter]; [|exact IH]. destruct (inr (sh p)); cbn [map filter]; [|exact IH].
  destruct (negb _); [now f_equal|exact IH].
Qed.
Lemma valid_masked (D : Z * Z -> num) (m : Z * Z -> bool) l :
  valid (map (fun p => if m p then NaN else D p) l) = valid (map D (filter (fun p => negb (m p)) l)).
Proof.
  unfold valid. induction l as [|p l IH]; [reflexivity|]. cbn [map filter]. destruct (m p); cbn [map filter is_nan negb]; [exact IH|].
  destruct (negb _); [now f_equal|exact IH].
Qed.
Lemma filter_filter {A} (f g : A -> bool) l : filter g (filter f l) = filter (fun x => f x && g x) l.
Proof. induction l as [|x l IH]; [reflexivity|]. cbn [filter]. destruct (f x); cbn [filter andb]; [destruct (g x); now rewrite ?IH|exact IH]. Qed.

Lemma focal_at_values other s data mask i j :
  shaped2 ny nx data -> 0 < ny -> 0 < nx ->
  focal_at NaN krows kcols (val2 false kernel) (stat_func other s)
    (fun di dj => cellf Constant NaN (fun p q => if mask p q : bool then NaN else val2 NaN data p q) ny nx (i + di) (j + dj))
  = stat_func other s (focal_values data mask kernel krows kcols ny nx i j).
Proof.
  intros HD Hy Hx. unfold focal_at. rewrite concat_tab2_flat. rewrite <- stat_valid. f_equal.
  rewrite (valid_fuse _ (fun p => if mask (fst p) (snd p) then NaN else val2 NaN data (fst p) (snd p))
    (fun p => (i + (fst p - (krows - 1) / 2), j + (snd p - (kcols - 1) / 2)))
    (fun p => val2 false kernel (fst p) (snd p))
    (fun p => (0 <=? fst p) && (fst p <? ny) && ((0 <=? snd p) && (snd p <? nx)))).
  - rewrite under_shift, valid_masked. unfold focal_values, valid. f_equal.
    rewrite filter_filter. rewrite (map_ext (fun p => val2 NaN data (fst p) (snd p)) (fun '(p, q) => val2 NaN data p q)) by now intros [].
    f_equal. apply filter_ext. now intros [].
  - intros [a b]. cbn [fst snd]. destruct (val2 false kernel a b); [|reflexivity]. unfold cellf, extend.
    destruct ((0 <=? i + (a - (krows - 1) / 2)) && (i + (a - (krows - 1) / 2) <? ny)),
      ((0 <=? j + (b - (kcols - 1) / 2)) && (j + (b - (kcols - 1) / 2) <? nx)); reflexivity.
Qed.
End Under.

(* ---------------- focal, values collected by the loops ---------------- *)
Section Focal.
Variable other : Z -> list num -> num.
Variable junk : Z -> Z -> arr2 num.
Hypothesis HJ : forall n m, 0 <= n -> 0 <= m -> shaped2 n m (junk n m).
Variables krows kcols ny nx : Z.
Variables ycs xcs : list Z.
Hypothesis HKR : 0 < krows.
Hypothesis HKC : 0 < kcols.
Hypothesis Hy : 0 < ny.
Hypothesis Hx : 0 < nx.
Hypothesis FY : Forall (fun c => 0 <= c) ycs.
Hypothesis FX : Forall (fun c => 0 <= c) xcs.
Hypothesis SY : sum ycs = ny.
Hypothesis SX : sum xcs = nx.
Variable kernel : arr2 bool.
Hypothesis HK : shaped2 krows kcols kernel.

Lemma focal_data_slow s nan_aware data mask :
  nan_aware = true \/ is_fast s = false ->
  krows / 2 <= ny -> kcols / 2 <= nx ->
  shaped2 ny nx data ->
  focal_data other junk ny nx ycs xcs kernel krows kcols s nan_aware
    (tab2 ny nx (fun p q => if mask p q : bool then NaN else val2 NaN data p q))
  = Ok (tab2 ny nx (fun i j => stat_func other s (focal_values data mask kernel krows kcols ny nx i j))).
Proof.
  intros HN Dy Dx HD. unfold focal_data. replace (negb nan_aware && is_fast s) with false by (destruct HN as [-> | ->]; [reflexivity|]; now rewrite andb_false_r).
  cbn [get_offsets fst snd].
  replace (Z.max ((krows - 1) / 2) (krows / 2)) with (krows / 2) by (destruct (half_max krows HKR); lia).
  replace (Z.max ((kcols - 1) / 2) (kcols / 2)) with (kcols / 2) by (destruct (half_max kcols HKC); lia).
  replace (fun rows cols => focal_chunk NaN kernel krows kcols (stat_func other s) (junk rows cols) rows cols)
    with (fun rows cols => focal_chunk NaN (tab2 krows kcols (val2 false kernel)) krows kcols (stat_func other s) (junk rows cols) rows cols)
    by (rewrite <- (shaped_tab false krows kcols kernel HK) by lia; reflexivity).
  rewrite (focal_map_overlap NaN krows kcols HKR HKC); try assumption. f_equal. apply tab2_ext. intros i j _ _.
  now apply focal_at_values.
Qed.
Lemma focal_data_err s nan_aware data :
  nan_aware = true \/ is_fast s = false ->
  ~ (krows / 2 <= ny /\ kcols / 2 <= nx) ->
  focal_data other junk ny nx ycs xcs kernel krows kcols s nan_aware data = Err ValueError.
Proof.
  intros HN D. unfold focal_data. replace (negb nan_aware && is_fast s) with false by (destruct HN as [-> | ->]; [reflexivity|]; now rewrite andb_false_r).
  cbn [get_offsets fst snd].
  replace (Z.max ((krows - 1) / 2) (krows / 2)) with (krows / 2) by (destruct (half_max krows HKR); lia).
  replace (Z.max ((kcols - 1) / 2) (kcols / 2)) with (kcols / 2) by (destruct (half_max kcols HKC); lia).
  unfold map_overlap. now replace ((ny <? krows / 2) || (nx <? kcols / 2)) with true by lia.
Qed.

(* the statistic, with "no values" for unique being null *)
Definition statistic (s : stat) (vals : list num) : num :=
  match s, vals with SUnique, [] => NaN | _, _ => stat_func other s vals end.

Lemma focal_masked s ignore_null data mask :
  krows / 2 <= ny -> kcols / 2 <= nx -> shaped2 ny nx data -> shaped2 ny nx mask ->
  let st := fun i j => statistic s (focal_values data (val2 false mask) kernel krows kcols ny nx i j) in
  let m := fun i j => if ignore_null : bool then val2 false mask i j else val2 false mask i j || is_nan (st i j) in
  focal other junk ny nx ycs xcs kernel krows kcols s ignore_null (Band data (Some mask))
  = Ok (Band (tab2 ny nx (fun i j => if m i j then NaN else st i j)) (Some (tab2 ny nx m))).
Proof.
  intros Dy Dx HD HM st m. unfold focal. cbn [b_mask b_data].
  pose proof (shaped_tab false ny nx mask HM ltac:(lia)) as EM. pose proof (shaped_tab NaN ny nx data HD ltac:(lia)) as ED.
  replace (where2 mask NaN data) with (where2 (tab2 ny nx (val2 false mask)) NaN (tab2 ny nx (val2 NaN data))) by now rewrite <- EM, <- ED.
  rewrite where2_tab. rewrite (focal_data_slow s true data (val2 false mask)); auto. cbn [rbind].
  set (vs := fun i j => focal_values data (val2 false mask) kernel krows kcols ny nx i j).
  assert (EU : match s with SUnique => map (map (fun v => if num_eqb v (of_Z 0) then NaN else v)) (tab2 ny nx (fun i j => stat_func other s (vs i j)))
     | _ => tab2 ny nx (fun i j => stat_func other s (vs i j)) end = tab2 ny nx st).
  { destruct s; try (apply tab2_ext; intros; reflexivity). rewrite map2_tab. apply tab2_ext. intros i j _ _.
    cbn [stat_func]. rewrite unique_zero. unfold st, statistic. fold (vs i j).
    assert (EV : valid (vs i j) = vs i j) by (unfold vs, focal_values; apply valid_idem).
    rewrite EV. destruct (vs i j); reflexivity. }
  rewrite EU. destruct ignore_null.
  - replace (where2 mask) with (@where2 num (tab2 ny nx (val2 false mask))) by now rewrite <- EM.
    rewrite where2_tab. replace (Some (tab2 ny nx m)) with (Some mask) by exact (f_equal Some EM). reflexivity.
  - replace (or2 mask) with (or2 (tab2 ny nx (val2 false mask))) by now rewrite <- EM. rewrite map2_tab, or2_tab, where2_tab. reflexivity.
Qed.
Lemma focal_masked_err s ignore_null data mask :
  ~ (krows / 2 <= ny /\ kcols / 2 <= nx) ->
  focal other junk ny nx ycs xcs kernel krows kcols s ignore_null (Band data (Some mask)) = Err ValueError.
Proof. intros D. unfold focal. cbn [b_mask b_data]. rewrite focal_data_err; auto. Qed.

Lemma focal_unmasked_slow s ignore_null data :
  is_fast s = false -> krows / 2 <= ny -> kcols / 2 <= nx -> shaped2 ny nx data ->
  focal other junk ny nx ycs xcs kernel krows kcols s ignore_null (Band data None)
  = Ok (Band (tab2 ny nx (fun i j => stat_func other s (focal_values data (fun _ _ => false) kernel krows kcols ny nx i j))) None).
Proof.
  intros HS Dy Dx HD. unfold focal. cbn [b_mask b_data].
  rewrite (shaped_tab NaN ny nx data HD) at 1 by lia.
  pose proof (focal_data_slow s false data (fun _ _ => false) (or_intror HS) Dy Dx HD) as E. cbn beta iota in E.
  change (tab2 ny nx (val2 NaN data)) with (tab2 ny nx (fun p q => val2 NaN data p q)). rewrite E. reflexivity.
Qed.
Lemma focal_unmasked_slow_err s ignore_null data :
  is_fast s = false -> ~ (krows / 2 <= ny /\ kcols / 2 <= nx) ->
  focal other junk ny nx ycs xcs kernel krows kcols s ignore_null (Band data None) = Err ValueError.
Proof. intros HS D. unfold focal. cbn [b_mask b_data]. rewrite focal_data_err; auto. Qed.
End Focal.
