(* correlate and convolve *)
From Coq Require Import QArith Permutation Sorted.
From Verif Require Import Base BaseFacts Scalars NumFacts Chunks ChunksSpec ChunksProofs Arr2 Arr2Facts
  Stats StatsSpec StatsProofs Focal FocalSpec FocalProofs FocalValues FocalFast.
Open Scope Z_scope.

Definition mode_edge (m : mode) : edge :=
  match m with MReflect => EReflect | MNearest => ENearest | MWrap => EWrap | MConstant => EConstant end.
Lemma cellf_beyond {A} m (cval : A) f ny nx i j : 0 < ny -> 0 < nx ->
  cellf (mode_boundary m) cval f ny nx i j = beyond (mode_edge m) cval f ny nx i j.
Proof.
  intros Hy Hx. unfold cellf, beyond. destruct m; cbn [mode_boundary mode_edge].
  - assert (E : forall n k, 0 < n -> extend Reflect n k = Some (if k mod (2 * n) <? n then k mod (2 * n) else 2 * n - 1 - k mod (2 * n))).
    { intros n k Hn. unfold extend. destruct ((0 <=? k) && (k <? n)) eqn:E; [|reflexivity].
      rewrite Z.mod_small by lia. now replace (k <? n) with true by lia. }
    now rewrite !E by assumption.
  - assert (E : forall n k, 0 < n -> extend Nearest n k = Some (Z.min (Z.max k 0) (n - 1))).
    { intros n k Hn. unfold extend. destruct ((0 <=? k) && (k <? n)) eqn:E1; [f_equal; lia|]. destruct (k <? 0) eqn:E2; f_equal; lia. }
    now rewrite !E by assumption.
  - assert (E : forall n k, 0 < n -> extend Wrap n k = Some (k mod n)).
    { intros n k Hn. unfold extend. destruct ((0 <=? k) && (k <? n)) eqn:E1; [|reflexivity]. now rewrite Z.mod_small by lia. }
    now rewrite !E by assumption.
  - unfold extend. destruct ((0 <=? i) && (i <? ny)), ((0 <=? j) && (j <? nx)); reflexivity.
Qed.

Lemma fold_left_map {A B C} (f : A -> B -> A) (g : C -> B) l : forall a,
  fold_left f (map g l) a = fold_left (fun a x => f a (g x)) l a.
Proof. induction l as [|x l IH]; intros a; [reflexivity|]. cbn. apply IH. Qed.
Lemma cells_tab ny nx : 0 <= ny -> 0 < nx -> cells ny nx = tab (ny * nx) (fun k => (k / nx, k mod nx)).
Proof.
  intros Hy Hx. rewrite <- (concat_tab2 ny nx (fun a b => (a, b))) by lia. unfold cells, tab2, tab. reflexivity.
Qed.
Lemma corr_at_spec {V} krows kcols isnan (vzero : V) vadd vmul W g g' i j :
  0 < krows -> 0 < kcols ->
  (forall a b, g' a b = g (a - i) (b - j)) ->
  corr_at krows kcols isnan vzero vadd vmul W g = correlation isnan vzero vadd vmul W krows kcols g' i j.
Proof.
  intros HR HC HG. unfold corr_at, correlation. rewrite cells_tab by lia. unfold tab. rewrite fold_left_map.
  apply StatsProofs.fold_left_ext. intros acc k. cbv beta iota zeta. rewrite HG.
  replace (i + k / kcols - (krows - 1) / 2 - i) with (k / kcols - (krows - 1) / 2) by lia.
  replace (j + k mod kcols - (kcols - 1) / 2 - j) with (k mod kcols - (kcols - 1) / 2) by lia. reflexivity.
Qed.

Lemma rev_tab {A} n (f : Z -> A) : rev (tab n f) = tab n (fun i => f (n - 1 - i)).
Proof.
  unfold tab. destruct (Z_le_dec 0 n) as [H|H].
  2:{ unfold zrange. now replace (Z.to_nat (n - 0)) with O by lia. }
  rewrite <- map_rev, zrange_rev, map_map by lia. apply map_ext. intros. f_equal; lia.
Qed.
Lemma flip_tab {A} n m (f : Z -> Z -> A) : rev (map (@rev A) (tab2 n m f)) = tab2 n m (fun i j => f (n - 1 - i) (m - 1 - j)).
Proof.
  unfold tab2. unfold tab at 1. rewrite map_map. change (map (fun x => rev (tab m (f x))) (zrange 0 n)) with (tab n (fun x => rev (tab m (f x)))).
  rewrite rev_tab. apply tab_ext. intros i _. apply rev_tab.
Qed.

Section Corr.
Context {V : Type}.
Variable nanv : V.
Variable isnan : V -> bool.
Hypothesis HNAN : isnan nanv = true.
Variables (vzero : V) (vadd vmul : V -> V -> V).
Variable junk : Z -> Z -> arr2 V.
Hypothesis HJ : forall n m, 0 <= n -> 0 <= m -> shaped2 n m (junk n m).
Variables krows kcols ny nx : Z.
Variables ycs xcs : list Z.
Hypothesis HKR : 0 < krows.
Hypothesis HKC : 0 < kcols.
Hypothesis Hy : 0 < ny.
Hypothesis Hx : 0 < nx.
Hypothesis FY : Forall (fun c => 0 <= c) ycs.
Hypothesis FX : Forall (fun c => 0 <= c) xcs.
Hypothesis SY : sum ycs = ny.
Hypothesis SX : sum xcs = nx.

Lemma no_nan_kernel (kernel : arr2 V) : Forall (Forall (fun v => isnan v = false)) kernel -> existsb (existsb isnan) kernel = false.
Proof.
  induction 1 as [|r k HR _ IH]; [reflexivity|]. cbn. rewrite IH, orb_false_r.
  induction HR as [|v r Hv _ IH']; [reflexivity|]. cbn. now rewrite Hv.
Qed.

Lemma correlate_masked W m cval nv cast data mask :
  Forall (Forall (fun v => isnan v = false)) (tab2 krows kcols W) ->
  krows / 2 <= ny -> kcols / 2 <= nx ->
  correlate nanv isnan vzero vadd vmul junk ny nx ycs xcs (tab2 krows kcols W) krows kcols m cval nv cast
    (VBand (tab2 ny nx data) (Some (tab2 ny nx mask)))
  = Ok (VBand (tab2 ny nx (fun i j => if mask i j : bool then nv else
        cast (correlation isnan vzero vadd vmul W krows kcols
               (beyond (mode_edge m) cval (fun p q => if mask p q then nanv else data p q) ny nx) i j)))
      (Some (tab2 ny nx mask))).
Proof.
  intros HK Dy Dx. unfold correlate. rewrite no_nan_kernel by exact HK. cbn [v_mask v_data]. rewrite where2_tab.
  unfold correlate_data. cbn [get_offsets fst snd].
  replace (Z.max ((krows - 1) / 2) (krows / 2)) with (krows / 2) by (destruct (half_max krows HKR); lia).
  replace (Z.max ((kcols - 1) / 2) (kcols / 2)) with (kcols / 2) by (destruct (half_max kcols HKC); lia).
  rewrite (correlate_map_overlap krows kcols HKR HKC); try assumption. cbn [rbind]. rewrite map2_tab, where2_tab. f_equal. f_equal.
  apply tab2_ext. intros i j _ _. destruct (mask i j); [reflexivity|]. f_equal. apply corr_at_spec; try assumption.
  intros a b. rewrite <- cellf_beyond by assumption. f_equal; lia.
Qed.
Lemma correlate_unmasked W m cval nv cast data :
  Forall (Forall (fun v => isnan v = false)) (tab2 krows kcols W) ->
  correlate nanv isnan vzero vadd vmul junk ny nx ycs xcs (tab2 krows kcols W) krows kcols m cval nv cast
    (VBand (tab2 ny nx data) None)
  = Ok (VBand (tab2 ny nx (correlation (fun _ => false) vzero vadd vmul W krows kcols (beyond (mode_edge m) cval data ny nx))) None).
Proof.
  clear HJ FY FX SY SX HNAN.
  intros HK. unfold correlate. rewrite no_nan_kernel by exact HK. cbn [v_mask v_data]. unfold correlate_data.
  rewrite ndfilter_spec by assumption. cbn [rbind]. f_equal. f_equal. apply tab2_ext. intros i j _ _.
  assert (HS : forall d, d / 2 + (if d mod 2 =? 0 then -1 else 0) = (d - 1) / 2).
  { intros d. pose proof (Z.mod_pos_bound d 2 ltac:(lia)). destruct (d mod 2 =? 0) eqn:E.
    - rewrite half_even by lia. lia.
    - rewrite half_odd by lia. lia. }
  rewrite !HS. unfold correlation. rewrite concat_tab2, cells_tab by lia. unfold tab. rewrite !fold_left_map.
  apply StatsProofs.fold_left_ext. intros acc k. cbn [fst snd]. rewrite cellf_beyond by assumption.
  replace (i + (k / kcols - (krows - 1) / 2)) with (i + k / kcols - (krows - 1) / 2) by lia.
  replace (j + (k mod kcols - (kcols - 1) / 2)) with (j + k mod kcols - (kcols - 1) / 2) by lia. reflexivity.
Qed.
Lemma correlate_too_small kernel m cval nv cast data mask :
  ~ (krows / 2 <= ny /\ kcols / 2 <= nx) ->
  correlate nanv isnan vzero vadd vmul junk ny nx ycs xcs kernel krows kcols m cval nv cast (VBand data (Some mask)) = Err ValueError.
Proof.
  intros D. unfold correlate. destruct (existsb (existsb isnan) kernel); [reflexivity|]. cbn [v_mask v_data].
  unfold correlate_data. cbn [get_offsets fst snd].
  replace (Z.max ((krows - 1) / 2) (krows / 2)) with (krows / 2) by (destruct (half_max krows HKR); lia).
  replace (Z.max ((kcols - 1) / 2) (kcols / 2)) with (kcols / 2) by (destruct (half_max kcols HKC); lia).
  unfold map_overlap. now replace ((ny <? krows / 2) || (nx <? kcols / 2)) with true by lia.
Qed.
Lemma convolve_flip W m cval nv cast rs :
  Forall (Forall (fun v => isnan v = false)) (tab2 krows kcols W) ->
  convolve nanv isnan vzero vadd vmul junk ny nx ycs xcs (tab2 krows kcols W) krows kcols m cval nv cast rs
  = correlate nanv isnan vzero vadd vmul junk ny nx ycs xcs
      (tab2 krows kcols (fun a b => W (krows - 1 - a) (kcols - 1 - b))) krows kcols m cval nv cast rs.
Proof. intros HK. unfold convolve. rewrite no_nan_kernel by exact HK. now rewrite flip_tab. Qed.
Lemma flip_no_nan W : Forall (Forall (fun v => isnan v = false)) (tab2 krows kcols W) ->
  Forall (Forall (fun v => isnan v = false)) (tab2 krows kcols (fun a b => W (krows - 1 - a) (kcols - 1 - b))).
Proof.
  rewrite <- flip_tab. intros H. apply Forall_rev. apply Forall_map. rewrite Forall_forall in *. intros r Hr.
  apply Forall_rev. now apply H.
Qed.
End Corr.

(* ---------------- sums of integers ---------------- *)
Lemma fold_add l : forall a, fold_left Z.add l a = a + fold_right Z.add 0 l.
Proof. induction l as [|x l IH]; intros a; cbn; [lia|]. rewrite IH. lia. Qed.
Lemma fold_right_add_app l l' : fold_right Z.add 0 (l ++ l') = fold_right Z.add 0 l + fold_right Z.add 0 l'.
Proof. induction l as [|x l IH]; cbn; lia. Qed.
Lemma fold_right_concat ls : fold_right Z.add 0 (concat ls) = fold_right Z.add 0 (map (fold_right Z.add 0) ls).
Proof. induction ls as [|l ls IH]; cbn; [reflexivity|]. rewrite fold_right_add_app. lia. Qed.
Lemma sum_permutation l l' : Permutation l l' -> fold_right Z.add 0 l = fold_right Z.add 0 l'.
Proof. induction 1; cbn; lia. Qed.
Lemma Zsum_ext n f g : (forall i, 0 <= i < n -> f i = g i) -> Zsum n f = Zsum n g.
Proof. intros H. unfold Zsum. f_equal. apply map_ext_in. intros i Hi. apply H. now apply zrange_in. Qed.
Lemma Zsum_rev n f : Zsum n f = Zsum n (fun i => f (n - 1 - i)).
Proof.
  unfold Zsum. change (map f (zrange 0 n)) with (tab n f). change (map (fun i => f (n - 1 - i)) (zrange 0 n)) with (tab n (fun i => f (n - 1 - i))).
  rewrite <- rev_tab. apply sum_permutation, Permutation_rev.
Qed.
Lemma correlation_sum W krows kcols value i j :
  correlation (fun _ => false) 0 Z.add Z.mul W krows kcols value i j
  = Zsum krows (fun a => Zsum kcols (fun b => W a b * value (i + a - (krows - 1) / 2) (j + b - (kcols - 1) / 2))).
Proof.
  unfold correlation. rewrite (StatsProofs.fold_left_ext _ (fun acc p => Z.add acc ((fun p => W (fst p) (snd p) * value (i + fst p - (krows - 1) / 2) (j + snd p - (kcols - 1) / 2)) p)))
    by (intros acc [a b]; reflexivity).
  rewrite <- (fold_left_map Z.add (fun p => W (fst p) (snd p) * value (i + fst p - (krows - 1) / 2) (j + snd p - (kcols - 1) / 2))).
  rewrite fold_add. unfold cells. rewrite concat_map, fold_right_concat, !map_map. cbn [Z.add]. unfold Zsum. f_equal. apply map_ext. intros a.
  now rewrite map_map.
Qed.
Lemma convolution_sum W krows kcols value i j :
  correlation (fun _ => false) 0 Z.add Z.mul (fun a b => W (krows - 1 - a) (kcols - 1 - b)) krows kcols value i j
  = Zsum krows (fun a => Zsum kcols (fun b => W a b * value (i + krows / 2 - a) (j + kcols / 2 - b))).
Proof.
  rewrite correlation_sum, (Zsum_rev krows). apply Zsum_ext. intros a _. rewrite (Zsum_rev kcols). apply Zsum_ext. intros b _.
  pose proof (halves krows). pose proof (halves kcols).
  f_equal; f_equal; lia.
Qed.
