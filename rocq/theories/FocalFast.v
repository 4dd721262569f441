(* The filters for rasters without nulls, and the windows. *)
From Coq Require Import QArith Permutation Sorted.
From Verif Require Import Base BaseFacts Scalars NumFacts Chunks ChunksSpec ChunksProofs Arr2 Arr2Facts
  Stats StatsSpec StatsProofs Focal FocalSpec FocalProofs FocalValues.
Open Scope Z_scope.

Lemma nan_equal_refl a : nan_equal a a = true.
Proof. unfold nan_equal. destruct a as [q| | |]; cbn; try reflexivity. apply Qeq_bool_iff. reflexivity. Qed.
Lemma nan_equal_trans a b c : nan_equal a b = true -> nan_equal b c = true -> nan_equal a c = true.
Proof.
  unfold nan_equal. destruct a as [p| | |], b as [q| | |], c as [r| | |]; cbn; try discriminate; try reflexivity.
  rewrite !Qeq_bool_iff. intros H1 H2. now rewrite H1.
Qed.
Lemma num_add_congr a a' b : nan_equal a a' = true -> nan_equal (num_add a b) (num_add a' b) = true.
Proof.
  unfold nan_equal. destruct a as [p| | |], a' as [q| | |], b as [r| | |]; cbn; try discriminate; try reflexivity.
  rewrite !Qeq_bool_iff. intros ->. reflexivity.
Qed.
Lemma num_add_zero a : nan_equal (num_add a (of_Z 0)) a = true.
Proof. destruct a as [p| | |]; try reflexivity. cbn. unfold nan_equal. cbn. apply Qeq_bool_iff. cbn. ring. Qed.

Lemma selected_map {P} (K : P -> bool) (F : P -> num) l : selected (map (fun p => (K p, F p)) l) = map F (filter K l).
Proof. unfold selected. induction l as [|p l IH]; [reflexivity|]. cbn [map filter fst]. destruct (K p); cbn [map]; now rewrite IH. Qed.

(* padding with zeros does not change a sum *)
Lemma sum_padded {P Q} (sh : P -> Q) (inr : Q -> bool) (D : Q -> num) l :
  nan_equal (nansum (map (fun p => if inr (sh p) then D (sh p) else of_Z 0) l))
            (nansum (map D (filter inr (map sh l)))) = true.
Proof.
  unfold nansum, drop_nan.
  enough (G : forall a a', nan_equal a a' = true ->
    nan_equal (fold_left num_add (filter (fun v => negb (is_nan v)) (map (fun p => if inr (sh p) then D (sh p) else of_Z 0) l)) a)
      (fold_left num_add (filter (fun v => negb (is_nan v)) (map D (filter inr (map sh l)))) a') = true) by (apply G, nan_equal_refl).
  induction l as [|p l IH]; intros a a' H; [exact H|]. cbn [map filter]. destruct (inr (sh p)) eqn:E.
  - cbn [map filter]. destruct (negb (is_nan (D (sh p)))); [|now apply IH]. cbn [fold_left]. apply IH. now apply num_add_congr.
  - cbn [is_nan of_Z negb fold_left]. apply IH. eapply nan_equal_trans; [apply num_add_zero|exact H].
Qed.

Lemma fold_min_spec t : forall a, is_nan a = false -> Forall (fun v => is_nan v = false) t ->
  In (fold_left num_min t a) (a :: t) /\ forall v, In v (a :: t) -> num_leb (fold_left num_min t a) v = true.
Proof.
  induction t as [|b t IH]; intros a Ha F.
  - split; [now left|]. intros v [<-|[]]. now apply num_leb_refl.
  - inversion F as [|? ? Hb F']; subst. cbn [fold_left]. unfold num_min at 2 4. destruct (num_ltb b a) eqn:E.
    + destruct (IH b Hb F') as [I L]. split; [right; exact I|]. intros v [<-|Hv]; [|now apply L].
      apply (num_leb_trans _ b); [apply L; now left|]. unfold num_leb. now rewrite E.
    + destruct (IH a Ha F') as [I L]. split; [destruct I as [I|I]; [now left|right; now right]|].
      intros v [<-|[<-|Hv]]; [apply L; now left| |apply L; now right].
      apply (num_leb_trans _ a); [apply L; now left|]. destruct (num_leb a b) eqn:N; [reflexivity|].
      rewrite (num_leb_total a b Ha Hb N) in E. discriminate.
Qed.
Lemma fold_max_spec t : forall a, is_nan a = false -> Forall (fun v => is_nan v = false) t ->
  In (fold_left num_max t a) (a :: t) /\ forall v, In v (a :: t) -> num_leb v (fold_left num_max t a) = true.
Proof.
  induction t as [|b t IH]; intros a Ha F.
  - split; [now left|]. intros v [<-|[]]. now apply num_leb_refl.
  - inversion F as [|? ? Hb F']; subst. cbn [fold_left]. unfold num_max at 2 4. destruct (num_ltb a b) eqn:E.
    + destruct (IH b Hb F') as [I L]. split; [right; exact I|]. intros v [<-|Hv]; [|now apply L].
      apply (num_leb_trans _ b); [|apply L; now left]. unfold num_leb. now rewrite E.
    + destruct (IH a Ha F') as [I L]. split; [destruct I as [I|I]; [now left|right; now right]|].
      intros v [<-|[<-|Hv]]; [apply L; now left| |apply L; now right].
      apply (num_leb_trans _ a); [|apply L; now left]. destruct (num_leb b a) eqn:N; [reflexivity|].
      rewrite (num_leb_total b a Hb Ha N) in E. discriminate.
Qed.
Definition minmax (s : stat) : bool := match s with SMin | SMax => true | _ => false end.
(* the smallest and largest value depend on the set of values only *)
Lemma minmax_set other s x y : minmax s = true -> (forall v, is_nan v = false -> In v x <-> In v y) ->
  nan_equal (stat_func other s x) (stat_func other s y) = true.
Proof.
  intros HS H.
  assert (HV : forall v, In v (valid x) <-> In v (valid y)).
  { intros v. rewrite !in_valid. split; intros [H1 H2]; (split; [apply (H v H2); exact H1|exact H2]). }
  assert (NV : forall z, Forall (fun v => is_nan v = false) (valid z)) by (intros z; apply Forall_forall; intros v Hv; now apply in_valid in Hv).
  destruct (valid x) as [|a t] eqn:EX, (valid y) as [|b u] eqn:EY.
  - destruct s; try discriminate; cbn [stat_func]; unfold nanmin, nanmax; change drop_nan with valid; rewrite EX, EY; reflexivity.
  - destruct (proj2 (HV b) (or_introl eq_refl)).
  - destruct (proj1 (HV a) (or_introl eq_refl)).
  - pose proof (NV x) as NX. pose proof (NV y) as NY. rewrite EX in NX. rewrite EY in NY.
    inversion NX as [|? ? NA NT]; subst. inversion NY as [|? ? NB NU]; subst.
    destruct s; try discriminate; cbn [stat_func]; unfold nanmin, nanmax; change drop_nan with valid; rewrite EX, EY.
    + destruct (fold_min_spec t a NA NT) as [I1 L1], (fold_min_spec u b NB NU) as [I2 L2].
      pose proof (L1 _ (proj2 (HV _) I2)) as A. pose proof (L2 _ (proj1 (HV _) I1)) as B.
      unfold nan_equal. rewrite (proj1 (num_leb_not_nan _ _ A)). now apply num_leb_antisym.
    + destruct (fold_max_spec t a NA NT) as [I1 L1], (fold_max_spec u b NB NU) as [I2 L2].
      pose proof (L1 _ (proj2 (HV _) I2)) as A. pose proof (L2 _ (proj1 (HV _) I1)) as B.
      unfold nan_equal. rewrite (proj1 (num_leb_not_nan _ _ B)). now apply num_leb_antisym.
Qed.

Lemma half_odd n : n mod 2 = 1 -> n / 2 = (n - 1) / 2.
Proof.
  intros H. pose proof (Z.div_mod n 2 ltac:(lia)). pose proof (Z.div_mod (n - 1) 2 ltac:(lia)).
  pose proof (Z.mod_pos_bound (n - 1) 2 ltac:(lia)). lia.
Qed.
Lemma half_even n : n mod 2 = 0 -> n / 2 = (n - 1) / 2 + 1.
Proof.
  intros H. pose proof (Z.div_mod n 2 ltac:(lia)). pose proof (Z.div_mod (n - 1) 2 ltac:(lia)).
  pose proof (Z.mod_pos_bound (n - 1) 2 ltac:(lia)). lia.
Qed.

Lemma ndfilter_shaped {W A B} (dw : W) (da : A) b (cval : A) ny nx krows kcols cr cc kernel (f : list (W * A) -> B) data :
  0 < ny -> 0 < nx -> 0 < krows -> 0 < kcols -> shaped2 krows kcols kernel -> shaped2 ny nx data ->
  ndfilter b cval ny nx krows kcols cr cc kernel f data
  = Ok (tab2 ny nx (fun i j => f (concat (tab2 krows kcols (fun p q =>
      (val2 dw kernel p q, cellf b cval (val2 da data) ny nx (i + (p - cr)) (j + (q - cc)))))))).
Proof.
  intros Hy Hx HKR HKC HK HD. rewrite (shaped_tab dw krows kcols kernel HK) at 1 by lia.
  rewrite (shaped_tab da ny nx data HD) at 1 by lia. now apply ndfilter_spec.
Qed.

Section Fast.
Variable other : Z -> list num -> num.
Variables krows kcols ny nx : Z.
Hypothesis HKR : 0 < krows.
Hypothesis HKC : 0 < kcols.
Hypothesis OKR : krows mod 2 = 1.
Hypothesis OKC : kcols mod 2 = 1.
Hypothesis Hy : 0 < ny.
Hypothesis Hx : 0 < nx.
Variable kernel : arr2 bool.
Hypothesis HK : shaped2 krows kcols kernel.
Variable data : arr2 num.
Hypothesis HD : shaped2 ny nx data.

Let sh i j := fun p : Z * Z => (i + (fst p - (krows - 1) / 2), j + (snd p - (kcols - 1) / 2)).
Let inr := fun p : Z * Z => (0 <=? fst p) && (fst p <? ny) && ((0 <=? snd p) && (snd p <? nx)).
Let D := fun p : Z * Z => val2 NaN data (fst p) (snd p).
Let K := fun p : Z * Z => val2 false kernel (fst p) (snd p).
Let nbrs i j := map D (filter inr (map (sh i j) (filter K (ndindex2 krows kcols)))).

Lemma nbrs_values i j : focal_values data (fun _ _ => false) kernel krows kcols ny nx i j = valid (nbrs i j).
Proof.
  unfold nbrs, focal_values, inr, sh, K, D. rewrite (under_shift krows kcols ny nx HKR HKC kernel HK). unfold valid. f_equal.
  rewrite (map_ext (fun p => val2 NaN data (fst p) (snd p)) (fun '(p, q) => val2 NaN data p q)) by now intros [].
  f_equal. apply filter_ext. intros []. cbn [fst snd]. now rewrite andb_true_r.
Qed.

Lemma fast_filter_sum : exists out, fast_filter other SSum ny nx krows kcols kernel data = Ok (tab2 ny nx out)
  /\ forall i j, nan_equal (out i j) (stat_func other SSum (focal_values data (fun _ _ => false) kernel krows kcols ny nx i j)) = true.
Proof.
  unfold fast_filter. rewrite (ndfilter_shaped false NaN) by assumption. eexists. split; [reflexivity|]. intros i j. cbv beta.
  rewrite nbrs_values, stat_valid. cbn [stat_func]. rewrite concat_tab2_flat, selected_map.
  rewrite (map_ext _ (fun p => if inr (sh i j p) then D (sh i j p) else of_Z 0)); [apply sum_padded|].
  intros [a b]. unfold inr, sh, D, cellf, extend. cbn [fst snd]. rewrite (half_odd krows OKR), (half_odd kcols OKC).
  destruct ((0 <=? i + (a - (krows - 1) / 2)) && (i + (a - (krows - 1) / 2) <? ny)),
      ((0 <=? j + (b - (kcols - 1) / 2)) && (j + (b - (kcols - 1) / 2) <? nx)); reflexivity.
Qed.

Lemma fast_filter_minmax s : minmax s = true -> solid kernel krows kcols ->
  exists out, fast_filter other s ny nx krows kcols kernel data = Ok (tab2 ny nx out)
  /\ forall i j, 0 <= i < ny -> 0 <= j < nx ->
       nan_equal (out i j) (stat_func other s (focal_values data (fun _ _ => false) kernel krows kcols ny nx i j)) = true.
Proof.
  intros HS HC. unfold fast_filter.
  replace (match s with SSum => ndfilter Constant (of_Z 0) ny nx krows kcols (krows / 2) (kcols / 2) kernel
              (fun kw => nansum (selected kw)) data
     | _ => ndfilter Nearest NaN ny nx krows kcols (krows / 2) (kcols / 2) kernel
              (fun kw => stat_func other s (selected kw)) data end)
    with (ndfilter Nearest NaN ny nx krows kcols (krows / 2) (kcols / 2) kernel
              (fun kw => stat_func other s (selected kw)) data) by (destruct s; reflexivity || discriminate HS).
  rewrite (ndfilter_shaped false NaN) by assumption. eexists. split; [reflexivity|]. intros i j Hi Hj. cbv beta.
  rewrite nbrs_values, stat_valid. rewrite concat_tab2_flat, selected_map. apply minmax_set; [exact HS|].
  intros v _. rewrite (half_odd krows OKR), (half_odd kcols OKC). unfold nbrs. rewrite !in_map_iff.
  assert (CL : forall n k, 0 < n -> extend Nearest n k = Some (Z.min (Z.max k 0) (n - 1))).
  { intros n k Hn. unfold extend. destruct ((0 <=? k) && (k <? n)) eqn:E1; [f_equal; lia|].
    destruct (k <? 0) eqn:E2; f_equal; lia. }
  split.
  - intros ([a b] & EV & HF). apply filter_In in HF. destruct HF as [HI HV]. cbn [fst snd] in *.
    unfold cellf in EV. rewrite !CL in EV by lia.
    set (p := Z.min (Z.max (i + (a - (krows - 1) / 2)) 0) (ny - 1)) in *.
    set (q := Z.min (Z.max (j + (b - (kcols - 1) / 2)) 0) (nx - 1)) in *.
    exists (p, q). split; [exact EV|]. apply filter_In. split; [|unfold inr; cbn [fst snd]; lia].
    apply in_map_iff. exists (p - i + (krows - 1) / 2, q - j + (kcols - 1) / 2). unfold sh. cbn [fst snd].
    split; [f_equal; lia|]. apply filter_In.
    assert (HV' : val2 false kernel (p - i + (krows - 1) / 2) (q - j + (kcols - 1) / 2) = true).
    { apply (HC a b); [exact HV| |]; unfold between; lia. }
    split; [|exact HV']. apply ndindex2_in.
    destruct (Z_le_dec 0 (p - i + (krows - 1) / 2)), (Z_lt_dec (p - i + (krows - 1) / 2) krows),
        (Z_le_dec 0 (q - j + (kcols - 1) / 2)), (Z_lt_dec (q - j + (kcols - 1) / 2) kcols); try lia;
      rewrite (val2_out false krows kcols) in HV'; (exact HK || discriminate HV' || lia).
  - intros (x & EV & HF). apply filter_In in HF. destruct HF as [HI HR]. apply in_map_iff in HI.
    destruct HI as ([a b] & EP & HP). exists (a, b). split; [|exact HP]. cbn [fst snd]. unfold sh in EP. cbn [fst snd] in EP.
    subst x. unfold inr in HR. cbn [fst snd] in HR. unfold cellf. rewrite !extend_in by lia. exact EV.
Qed.
End Fast.

(* ---------------- windows ---------------- *)
Lemma circle_tab r : 0 < r -> circle r = tab2 (2 * r - 1) (2 * r - 1)
  (fun x y => (x - (r - 1)) * (x - (r - 1)) + (y - (r - 1)) * (y - (r - 1)) <=? (r - 1) * (r - 1)).
Proof.
  intros H. unfold circle. replace ((r - 1) * 2 + 1) with (2 * r - 1) by lia.
  replace ((2 * r - 1 - 1) / 2) with (r - 1); [reflexivity|].
  replace (2 * r - 1 - 1) with ((r - 1) * 2) by lia. now rewrite Z.div_mul by lia.
Qed.
Lemma full_tab {A} n (x : A) : 0 <= n -> full n x = tab n (fun _ => x).
Proof. intros. apply list_tab; [lia|apply full_len; lia|]. intros. now apply get_full. Qed.
Lemma full2_tab {A} n m (x : A) : 0 <= n -> 0 <= m -> full n (full m x) = tab2 n m (fun _ _ => x).
Proof. intros. rewrite full_tab by lia. unfold tab2. apply tab_ext. intros. now apply full_tab. Qed.
Lemma pad_tab p n f : 0 <= p -> 0 <= n -> pad_false p n (tab2 n n f)
  = tab2 (n + 2 * p) (n + 2 * p) (fun x y => if (p <=? x) && (x <? p + n) && ((p <=? y) && (y <? p + n)) then f (x - p) (y - p) else false).
Proof.
  intros Hp Hn. unfold pad_false. rewrite !full_tab by lia.
  set (N := n + 2 * p).
  set (F := fun x y => if (p <=? x) && (x <? p + n) && ((p <=? y) && (y <? p + n)) then f (x - p) (y - p) else false).
  assert (R : forall x, 0 <= x < n -> tab p (fun _ => false) ++ tab n (f x) ++ tab p (fun _ => false) = tab N (F (p + x))).
  { intros x Hxx. unfold N. replace (n + 2 * p) with (p + (n + p)) by lia. rewrite <- (tab_app p (n + p)) by lia. f_equal.
    - apply tab_ext. intros y Hyy. unfold F. replace ((p <=? y) && (y <? p + n)) with false by lia. now rewrite andb_false_r.
    - rewrite <- (tab_app n p) by lia. f_equal.
      + apply tab_ext. intros y Hyy. unfold F. replace ((p <=? p + x) && (p + x <? p + n) && ((p <=? p + y) && (p + y <? p + n))) with true by lia.
        f_equal; lia.
      + apply tab_ext. intros y Hyy. unfold F. replace ((p <=? p + (n + y)) && (p + (n + y) <? p + n)) with false by lia. now rewrite andb_false_r. }
  assert (Z0 : forall k, (k < p \/ p + n <= k) -> tab N (fun _ => false) = tab N (F k)).
  { intros k Hk. apply tab_ext. intros y _. unfold F. replace ((p <=? k) && (k <? p + n)) with false by lia. reflexivity. }
  unfold tab2 at 2. unfold N at 3. replace (n + 2 * p) with (p + (n + p)) by lia. rewrite <- (tab_app p (n + p)) by lia. f_equal.
  - apply tab_ext. intros x Hxx. apply Z0. lia.
  - rewrite <- (tab_app n p) by lia. f_equal.
    + change (tab2 n n f) with (map (fun i => tab n (f i)) (zrange 0 n)). rewrite map_map. apply map_ext_in. intros x Hxx. apply zrange_in in Hxx. now apply R.
    + apply tab_ext. intros x Hxx. apply Z0. lia.
Qed.

Lemma window_rect w h : 0 < w -> 0 < h -> get_focal_window (One w) (Some h) = Ok (tab2 w h (fun _ _ => true)).
Proof.
  intros Hw Hh. cbn. replace (w <=? 0) with false by lia. cbn. replace (h <=? 0) with false by lia. now rewrite full2_tab by lia.
Qed.
Lemma window_circle r : 0 < r -> get_focal_window (One r) None = Ok (circle r).
Proof. intros H. cbn. now replace (r <=? 0) with false by lia. Qed.
Lemma window_annulus r1 r2 : 0 < r1 < r2 -> get_focal_window (Two r1 r2) None
  = Ok (tab2 (2 * r2 - 1) (2 * r2 - 1) (fun x y =>
      ((x - (r2 - 1)) * (x - (r2 - 1)) + (y - (r2 - 1)) * (y - (r2 - 1)) <=? (r2 - 1) * (r2 - 1))
      && negb ((x - (r2 - 1)) * (x - (r2 - 1)) + (y - (r2 - 1)) * (y - (r2 - 1)) <=? (r1 - 1) * (r1 - 1)))).
Proof.
  intros H. unfold get_focal_window. replace (r2 <=? r1) with false by lia. cbn [existsb].
  replace (r1 <=? 0) with false by lia. replace (r2 <=? 0) with false by lia. cbn [orb]. cbv zeta.
  assert (L : forall r, 0 < r -> len (circle r) = 2 * r - 1) by (intros r Hr; rewrite circle_tab by lia; apply len_tab; lia).
  rewrite !L by lia. rewrite !circle_tab by lia.
  replace ((2 * r2 - 1 - (2 * r1 - 1)) / 2) with (r2 - r1)
    by (replace (2 * r2 - 1 - (2 * r1 - 1)) with ((r2 - r1) * 2) by lia; now rewrite Z.div_mul by lia).
  rewrite pad_tab by lia. replace (2 * r1 - 1 + 2 * (r2 - r1)) with (2 * r2 - 1) by lia.
  rewrite where2_tab. f_equal. apply tab2_ext. intros x y Hx Hy.
  replace (x - (r2 - r1) - (r1 - 1)) with (x - (r2 - 1)) by lia. replace (y - (r2 - r1) - (r1 - 1)) with (y - (r2 - 1)) by lia.
  set (d := (x - (r2 - 1)) * (x - (r2 - 1)) + (y - (r2 - 1)) * (y - (r2 - 1))).
  destruct ((r2 - r1 <=? x) && (x <? r2 - r1 + (2 * r1 - 1)) && ((r2 - r1 <=? y) && (y <? r2 - r1 + (2 * r1 - 1)))) eqn:E.
  - destruct (d <=? (r1 - 1) * (r1 - 1)) eqn:E'; [now rewrite andb_false_r|]. now rewrite andb_true_r.
  - replace (d <=? (r1 - 1) * (r1 - 1)) with false; [now rewrite andb_true_r|]. symmetry. apply Z.leb_gt. unfold d.
    assert (Q : r1 - 1 < Z.abs (x - (r2 - 1)) \/ r1 - 1 < Z.abs (y - (r2 - 1))) by lia. clear - Q H.
    destruct Q as [Q|Q]; [set (u := x - (r2 - 1)) in *; set (w := y - (r2 - 1)) in *|set (w := x - (r2 - 1)) in *; set (u := y - (r2 - 1)) in *];
    assert (0 <= w * w) by nia; assert ((r1 - 1) * (r1 - 1) < u * u) by nia; lia.
Qed.

Lemma solid_rect w h : 0 < w -> 0 < h -> solid (tab2 w h (fun _ _ => true)) w h.
Proof.
  intros Hw Hh a b a' b' HV B1 B2.
  assert (R : 0 <= a < w /\ 0 <= b < h).
  { destruct (Z_le_dec 0 a), (Z_lt_dec a w), (Z_le_dec 0 b), (Z_lt_dec b h); try lia;
    rewrite (val2_out false w h) in HV; (apply rect_tab2; lia) || discriminate HV || lia. }
  unfold between in *. destruct (half_max w Hw), (half_max h Hh). pose proof (halves w). pose proof (halves h).
  rewrite val2_tab; [reflexivity|lia|lia].
Qed.
Lemma solid_circle r : 0 < r -> solid (circle r) (2 * r - 1) (2 * r - 1).
Proof.
  intros Hr a b a' b' HV B1 B2. rewrite circle_tab in * by lia.
  assert (EC : (2 * r - 1 - 1) / 2 = r - 1) by (replace (2 * r - 1 - 1) with ((r - 1) * 2) by lia; now rewrite Z.div_mul by lia).
  rewrite EC in *.
  assert (R : 0 <= a < 2 * r - 1 /\ 0 <= b < 2 * r - 1).
  { destruct (Z_le_dec 0 a), (Z_lt_dec a (2 * r - 1)), (Z_le_dec 0 b), (Z_lt_dec b (2 * r - 1)); try lia;
    rewrite (val2_out false (2 * r - 1) (2 * r - 1)) in HV; (apply rect_tab2; lia) || discriminate HV || lia. }
  unfold between in *. rewrite val2_tab in HV by lia. rewrite val2_tab by lia.
  apply Z.leb_le in HV. apply Z.leb_le.
  assert (Q : forall c u u', (c <= u' <= u \/ u <= u' <= c) -> (u' - c) * (u' - c) <= (u - c) * (u - c)) by (clear; intros; nia).
  pose proof (Q (r - 1) a a' B1). pose proof (Q (r - 1) b b' B2). lia.
Qed.
Lemma circle_shaped r : 0 < r -> shaped2 (2 * r - 1) (2 * r - 1) (circle r).
Proof. intros. rewrite circle_tab by lia. apply rect_tab2; lia. Qed.
