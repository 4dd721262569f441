(* The results in terms of arrays instead of tables. *)
From Coq Require Import QArith.
From Verif Require Import Base BaseFacts Scalars NumFacts Chunks ChunksSpec ChunksProofs Arr2 Arr2Facts
  Stats StatsSpec StatsProofs Focal FocalSpec FocalProofs FocalValues FocalFast FocalCorr.
Open Scope Z_scope.

(* a way of cutting n cells into chunks *)
Definition cuts (n : Z) (cs : list Z) : Prop := Forall (fun c => 0 <= c) cs /\ fold_right Z.add 0 cs = n.
Lemma cuts_sum n cs : cuts n cs -> Forall (fun c => 0 <= c) cs /\ sum cs = n.
Proof. intros [F S]. split; [exact F|]. rewrite <- S. clear. induction cs as [|c cs IH]; [reflexivity|]. rewrite sum_cons. cbn. lia. Qed.
Definition allocates {V} (junk : Z -> Z -> list (list V)) : Prop :=
  forall n m, 0 <= n -> 0 <= m -> shaped2 n m (junk n m).

Lemma tab2_ex {A} ny nx (f : Z -> Z -> A) : 0 < ny -> 0 < nx ->
  shaped2 ny nx (tab2 ny nx f) /\ forall i j, 0 <= i < ny -> 0 <= j < nx -> at2 (tab2 ny nx f) i j (f i j).
Proof. intros. split; [apply rect_tab2; lia|]. intros. now apply at2_tab. Qed.

Lemma chunk_independent other junk junk' krows kcols ny nx ycs xcs ycs' xcs' kernel s ignore_null rs :
  allocates junk -> allocates junk' ->
  0 < krows -> 0 < kcols -> 0 < ny -> 0 < nx ->
  cuts ny ycs -> cuts nx xcs -> cuts ny ycs' -> cuts nx xcs' ->
  shaped2 krows kcols kernel -> shaped2 ny nx (b_data rs) ->
  match b_mask rs with Some m => shaped2 ny nx m | None => True end ->
  focal other junk ny nx ycs xcs kernel krows kcols s ignore_null rs
  = focal other junk' ny nx ycs' xcs' kernel krows kcols s ignore_null rs.
Proof.
  intros HJ HJ' HKR HKC Hy Hx C1 C2 C3 C4 HK HD HM. destruct rs as [data [mask|]]; cbn [b_data b_mask] in *;
  apply cuts_sum in C1, C2, C3, C4; destruct C1, C2, C3, C4.
  - destruct (Z_le_dec (krows / 2) ny), (Z_le_dec (kcols / 2) nx).
    + rewrite (focal_masked other junk HJ), (focal_masked other junk' HJ'); auto.
    + rewrite !focal_masked_err; auto; lia.
    + rewrite !focal_masked_err; auto; lia.
    + rewrite !focal_masked_err; auto; lia.
  - destruct (is_fast s) eqn:EF.
    + unfold focal. cbn [b_mask b_data]. unfold focal_data. rewrite EF. reflexivity.
    + destruct (Z_le_dec (krows / 2) ny), (Z_le_dec (kcols / 2) nx).
      * rewrite (focal_unmasked_slow other junk HJ), (focal_unmasked_slow other junk' HJ'); auto.
      * rewrite !focal_unmasked_slow_err; auto; lia.
      * rewrite !focal_unmasked_slow_err; auto; lia.
      * rewrite !focal_unmasked_slow_err; auto; lia.
Qed.

Lemma masked_result other junk krows kcols ny nx ycs xcs kernel s data mask :
  allocates junk -> 0 < krows -> 0 < kcols -> 0 < ny -> 0 < nx -> cuts ny ycs -> cuts nx xcs ->
  shaped2 krows kcols kernel -> shaped2 ny nx data -> shaped2 ny nx mask ->
  krows / 2 <= ny -> kcols / 2 <= nx ->
  exists out m, focal other junk ny nx ycs xcs kernel krows kcols s false (Band data (Some mask)) = Ok (Band out (Some m))
  /\ shaped2 ny nx out /\ shaped2 ny nx m
  /\ forall i j, 0 <= i < ny -> 0 <= j < nx ->
     let vals := focal_values data (val2 false mask) kernel krows kcols ny nx i j in
     let st := match s, vals with SUnique, [] => NaN | _, _ => stat_func other s vals end in
     at2 m i j (val2 false mask i j || is_nan st) /\ at2 out i j (if val2 false mask i j then NaN else st).
Proof.
  intros HJ HKR HKC Hy Hx C1 C2 HK HD HM Dy Dx. apply cuts_sum in C1, C2. destruct C1, C2.
  rewrite (focal_masked other junk HJ) by assumption.
  eexists. eexists. split; [reflexivity|]. split; [apply tab2_ex; lia|]. split; [apply tab2_ex; lia|].
  intros i j Hi Hj. cbv zeta. split.
  - exact (at2_tab ny nx _ i j Hi Hj).
  - pose proof (at2_tab ny nx (fun i j => if val2 false mask i j || is_nan (statistic other s (focal_values data (val2 false mask) kernel krows kcols ny nx i j))
       then NaN else statistic other s (focal_values data (val2 false mask) kernel krows kcols ny nx i j)) i j Hi Hj) as A. cbv beta in A.
    set (st := statistic other s (focal_values data (val2 false mask) kernel krows kcols ny nx i j)) in A.
    match goal with |- at2 ?o _ _ _ => change (at2 o i j (if val2 false mask i j then NaN else st)) end.
    destruct (val2 false mask i j); [exact A|]. cbn [orb] in A.
    destruct (is_nan st) eqn:E in A; [|exact A].
    assert (ENN : st = NaN) by (destruct st; (reflexivity || discriminate E)). rewrite ENN. exact A.
Qed.
Lemma ignore_null_result other junk krows kcols ny nx ycs xcs kernel s data mask :
  allocates junk -> 0 < krows -> 0 < kcols -> 0 < ny -> 0 < nx -> cuts ny ycs -> cuts nx xcs ->
  shaped2 krows kcols kernel -> shaped2 ny nx data -> shaped2 ny nx mask ->
  krows / 2 <= ny -> kcols / 2 <= nx ->
  exists out, focal other junk ny nx ycs xcs kernel krows kcols s true (Band data (Some mask)) = Ok (Band out (Some mask))
  /\ forall i j, 0 <= i < ny -> 0 <= j < nx -> val2 false mask i j = true -> at2 out i j NaN.
Proof.
  intros HJ HKR HKC Hy Hx C1 C2 HK HD HM Dy Dx. apply cuts_sum in C1, C2. destruct C1, C2.
  rewrite (focal_masked other junk HJ) by assumption. cbv beta iota zeta.
  eexists. split. { do 2 f_equal. f_equal. symmetry. exact (shaped_tab false ny nx mask HM ltac:(lia)). }
  intros i j Hi Hj E. pose proof (at2_tab ny nx (fun i j => if val2 false mask i j then NaN else
    statistic other s (focal_values data (val2 false mask) kernel krows kcols ny nx i j)) i j Hi Hj) as A. cbv beta in A. rewrite E in A. exact A.
Qed.
Lemma unmasked_result other junk krows kcols ny nx ycs xcs kernel s ignore_null data :
  allocates junk -> 0 < krows -> 0 < kcols -> 0 < ny -> 0 < nx -> cuts ny ycs -> cuts nx xcs ->
  shaped2 krows kcols kernel -> shaped2 ny nx data ->
  krows / 2 <= ny -> kcols / 2 <= nx -> is_fast s = false ->
  exists out, focal other junk ny nx ycs xcs kernel krows kcols s ignore_null (Band data None) = Ok (Band out None)
  /\ shaped2 ny nx out
  /\ forall i j, 0 <= i < ny -> 0 <= j < nx ->
     at2 out i j (stat_func other s (focal_values data (fun _ _ => false) kernel krows kcols ny nx i j)).
Proof.
  intros HJ HKR HKC Hy Hx C1 C2 HK HD Dy Dx HS. apply cuts_sum in C1, C2. destruct C1, C2.
  rewrite (focal_unmasked_slow other junk HJ) by assumption. eexists. split; [reflexivity|]. now apply tab2_ex.
Qed.
Lemma unmasked_fast_result other junk krows kcols ny nx ycs xcs kernel s ignore_null data :
  0 < krows -> 0 < kcols -> krows mod 2 = 1 -> kcols mod 2 = 1 -> 0 < ny -> 0 < nx ->
  shaped2 krows kcols kernel -> shaped2 ny nx data ->
  s = SSum \/ ((s = SMin \/ s = SMax) /\ solid kernel krows kcols) ->
  exists out, focal other junk ny nx ycs xcs kernel krows kcols s ignore_null (Band data None) = Ok (Band out None)
  /\ shaped2 ny nx out
  /\ forall i j, 0 <= i < ny -> 0 <= j < nx ->
     exists v, at2 out i j v
     /\ nan_equal v (stat_func other s (focal_values data (fun _ _ => false) kernel krows kcols ny nx i j)) = true.
Proof.
  intros HKR HKC OR OC Hy Hx HK HD HS. unfold focal. cbn [b_mask b_data]. unfold focal_data. cbn [negb andb].
  assert (EF : is_fast s = true) by (destruct HS as [-> |[[-> | ->] _]]; reflexivity). rewrite EF.
  destruct HS as [-> | [HS HC]].
  - destruct (fast_filter_sum other krows kcols ny nx HKR HKC OR OC Hy Hx kernel HK data HD) as (out & E & H). rewrite E. cbn [rbind].
    eexists. split; [reflexivity|]. split; [apply tab2_ex; lia|]. intros i j Hi Hj. exists (out i j).
    split; [now apply at2_tab|]. apply H.
  - destruct (fast_filter_minmax other krows kcols ny nx HKR HKC OR OC Hy Hx kernel HK data HD s) as (out & E & H);
      [destruct HS as [-> | ->]; reflexivity|exact HC|]. rewrite E. cbn [rbind].
    eexists. split; [reflexivity|]. split; [apply tab2_ex; lia|]. intros i j Hi Hj. exists (out i j).
    split; [now apply at2_tab|]. now apply H.
Qed.

(* ---------------- correlate, convolve ---------------- *)
Section Corr.
Context {V : Type}.
Variable nanv : V.
Variable isnan : V -> bool.
Hypothesis HNAN : isnan nanv = true.
Variables (vzero : V) (vadd vmul : V -> V -> V).

Lemma beyond_ext {A} e (cval : A) f g ny nx i j : 0 < ny -> 0 < nx ->
  (forall p q, 0 <= p < ny -> 0 <= q < nx -> f p q = g p q) -> beyond e cval f ny nx i j = beyond e cval g ny nx i j.
Proof.
  intros Hy Hx H. unfold beyond. destruct e.
  - pose proof (Z.mod_pos_bound i (2 * ny) ltac:(lia)). pose proof (Z.mod_pos_bound j (2 * nx) ltac:(lia)).
    apply H.
    + destruct (i mod (2 * ny) <? ny) eqn:E; lia.
    + destruct (j mod (2 * nx) <? nx) eqn:E; lia.
  - apply H; lia.
  - pose proof (Z.mod_pos_bound i ny ltac:(lia)). pose proof (Z.mod_pos_bound j nx ltac:(lia)). apply H; lia.
  - destruct ((0 <=? i) && (i <? ny) && ((0 <=? j) && (j <? nx))) eqn:E; [|reflexivity]. apply H; lia.
Qed.

Lemma correlate_result junk krows kcols ny nx ycs xcs kernel m cval nv cast data mask :
  allocates junk -> 0 < krows -> 0 < kcols -> 0 < ny -> 0 < nx -> cuts ny ycs -> cuts nx xcs ->
  shaped2 krows kcols kernel -> Forall (Forall (fun v => isnan v = false)) kernel ->
  shaped2 ny nx data -> shaped2 ny nx mask -> krows / 2 <= ny -> kcols / 2 <= nx ->
  exists out, correlate nanv isnan vzero vadd vmul junk ny nx ycs xcs kernel krows kcols m cval nv cast (VBand data (Some mask))
    = Ok (VBand out (Some mask))
  /\ shaped2 ny nx out
  /\ forall i j, 0 <= i < ny -> 0 <= j < nx ->
     at2 out i j (if val2 false mask i j then nv else
       cast (correlation isnan vzero vadd vmul (val2 vzero kernel) krows kcols
         (beyond (mode_edge m) cval (fun p q => if val2 false mask p q then nanv else val2 nanv data p q) ny nx) i j)).
Proof.
  intros HJ HKR HKC Hy Hx C1 C2 HK NK HD HM Dy Dx. apply cuts_sum in C1, C2. destruct C1, C2.
  pose proof (shaped_tab vzero krows kcols kernel HK ltac:(lia)) as EK.
  pose proof (shaped_tab nanv ny nx data HD ltac:(lia)) as ED.
  pose proof (shaped_tab false ny nx mask HM ltac:(lia)) as EM.
  rewrite EK in NK.
  pose proof (correlate_masked nanv isnan vzero vadd vmul junk HJ krows kcols ny nx ycs xcs HKR HKC Hy Hx ltac:(assumption) ltac:(assumption) ltac:(assumption) ltac:(assumption)
    (val2 vzero kernel) m cval nv cast (val2 nanv data) (val2 false mask) NK Dy Dx) as E.
  rewrite <- EK, <- ED, <- EM in E. eexists. split; [exact E|]. now apply tab2_ex.
Qed.
Lemma correlate_unmasked_result junk krows kcols ny nx ycs xcs kernel m cval nv cast data :
  0 < krows -> 0 < kcols -> 0 < ny -> 0 < nx ->
  shaped2 krows kcols kernel -> Forall (Forall (fun v => isnan v = false)) kernel -> shaped2 ny nx data ->
  exists out, correlate nanv isnan vzero vadd vmul junk ny nx ycs xcs kernel krows kcols m cval nv cast (VBand data None)
    = Ok (VBand out None)
  /\ shaped2 ny nx out
  /\ forall i j, 0 <= i < ny -> 0 <= j < nx ->
     at2 out i j (correlation (fun _ => false) vzero vadd vmul (val2 vzero kernel) krows kcols
         (beyond (mode_edge m) cval (val2 nanv data) ny nx) i j).
Proof.
  intros HKR HKC Hy Hx HK NK HD.
  pose proof (shaped_tab vzero krows kcols kernel HK ltac:(lia)) as EK.
  pose proof (shaped_tab nanv ny nx data HD ltac:(lia)) as ED.
  rewrite EK in NK.
  pose proof (correlate_unmasked nanv isnan vzero vadd vmul junk krows kcols ny nx ycs xcs HKR HKC Hy Hx
    (val2 vzero kernel) m cval nv cast (val2 nanv data) NK) as E.
  rewrite <- EK, <- ED in E. eexists. split; [exact E|]. now apply tab2_ex.
Qed.
Lemma flip_shaped krows kcols (kernel : list (list V)) : 0 < krows -> 0 < kcols -> shaped2 krows kcols kernel ->
  shaped2 krows kcols (rev (map (@rev V) kernel))
  /\ forall a b, 0 <= a < krows -> 0 <= b < kcols ->
     val2 vzero (rev (map (@rev V) kernel)) a b = val2 vzero kernel (krows - 1 - a) (kcols - 1 - b).
Proof.
  intros HR HC HK. pose proof (shaped_tab vzero krows kcols kernel HK ltac:(lia)) as EK.
  replace (rev (map (@rev V) kernel)) with (rev (map (@rev V) (tab2 krows kcols (val2 vzero kernel)))) by now rewrite <- EK.
  rewrite flip_tab.
  split; [apply rect_tab2; lia|]. intros a b Ha Hb. now rewrite val2_tab by assumption.
Qed.
Lemma correlation_ext nan' W W' krows kcols value i j :
  (forall a b, 0 <= a < krows -> 0 <= b < kcols -> W a b = W' a b) ->
  correlation nan' vzero vadd vmul W krows kcols value i j = correlation nan' vzero vadd vmul W' krows kcols value i j.
Proof.
  intros H. unfold correlation. rewrite cells_ndindex.
  assert (G : forall l acc, (forall p, In p l -> In p (ndindex2 krows kcols)) ->
    fold_left (fun acc '(a, b) => let v := value (i + a - (krows - 1) / 2) (j + b - (kcols - 1) / 2) in
      if nan' v then acc else vadd acc (vmul (W a b) v)) l acc =
    fold_left (fun acc '(a, b) => let v := value (i + a - (krows - 1) / 2) (j + b - (kcols - 1) / 2) in
      if nan' v then acc else vadd acc (vmul (W' a b) v)) l acc).
  { induction l as [|[a b] l IH]; intros acc HL; [reflexivity|]. cbn [fold_left].
    pose proof (HL (a, b) (or_introl eq_refl)) as HI. apply ndindex2_in in HI. rewrite H by tauto.
    apply IH. intros p Hp. apply HL. now right. }
  apply G. auto.
Qed.
Lemma existsb_no_nan (kernel : list (list V)) : Forall (Forall (fun v => isnan v = false)) kernel ->
  Forall (Forall (fun v => isnan v = false)) (rev (map (@rev V) kernel)).
Proof. intros H. apply Forall_rev, Forall_map. rewrite Forall_forall in *. intros r Hr. apply Forall_rev. now apply H. Qed.
Lemma convolve_is_correlate junk krows kcols ny nx ycs xcs kernel m cval nv cast rs :
  Forall (Forall (fun v => isnan v = false)) kernel ->
  convolve nanv isnan vzero vadd vmul junk ny nx ycs xcs kernel krows kcols m cval nv cast rs
  = correlate nanv isnan vzero vadd vmul junk ny nx ycs xcs (rev (map (@rev V) kernel)) krows kcols m cval nv cast rs.
Proof. intros H. unfold convolve. now rewrite no_nan_kernel. Qed.

Lemma convolve_result junk krows kcols ny nx ycs xcs kernel m cval nv cast data mask :
  allocates junk -> 0 < krows -> 0 < kcols -> 0 < ny -> 0 < nx -> cuts ny ycs -> cuts nx xcs ->
  shaped2 krows kcols kernel -> Forall (Forall (fun v => isnan v = false)) kernel ->
  shaped2 ny nx data -> shaped2 ny nx mask -> krows / 2 <= ny -> kcols / 2 <= nx ->
  exists out, convolve nanv isnan vzero vadd vmul junk ny nx ycs xcs kernel krows kcols m cval nv cast (VBand data (Some mask))
    = Ok (VBand out (Some mask))
  /\ shaped2 ny nx out
  /\ forall i j, 0 <= i < ny -> 0 <= j < nx ->
     at2 out i j (if val2 false mask i j then nv else
       cast (correlation isnan vzero vadd vmul (fun a b => val2 vzero kernel (krows - 1 - a) (kcols - 1 - b)) krows kcols
         (beyond (mode_edge m) cval (fun p q => if val2 false mask p q then nanv else val2 nanv data p q) ny nx) i j)).
Proof.
  intros HJ HKR HKC Hy Hx C1 C2 HK NK HD HM Dy Dx. rewrite convolve_is_correlate by exact NK.
  destruct (flip_shaped krows kcols kernel HKR HKC HK) as [HS HV].
  destruct (correlate_result junk krows kcols ny nx ycs xcs (rev (map (@rev V) kernel)) m cval nv cast data mask) as (out & E & SO & A);
    try assumption; [now apply existsb_no_nan|].
  exists out. split; [exact E|]. split; [exact SO|]. intros i j Hi Hj. specialize (A i j Hi Hj).
  rewrite (correlation_ext isnan _ _ krows kcols _ i j HV) in A. exact A.
Qed.
Lemma convolve_unmasked_result junk krows kcols ny nx ycs xcs kernel m cval nv cast data :
  0 < krows -> 0 < kcols -> 0 < ny -> 0 < nx ->
  shaped2 krows kcols kernel -> Forall (Forall (fun v => isnan v = false)) kernel -> shaped2 ny nx data ->
  exists out, convolve nanv isnan vzero vadd vmul junk ny nx ycs xcs kernel krows kcols m cval nv cast (VBand data None)
    = Ok (VBand out None)
  /\ shaped2 ny nx out
  /\ forall i j, 0 <= i < ny -> 0 <= j < nx ->
     at2 out i j (correlation (fun _ => false) vzero vadd vmul (fun a b => val2 vzero kernel (krows - 1 - a) (kcols - 1 - b)) krows kcols
         (beyond (mode_edge m) cval (val2 nanv data) ny nx) i j).
Proof.
  intros HKR HKC Hy Hx HK NK HD. rewrite convolve_is_correlate by exact NK.
  destruct (flip_shaped krows kcols kernel HKR HKC HK) as [HS HV].
  destruct (correlate_unmasked_result junk krows kcols ny nx ycs xcs (rev (map (@rev V) kernel)) m cval nv cast data) as (out & E & SO & A);
    try assumption; [now apply existsb_no_nan|].
  exists out. split; [exact E|]. split; [exact SO|]. intros i j Hi Hj. specialize (A i j Hi Hj).
  rewrite (correlation_ext _ _ _ krows kcols _ i j HV) in A. exact A.
Qed.
End Corr.

(* ---------------- windows ---------------- *)
Lemma rect_window w h : 0 < w -> 0 < h ->
  exists k, get_focal_window (One w) (Some h) = Ok k /\ shaped2 w h k /\ solid k w h
  /\ forall a b, 0 <= a < w -> 0 <= b < h -> at2 k a b true.
Proof.
  intros. eexists. split; [now apply window_rect|]. split; [apply tab2_ex; lia|]. split; [now apply solid_rect|].
  intros a b Ha Hb. exact (at2_tab w h (fun _ _ => true) a b Ha Hb).
Qed.
Lemma circle_window r : 0 < r ->
  exists k, get_focal_window (One r) None = Ok k /\ shaped2 (2 * r - 1) (2 * r - 1) k /\ solid k (2 * r - 1) (2 * r - 1)
  /\ forall a b, 0 <= a < 2 * r - 1 -> 0 <= b < 2 * r - 1 -> exists t, at2 k a b t /\ (t = true <-> in_disc r a b).
Proof.
  intros. eexists. split; [now apply window_circle|]. split; [now apply circle_shaped|]. split; [now apply solid_circle|].
  intros a b Ha Hb. rewrite circle_tab by lia. eexists. split; [apply at2_tab; assumption|]. cbv beta. rewrite Z.leb_le. unfold in_disc.
  rewrite !Z.pow_2_r. reflexivity.
Qed.
Lemma annulus_window r1 r2 : 0 < r1 < r2 ->
  exists k, get_focal_window (Two r1 r2) None = Ok k /\ shaped2 (2 * r2 - 1) (2 * r2 - 1) k
  /\ forall a b, 0 <= a < 2 * r2 - 1 -> 0 <= b < 2 * r2 - 1 -> exists t, at2 k a b t
     /\ (t = true <-> in_disc r2 a b /\ ~ in_disc r1 (a - (r2 - r1)) (b - (r2 - r1))).
Proof.
  intros. eexists. split; [now apply window_annulus|]. split; [apply tab2_ex; lia|].
  intros a b Ha Hb. eexists. split; [apply at2_tab; assumption|]. cbv beta. rewrite andb_true_iff, negb_true_iff, Z.leb_le, Z.leb_gt.
  unfold in_disc. rewrite !Z.pow_2_r.
  replace (a - (r2 - r1) - (r1 - 1)) with (a - (r2 - 1)) by lia. replace (b - (r2 - r1) - (r1 - 1)) with (b - (r2 - 1)) by lia.
  lia.
Qed.
Lemma window_bad a h : (forall v, (a = One v \/ (exists w, a = Two v w) \/ (exists w, a = Two w v)) -> v <= 0 ->
  get_focal_window a h = Err ValueError)
  /\ (forall v1 v2, a = Two v1 v2 -> v2 <= v1 \/ h <> None -> get_focal_window a h = Err ValueError)
  /\ (forall v k, a = One v -> h = Some k -> k <= 0 -> get_focal_window a h = Err ValueError).
Proof.
  split; [|split].
  - intros v H Hv. destruct H as [-> |[[w ->]|[w ->]]]; unfold get_focal_window; cbn [existsb].
    + now replace (v <=? 0) with true by lia.
    + destruct (w <=? v); [reflexivity|]. now replace (v <=? 0) with true by lia.
    + destruct (v <=? w); [reflexivity|]. replace (v <=? 0) with true by lia. cbn [orb]. now rewrite orb_true_r.
  - intros v1 v2 -> H. unfold get_focal_window. destruct (v2 <=? v1) eqn:E; [reflexivity|]. destruct (existsb _ _); [reflexivity|].
    destruct h; [reflexivity|]. destruct H as [H|H]; [lia|congruence].
  - intros v k -> -> H. unfold get_focal_window. destruct (existsb _ _); [reflexivity|]. now replace (k <=? 0) with true by lia.
Qed.
Lemma unique_dtype_holds n dt c : 0 <= c <= n -> unique_dtype n = Some dt -> is_unsigned dt = true /\ 0 <= c <= int_max dt.
Proof.
  intros Hc H. unfold unique_dtype in H. cbn [find] in H.
  destruct (n <=? int_max U8) eqn:E1; [injection H as <-; split; [reflexivity|lia]|].
  destruct (n <=? int_max U16) eqn:E2; [injection H as <-; split; [reflexivity|lia]|].
  destruct (n <=? int_max U32) eqn:E3; [injection H as <-; split; [reflexivity|lia]|].
  destruct (n <=? int_max U64) eqn:E4; [injection H as <-; split; [reflexivity|lia]|discriminate].
Qed.
Lemma unique_le x : 0 <= nan_unique_count x <= len x.
Proof.
  unfold nan_unique_count. split; [apply len_nonneg|].
  enough (G : forall s, len (fold_left (fun s v => if is_nan v then s else set_add s v) x s) <= len s + len x).
  { specialize (G []). change (len (@nil num)) with 0 in G. lia. }
  induction x as [|v x IH]; intros s; [cbn; change (len (@nil num)) with 0; lia|]. cbn [fold_left]. rewrite len_cons.
  destruct (is_nan v). { specialize (IH s). lia. }
  specialize (IH (set_add s v)). unfold set_add in *. destruct (existsb _ s); [lia|].
  assert (len (s ++ [v]) = len s + 1) by (unfold len; rewrite app_length; cbn; lia). lia.
Qed.
