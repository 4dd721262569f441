From Coq Require Import QArith Qabs Lqa Sorted.
From Verif Require Import Base BaseFacts Scalars NumFacts Zonal Reconcile Rasterize RasterizeSpec RasterizeProofs CostPublicProofs GeoMapProofs RasterFill RasterFillSpec.
Require Import Lia.
Open Scope Z_scope.

Lemma through_kept old d v : kept old d v -> through old d v = v.
Proof. intros [H K]. unfold through. now rewrite K. Qed.
Lemma fold_touches (ui : bool) (g : num -> num) i fs s : (forall f, In f fs -> g (burned ui f) = burned ui f) ->
  fold_left (fun acc f => if touches f i then g (burned ui f) else acc) fs s = fold_left (fun acc f => if touches f i then burned ui f else acc) fs s.
Proof.
  revert s. induction fs as [|f fs IH]; intros s H; [reflexivity|]. cbn [fold_left]. rewrite (H f) by now left. apply IH. intros h Hh. apply H. now right.
Qed.
Lemma order_in ui m f gdf : In f (burn_order ui m gdf) <-> In f gdf.
Proof. destruct m; cbn [burn_order]; [symmetry; apply in_rev|tauto|apply sort_in|apply sort_in]. Qed.
Lemma fill_cell_burn old ui d fill fs i : (forall f, In f fs -> kept old d (burned ui f)) -> fill_cell old ui d fill fs i = burn_cell ui (through old d fill) fs i.
Proof. intros H. unfold fill_cell, burn_cell. apply fold_touches. intros f Hf. now apply through_kept, H. Qed.
Lemma untouched_cells ui m s n gdf : existsb (fun f => existsb (touches f) (zrange 0 n)) gdf = false -> rasterize_onto_chunk ui m s n gdf = map (fun _ => s) (zrange 0 n).
Proof.
  intros E. unfold rasterize_onto_chunk. apply map_ext_in. intros i Hi. unfold burn_cell.
  assert (H : forall f, In f (burn_order ui m gdf) -> touches f i = false).
  { intros f Hf. apply order_in in Hf. destruct (touches f i) eqn:T; [|reflexivity]. exfalso. rewrite <- Bool.not_true_iff_false in E. apply E. apply existsb_exists. exists f. split; [exact Hf|].
    apply existsb_exists. now exists i. }
  generalize (burn_order ui m gdf) H. clear. intros l. induction l as [|f l IH]; intros H; [reflexivity|]. cbn [fold_left]. rewrite (H f) by now left. apply IH. intros g Hg. apply H. now right.
Qed.
Lemma full_tab {A} n (x : A) : 0 <= n -> full n x = map (fun _ => x) (zrange 0 n).
Proof.
  intros Hn. apply list_ext; [rewrite full_len, len_map, zrange_len by lia; lia|]. intros i y G. pose proof (get_ok_range _ _ _ G) as R. rewrite full_len in R by lia.
  rewrite get_full in G by lia. rewrite get_map_eq. destruct (get_range (zrange 0 n) i) as [z Z]; [rewrite zrange_len; lia|]. now rewrite Z.
Qed.
(* one partition, whatever the null value is stored as *)
Lemma onto_fill old ui m d fill n gdf : 0 <= n -> through old d fill = stored d fill -> (forall f, In f gdf -> kept old d (burned ui f)) -> can_cast (get_rio_dtype old d) fill = true ->
  fill_onto_chunk old ui m d fill n gdf = Ok (rasterize_onto_chunk ui m (stored d fill) n gdf).
Proof.
  intros Hn HT HK HC. unfold fill_onto_chunk. destruct (existsb _ gdf) eqn:E.
  - rewrite HC. f_equal. unfold rasterize_onto_chunk. apply map_ext. intros i. rewrite fill_cell_burn, HT; [reflexivity|]. intros f Hf. apply HK. now apply order_in in Hf.
  - f_equal. rewrite untouched_cells by exact E. now apply full_tab.
Qed.
Lemma can_cast_kept d v : is_nan v = false -> stored d v = v -> (is_float_dtype d = true \/ exists q, v = Fin q) -> can_cast d v = true.
Proof.
  intros NF S T. unfold can_cast. destruct v as [q| | |]; rewrite ?S; try (destruct T as [T|[q T]]; [exact T|discriminate]).
  apply Qle_bool_iff. setoid_replace (q - q)%Q with 0%Q by ring. change (Qabs 0) with 0%Q.
  pose proof (Qabs_nonneg q). nra.
Qed.
Lemma reduce_kept old ui m d q n t : 0 <= n -> kept old d (Fin q) -> (forall f, In f (concat (partitions t)) -> kept old d (burned ui f)) ->
  fill_reduce old ui m d (Fin q) n t = Ok (reduce_stack ui m (Fin q) n t).
Proof.
  intros Hn K HF. induction t as [gdf|t IH|t IHt u IHu]; cbn [fill_reduce reduce_stack partitions] in *.
  - rewrite onto_fill; [now rewrite (proj1 K)|exact Hn|rewrite through_kept by exact K; now rewrite (proj1 K)| |].
    + intros f Hf. apply HF. cbn. now rewrite app_nil_r.
    + apply can_cast_kept; [reflexivity|apply K|eauto].
  - now apply IH.
  - rewrite concat_app in HF. rewrite IHt, IHu; [reflexivity| |]; intros f Hf; apply HF; apply in_app_iff; tauto.
Qed.
Lemma fill_kept old ui m d q n parts matches t : 0 <= n -> kept old d (Fin q) ->
  (forall f, In f (concat parts) -> kept old d (burned ui f) /\ is_nan (burned ui f) = false /\ num_eqb (burned ui f) (Fin q) = false) ->
  (forall p f i, In p parts -> matches p = false -> In f p -> 0 <= i < n -> touches f i = false) ->
  match t with None => filter matches parts = [] | Some t => partitions t = filter matches parts end ->
  exists data, fill_chunk old ui m d (Fin q) n t = Ok data /\ len data = n /\
  forall i, 0 <= i < n -> exists v, get data i = Ok v /\ resolves m (Fin q) (touching ui (concat parts) i) v /\
    get (fill_mask m d (Fin q) t data) i = Ok (match touching ui (concat parts) i with [] => true | _ => false end).
Proof.
  intros Hn K HF HM HT. exists (rasterize_chunk ui m (Fin q) n t). split.
  - destruct t as [t|]; cbn [fill_chunk rasterize_chunk]; [|now rewrite (proj1 K)]. apply reduce_kept; [exact Hn|exact K|]. rewrite HT. intros f Hf. apply HF.
    apply in_concat in Hf as (p & Hp & Hf). apply filter_In in Hp as [Hp _]. apply in_concat. eauto.
  - pose proof (rasterize_spec ui m (Fin q) n parts matches t eq_refl Hn (fun f Hf => proj2 (HF f Hf)) HM HT) as H. unfold fill_mask. rewrite (proj1 K). now destruct (is_float_dtype d && _).
Qed.
Lemma onto_refused old ui m d fill n gdf f i : In f gdf -> 0 <= i < n -> touches f i = true -> can_cast (get_rio_dtype old d) fill = false ->
  fill_onto_chunk old ui m d fill n gdf = Err ValueError.
Proof.
  intros Hf Hi Ht HC. unfold fill_onto_chunk. rewrite HC. assert (E : existsb (fun f => existsb (touches f) (zrange 0 n)) gdf = true); [|now rewrite E].
  apply existsb_exists. exists f. split; [exact Hf|]. apply existsb_exists. exists i. split; [|exact Ht]. apply zrange_in. lia.
Qed.
Lemma onto_cases old ui m d fill n gdf : can_cast (get_rio_dtype old d) fill = false -> fill_onto_chunk old ui m d fill n gdf = Err ValueError \/ exists a, fill_onto_chunk old ui m d fill n gdf = Ok a.
Proof. intros HC. unfold fill_onto_chunk. rewrite HC. destruct (existsb _ gdf); [now left|right; eauto]. Qed.
Lemma reduce_cases old ui m d fill n t : can_cast (get_rio_dtype old d) fill = false -> fill_reduce old ui m d fill n t = Err ValueError \/ exists a, fill_reduce old ui m d fill n t = Ok a.
Proof.
  intros HC. induction t as [gdf|t IH|t IHt u IHu]; cbn [fill_reduce]; [now apply onto_cases|exact IH|].
  destruct IHt as [-> | [a ->]]; [now left|]. destruct IHu as [-> | [b ->]]; [now left|]. right. cbn. eauto.
Qed.
Lemma fill_refused old ui m d fill n t f i : In f (concat (partitions t)) -> 0 <= i < n -> touches f i = true -> can_cast (get_rio_dtype old d) fill = false ->
  fill_chunk old ui m d fill n (Some t) = Err ValueError.
Proof.
  intros Hf Hi Ht HC. cbn [fill_chunk]. induction t as [gdf|t IH|t IHt u IHu]; cbn [fill_reduce partitions] in *.
  - eapply onto_refused; try eassumption. cbn in Hf. now rewrite app_nil_r in Hf.
  - now apply IH.
  - rewrite concat_app in Hf. apply in_app_iff in Hf as [Hf|Hf].
    + now rewrite IHt.
    + rewrite IHu by exact Hf. destruct (reduce_cases old ui m d fill n t HC) as [-> | [a ->]]; reflexivity.
Qed.

(* ---- a null value that is stored as another number ---- *)
Definition cellwise (n : Z) (g : Z -> num) (x : list num) : Prop := x = map g (zrange 0 n).
Lemma zip_tab f g h n : zip f (map g (zrange 0 n)) (map h (zrange 0 n)) = map (fun i => f (g i) (h i)) (zrange 0 n).
Proof. unfold zip. generalize (zrange 0 n). intros l. induction l as [|x l IH]; [reflexivity|]. cbn. now rewrite IH. Qed.
Lemma burn_not_fill ui s fill fs i : num_eqb s fill = false -> (forall f, In f fs -> num_eqb (burned ui f) fill = false) -> num_eqb (burn_cell ui s fs i) fill = false.
Proof.
  intros HS HF. unfold burn_cell. revert s HS. induction fs as [|f fs IH]; intros s HS; [exact HS|]. cbn [fold_left]. apply IH; [intros; apply HF; now right|].
  destruct (touches f i); [apply HF; now left|exact HS].
Qed.
Lemma part_ne t : partitions t <> [].
Proof. induction t; cbn; [discriminate|assumption|]. destruct (partitions t1); [contradiction|discriminate]. Qed.
Lemma stored_not_nan d fill : is_nan fill = false -> is_nan (stored d fill) = false.
Proof.
  intros NF. unfold stored. destruct fill as [q| | |]; try discriminate; try reflexivity. destruct (is_float_dtype d).
  - destruct (num_eqb (round_to d (Fin q)) (Fin q)); [reflexivity|]. cbn [round_to]. destruct (Qnum q =? 0); [reflexivity|]. now destruct (ratio _ _ _).
  - now destruct (num_eqb (of_Z _) (Fin q)).
Qed.
Lemma reduced_parts t : 1 < len (partitions t) -> reduced t = true.
Proof. induction t; cbn [partitions reduced]; [intros H; vm_compute in H; discriminate|assumption|reflexivity]. Qed.
Section Other.
Variables (old ui : bool) (m : overlap) (d : dtype) (fill : num) (n : Z).
Hypothesis Hn : 0 <= n.
Hypothesis HT : through old d fill = stored d fill.
Hypothesis HC : can_cast (get_rio_dtype old d) fill = true.
Hypothesis HS : num_eqb (stored d fill) fill = false.
Let s := stored d fill.
Let part (p : list feature) (i : Z) : num := burn_cell ui s (burn_order ui m p) i.
Definition fits (l : list feature) : Prop := forall f, In f l -> kept old d (burned ui f) /\ is_nan (burned ui f) = false /\ num_eqb (burned ui f) fill = false.
Lemma part_not_fill p i : fits p -> num_eqb (part p i) fill = false.
Proof. intros F. apply burn_not_fill; [exact HS|]. intros f Hf. apply order_in in Hf. now apply F. Qed.
Lemma reduce_first t : m = First -> fits (concat (partitions t)) -> fill_reduce old ui m d fill n t = Ok (map (part (hd [] (partitions t))) (zrange 0 n)).
Proof.
  intros Hm. induction t as [gdf|t IH|t IHt u IHu]; intros F; cbn [fill_reduce partitions] in *.
  - rewrite onto_fill; [reflexivity|exact Hn|exact HT| |exact HC]. intros f Hf. apply F. cbn. now rewrite app_nil_r.
  - now apply IH.
  - rewrite concat_app in F. rewrite IHt, IHu; [|intros f Hf; apply F; apply in_app_iff; tauto..]. cbn [rbind]. rewrite Hm. cbn [resolve]. rewrite zip_tab. f_equal.
    pose proof (part_ne t) as N. destruct (partitions t) as [|p ps]; [contradiction|]. cbn [app hd]. apply map_ext. intros i. rewrite part_not_fill; [reflexivity|].
    intros f Hf. apply F. cbn. rewrite !in_app_iff. tauto.
Qed.
Lemma reduce_last t : m = Last -> fits (concat (partitions t)) -> fill_reduce old ui m d fill n t = Ok (map (part (List.last (partitions t) [])) (zrange 0 n)).
Proof.
  intros Hm. induction t as [gdf|t IH|t IHt u IHu]; intros F; cbn [fill_reduce partitions] in *.
  - rewrite onto_fill; [reflexivity|exact Hn|exact HT| |exact HC]. intros f Hf. apply F. cbn. now rewrite app_nil_r.
  - now apply IH.
  - rewrite concat_app in F. rewrite IHt, IHu; [|intros f Hf; apply F; apply in_app_iff; tauto..]. cbn [rbind]. rewrite Hm. cbn [resolve]. rewrite zip_tab. f_equal.
    pose proof (part_ne u) as N. rewrite last_app by exact N. apply map_ext. intros i. rewrite part_not_fill; [reflexivity|].
    intros f Hf. apply F. apply in_app_iff. right. apply in_concat. exists (List.last (partitions u) []). split; [now apply last_in|exact Hf].
Qed.
Lemma fill_first_last t : (m = First \/ m = Last) -> fits (concat (partitions t)) ->
  exists data, fill_chunk old ui m d fill n (Some t) = Ok data /\ len data = n /\
  forall i, 0 <= i < n -> exists v, get data i = Ok v /\
    resolves m s (touching ui (match m with First => hd [] (partitions t) | _ => List.last (partitions t) [] end) i) v.
Proof.
  intros Hm F. eexists. split; [cbn [fill_chunk]; destruct Hm as [Hm|Hm]; [rewrite reduce_first by assumption|rewrite reduce_last by assumption]|].
  - instantiate (1 := map (part (match m with First => hd [] (partitions t) | _ => List.last (partitions t) [] end)) (zrange 0 n)). now rewrite Hm.
  - now rewrite Hm.
  - split; [rewrite len_map, zrange_len; lia|]. intros i Hi. rewrite get_map_eq. rewrite get_zrange_ok by lia. cbn [Z.add]. eexists. split; [reflexivity|].
    unfold part. destruct Hm as [-> | ->]; cbn [burn_order]; rewrite burn_last.
    + unfold touching. rewrite filter_rev', map_rev. destruct (map (burned ui) _) as [|x l]; [reflexivity|]. cbn. apply last_app_snoc.
    + unfold resolves. destruct (touching ui (List.last (partitions t) []) i); reflexivity.
Qed.
Lemma mask_first_last t : (m = First \/ m = Last) -> fits (concat (partitions t)) -> is_nan fill = false -> (forall f, In f (concat (partitions t)) -> num_eqb (burned ui f) s = false) ->
  forall data, fill_chunk old ui m d fill n (Some t) = Ok data -> forall i, 0 <= i < n ->
  get (fill_mask m d fill (Some t) data) i = Ok (is_float_dtype d && match touching ui (match m with First => hd [] (partitions t) | _ => List.last (partitions t) [] end) i with [] => true | _ => false end).
Proof.
  intros Hm F NF FS data E i Hi. pose proof (fill_first_last t Hm F) as (data' & E' & _ & H). rewrite E in E'. injection E' as <-. destruct (H i Hi) as (v & G & R).
  assert (HP : In (match m with First => hd [] (partitions t) | _ => List.last (partitions t) [] end) (partitions t)).
  { pose proof (part_ne t) as N. destruct Hm as [-> | ->]; [destruct (partitions t); [contradiction|now left]|now apply last_in]. }
  set (p := match m with First => hd [] (partitions t) | _ => List.last (partitions t) [] end) in *.
  assert (HI : forall f, In f p -> In f (concat (partitions t))) by (intros f Hf; apply in_concat; eauto).
  assert (V : (touching ui p i = [] /\ v = s) \/ (touching ui p i <> [] /\ exists f, In f p /\ v = burned ui f)).
  { destruct (touching ui p i) as [|x l] eqn:T; [left; now split|right]. split; [discriminate|].
    assert (I : In v (touching ui p i)). { rewrite T. destruct Hm as [Hm|Hm]; rewrite Hm in R; cbn [resolves] in R; subst v; [now left|]. apply last_in. discriminate. }
    apply in_map_iff in I as (f & <- & Hf). apply filter_In in Hf as [Hf _]. now exists f. }
  unfold fill_mask, null_mask. rewrite get_map_eq, G. assert (W : widened m (Some t) = false) by (destruct Hm as [-> | ->]; reflexivity). rewrite W. cbn [negb]. rewrite andb_true_r. f_equal.
  destruct (is_float_dtype d) eqn:FD; cbn [andb].
  - rewrite stored_not_nan by exact NF. destruct V as [[T ->]|[T (f & Hf & ->)]].
    + rewrite T. apply num_eqb_refl. now apply stored_not_nan.
    + destruct (touching ui p i); [contradiction|]. apply FS. now apply HI.
  - rewrite NF. destruct V as [[_ ->]|[_ (f & Hf & ->)]]; [exact HS|]. apply F. now apply HI.
Qed.
(* min and max *)
Hypothesis NS : is_nan s = false.
Lemma part_not_nan p i : fits p -> is_nan (part p i) = false.
Proof.
  intros F. unfold part, burn_cell. assert (H : forall f, In f (burn_order ui m p) -> is_nan (burned ui f) = false) by (intros f Hf; apply order_in in Hf; now apply F).
  revert H NS. generalize (burn_order ui m p) s. intros l. induction l as [|f l IH]; intros s0 H N0; [exact N0|]. cbn [fold_left]. apply IH; [intros g Hg; apply H; now right|]. destruct (touches f i); [apply H; now left|exact N0].
Qed.
Lemma reduce_least t : (m = Min \/ m = Max) -> fits (concat (partitions t)) ->
  exists g, fill_reduce old ui m d fill n t = Ok (map g (zrange 0 n)) /\ forall i, In (g i) (map (fun p => part p i) (partitions t)) /\ is_nan (g i) = false /\ num_eqb (g i) fill = false /\
    forall u, In u (map (fun p => part p i) (partitions t)) -> match m with Max => num_leb u (g i) | _ => num_leb (g i) u end = true.
Proof.
  intros Hm. induction t as [gdf|t IH|t IHt u IHu]; intros F; cbn [fill_reduce partitions] in *.
  - cbn [concat] in F. rewrite app_nil_r in F. exists (part gdf). split; [rewrite onto_fill; [reflexivity|exact Hn|exact HT| |exact HC]; intros f Hf; now apply F|].
    intros i. pose proof (part_not_nan gdf i F) as N. split; [now left|]. split; [exact N|]. split; [now apply part_not_fill|]. intros u [<-|[]]. destruct Hm as [-> | ->]; now apply num_leb_refl.
  - now apply IH.
  - rewrite concat_app in F. destruct IHt as (g & -> & Hg); [intros f Hf; apply F; apply in_app_iff; tauto|]. destruct IHu as (h & -> & Hh); [intros f Hf; apply F; apply in_app_iff; tauto|].
    cbn [rbind]. destruct Hm as [Hm|Hm]; rewrite Hm in Hg, Hh |- *; cbn [resolve]; rewrite zip_tab; eexists; (split; [reflexivity|]); intros i; cbn beta;
      destruct (Hg i) as (I1 & N1 & E1 & L1), (Hh i) as (I2 & N2 & E2 & L2); rewrite E1, E2; cbn [andb]; rewrite map_app.
    + destruct (npmin_sel (g i) (h i) N1 N2) as ([E|E] & A & B); rewrite E in *; (split; [apply in_app_iff; tauto|]); (split; [assumption|]); (split; [assumption|]); intros w Hw; apply in_app_iff in Hw as [Hw|Hw];
        try (eapply num_leb_trans; [|apply L1, Hw]; assumption); try (eapply num_leb_trans; [|apply L2, Hw]; assumption).
    + destruct (npmax_sel (g i) (h i) N1 N2) as ([E|E] & A & B); rewrite E in *; (split; [apply in_app_iff; tauto|]); (split; [assumption|]); (split; [assumption|]); intros w Hw; apply in_app_iff in Hw as [Hw|Hw];
        try (eapply num_leb_trans; [apply L1, Hw|]; assumption); try (eapply num_leb_trans; [apply L2, Hw|]; assumption).
Qed.
Lemma fill_min_max t : (m = Min \/ m = Max) -> fits (concat (partitions t)) -> (forall f, In f (concat (partitions t)) -> num_eqb (burned ui f) s = false) ->
  exists data, fill_chunk old ui m d fill n (Some t) = Ok data /\ len data = n /\
  forall i, 0 <= i < n -> exists v vs, get data i = Ok v /\ Forall2 (fun p u => resolves m s (touching ui p i) u) (partitions t) vs /\ least m vs v.
Proof.
  intros Hm F FS. destruct (reduce_least t Hm F) as (g & E & H). exists (map g (zrange 0 n)). split; [exact E|]. split; [rewrite len_map, zrange_len; lia|].
  intros i Hi. exists (g i), (map (fun p => part p i) (partitions t)). split; [rewrite get_map_eq, get_zrange_ok by lia; reflexivity|].
  destruct (H i) as (I & N & _ & L). split; [|split; [exists (g i); split; [exact I|now apply num_eqb_refl]|exact L]].
  assert (K : forall p, In p (partitions t) -> resolves m s (touching ui p i) (part p i)).
  { intros p Hp. apply burn_resolves; [exact NS|]. intros f Hf. assert (In f (concat (partitions t))) by (apply in_concat; eauto). split; [now apply F|now apply FS]. }
  clear - K. induction (partitions t) as [|p ps IH]; [constructor|]. constructor; [apply K; now left|]. apply IH. intros q Hq. apply K. now right.
Qed.
Lemma mask_min_max t : (m = Min \/ m = Max) -> fits (concat (partitions t)) -> is_nan fill = false -> 1 < len (partitions t) \/ is_float_dtype d = false ->
  forall data, fill_chunk old ui m d fill n (Some t) = Ok data -> forall i, 0 <= i < n -> get (fill_mask m d fill (Some t) data) i = Ok false.
Proof.
  intros Hm F NF HW data E i Hi. destruct (reduce_least t Hm F) as (g & E' & H). cbn [fill_chunk] in E. rewrite E' in E. injection E as <-.
  unfold fill_mask, null_mask. assert (W : is_float_dtype d && negb (widened m (Some t)) = false).
  { destruct HW as [HW | ->]; [|reflexivity]. destruct Hm as [-> | ->]; cbn [widened]; rewrite (reduced_parts t HW); apply andb_false_r. }
  rewrite W, NF, !get_map_eq, get_zrange_ok by lia. f_equal. apply H.
Qed.
End Other.

(* ---- detours ---- *)
Lemma quot_int d z : is_float_dtype d = false -> stored d (of_Z z) = of_Z z.
Proof. intros H. unfold stored, of_Z. rewrite H. cbn [Qnum Qden inject_Z]. rewrite Z.quot_1_r. cbn [num_eqb]. unfold of_Z. now rewrite (proj2 (Qeq_bool_iff _ _) (Qeq_refl _)). Qed.
Lemma kept_int old d z : is_float_dtype d = false -> (old = false \/ (d <> I64 /\ d <> U64)) -> kept old d (of_Z z).
Proof. intros H K. split; apply quot_int; [exact H|]. destruct d; cbn in *; try discriminate; try reflexivity; destruct K as [-> | [K1 K2]]; try reflexivity; contradiction. Qed.
