(* zonal_stats: the calls. *)
From Coq Require Import QArith String Ascii DecimalString DecimalN NArith Lia ZifyBool ZifyNat Permutation Sorted OrdersEx.
From Verif Require Import Base BaseFacts Scalars NumFacts Arr2 Arr2Facts Dtypes ChunksProofs CostPublicProofs ProximityChunk FocalSpec FocalValues FocalResults Raster RasterSpec RasterProofs RasterStack Stats StatsSpec StatsProofs
  Zonal ZonalSpec ZonalProofs ZonalStats Vectors VectorsProofs Rasterize RasterizeSpec RasterizeRaster RasterizeRasterSpec RasterizeRasterProofs Frames FramesProofs ZonalRaster ZonalRasterSpec ZonalRasterProofs ZonalRasterCells.
Open Scope Z_scope.

Lemma cells_ext zone zone' n z : (forall i, 0 <= i < n -> zone i = zone' i) -> cells_of zone n z = cells_of zone' n z.
Proof. intros H. apply filter_ext_in. intros i Hi. apply zrange_in in Hi. unfold in_zone. now rewrite H. Qed.
Lemma frame_ext cast other names zone zone' n nb dr f : (forall i, 0 <= i < n -> zone i = zone' i) -> frame_of cast other names zone n nb dr f -> frame_of cast other names zone' n nb dr f.
Proof.
  intros H (A & B & C & D). split; [exact A|]. split; [exact B|]. split.
  - intros i z Hi E. rewrite <- H in E by exact Hi. eauto.
  - intros z vals I. rewrite <- (cells_ext zone zone' n z H). now apply D.
Qed.

(* ---- labels ---- *)
Lemma digits_no_underscore u : ~ In "_"%char (list_ascii_of_string (NilEmpty.string_of_uint u)).
Proof. induction u; cbn; [tauto|..]; intros [H|H]; try discriminate; tauto. Qed.
Lemma after_no l : forall acc, ~ In "_"%char l -> after_last acc l = acc ++ l.
Proof.
  induction l as [|c l IH]; intros acc H; [now rewrite app_nil_r|]. cbn [after_last]. destruct (Ascii.eqb_spec c "_"%char) as [->|_]; [exfalso; apply H; now left|].
  rewrite IH; [now rewrite <- app_assoc|]. intros X. apply H. now right.
Qed.
Lemma parse_label b : 0 <= b -> parse_band (band_label b) = Ok b.
Proof.
  intros H. unfold parse_band, band_label, numbered. set (u := N.to_uint (Z.to_N b)).
  assert (E : list_ascii_of_string ("band_" ++ NilZero.string_of_uint u)%string = list_ascii_of_string "band_" ++ list_ascii_of_string (NilZero.string_of_uint u)) by reflexivity.
  rewrite E. cbn [list_ascii_of_string app after_last Ascii.eqb Bool.eqb].
  rewrite after_no.
  - cbn [app]. rewrite string_of_list_ascii_of_string, NilZero.usu by apply to_uint_nonnil. unfold u. rewrite DecimalN.Unsigned.of_to. f_equal. lia.
  - unfold u. pose proof (to_uint_nonnil (Z.to_N b)) as NN. destruct (N.to_uint (Z.to_N b)) eqn:EU; [congruence|..]; apply digits_no_underscore.
Qed.
(* ---- the order of labels ---- *)
Lemma compare_refl s : String.compare s s = Eq.
Proof. pose proof (String.compare_antisym s s) as H. now destruct (String.compare s s). Qed.
Lemma compare_trans a b c : String.compare a b = Lt -> String.compare b c = Lt -> String.compare a c = Lt.
Proof.
  intros H1 H2. assert (L : forall x y, String.compare x y = Lt <-> String_as_OT.lt x y).
  { intros x y. pose proof (String_as_OT.compare_spec x y) as H. change (String_as_OT.compare x y) with (String.compare x y) in H. destruct (String.compare x y); inversion H as [X|X|X].
    - split; [discriminate|]. intros Y. exfalso. assert (E : x = y) by exact X. subst. revert Y. apply String_as_OT.lt_strorder.
    - tauto.
    - split; [discriminate|]. intros Y. exfalso. assert (E : String_as_OT.lt x x) by (eapply String_as_OT.lt_strorder; eassumption). revert E. apply String_as_OT.lt_strorder. }
  apply L. apply L in H1, H2. eapply String_as_OT.lt_strorder; eassumption.
Qed.
Definition zone_ok (r : num * string * list num) : Prop := is_nan (fst (fst r)) = false.
Lemma row_leb_total a b : zone_ok a -> zone_ok b -> row_leb a b = false -> row_leb b a = true.
Proof.
  unfold zone_ok, row_leb. intros Na Nb. rewrite (String.compare_antisym (snd (fst b))). destruct (String.compare (snd (fst a)) (snd (fst b))) eqn:E; cbn [CompOpp]; try discriminate; auto.
  intros H. destruct (num_leb (fst (fst b)) (fst (fst a))) eqn:L; [reflexivity|]. apply num_leb_total in L; auto. apply ltb_leb in L. congruence.
Qed.
Lemma row_leb_trans a b c : row_leb a b = true -> row_leb b c = true -> row_leb a c = true.
Proof.
  unfold row_leb. destruct (String.compare (snd (fst a)) (snd (fst b))) eqn:E1; [|intros _|discriminate]; (destruct (String.compare (snd (fst b)) (snd (fst c))) eqn:E2; [| |discriminate]).
  - apply String.compare_eq_iff in E1, E2. rewrite E1, E2, compare_refl. apply num_leb_trans.
  - apply String.compare_eq_iff in E1. rewrite E1, E2. auto.
  - intros _. apply String.compare_eq_iff in E2. rewrite <- E2, E1. reflexivity.
  - intros _. now rewrite (compare_trans _ _ _ E1 E2).
Qed.
Lemma insert_row_perm r l : Permutation (insert_row r l) (r :: l).
Proof. induction l as [|x l IH]; [constructor; constructor|]. cbn [insert_row]. destruct (row_leb r x); [apply Permutation_refl|]. rewrite IH. constructor. Qed.
Lemma sort_rows_perm l : Permutation (sort_rows l) l.
Proof. induction l as [|r l IH]; [constructor|]. cbn [sort_rows]. rewrite insert_row_perm. now constructor. Qed.
Lemma insert_row_sorted r l : zone_ok r -> Forall zone_ok l -> StronglySorted (fun a b => row_leb a b = true) l -> StronglySorted (fun a b => row_leb a b = true) (insert_row r l).
Proof.
  intros Hr F. induction 1 as [|x l S IH H]; [constructor; constructor|]. inversion F as [|? ? Fx Fl]; subst. cbn [insert_row]. destruct (row_leb r x) eqn:E.
  - constructor; [now constructor|]. constructor; [exact E|]. eapply Forall_impl; [|exact H]. intros a Ha. eapply row_leb_trans; eassumption.
  - constructor; [now apply IH|]. eapply Permutation_Forall; [symmetry; apply insert_row_perm|]. constructor; [now apply row_leb_total|exact H].
Qed.
Lemma sort_rows_sorted l : Forall zone_ok l -> StronglySorted (fun a b => row_leb a b = true) (sort_rows l).
Proof.
  induction 1 as [|r l Hr F IH]; [constructor|]. cbn [sort_rows]. apply insert_row_sorted; auto. eapply Permutation_Forall; [symmetry; apply sort_rows_perm|exact F].
Qed.

(* ---- the long format ---- *)
Lemma labels_fold (names : list string) bs : names <> [] -> forall acc, (forall b, In b bs -> ~ In (band_label b) acc) -> NoDup (map band_label bs) ->
  fold_left (fun acc (c : string * string) => if existsb (String.eqb (fst c)) acc then acc else acc ++ [fst c]) (flat_map (fun b => map (pair (band_label b)) names) bs) acc = acc ++ map band_label bs.
Proof.
  intros NE. induction bs as [|b bs IH]; intros acc H ND; [cbn; now rewrite app_nil_r|]. cbn [flat_map map]. rewrite fold_left_app. inversion ND as [|? ? N ND']; subst.
  assert (E : forall l a, In (band_label b) a -> fold_left (fun acc (c : string * string) => if existsb (String.eqb (fst c)) acc then acc else acc ++ [fst c]) (map (pair (band_label b)) l) a = a).
  { induction l as [|s l IHl]; intros a Ha; [reflexivity|]. cbn [map fold_left fst]. assert (X : existsb (String.eqb (band_label b)) a = true) by (apply existsb_exists; exists (band_label b); split; [exact Ha|apply String.eqb_refl]).
    rewrite X. now apply IHl. }
  destruct names as [|s names']; [congruence|]. cbn [map fold_left fst].
  assert (X : existsb (String.eqb (band_label b)) acc = false). { destruct (existsb _ acc) eqn:X; [|reflexivity]. apply existsb_exists in X as (l & Hl & El). apply String.eqb_eq in El. subst. exfalso. apply (H b); [now left|exact Hl]. }
  rewrite X, E by (apply in_or_app; right; now left). rewrite IH; auto.
  - now rewrite <- app_assoc.
  - intros b' Hb' I. apply in_app_or in I as [I|[I|[]]]; [apply (H b'); [now right|exact I]|]. apply N. rewrite I. now apply in_map.
Qed.
Lemma labels_nodup nb : NoDup (map band_label (zrange 1 (nb + 1))).
Proof.
  assert (G : forall l, NoDup l -> (forall x, In x l -> 0 <= x) -> NoDup (map band_label l)).
  { induction 1 as [|x l N ND IH]; intros P; [constructor|]. cbn [map]. constructor; [|apply IH; intros; apply P; now right].
    intros I. apply in_map_iff in I as (y & E & Hy). apply label_inj in E; [|apply P; now right|apply P; now left]. subst. contradiction. }
  apply G; [|intros x Hx; apply zrange_in' in Hx; lia].
  unfold zrange. apply FinFun.Injective_map_NoDup; [intros a b; lia|apply seq_NoDup].
Qed.
Lemma labels_columns nb names : names <> [] -> labels (columns_of nb names) = map band_label (zrange 1 (nb + 1)).
Proof. intros NE. unfold labels, columns_of. rewrite labels_fold; auto. apply labels_nodup. Qed.
Lemma filter_none {A} (p : A -> bool) l : (forall x, In x l -> p x = false) -> filter p l = [].
Proof. induction l as [|x l IH]; intros H; [reflexivity|]. cbn [filter]. rewrite H by now left. apply IH. intros; apply H; now right. Qed.
Lemma filter_all {A} (p : A -> bool) l : (forall x, In x l -> p x = true) -> filter p l = l.
Proof. induction l as [|x l IH]; intros H; [reflexivity|]. cbn [filter]. rewrite H by now left. f_equal. apply IH. intros; apply H; now right. Qed.
Lemma combine_app {A B} (a a' : list A) (b b' : list B) : Datatypes.length a = Datatypes.length b -> combine (a ++ a') (b ++ b') = combine a b ++ combine a' b'.
Proof. revert b. induction a as [|x a IH]; intros [|y b] H; try discriminate; [reflexivity|]. cbn [app combine]. now rewrite IH by (cbn in H; lia). Qed.
Lemma split_slice {A} (l : list A) m : 0 <= m <= len l -> l = slice l 0 m ++ slice l m (len l).
Proof.
  intros H. apply list_ext.
  - rewrite len_app, !slice_len; lia.
  - intros i x Hi. pose proof (get_ok_range _ _ _ Hi) as R. destruct (Z_lt_ge_dec i m).
    + rewrite get_app1 by (rewrite slice_len; lia). rewrite get_slice by lia. replace (0 + i) with i by lia. exact Hi.
    + rewrite get_app2 by (rewrite slice_len; lia). rewrite slice_len by lia. rewrite get_slice by lia. replace (m + (i - (m - 0))) with i by lia. exact Hi.
Qed.
Lemma slice_slice {A} (l : list A) m a b : 0 <= m -> 0 <= a <= b -> m + b <= len l -> slice (slice l m (len l)) a b = slice l (m + a) (m + b).
Proof.
  intros H1 H2 H3. apply list_ext.
  - rewrite !slice_len; try lia. rewrite slice_len; lia.
  - intros i x Hi. pose proof (get_ok_range _ _ _ Hi) as R. rewrite slice_len in R; [|lia|rewrite slice_len; lia]. rewrite get_slice in Hi by lia. rewrite get_slice in Hi by lia. rewrite get_slice by lia. rewrite <- Hi. f_equal. lia.
Qed.
(* the columns of the label at position k *)
Lemma stack_block (names : list string) bs : forall vals k b, NoDup (map band_label bs) -> len vals = len bs * len names -> get bs k = Ok b ->
  map snd (filter (fun p : string * string * num => String.eqb (fst (fst p)) (band_label b)) (combine (flat_map (fun b => map (pair (band_label b)) names) bs) vals)) = slice vals (k * len names) (k * len names + len names).
Proof.
  induction bs as [|c bs IH]; intros vals k b ND L H.
  - pose proof (get_ok_range _ _ _ H) as R. change (len (@nil Z)) with 0 in R. lia.
  - pose proof (len_nonneg names) as Ln. pose proof (len_nonneg bs) as Lb. rewrite len_cons in L. inversion ND as [|? ? N ND']; subst. pose proof (get_ok_range _ _ _ H) as R. rewrite len_cons in R.
    set (m := len names) in *. assert (Lm : m <= len vals) by nia.
    cbn [flat_map]. rewrite (split_slice vals m) at 1 by lia. rewrite combine_app.
    2:{ rewrite map_length. pose proof (slice_len vals 0 m ltac:(lia) ltac:(lia)) as X. unfold len in X. unfold m, len in X |- *. lia. }
    rewrite filter_app, map_app. destruct (Z.eq_dec k 0) as [->|K].
    + rewrite get_cons0 in H. injection H as ->. rewrite filter_all.
      * rewrite filter_none.
        -- rewrite app_nil_r, Z.mul_0_l, Z.add_0_l. assert (G : forall (l : list string) (v : list num), Datatypes.length l = Datatypes.length v -> map snd (combine (map (pair (band_label b)) l) v) = v).
           { induction l as [|s l IHl]; intros [|x v] E; try discriminate; [reflexivity|]. cbn [map combine snd]. now rewrite IHl by (cbn in E; lia). }
           apply G. pose proof (slice_len vals 0 m ltac:(lia) ltac:(lia)) as X. unfold m, len in X |- *. lia.
        -- intros [[l s] x] I. apply in_combine_l in I. apply in_flat_map in I as (b' & Hb' & I). apply in_map_iff in I as (s' & E & _). injection E as <- <-. cbn [fst].
           apply String.eqb_neq. intros E. apply N. rewrite <- E. now apply in_map.
      * intros [[l s] x] I. apply in_combine_l in I. apply in_map_iff in I as (s' & E & _). injection E as <- <-. apply String.eqb_refl.
    + rewrite get_cons in H by lia. rewrite filter_none.
      * cbn [map app]. rewrite (IH _ (k - 1) b ND'); auto.
        -- rewrite slice_slice by nia. f_equal; lia.
        -- rewrite slice_len by lia. lia.
      * intros [[l s] x] I. apply in_combine_l in I. apply in_map_iff in I as (s' & E & _). injection E as <- <-. cbn [fst]. apply String.eqb_neq. intros E. apply N. rewrite E. apply in_map. eapply get_in. exact H.
Qed.
Definition labelled (nb m : Z) (r : num * list num) : list (num * string * list num) :=
  map (fun b => (fst r, band_label (b + 1), slice (snd r) (b * m) (b * m + m))) (zrange 0 nb).
Lemma map_labels nb : map band_label (zrange 1 (nb + 1)) = map (fun b => band_label (b + 1)) (zrange 0 nb).
Proof.
  apply list_ext; [rewrite !len_map, !len_zrange; lia|]. intros i x H. pose proof (get_ok_range _ _ _ H) as R. rewrite len_map in R.
  destruct (Z_le_gt_dec nb 0). { exfalso. unfold zrange, len in R. rewrite map_length, seq_length in R. lia. }
  rewrite len_zrange in R by lia. rewrite get_map_eq, get_zrange in H by lia. rewrite get_map_eq, get_zrange by lia. cbn [rbind] in *. rewrite <- H. do 2 f_equal. lia.
Qed.
Lemma stack_ok nb names r : 0 <= nb -> names <> [] -> len (snd r) = nb * len names -> stack_row (columns_of nb names) r = labelled nb (len names) r.
Proof.
  intros Hb NE L. unfold stack_row, labelled. rewrite labels_columns by exact NE. rewrite map_labels, map_map. apply map_ext_in. intros b Hb'. apply zrange_in in Hb'. f_equal.
  unfold columns_of. rewrite (stack_block names _ (snd r) b (b + 1)); auto; [apply labels_nodup| |apply get_zrange1; lia].
  rewrite len_zrange by lia. lia.
Qed.
