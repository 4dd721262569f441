From Coq Require Import QArith ZifyBool ZifyNat.
From Verif Require Import Base BaseFacts Scalars NumFacts Chunks ChunksProofs Arr2 Arr2Facts Dtypes Raster FocalSpec FocalValues RasterSpec RasterProofs
  RasterStack Mosaic MosaicSpec MosaicProofs MosaicWhole MosaicWholeSpec.
Open Scope Z_scope.

Lemma missing_same nodata v : missing nodata v = same_value v nodata.
Proof. unfold missing, same_value. destruct nodata, v; reflexivity. Qed.
Lemma missing_self nodata : missing nodata nodata = true.
Proof. unfold missing. destruct (is_nan nodata) eqn:E; [reflexivity|now apply num_eqb_refl]. Qed.

Lemma len_tab2 {A} nb nc (f : Z -> Z -> A) : 0 <= nb -> len (tab2 nb nc f) = nb.
Proof. intros. now apply len_tab. Qed.

(* ---------------- the extremum of a stack ---------------- *)
Section Ext.
Variables (better le : num -> num -> bool).
Hypothesis le_refl : forall a, is_nan a = false -> le a a = true.
Hypothesis le_trans : forall a b c, le a b = true -> le b c = true -> le a c = true.
Hypothesis better_le : forall a b, is_nan a = false -> is_nan b = false -> better a b = true -> le a b = true.
Hypothesis worse_le : forall a b, is_nan a = false -> is_nan b = false -> better a b = false -> le b a = true.

Lemma extremum_from l : forall acc done,
  (is_nan acc = true /\ (forall u, In u done -> is_nan u = true)
   \/ is_nan acc = false /\ In acc done /\ forall u, In u done -> is_nan u = false -> le acc u = true) ->
  let r := fold_left (fun a v => if is_nan v then a else if is_nan a then v else if better v a then v else a) l acc in
  (is_nan r = true /\ (forall u, In u (done ++ l) -> is_nan u = true)
   \/ is_nan r = false /\ In r (done ++ l) /\ forall u, In u (done ++ l) -> is_nan u = false -> le r u = true).
Proof.
  induction l as [|x l IH]; intros acc done H; cbn [fold_left].
  - rewrite app_nil_r. exact H.
  - replace (done ++ x :: l) with ((done ++ [x]) ++ l) by (now rewrite <- app_assoc).
    apply IH. destruct (is_nan x) eqn:Ex.
    + destruct H as [[A1 A2]|(A1 & A2 & A3)].
      * left. split; [exact A1|]. intros u Hu. apply in_app_or in Hu. destruct Hu as [Hu|[<-|[]]]; auto.
      * right. split; [exact A1|]. split; [apply in_or_app; auto|].
        intros u Hu Nu. apply in_app_or in Hu. destruct Hu as [Hu|[<-|[]]]; [auto|congruence].
    + destruct H as [[A1 A2]|(A1 & A2 & A3)]; rewrite A1.
      * right. split; [exact Ex|]. split; [apply in_or_app; right; now left|].
        intros u Hu Nu. apply in_app_or in Hu. destruct Hu as [Hu|[<-|[]]]; [|now apply le_refl].
        rewrite A2 in Nu by assumption. discriminate.
      * right. destruct (better x acc) eqn:Eb.
        -- split; [exact Ex|]. split; [apply in_or_app; right; now left|].
           intros u Hu Nu. apply in_app_or in Hu. destruct Hu as [Hu|[<-|[]]]; [|now apply le_refl]. apply le_trans with acc; auto.
        -- split; [exact A1|]. split; [apply in_or_app; now left|].
           intros u Hu Nu. apply in_app_or in Hu. destruct Hu as [Hu|[<-|[]]]; [auto|]. now apply worse_le.
Qed.
Lemma extremum_spec l : let r := extremum better l in
  is_nan r = true /\ (forall u, In u l -> is_nan u = true)
  \/ is_nan r = false /\ In r l /\ forall u, In u l -> is_nan u = false -> le r u = true.
Proof. apply (extremum_from l NaN []). left. split; [reflexivity|intros u []]. Qed.

Variables (d : dtype) (nodata : num) (sentinel : Z).
Hypothesis not_bool : d <> BOOL.
(* the sentinel is last among the integers of the dtype *)
Hypothesis sentinel_last : forall z, int_min d <= z <= int_max d -> le (of_Z sentinel) (of_Z z) = true -> z = sentinel.
Hypothesis nodata_typed : of_dtype d nodata.
Notation miss := (missing nodata).
Definition extP (l : list num) (v : num) : Prop := (forall u, In u l -> of_dtype d u) -> ext' miss is_nan le l v /\ of_dtype d v.

Lemma paint_ext_ok l : exists v, paint_extremum d nodata better sentinel l = Ok v /\ extP l v.
Proof.
  unfold paint_extremum. set (filled := map _ l).
  exists (if forallb miss l then nodata else extremum better filled). split; [destruct d; congruence|]. intros T.
  destruct (forallb miss l) eqn:EA.
  { split; [|exact nodata_typed]. left. split; [apply missing_self|]. now apply forallb_forall. }
  assert (EX : exists u, In u l /\ miss u = false).
  { clear - EA. induction l as [|x l IH]; cbn in EA; [discriminate|]. destruct (miss x) eqn:E; cbn in EA.
    - destruct (IH EA) as (u & A & B). exists u. split; [now right|exact B].
    - exists x. split; [now left|exact E]. }
  destruct EX as (u & Hu & Mu).
  assert (MI : forall v, In v l -> miss v = false -> In v filled).
  { intros v Hv Mv. apply in_map_iff. exists v. now rewrite Mv. }
  destruct (extremum_spec filled) as [[N A]|(N & I & A)]; set (r := extremum better filled) in *.
  - assert (Nu : is_nan u = true) by (apply A; now apply MI).
    assert (EN : is_nan nodata = false). { destruct (is_nan nodata) eqn:E; [|reflexivity]. unfold missing in Mu. rewrite E in Mu. congruence. }
    assert (ED : is_float_dtype d = true).
    { specialize (T u Hu). unfold of_dtype in T. destruct (is_float_dtype d); [reflexivity|]. destruct T as (z & -> & _). discriminate. }
    split; [|unfold of_dtype; now rewrite ED]. right; left. split; [unfold missing; rewrite EN; destruct r; try discriminate; reflexivity|].
    split; [exact N|]. split; [eauto|]. intros w Hw Mw. apply A. now apply MI.
  - pose proof I as I'. apply in_map_iff in I'. destruct I' as (w & Ew & Hw). destruct (miss w) eqn:Mw.
    + destruct (is_float_dtype d) eqn:ED; [rewrite <- Ew in N; discriminate|].
      assert (U : forall x, In x l -> miss x = false -> x = r).
      { intros x Hx Mx. pose proof (T x Hx) as TX. unfold of_dtype in TX. rewrite ED in TX. destruct TX as (z & -> & R).
        rewrite <- Ew. f_equal. apply sentinel_last; [exact R|]. rewrite Ew. apply A; [now apply MI|reflexivity]. }
      rewrite <- (U u Hu Mu). split; [|now apply T]. right; right. split; [exact Hu|]. split; [exact Mu|].
      split; [rewrite (U u Hu Mu); exact N|]. intros x Hx Mx Nx. rewrite (U x Hx Mx), (U u Hu Mu). now apply le_refl.
    + subst w. split; [|now apply T]. right; right. split; [exact Hw|]. split; [exact Mw|]. split; [exact N|].
      intros x Hx Mx Nx. apply A; [now apply MI|exact Nx].
Qed.
Lemma extP_two l1 l2 a b v : extP l1 a -> extP l2 b -> extP [a; b] v -> extP (l1 ++ l2) v.
Proof.
  intros Ha Hb Hv T. destruct Ha as [Ha Ta]; [intros; apply T; apply in_or_app; auto|]. destruct Hb as [Hb Tb]; [intros; apply T; apply in_or_app; auto|].
  destruct Hv as [Hv Tv]; [intros u [<-|[<-|[]]]; assumption|]. split; [|exact Tv]. eapply ext'_two; eauto.
Qed.
Lemma band_extremum srcs : (forall v, In v srcs -> of_dtype d v) ->
  exists v, single_band nodata (paint_extremum d nodata better sentinel) srcs = Ok v /\ is_extremum miss is_nan le srcs v.
Proof.
  intros T. destruct (single_band_ok (paint_extremum d nodata better sentinel) extP) with (nodata := nodata) (srcs := srcs) as (v & E & H).
  - intros l _. apply paint_ext_ok.
  - apply extP_two.
  - exists v. split; [exact E|]. eapply ext'_stack; [apply missing_self|]. apply H. intros u Hu. apply in_app_or in Hu.
    destruct Hu as [Hu|[<-|[]]]; [apply T; now apply in_rev|exact nodata_typed].
Qed.
End Ext.

Lemma filter_rev {A} (f : A -> bool) l : filter f (rev l) = rev (filter f l).
Proof. induction l as [|x l IH]; [reflexivity|]. cbn [rev filter]. rewrite filter_app, IH. cbn. destruct (f x); [reflexivity|apply app_nil_r]. Qed.
Lemma of_Z_inj a b : of_Z a = of_Z b -> a = b.
Proof. intros H. injection H as H. exact H. Qed.

(* ---------------- one cell ---------------- *)
Section Cell.
Variable chunk : list num -> option (chunked num).
Variable add : dtype -> num -> num -> num.
Hypothesis chunkable : chunk_ok chunk.
Variables (d : dtype) (nodata : num).
Hypothesis nodata_typed : of_dtype d nodata.
Notation valid := (MosaicSpec.valid (missing nodata)).
Definition cell_spec (m : method) (l : list num) (v : num) : Prop :=
  (missing nodata v = true <-> valid l = []) /\ (valid l <> [] -> picked m (valid l) v).

Lemma of_Z_leb a b : num_leb (of_Z a) (of_Z b) = (a <=? b).
Proof.
  unfold num_leb, num_ltb, num_eqb, of_Z, Qlt_bool. destruct (a <=? b) eqn:E.
  - destruct (Z.eq_dec a b) as [->|]; [rewrite (proj2 (Qeq_bool_iff _ _)) by reflexivity; apply orb_true_r|].
    apply orb_true_iff. left. apply negb_true_iff. destruct (Qle_bool _ _) eqn:E'; [|reflexivity]. apply Qle_bool_iff in E'. rewrite <- Zle_Qle in E'. lia.
  - apply orb_false_iff. split.
    + apply negb_false_iff. apply Qle_bool_iff. rewrite <- Zle_Qle. lia.
    + destruct (Qeq_bool _ _) eqn:E'; [|reflexivity]. apply Qeq_bool_iff in E'. unfold Qeq in E'. cbn in E'. lia.
Qed.
Lemma extremum_cell le l v : (match le with _ => is_extremum (missing nodata) is_nan le l v end) ->
  (missing nodata v = true <-> valid l = []) /\ (valid l <> [] -> is_extreme le (valid l) v).
Proof.
  unfold is_extremum, is_extreme. destruct (filter _ (valid l)) as [|x t] eqn:E.
  - intros [A B]. split; [|intros N; destruct (B N) as [_ C]; destruct v; try discriminate; reflexivity].
    split; [|exact A]. intros M. destruct (valid l) eqn:EV; [reflexivity|]. destruct B as [C _]; congruence.
  - intros [I A]. split; [|intros _; now split]. rewrite <- E in I. apply filter_In in I. destruct I as [I _]. pose proof I as J. apply valid_in in J.
    split; [intros; destruct J; congruence|]. intros C. rewrite C in I. destruct I.
Qed.
Lemma band_cell m l : m = First \/ m = Last \/ (m = Min \/ m = Max) /\ d <> BOOL -> (forall v, In v l -> of_dtype d v) ->
  exists v, single_band nodata (paint add chunk m d nodata) l = Ok v /\ cell_spec m l v.
Proof.
  intros Hm T. unfold paint, cell_spec. destruct Hm as [-> | [-> | [[-> | ->] ND]]].
  - destruct (mosaic_first (missing nodata) chunk chunkable nodata (missing_self nodata) l) as (v & E & S). exists v. split; [exact E|].
    unfold is_first in S. destruct (valid l) as [|x t] eqn:EV; [split; [split; auto|congruence]|]. subst v.
    assert (J : In x (valid l)) by (rewrite EV; now left). apply valid_in in J. split; [split; [destruct J; congruence|discriminate]|]. reflexivity.
  - destruct (mosaic_last (missing nodata) chunk chunkable nodata (missing_self nodata) l) as (v & E & S). exists v. split; [exact E|].
    unfold is_last in S. destruct (rev (valid l)) as [|x t] eqn:EV.
    + apply (f_equal (@rev _)) in EV. rewrite rev_involutive in EV. cbn in EV. rewrite EV. split; [split; auto|congruence].
    + subst v. assert (J : In x (valid l)) by (apply in_rev; rewrite EV; now left). pose proof J as J'. apply valid_in in J'.
      split; [split; [destruct J'; congruence|intros C; rewrite C in J; destruct J]|]. intros _. cbn. now rewrite EV.
  - destruct (band_extremum (fun v a => num_ltb v a) num_leb) with (d := d) (nodata := nodata) (sentinel := int_max d) (srcs := l) as (v & E & S).
    + exact num_leb_refl.
    + exact num_leb_trans.
    + intros a b _ _ H. unfold num_leb. rewrite H. reflexivity.
    + intros a b Ha Hb H. destruct (num_leb b a) eqn:E; [reflexivity|]. rewrite (num_leb_total b a Hb Ha E) in H. discriminate.
    + exact ND.
    + intros z R. rewrite of_Z_leb. lia.
    + exact nodata_typed.
    + exact T.
    + exists v. split; [exact E|]. cbn [picked]. now apply extremum_cell.
  - destruct (band_extremum (fun v a => num_ltb a v) (fun a b => num_leb b a)) with (d := d) (nodata := nodata) (sentinel := int_min d) (srcs := l) as (v & E & S).
    + exact num_leb_refl.
    + intros a b c H1 H2. now apply num_leb_trans with b.
    + intros a b _ _ H. unfold num_leb. rewrite H. reflexivity.
    + intros a b Ha Hb H. destruct (num_leb a b) eqn:E; [reflexivity|]. rewrite (num_leb_total a b Ha Hb E) in H. discriminate.
    + exact ND.
    + intros z R. rewrite of_Z_leb. lia.
    + exact nodata_typed.
    + exact T.
    + exists v. split; [exact E|]. cbn [picked]. now apply extremum_cell.
Qed.
End Cell.

(* ---------------- whole rasters ---------------- *)
Section Whole.
Variable cast : dtype -> num -> num.
Variable reconcile_other : num -> dtype -> num * bool.
Variable add : dtype -> num -> num -> num.
Variable fill : dtype -> num -> res num.
Variable result_type : list dtype -> dtype.
Variable chunk : list num -> option (chunked num).
Variable to_grid : raster -> raster.
Variables (d : dtype) (nodata : num) (nc : Z).
Hypothesis nullable : null_value_for cast reconcile_other fill d nodata.

(* the raster s that stands for r in the stack *)
Definition stands_for (r s : raster) : Prop :=
  len (r_data s) = len (r_data r) /\ shaped2 (len (r_data r)) nc (r_data s)
  /\ forall b c, in_raster (len (r_data r)) nc b c -> of_dtype d (value s b c)
     /\ (if null r b c then missing nodata (value s b c) = true else value s b c = cast d (value r b c)).

Lemma astype_stands r : source cast d nc r -> (forall old, r_nv r = Some old -> num_close nodata old = true -> same_value old nodata = true) ->
  exists s, astype cast reconcile_other r d (Some nodata) = Ok s /\ stands_for r s.
Proof.
  intros (nb & W & HC) NC. destruct nullable as (TN & _ & RN & CN).
  assert (LB : len (r_data r) = nb) by (destruct W as (? & ? & (L & _) & _); exact L).
  unfold astype. destruct (_ && _) eqn:E.
  - exists r. split; [reflexivity|]. apply andb_true_iff in E. destruct E as [ED EN]. apply dtype_eqb_eq in ED.
    split; [reflexivity|]. rewrite LB. split; [destruct W as (_ & _ & S & _); exact S|]. intros b c HI. destruct (HC b c HI) as (B & TY & OT).
    rewrite <- ED in TY. split; [now rewrite TY in OT|]. destruct (null r b c) eqn:NU; [|congruence].
    rewrite (B eq_refl) in EN. cbn in EN. rewrite missing_same. now rewrite same_value_nan.
  - destruct (wf_ex nb nc r W) as (dr & nv & v & m & -> & Hnb & Hnc & HNN). cbn [r_nv mk r_data r_mask r_dtype] in *.
    assert (HC' : forall b c, in_raster nb nc b c -> (m b c = true -> nv = Some (v b c)) /\ of_dtype d (cast d (v b c))).
    { intros b c HI. destruct (HC b c HI) as (B & _ & OT). rewrite null_mk, value_mk in * by exact HI. tauto. }
    destruct nv as [old|].
    + destruct (num_close nodata old) eqn:CL.
      * eexists. split; [reflexivity|]. unfold stands_for. cbn [r_data mk]. rewrite map2_tab', !len_tab2 by lia. split; [reflexivity|]. split; [apply rect_tab2; lia|].
        intros b c HI. unfold value, null. cbn [r_data r_mask mk]. rewrite !val2_tab by apply HI. destruct (HC' b c HI) as [B OT]. split; [exact OT|].
        destruct (m b c); [|reflexivity]. injection (B eq_refl) as ->. rewrite missing_same. apply CN. now apply NC.
      * rewrite RN. eexists. split; [reflexivity|]. unfold stands_for. cbn [r_data mk]. rewrite map2_tab', fill_tab, !len_tab2 by lia. split; [reflexivity|]. split; [apply rect_tab2; lia|].
        intros b c HI. unfold value, null. cbn [r_data r_mask mk]. rewrite !val2_tab by apply HI. destruct (HC' b c HI) as [B OT].
        destruct (m b c); [split; [exact TN|apply missing_self]|]. auto.
    + eexists. split; [reflexivity|]. unfold stands_for. cbn [r_data mk]. rewrite map2_tab', !len_tab2 by lia. split; [reflexivity|]. split; [apply rect_tab2; lia|].
      intros b c HI. unfold value, null. cbn [r_data r_mask mk]. rewrite !val2_tab by apply HI. destruct (HC' b c HI) as [B OT]. split; [exact OT|].
      rewrite (HNN eq_refl b c HI). reflexivity.
Qed.
Lemma all_stand rs : Forall (source cast d nc) (map to_grid rs) -> no_close_nulls nodata (map to_grid rs) ->
  exists ss, traverse (fun r => astype cast reconcile_other (to_grid r) d (Some nodata)) rs = Ok ss /\ Forall2 stands_for (map to_grid rs) ss.
Proof.
  induction rs as [|r rs IH]; intros S N; cbn [map] in *; [exists []; split; [reflexivity|constructor]|]. inversion S; subst.
  destruct (astype_stands (to_grid r)) as (s & E & T); [assumption|intros; eapply N; [now left|eassumption|assumption]|].
  destruct IH as (ss & Es & Ts); [assumption|intros r' old I; apply N; now right|]. exists (s :: ss). cbn [traverse]. rewrite E. cbn [rbind]. rewrite Es. split; [reflexivity|]. now constructor.
Qed.

Definition col (c : Z) (s : raster) : list num := tab (len (r_data s)) (fun b => value s b c).
Lemma column_ok r s c : stands_for r s -> 0 <= c < nc -> column c s = Ok (col c s).
Proof.
  intros (L & SH & _) Hc. unfold column, col. rewrite <- L in SH. pose proof (shaped_tab NaN _ _ _ SH ltac:(apply len_nonneg)) as ET.
  rewrite ET at 1. unfold tab2, tab at 1. rewrite (traverse_ok _ (fun row => match get row c with Ok v => v | _ => NaN end)).
  - f_equal. rewrite map_map. apply map_ext_in. intros b Hb. apply zrange_in in Hb. rewrite get_tab by lia. reflexivity.
  - intros row Hr. apply in_map_iff in Hr. destruct Hr as (b & <- & _). rewrite get_tab by lia. reflexivity.
Qed.
Lemma columns_ok rs ss c : Forall2 stands_for rs ss -> 0 <= c < nc -> traverse (column c) ss = Ok (map (col c) ss).
Proof. induction 1 as [|r s rs ss T _ IH]; intros Hc; [reflexivity|]. cbn [traverse map]. rewrite (column_ok r s c T Hc). cbn [rbind]. now rewrite IH. Qed.

Lemma valid_contributions rs ss b c : Forall2 stands_for rs ss -> 0 <= b -> 0 <= c < nc ->
  MosaicSpec.valid (missing nodata) (band_values nodata (map (col c) ss) (Z.to_nat b)) = contributions cast d nodata rs b c.
Proof.
  intros F Hb Hc. unfold contributions. induction F as [|r s rs ss T _ IH]; [reflexivity|]. cbn [map flat_map].
  destruct T as (L & SH & HV). unfold band_values. cbn [filter]. unfold contribution at 1.
  assert (LC : len (col c s) = len (r_data s)) by (apply len_tab; apply len_nonneg).
  destruct (len (r_data r) <=? b) eqn:EB.
  - replace (Nat.ltb (Z.to_nat b) (length (col c s))) with false by (unfold len in *; lia). exact IH.
  - replace (Nat.ltb (Z.to_nat b) (length (col c s))) with true by (unfold len in *; lia). cbn [map MosaicSpec.valid filter].
    assert (EN : nth (Z.to_nat b) (col c s) nodata = value s b c).
    { pose proof (get_tab (len (r_data s)) (fun b => value s b c) b ltac:(lia)) as G. fold (col c s) in G. unfold get in G.
      replace (b <? 0) with false in G by lia. cbn in G. destruct (nth_error (col c s) (Z.to_nat b)) eqn:E; [|discriminate]. injection G as ->. now apply nth_error_nth. }
    rewrite EN. destruct (HV b c) as [_ V]; [split; lia|]. unfold MosaicSpec.valid in IH |- *. unfold band_values in IH. rewrite IH. clear IH EN.
    destruct (null r b c); [rewrite V; reflexivity|]. rewrite V, missing_same. destruct (same_value _ _); reflexivity.
Qed.
Lemma band_typed rs ss c l v : Forall2 stands_for rs ss -> 0 <= c < nc -> In l (map (col c) ss) -> In v l -> of_dtype d v.
Proof.
  intros F Hc Hl Hv. apply in_map_iff in Hl. destruct Hl as (s & <- & Hs). unfold col, tab in Hv. apply in_map_iff in Hv. destruct Hv as (b & <- & Hb). apply zrange_in in Hb.
  induction F as [|r s' rs ss T _ IH]; [destruct Hs|]. destruct Hs as [-> | Hs]; [|now apply IH]. destruct T as (L & _ & HV). apply HV. split; lia.
Qed.
Lemma nbands_max rs ss : Forall2 stands_for rs ss -> rs <> [] -> is_nbands rs (fold_right Z.max 0 (map (fun r => len (r_data r)) ss)).
Proof.
  induction 1 as [|r s rs ss T F IH]; intros N; [congruence|]. cbn [map fold_right]. destruct T as (L & _). rewrite L. destruct rs as [|r' rs].
  - inversion F; subst. cbn. pose proof (len_nonneg (r_data r)). split; [intros x [<-|[]]; lia|]. exists r. split; [now left|lia].
  - destruct IH as [A (x & I & E)]; [discriminate|]. set (n := fold_right _ _ _) in *. split.
    + intros y [<-|Hy]; [lia|]. specialize (A y Hy). lia.
    + destruct (Z.max_spec (len (r_data r)) n) as [[_ ->]|[_ ->]]; [exists x; split; [now right|exact E]|exists r; split; [now left|reflexivity]].
Qed.

Lemma max_le (ss : list raster) n : 0 <= n -> (forall s, In s ss -> len (r_data s) <= n) -> fold_right Z.max 0 (map (fun r => len (r_data r)) ss) <= n.
Proof. intros Hn. induction ss as [|y l IH]; intros H; cbn [map fold_right]; [lia|]. pose proof (H y (or_introl eq_refl)). specialize (IH (fun s I => H s (or_intror I))). lia. Qed.
Lemma max_ge (ss : list raster) s : In s ss -> len (r_data s) <= fold_right Z.max 0 (map (fun r => len (r_data r)) ss).
Proof. induction ss as [|y l IH]; intros H; [destruct H|]. cbn [map fold_right]. destruct H as [-> |H]; [lia|]. specialize (IH H). lia. Qed.

(* as mosaic_bands; no band has more layers than there are rasters *)
Lemma mosaic_bands_short paint (spec : list num -> num -> Prop) srcs :
  (forall l, len l <= len srcs -> (forall v, In v l -> of_dtype d v) -> exists v, single_band nodata paint l = Ok v /\ spec l v) ->
  srcs <> [] -> (forall bands v, In bands srcs -> In v bands -> of_dtype d v) ->
  exists out, Mosaic.mosaic nodata paint srcs = Ok out /\ MosaicSpec.is_nbands srcs (length out)
    /\ forall i v, nth_error out i = Some v -> spec (band_values nodata srcs i) v.
Proof.
  intros H Hne Hok.
  assert (HG : forall i v, In v (group srcs i) -> of_dtype d v).
  { intros i v Hv. unfold group in Hv. apply in_flat_map in Hv. destruct Hv as (b & Hb & Hv).
    destruct (nth_error b i) as [w|] eqn:E; [|destruct Hv]. destruct Hv as [<-|[]]. eapply Hok; [exact Hb|]. now apply nth_error_In in E. }
  assert (HL : forall i, len (group srcs i) <= len srcs).
  { intros i. unfold group. clear. induction srcs as [|x l IH]; [cbn; lia|]. cbn [flat_map]. rewrite len_app. destruct (nth_error x i); rewrite ?len_cons; cbn [len length]; unfold len in *; cbn [length]; lia. }
  destruct (mapM_ok (fun i => single_band nodata paint (group srcs i)) (fun i v => True) (seq 0 (nbands srcs))) as (out & E & _).
  { intros i _. destruct (H (group srcs i) (HL i) (HG i)) as (v & Ev & _). eauto. }
  exists out. split; [exact E|].
  assert (LN : length out = nbands srcs) by (rewrite (mapM_length _ _ _ E); apply seq_length).
  split; [rewrite LN; now apply nbands_spec|]. intros i v Hi.
  assert (Hlt : (i < nbands srcs)%nat) by (rewrite <- LN; apply nth_error_Some; congruence).
  assert (HS : nth_error (seq 0 (nbands srcs)) i = Some i).
  { rewrite (nth_error_nth' _ O) by (rewrite seq_length; lia). now rewrite seq_nth by lia. }
  pose proof (mapM_nth _ _ _ _ _ _ E Hi HS) as EV. cbn beta in EV.
  destruct (H (group srcs i) (HL i) (HG i)) as (w & Ew & Sw). rewrite <- group_spec. congruence.
Qed.

Lemma f2_length rs ss : Forall2 stands_for rs ss -> length rs = length ss.
Proof. induction 1; cbn; congruence. Qed.
Lemma whole_spec rs m dt nv (Q : list num -> num -> Prop) :
  rs <> [] -> m <> Other -> out_dtype result_type rs dt = d -> out_null rs d nv = nodata -> 0 <= nc ->
  (forall l, len l <= len rs -> (forall v, In v l -> of_dtype d v) ->
     exists v, single_band nodata (paint add chunk m d nodata) l = Ok v /\ Q (MosaicSpec.valid (missing nodata) l) v) ->
  Forall (source cast d nc) (map to_grid rs) -> no_close_nulls nodata (map to_grid rs) ->
  exists r' nb, mosaic cast reconcile_other add fill result_type chunk to_grid nc rs m dt nv = Ok r' /\ is_nbands (map to_grid rs) nb
    /\ wf nb nc r' /\ r_dtype r' = d /\ r_nv r' = Some nodata
    /\ forall b c, in_raster nb nc b c -> null r' b c = same_value (value r' b c) nodata
       /\ Q (contributions cast d nodata (map to_grid rs) b c) (value r' b c).
Proof.
  intros Hrs Hm ED EN Hnc HP HS HN. destruct (all_stand rs HS HN) as (ss & ES & F).
  set (nb := fold_right Z.max 0 (map (fun r => len (r_data r)) ss)).
  assert (NB : is_nbands (map to_grid rs) nb) by (apply nbands_max; [exact F|destruct rs; [congruence|discriminate]]).
  assert (PB : 0 < nb).
  { destruct NB as [_ (x & I & E)]. rewrite Forall_forall in HS. destruct (HS x I) as (k & (P & _ & (L & _) & _) & _). lia. }
  assert (CELL : forall c, 0 <= c < nc -> exists out, mosaic_cell add chunk m d nodata ss c = Ok out /\ len out = nb
    /\ forall b, 0 <= b < nb -> exists v, get out b = Ok v /\ Q (contributions cast d nodata (map to_grid rs) b c) v).
  { intros c Hc. unfold mosaic_cell. rewrite (columns_ok _ _ c F Hc). cbn [rbind].
    destruct (mosaic_bands_short (paint add chunk m d nodata) (fun l v => Q (MosaicSpec.valid (missing nodata) l) v) (map (col c) ss)) as (out & E & NL & SP).
    - replace (len (map (col c) ss)) with (len rs); [exact HP|]. unfold len. rewrite map_length. pose proof (f2_length _ _ F) as FL. rewrite map_length in FL. congruence.
    - destruct ss; [|discriminate]. inversion F. destruct rs; [congruence|discriminate].
    - intros l v. apply (band_typed _ _ c l v F Hc).
    - exists out. split; [exact E|]. assert (LO : len out = nb).
      { destruct NL as [A (l & Il & El)]. apply in_map_iff in Il. destruct Il as (s & <- & Is).
        assert (LC : forall s, len (col c s) = len (r_data s)) by (intros; apply len_tab; apply len_nonneg).
        assert (nb <= len out).
        { apply max_le; [apply len_nonneg|]. intros x Hx. specialize (A (col c x) ltac:(now apply in_map)). rewrite <- LC. unfold len. lia. }
        pose proof (max_ge ss s Is) as L1. fold nb in L1. rewrite <- LC in L1. unfold len in *. lia. }
      split; [exact LO|]. intros b Hb. destruct (nth_error out (Z.to_nat b)) as [v|] eqn:EV; [|apply nth_error_None in EV; unfold len in LO; lia].
      exists v. split; [unfold get; replace (b <? 0) with false by lia; cbn; now rewrite EV|]. rewrite <- (valid_contributions _ _ b c F) by lia. now apply SP. }
  set (V := fun b c => match mosaic_cell add chunk m d nodata ss c with Ok out => match get out b with Ok v => v | _ => NaN end | _ => NaN end).
  assert (DATA : mosaic_data add chunk m d nodata nc ss = Ok (tab2 nb nc V)).
  { unfold mosaic_data. fold nb. unfold tab2, tab. rewrite (traverse_ok _ (fun b => map (V b) (zrange 0 nc))); [reflexivity|].
    intros b Hb. apply zrange_in in Hb. apply traverse_ok. intros c Hc. apply zrange_in in Hc. unfold V. destruct (CELL c Hc) as (out & -> & _ & HB). cbn [rbind].
    destruct (HB b Hb) as (v & -> & _). reflexivity. }
  destruct nullable as (_ & FN & _).
  exists (mk nb nc d (Some nodata) V (fun b c => same_value (V b c) nodata)), nb. split.
  { unfold mosaic. destruct rs as [|r0 rs']; [congruence|]. remember (r0 :: rs') as all. rewrite ED, EN.
    assert (GOAL : (let* sources := traverse (fun r => astype cast reconcile_other (to_grid r) d (Some nodata)) all in
      let* nodata := fill d nodata in
      let* data := mosaic_data add chunk m d nodata nc sources in data_to_raster d data None (Some nodata) false)
      = Ok (mk nb nc d (Some nodata) V (fun b c => same_value (V b c) nodata))).
    { rewrite ES. cbn [rbind]. rewrite FN. cbn [rbind]. rewrite DATA. cbn [rbind data_to_raster]. rewrite mask_tab. reflexivity. }
    rewrite Heqall in GOAL |- *. destruct m; try exact GOAL. congruence. }
  split; [exact NB|]. split; [apply mk_wf; [lia|lia|discriminate]|]. split; [reflexivity|]. split; [reflexivity|].
  intros b c HI. rewrite null_mk, value_mk by exact HI. destruct HI as [Hb Hc]. destruct (CELL c Hc) as (out & EO & _ & HB). destruct (HB b Hb) as (v & EV & H1).
  unfold V. rewrite EO, EV. auto.
Qed.
Lemma whole_picked rs m dt nv :
  rs <> [] -> m = First \/ m = Last \/ (m = Min \/ m = Max) /\ d <> BOOL -> chunk_ok chunk -> out_dtype result_type rs dt = d -> out_null rs d nv = nodata -> 0 <= nc ->
  Forall (source cast d nc) (map to_grid rs) -> no_close_nulls nodata (map to_grid rs) ->
  exists r' nb, mosaic cast reconcile_other add fill result_type chunk to_grid nc rs m dt nv = Ok r' /\ is_nbands (map to_grid rs) nb
    /\ result nb nc d nodata (contributions cast d nodata (map to_grid rs)) (picked m) r'.
Proof.
  intros Hrs Hm HK ED EN Hnc HS HN.
  destruct (whole_spec rs m dt nv (fun l v => (missing nodata v = true <-> l = []) /\ (l <> [] -> picked m l v))) as (r' & nb & E & NB & W & D' & N' & C); try assumption.
  - intros ->. destruct Hm as [H|[H|[[H|H] _]]]; discriminate.
  - intros l _ T. destruct nullable as (TN & _). exact (band_cell chunk add HK d nodata TN m l Hm T).
  - exists r', nb. split; [exact E|]. split; [exact NB|]. split; [exact W|]. split; [exact D'|]. split; [exact N'|]. intros b c HI. destruct (C b c HI) as (-> & I & P).
    rewrite missing_same in I. auto.
Qed.
Lemma typed_ints l : is_float_dtype d = false -> (forall v, In v l -> of_dtype d v) -> exists zs, l = map of_Z zs /\ forall z, In z zs -> int_min d <= z <= int_max d.
Proof.
  intros F. induction l as [|x l IH]; intros T; [exists []; split; [reflexivity|intros z []]|]. destruct IH as (zs & -> & R); [intros; apply T; now right|].
  pose proof (T x (or_introl eq_refl)) as TX. unfold of_dtype in TX. rewrite F in TX. destruct TX as (z & -> & RZ). exists (z :: zs). split; [reflexivity|]. intros y [<-|Hy]; auto.
Qed.
Lemma missing_ints a b : missing (of_Z a) (of_Z b) = (a =? b).
Proof.
  unfold missing, of_Z, inject_Z. cbn [is_nan num_eqb]. destruct (Z.eqb_spec a b) as [-> | N]; [now apply Qeq_bool_iff|].
  destruct (Qeq_bool (b # 1) (a # 1)) eqn:E; [|reflexivity]. apply Qeq_bool_iff in E. unfold Qeq in E. cbn in E. lia.
Qed.
Lemma forallb_ints n l : forallb (missing (of_Z n)) (map of_Z l) = forallb (imissing n) l.
Proof. induction l as [|x l IH]; [reflexivity|]. cbn [map forallb]. rewrite IH, missing_ints. unfold imissing. now rewrite Z.eqb_sym. Qed.
Lemma valid_ints n l : MosaicSpec.valid (missing (of_Z n)) (map of_Z l) = map of_Z (MosaicSpec.valid (Z.eqb n) l).
Proof. unfold MosaicSpec.valid. induction l as [|x l IH]; [reflexivity|]. cbn [map filter]. rewrite missing_ints, IH. now destruct (n =? x). Qed.
Section Ints.
Hypothesis int_d : is_int_dtype d = true.
Hypothesis adds : int_adds d (add d).
Variable n0 : Z.
Hypothesis n0_in : int_min d <= n0 <= int_max d.
Notation info := (mkIinfo (int_min d) (int_max d)).
Definition in_dtype (l : list Z) : Prop := forall z, In z l -> int_min d <= z <= int_max d.
Definition rmap_Z (r : res Z) : res num := match r with Ok z => Ok (of_Z z) | Err e => Err e end.
Lemma zero_in : int_min d <= 0 <= int_max d.
Proof. destruct d; try discriminate int_d; vm_compute; split; discriminate. Qed.
Lemma add_wrap a b : int_min d <= a <= int_max d -> int_min d <= b <= int_max d -> add d (of_Z a) (of_Z b) = of_Z (wrap info (a + b)).
Proof.
  intros Ha Hb. destruct (adds a b Ha Hb) as (s & -> & R & k & E). f_equal. unfold wrap. cbn [i_min i_max].
  replace (a + b - int_min d) with (s - int_min d + (- k) * (int_max d - int_min d + 1)) by lia. rewrite Z.mod_add by lia. rewrite Z.mod_small by lia. lia.
Qed.
Lemma fold_ints zs : in_dtype zs -> forall a, int_min d <= a <= int_max d -> fold_left (add d) (map of_Z zs) (of_Z a) = of_Z (fold_left (fun a b => wrap info (a + b)) zs a).
Proof.
  induction zs as [|z zs IH]; intros I a Ha; [reflexivity|]. cbn [map fold_left]. rewrite add_wrap; [|exact Ha|apply I; now left]. apply IH; [intros y Hy; apply I; now right|].
  apply (wrap_range (int_min d) (int_max d) n0). lia.
Qed.
Lemma paint_ints l : in_dtype l -> paint_sum add d (of_Z n0) (map of_Z l) = rmap_Z (paint_isum info n0 l).
Proof.
  intros I. unfold paint_sum, paint_isum. cbn [rmap_Z]. f_equal. rewrite forallb_ints. destruct (forallb (imissing n0) l); [reflexivity|].
  replace (map (fun v => if missing (of_Z n0) v then of_Z 0 else v) (map of_Z l)) with (map of_Z (map (fun v => if imissing n0 v then 0 else v) l)).
  - rewrite (wrap_small (int_min d) (int_max d)) by (pose proof zero_in; lia). apply fold_ints; [|exact zero_in].
    intros z Hz. apply in_map_iff in Hz. destruct Hz as (y & <- & Hy). destruct (imissing n0 y); [exact zero_in|now apply I].
  - rewrite !map_map. apply map_ext. intros z. rewrite missing_ints. unfold imissing. rewrite Z.eqb_sym. now destruct (n0 =? z).
Qed.
Lemma isum_in l v : paint_isum info n0 l = Ok v -> int_min d <= v <= int_max d.
Proof.
  unfold paint_isum. intros E. injection E as <-. destruct (forallb (imissing n0) l); [exact n0_in|].
  rewrite (fold_wrap (int_min d) (int_max d)). apply (wrap_range (int_min d) (int_max d) n0). lia.
Qed.
Lemma recursive_ints fuel : forall l, in_dtype l -> paint_recursive fuel (paint_sum add d (of_Z n0)) (map of_Z l) = rmap_Z (paint_recursive fuel (paint_isum info n0) l)
  /\ forall v, paint_recursive fuel (paint_isum info n0) l = Ok v -> int_min d <= v <= int_max d.
Proof.
  induction fuel as [|f IH]; intros l I; [split; [reflexivity|discriminate]|]. cbn [paint_recursive].
  replace (len (map of_Z l)) with (len l) by (unfold len; now rewrite map_length).
  destruct (len l <? 8); [split; [now apply paint_ints|apply isum_in]|]. set (h := Z.to_nat (len l / 2)).
  rewrite firstn_map, skipn_map.
  destruct (IH (firstn h l)) as [E1 R1]; [intros z Hz; apply I; rewrite <- (firstn_skipn h l); apply in_or_app; now left|].
  destruct (IH (skipn h l)) as [E2 R2]; [intros z Hz; apply I; rewrite <- (firstn_skipn h l); apply in_or_app; now right|].
  rewrite E1, E2. destruct (paint_recursive f (paint_isum info n0) (firstn h l)) as [a|e]; [|split; [reflexivity|discriminate]].
  destruct (paint_recursive f (paint_isum info n0) (skipn h l)) as [b|e]; [|split; [reflexivity|discriminate]].
  cbn [rmap_Z rbind]. change [of_Z a; of_Z b] with (map of_Z [a; b]). apply IH. intros z [<-|[<-|[]]]; auto.
Qed.
Lemma single_ints l : in_dtype l -> single_band (of_Z n0) (paint_sum add d (of_Z n0)) (map of_Z l) = rmap_Z (single_band n0 (paint_isum info n0) l).
Proof.
  intros I. unfold single_band. rewrite <- map_rev. change [of_Z n0] with (map of_Z [n0]). rewrite <- map_app, map_length. apply recursive_ints.
  intros z Hz. apply in_app_or in Hz. destruct Hz as [Hz|[<-|[]]]; [apply I; now apply in_rev|exact n0_in].
Qed.
End Ints.
Lemma sum_cell l : is_int_dtype d = true -> int_adds d (add d) -> (forall v, In v l -> of_dtype d v) ->
  exists v, single_band nodata (paint add chunk Sum d nodata) l = Ok v
  /\ (len l <= 6 \/ run_free d nodata (MosaicSpec.valid (missing nodata) l) -> is_int_sum d nodata (MosaicSpec.valid (missing nodata) l) v).
Proof.
  intros DI HA T. assert (DF : is_float_dtype d = false) by (destruct d; try discriminate; reflexivity). destruct nullable as (TN & _).
  unfold of_dtype in TN. rewrite DF in TN. destruct TN as (n0 & EN & RN). rewrite EN. destruct (typed_ints l DF T) as (zs & -> & RZ).
  change (paint add chunk Sum d (of_Z n0)) with (paint_sum add d (of_Z n0)). rewrite (single_ints DI HA n0 RN zs RZ).
  destruct (single_band_ok (paint_isum (mkIinfo (int_min d) (int_max d)) n0) (fun _ _ => True)) with (nodata := n0) (srcs := zs) as (v & E & _);
    [intros l' _; eexists; split; [reflexivity|exact I]|auto|].
  rewrite E. exists (of_Z v). split; [reflexivity|]. intros H. rewrite valid_ints in *.
  assert (S : is_sum (int_min d) (int_max d) n0 zs v).
  { destruct (public_sum_exact (int_min d) (int_max d) n0 RN zs) as (v' & E' & S); [|congruence].
    destruct H as [H|H]; [left; unfold len in H; rewrite map_length in H; lia|]. right. intros pre mid post EZ NV w SW ->.
    apply (H (map of_Z (MosaicSpec.valid (Z.eqb n0) pre)) (map of_Z (MosaicSpec.valid (Z.eqb n0) mid)) (map of_Z (MosaicSpec.valid (Z.eqb n0) post))).
    - rewrite EZ. rewrite !valid_app, !map_app. reflexivity.
    - intros C. apply NV. now destruct (MosaicSpec.valid (Z.eqb n0) mid).
    - unfold is_sum in SW. destruct (MosaicSpec.valid (Z.eqb n0) mid) as [|x t] eqn:EV; [congruence|]. destruct SW as (R & k & EK). exists (x :: t), n0. split; [reflexivity|]. split; [reflexivity|]. split; [exact R|]. now exists k. }
  unfold is_sum in S. destruct (MosaicSpec.valid (Z.eqb n0) zs) as [|x t] eqn:EV; cbn [map is_int_sum]; [now rewrite S|].
  destruct S as (R & k & EK). exists (x :: t), v. split; [reflexivity|]. split; [reflexivity|]. split; [exact R|]. now exists k.
Qed.
Lemma whole_sum rs dt nv : rs <> [] -> is_int_dtype d = true -> int_adds d (add d) -> out_dtype result_type rs dt = d -> out_null rs d nv = nodata -> 0 <= nc ->
  Forall (source cast d nc) (map to_grid rs) -> no_close_nulls nodata (map to_grid rs) ->
  exists r' nb, mosaic cast reconcile_other add fill result_type chunk to_grid nc rs Sum dt nv = Ok r' /\ is_nbands (map to_grid rs) nb
    /\ wf nb nc r' /\ r_dtype r' = d /\ r_nv r' = Some nodata
    /\ forall b c, in_raster nb nc b c -> null r' b c = same_value (value r' b c) nodata
       /\ let values := contributions cast d nodata (map to_grid rs) b c in (len rs <= 6 \/ run_free d nodata values -> is_int_sum d nodata values (value r' b c)).
Proof.
  intros Hrs DI HA ED EN Hnc HS HN. apply whole_spec with (Q := fun l v => len rs <= 6 \/ run_free d nodata l -> is_int_sum d nodata l v); try assumption; [discriminate|].
  intros l HL T. destruct (sum_cell l DI HA T) as (v & E & S). exists v. split; [exact E|]. intros [H|H]; apply S; [left; lia|now right].
Qed.
End Whole.

Lemma result_dtype_eq result_type rs dt d : result_dtype result_type rs dt d -> out_dtype result_type rs dt = d.
Proof. now intros [-> | [-> ->]]. Qed.
Lemma result_null_eq rs d nv nodata : result_null rs d nv nodata -> out_null rs d nv = nodata.
Proof.
  intros [-> | [-> H]]; [reflexivity|]. unfold out_null. destruct H as [(before & r & after & -> & E & F)|[F ->]].
  - induction F as [|x before Hx _ IH]; cbn [flat_map app]; [now rewrite E|]. rewrite Hx. exact IH.
  - induction F as [|x l Hx _ IH]; [reflexivity|]. cbn [flat_map]. rewrite Hx. exact IH.
Qed.
Lemma whole_refused cast reconcile_other add fill result_type chunk to_grid nc rs m dt nv : rs = [] \/ m = Other ->
  mosaic cast reconcile_other add fill result_type chunk to_grid nc rs m dt nv = Err ValueError.
Proof. intros [-> | ->]; [reflexivity|]. now destruct rs. Qed.
Lemma one_cell d nv v m : (nv = None -> m = false) -> wf 1 1 (Raster d nv [[v]] [[m]]).
Proof.
  intros H. change (wf 1 1 (mk 1 1 d nv (fun _ _ => v) (fun _ _ => m))). apply mk_wf; [lia|lia|]. intros E b c _. now apply H.
Qed.
(* for examples *)
Lemma three_cells data mask d nv : map (fun r => len r) data = map (fun _ => 3) data -> map (fun r => len r) mask = map (fun _ => 3) data -> data <> [] ->
  wf (len data) 3 (Raster d (Some nv) data mask).
Proof.
  intros HD HM N. assert (L : len mask = len data) by (apply (f_equal (@length _)) in HM; rewrite !map_length in HM; unfold len; lia).
  split; [destruct data; [congruence|rewrite len_cons; pose proof (len_nonneg data); lia]|]. split; [lia|]. cbn [r_data r_mask].
  assert (G : forall A (m : list (list A)), map (fun r => len r) m = map (fun _ => 3) data -> Forall (fun r => len r = 3) m).
  { intros A m E. apply Forall_forall. intros r Hr. assert (I : In (len r) (map (fun r => len r) m)) by (apply in_map_iff; eauto). rewrite E in I. apply in_map_iff in I. destruct I as (? & <- & _). reflexivity. }
  split; [split; [reflexivity|now apply G]|]. split; [split; [exact L|now apply G]|]. discriminate.
Qed.
