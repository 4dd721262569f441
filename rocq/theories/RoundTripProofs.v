From Coq Require Import QArith Qabs Qreals Reals Lra Lia ZifyBool String.
From Flocq Require Import Core BinarySingleNaN.
From Verif Require Import Base BaseFacts Scalars NumFacts FocalSpec FocalValues FocalResults BandsSpec Raster RasterSpec ReconcileSpec
  Polygons PolygonsSpec PolygonsProofs Rasterize RasterizeSpec RasterizeRaster RasterizeRasterSpec RasterizeRasterProofs RoundTrip RoundTripSpec.
Open Scope Z_scope.

Lemma crs_eqb_iff a b : crs_eqb a b = true <-> a = b.
Proof. destruct a, b; cbn; split; intros H; try discriminate; try reflexivity; [apply Z.eqb_eq in H; now subst|injection H as ->; apply Z.eqb_refl]. Qed.
Lemma same_cell_iff r c cells : existsb (same_cell (r, c)) cells = true <-> In (r, c) cells.
Proof.
  rewrite existsb_exists. split.
  - intros ((a & b) & I & E). unfold same_cell in E. cbn [fst snd] in E. assert (r = a /\ c = b) as [-> ->] by lia. exact I.
  - intros I. exists (r, c). split; [exact I|]. unfold same_cell. cbn [fst snd]. lia.
Qed.
Lemma in_numbers {A} (l : list A) i x : In (i, x) (combine (zrange 0 (len l)) l) -> In x l.
Proof. apply in_combine_r. Qed.
Lemma numbered_in {A} (l : list A) x : In x l -> exists i, In (i, x) (combine (zrange 0 (len l)) l).
Proof.
  intros I. assert (L : length (zrange 0 (len l)) = length l) by (unfold zrange; rewrite map_length, seq_length; unfold len; lia).
  revert L. generalize (zrange 0 (len l)). induction l as [|y l IH]; [destruct I|]. intros [|k ks] L; [discriminate|]. destruct I as [<-|I]; [exists k; now left|].
  destruct (IH I ks) as (i & Hi); [cbn in L; lia|]. exists i. now right.
Qed.
Lemma table_features d crs ps band f : In f (concat (t_parts (polygon_table d crs ps band))) <-> exists i p, In (i, p) (combine (zrange 0 (len ps)) ps) /\ pg_band p = band /\ f = polygon_feature crs i p.
Proof.
  cbn [polygon_table t_parts concat]. rewrite app_nil_r, in_map_iff. split.
  - intros ((i & p) & <- & I). apply filter_In in I as [I E]. exists i, p. split; [exact I|]. split; [lia|reflexivity].
  - intros (i & p & I & E & ->). exists (i, p). split; [reflexivity|]. apply filter_In. split; [exact I|lia].
Qed.
(* what resolves values that are all v is v *)
Lemma resolves_all m fill x v w : x <> [] -> (forall u, In u x -> num_eqb u v = true) -> resolves m fill x w -> num_eqb w v = true.
Proof.
  intros N H R. destruct x as [|x0 x]; [congruence|]. cbn [resolves] in R. destruct m.
  - subst w. apply H. now left.
  - subst w. apply H. destruct (exists_last (l := x0 :: x)) as (l & a & E); [discriminate|]. rewrite E, last_last. apply in_or_app. right. now left.
  - destruct R as [(u & I & E) _]. specialize (H u I). eapply num_eqb_trans; eauto.
  - destruct R as [(u & I & E) _]. specialize (H u I). eapply num_eqb_trans; eauto.
Qed.
Lemma at3_fun {A} (a : list (list (list A))) b r c x y : at3 a b r c x -> at3 a b r c y -> x = y.
Proof. intros (s & G1 & row & G2 & G3) (s' & H1 & row' & H2 & H3). congruence. Qed.
Lemma at3_some {A} (a : list (list (list A))) nb ny nx b r c : shaped3 nb ny nx a -> 0 <= b < nb -> 0 <= r < ny -> 0 <= c < nx -> exists x, at3 a b r c x.
Proof.
  intros (L & F) Hb Hr Hc. destruct (get_range a b) as (s & G1); [lia|]. rewrite Forall_forall in F. destruct (F s) as (L1 & F1); [eapply ChunksProofs.get_in; eauto|].
  destruct (get_range s r) as (row & G2); [lia|]. rewrite Forall_forall in F1. pose proof (F1 row ltac:(eapply ChunksProofs.get_in; eauto)) as L2.
  destruct (get_range row c) as (x & G3); [lia|]. exists x, s. split; [exact G1|]. exists row. auto.
Qed.

Lemma polygons_back cast shapes fd sb d crs nb ny nx ycs xcs data mask neighbors b like m invert nva aware fill :
  PolygonsSpec.covers shapes -> respects cast -> keeps cast -> cuts ny ycs -> cuts nx xcs -> shaped3 nb ny nx data -> shaped3 nb ny nx mask -> neighbors = 4 \/ neighbors = 8 ->
  representable d data mask -> 0 <= b < nb -> apart data mask b fill -> is_nan fill = false ->
  grid_of ny nx like -> thick like -> k_row like = 0 -> k_col like = 0 -> k_crs like = crs ->
  (aware = true -> forall p, RasterizeRasterSpec.covers crs (grid_box like) p (sb crs p)) ->
  match nva with NvNone => fill = default_null d | NvScalar s => fill = scalar_num s | NvOther => False end ->
  exists out, through_polygons cast shapes fd sb d crs nb ycs xcs data mask neighbors b like m invert nva aware = Ok out
  /\ wf 1 (ny * nx) out /\ r_dtype out = d /\ r_nv out = Some fill /\ same_band data mask b ny nx out.
Proof.
  intros CV RS KP CY CX SD SM HN RP Hb AP NF GK TK KR KC KCRS SB NV.
  destruct (polygons cast shapes CV RS d nb ny nx ycs xcs data mask neighbors CY CX SD SM HN) as (ps & EP & PO).
  destruct (exact_polygons cast d data mask ps KP RS RP PO) as [PIN PALL].
  set (t := polygon_table d crs ps (b + 1)).
  assert (CC : cells_crs t like = crs) by (unfold cells_crs; rewrite KCRS; destruct crs; reflexivity).
  assert (VAL : forall f, In f (concat (t_parts t)) -> is_nan (feature_value (Some "value"%string) f) = false /\ num_eqb (feature_value (Some "value"%string) f) fill = false).
  { intros f I. apply table_features in I as (i & p & I & EB & ->). cbn [feature_value polygon_feature g_values]. change (String.eqb "value" "value") with true. cbn iota.
    pose proof (in_numbers _ _ _ I) as Ip. destruct PO as [PO1 _]. destruct (PO1 p Ip) as [NE _]. destruct (pg_cells p) as [|[r c] cells] eqn:EC; [congruence|].
    assert (Hc : In (r, c) (pg_cells p)) by (rewrite EC; now left). apply (PIN p Ip) in Hc. rewrite EB in Hc. replace (b + 1 - 1) with b in Hc by lia.
    destruct Hc as (MK & v & DT & EV). destruct (AP r c v MK DT) as [A1 A2]. split.
    - destruct (pg_value p); try reflexivity. destruct v; discriminate.
    - destruct (num_eqb (pg_value p) fill) eqn:E; [|reflexivity]. rewrite (num_eqb_trans v (pg_value p) fill EV E) in A2. discriminate. }
  destruct (values_ok cast fd sb t like ny nx (FieldName "value"%string) m invert nva aware d fill) as (out & t' & E & W & D & NVO & C); try assumption.
  - unfold can_transform. rewrite KCRS. intros H. exact H.
  - intros regs H. discriminate.
  - intros HA p _. rewrite CC. now apply SB.
  - split; [reflexivity|exact NV].
  - exists out. unfold through_polygons. rewrite EP. cbn [rbind]. fold t. rewrite E. cbn [rbind]. split; [reflexivity|]. split; [exact W|]. split; [exact D|]. split; [exact NVO|].
    intros r c Hr Hc. specialize (C r c Hr Hc). rewrite KR, KC in C. rewrite !Z.add_0_l, CC in C. cbn [field_of] in C.
    set (fs := touching_cell crs (t_parts t) r c) in *.
    assert (FS : forall f, In f fs <-> exists i p, In (i, p) (combine (zrange 0 (len ps)) ps) /\ pg_band p = b + 1 /\ f = polygon_feature crs i p /\ In (r, c) (pg_cells p)).
    { intros f. unfold fs, touching_cell. rewrite filter_In. unfold t. rewrite table_features. split.
      - intros ((i & p & I & EB & ->) & T). exists i, p. repeat (split; [assumption || reflexivity|]). cbn [polygon_feature g_touches] in T. apply andb_true_iff in T as [_ T]. now apply same_cell_iff.
      - intros (i & p & I & EB & -> & T). split; [exists i, p; auto|]. cbn [polygon_feature g_touches]. rewrite (proj2 (crs_eqb_iff crs crs) eq_refl). cbn [andb]. now apply same_cell_iff. }
    destruct C as [RES NUL]. split.
    + intros MK. rewrite NUL. destruct fs as [|f fs'] eqn:EF; [reflexivity|]. exfalso. destruct (proj1 (FS f) ltac:(now left)) as (i & p & I & EB & _ & IC).
      apply (PIN p (in_numbers _ _ _ I)) in IC. rewrite EB in IC. replace (b + 1 - 1) with b in IC by lia. destruct IC as (MK' & _). pose proof (at3_fun _ _ _ _ _ _ MK MK'). discriminate.
    + intros v MK DT. destruct (AP r c v MK DT) as [NN _]. destruct (PALL b r c v MK DT NN) as (p & Ip & EB & EV & IC). destruct (numbered_in ps p Ip) as (i & Ii).
      assert (IF : In (polygon_feature crs i p) fs) by (apply FS; exists i, p; auto).
      split; [rewrite NUL; destruct fs; [destruct IF|reflexivity]|].
      eapply resolves_all; [| |exact RES].
      * intros H. apply map_eq_nil in H. rewrite H in IF. destruct IF.
      * intros u Hu. apply in_map_iff in Hu as (f & <- & Hf). apply FS in Hf as (i' & p' & I' & EB' & -> & IC'). cbn [feature_value polygon_feature g_values].
        change (String.eqb "value" "value") with true. cbn iota. apply (PIN p' (in_numbers _ _ _ I')) in IC'. rewrite EB' in IC'. replace (b + 1 - 1) with b in IC' by lia.
        destruct IC' as (_ & w & DT' & EW). rewrite (at3_fun _ _ _ _ _ _ DT DT'). rewrite num_eqb_sym. exact EW.
Qed.
