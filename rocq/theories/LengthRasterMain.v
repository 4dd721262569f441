From Coq Require Import QArith Qabs Qround Lqa String Lia ZifyBool.
From Verif Require Import Base BaseFacts Scalars Arr2Facts Chunks ChunksProofs Arr2 FocalSpec FocalValues FocalResults BandsSpec Bands BandsProofs BlockArgs BlockArgsSpec Blocks BlocksSpec
  MapBlocks MapBlocksSpec MapBlocksProofs Vectors VectorsProofs VectorTable VectorTableSpec VectorTableProofs MapOverlap MapOverlapSpec GeoMap GeoMapSpec GeoMapOverlap CostPublicProofs ProximityChunk
  CreationProofs LineStats LineStatsSpec LineStatsProofs LengthRaster LengthRasterSpec LengthRasterProofs.
Open Scope Z_scope.

Lemma ceiling_le (r s : Q) n : (0 < Qabs s)%Q -> (r <= inject_Z n * Qabs s)%Q -> depth_of r s <= n.
Proof.
  intros P L. unfold depth_of. rewrite <- (Qceiling_Z n). apply Qceiling_resp_le. apply Qle_shift_div_r; assumption.
Qed.
Lemma column_value_get name x : forall columns vals i, NoDup columns -> get columns i = Ok name -> get vals i = Ok x -> column_value name columns vals = x.
Proof.
  induction columns as [|c columns IH]; intros vals i ND G H; [now destruct (get_ok_range _ _ _ G) as [? E]; cbn in E; unfold len in E; cbn in E; lia|].
  pose proof (get_ok_range _ _ _ H) as R. destruct vals as [|y vals]; [unfold len in R; cbn in R; lia|]. cbn [column_value]. inversion ND as [|? ? NI ND']; subst.
  destruct (Z.eq_dec i 0) as [->|N].
  - rewrite get_cons0 in G. rewrite get_cons0 in H. injection G as ->. injection H as ->. now rewrite String.eqb_refl.
  - rewrite get_cons in G by lia. rewrite get_cons in H by lia. destruct (String.eqb c name) eqn:E; [|eapply IH; eauto]. apply String.eqb_eq in E. subst c. contradiction NI. eapply get_in. exact G.
Qed.
Lemma first_shape nb ny nx r : 1 <= nb -> raster_of_shape nb ny nx (gr r) -> raster_of_shape 1 ny nx (gr (first_band r)).
Proof.
  intros Hn ((Ld & Fd) & (Lm & Fm) & C). unfold first_band. destruct (b_chunks (gr r)) as [[bcs ycs] xcs]. destruct C as (_ & Cy & Cx & _ & Ny & Nx). cbn [gr]. unfold raster_of_shape. cbn [b_data b_mask b_chunks].
  split; [|split].
  - destruct (b_data (gr r)) as [|d l]; [unfold len in Ld; cbn in Ld; lia|]. split; [reflexivity|]. cbn [firstn]. inversion Fd; subst. now constructor.
  - destruct (b_mask (gr r)) as [|d l]; [unfold len in Lm; cbn in Lm; lia|]. split; [reflexivity|]. cbn [firstn]. inversion Fm; subst. now constructor.
  - split; [split; [repeat constructor; cbn; lia|reflexivity]|]. repeat (split; [first [assumption|discriminate]|]). assumption.
Qed.

Section Main.
Context {S : Type}.
Variables (zero : S) (add mul : S -> S -> S) (value : S -> num) (addn : num -> num -> num) (weight : num -> S) (lib : shapes S) (cast : dtype -> num -> num).
Variables (files : string -> option (list layer)) (read_file : layer -> coll) (project : Z -> Z) (scalar_field : string -> bool).
Notation len_of := (LengthRaster.length zero add mul value addn weight lib cast files read_file project scalar_field).

Theorem length_ok features v a like r field w nb ny nx :
  exact_products zero add mul -> (forall a b, addn (value a) (value b) = value (add a b)) -> lawful zero add lib r ->
  get_vector files read_file features = VOk v -> good a v -> Forall (fun f => type_of lib (w_geom (snd f)) <> OtherType) (rows_of v) ->
  1 <= nb -> 0 <= ny -> 0 <= nx -> raster_of_shape nb ny nx (gr like) -> on_grid ny nx like -> no_empty_chunk (gr like) -> gr_crs like <> None ->
  let t := gb_affine (gr_box like) in
  (0 < Qabs (af_a t))%Q -> (0 < Qabs (af_e t))%Q -> (0 < r)%Q -> (r <= inject_Z ny * Qabs (af_e t))%Q -> (r <= inject_Z nx * Qabs (af_a t))%Q ->
  weighting weight scalar_field (s_columns (c_schema (v_geo v))) (projected project v) field w ->
  exists chunks data mask, len_of features like (Radius r) field = VOk (BRaster F32 None chunks data mask)
  /\ chunks = ([1], snd (fst (b_chunks (gr like))), snd (b_chunks (gr like)))
  /\ shaped3 1 ny nx data /\ shaped3 1 ny nx mask /\ (forall b y x m, at3 mask b y x m -> m = false)
  /\ forall y x yc xc, 0 <= y < ny -> 0 <= x < nx -> coordinates_of (gr_box like) y x yc xc ->
       at3 data 0 y x (value (total zero add mul lib r w (projected project v) yc xc)).
Proof.
  intros EX ADDN LAW GV G TY Hb Hy Hx WF OG NE CRS t Pa Pe Pr LY LX HW.
  set (columns := s_columns (c_schema (v_geo v))) in *. set (rows := projected project v) in *.
  destruct (crs_ok a project v G) as (gdf & EC & ((RG & SG) & SC & _ & RC)).
  assert (RW : map snd (concat (c_parts (v_geo gdf))) = rows).
  { unfold rows, projected. change (concat (c_parts (v_geo gdf))) with (rows_of gdf). rewrite RC. change (concat (c_parts (v_geo v))) with (rows_of v). rewrite map_map. apply map_ext. intros [i x]. reflexivity. }
  assert (FB : gr_box (first_band like) = gr_box like /\ gr_crs (first_band like) = gr_crs like /\ b_chunks (gr (first_band like)) = ([1], snd (fst (b_chunks (gr like))), snd (b_chunks (gr like)))).
  { unfold first_band. destruct (b_chunks (gr like)) as [[bcs ycs] xcs]. auto. }
  destruct FB as (FB1 & FB2 & FB3).
  assert (OG' : on_grid ny nx (first_band like)) by (unfold on_grid; rewrite FB1, FB2; exact OG).
  assert (NE' : no_empty_chunk (gr (first_band like))).
  { unfold no_empty_chunk in *. rewrite FB3. destruct (b_chunks (gr like)) as [[bcs ycs] xcs]. destruct NE as (_ & ? & ?). repeat split; try assumption. repeat constructor. }
  pose proof (first_shape nb ny nx like Hb WF) as WF'.
  (* the field *)
  assert (FW : exists fld w', used weight columns fld w' /\ (forall y x, total zero add mul lib r w rows y x = total zero add mul lib r w' rows y x)
    /\ match field with FieldNone => VOk None | FieldOther => VRaise (VErr TypeError)
       | FieldName s => if negb (in_columns s (all_columns (c_schema (v_geo v)))) then VRaise (VErr ValueError) else if negb (scalar_field s) then VRaise (VErr TypeError) else VOk (Some s) end = VOk fld).
  { destruct HW as [[-> ->]|(i & wf & -> & -> & ND & GI & SF & FA)]; [exists None, None; cbn; auto|]. exists (Some "weights"%string), (Some (fun f => weight (column_value "weights" columns (w_vals f)))).
    split; [cbn; auto|]. split.
    - intros y x. unfold total. apply sum_ext. intros f Hf. apply filter_In in Hf as [Hf _]. rewrite Forall_forall in FA. destruct (FA f Hf) as (z & Gz & ->). cbn zeta. now rewrite (column_value_get "weights" z columns (w_vals f) i ND GI Gz).
    - replace (in_columns "weights" (all_columns (c_schema (v_geo v)))) with true; [cbn [negb]; rewrite SF; reflexivity|]. symmetry. apply in_columns_iff. right. eapply get_in. exact GI. }
  destruct FW as (fld & w' & US & TE & EF).
  pose proof (ceiling_le r _ ny Pe LY) as DY. pose proof (ceiling_le r _ nx Pa LX) as DX. unfold t in DY, DX. rewrite <- FB1 in DY, DX.
  destruct (partials_ok zero add mul value addn weight lib cast EX r LAW columns fld w' US (first_band like) ny nx Hy Hx Pr WF' OG' NE' DY DX ADDN (c_parts (v_geo gdf))) as (data & ED & SD & VD); [apply RG|].
  assert (E : len_of features like (Radius r) field = VOk (BRaster F32 None ([1], snd (fst (b_chunks (gr like))), snd (b_chunks (gr like))) data (map3 (fun _ => false) data))).
  { unfold LengthRaster.length. rewrite GV. cbn [vbind]. replace (Qle_bool r 0) with false; [|symmetry; destruct (Qle_bool r 0) eqn:Q0; [apply Qle_bool_iff in Q0; lra|reflexivity]].
    rewrite FB2. destruct (gr_crs like) as [c|]; [|congruence].
    match goal with |- context [existsb ?f ?l] => replace (existsb f l) with false end.
    2:{ symmetry. apply Bool.not_true_iff_false. intros X. apply existsb_exists in X as (f & Hf & X). rewrite Forall_forall in TY. specialize (TY f Hf). destruct (type_of lib (w_geom (snd f))); try discriminate. congruence. }
    rewrite EF. cbn [vbind]. rewrite EC. cbn [rbind]. rewrite SC. fold columns. 
    match goal with |- lift (let* p := ?T in let* d := sum_stack addn p in @?K d) = _ => change (lift (let* p := T in let* d := sum_stack addn p in K d)) with (lift (let* p := T in rbind (sum_stack addn p) K)) end.
    apply rbind_ok in ED as (ps & E1 & E2). rewrite E1. cbn [rbind]. rewrite E2. cbn [rbind lift]. now rewrite FB3. }
  exists ([1], snd (fst (b_chunks (gr like))), snd (b_chunks (gr like))), data, (map3 (fun _ => false) data). split; [exact E|]. split; [reflexivity|]. split; [exact SD|]. split; [now apply map3_shaped|]. split.
  - intros b y x m AT. destruct (at3_range _ _ _ _ _ _ _ _ (map3_shaped _ _ _ _ _ SD) AT) as (Rb & Ry & Rx). destruct (CreationProofs.shape3_at _ _ _ _ b y x SD Rb Ry Rx) as [u U]. exact (at3_fun _ _ _ _ _ _ AT (at3_map3 (fun _ => false) _ _ _ _ _ U)).
  - intros y x yc xc Ry Rx CO. rewrite TE, <- RW. apply VD; try assumption. now rewrite FB1.
Qed.
(* the same features and cells, cut otherwise *)
Theorem length_cuts features v a like features' v' a' like' r field w nb nb' ny nx out out' :
  exact_products zero add mul -> (forall a b, addn (value a) (value b) = value (add a b)) -> lawful zero add lib r ->
  let fine features v a like nb :=
    get_vector files read_file features = VOk v /\ good a v /\ 1 <= nb /\ raster_of_shape nb ny nx (gr like) /\ on_grid ny nx like /\ no_empty_chunk (gr like) /\ gr_crs like <> None in
  fine features v a like nb -> fine features' v' a' like' nb' -> rows_of v = rows_of v' -> c_schema (v_geo v) = c_schema (v_geo v') -> gr_box like = gr_box like' ->
  Forall (fun f => type_of lib (w_geom (snd f)) <> OtherType) (rows_of v) -> 0 <= ny -> 0 <= nx ->
  let t := gb_affine (gr_box like) in
  (0 < Qabs (af_a t))%Q -> (0 < Qabs (af_e t))%Q -> (0 < r)%Q -> (r <= inject_Z ny * Qabs (af_e t))%Q -> (r <= inject_Z nx * Qabs (af_a t))%Q ->
  weighting weight scalar_field (s_columns (c_schema (v_geo v))) (projected project v) field w ->
  len_of features like (Radius r) field = VOk out -> len_of features' like' (Radius r) field = VOk out' ->
  forall b y x c, at3 (b_data out) b y x c <-> at3 (b_data out') b y x c.
Proof.
  intros EX ADDN LAW fine (GV & G & Hb & WF & OG & NE & CR) (GV' & G' & Hb' & WF' & OG' & NE' & CR') ER ES EB TY Hy Hx t Pa Pe Pr LY LX HW E E'.
  assert (EP : projected project v = projected project v') by (unfold projected; change (concat (c_parts (v_geo v))) with (rows_of v); now rewrite ER).
  assert (TY' := TY). rewrite ER in TY'. assert (HW' := HW). rewrite ES, EP in HW'. subst t.
  destruct (length_ok features v a like r field w nb ny nx EX ADDN LAW GV G TY Hb Hy Hx WF OG NE CR Pa Pe Pr LY LX HW) as (ch & d & m & E1 & _ & SD & _ & _ & VD).
  rewrite EB in Pa, Pe, LY, LX. destruct (length_ok features' v' a' like' r field w nb' ny nx EX ADDN LAW GV' G' TY' Hb' Hy Hx WF' OG' NE' CR' Pa Pe Pr LY LX HW') as (ch' & d' & m' & E1' & _ & SD' & _ & _ & VD').
  rewrite E1 in E. rewrite E1' in E'. injection E as <-. injection E' as <-. cbn [b_data]. intros b y x c.
  assert (K : forall b y x, 0 <= b < 1 -> 0 <= y < ny -> 0 <= x < nx -> exists c, at3 d b y x c /\ at3 d' b y x c).
  { clear b y x c. intros b y x Rb Ry Rx. assert (b = 0) as -> by lia. set (q := gb_coord (gr_box like) y x).
    assert (CO : coordinates_of (gr_box like) y x (snd q) (fst q)) by (unfold coordinates_of, Qpair_eq; cbn [fst snd]; split; reflexivity). assert (CO' := CO). rewrite EB in CO'. eexists. split; [apply VD; eauto|]. rewrite EP. apply VD'; eauto. }
  split; intros H.
  - destruct (at3_range _ _ _ _ _ _ _ _ SD H) as (Rb & Ry & Rx). destruct (K b y x Rb Ry Rx) as (c' & C1 & C2). now rewrite (at3_fun _ _ _ _ _ _ H C1).
  - destruct (at3_range _ _ _ _ _ _ _ _ SD' H) as (Rb & Ry & Rx). destruct (K b y x Rb Ry Rx) as (c' & C1 & C2). now rewrite (at3_fun _ _ _ _ _ _ H C2).
Qed.
(* wrong arguments *)
Theorem length_refused features v like r field : get_vector files read_file features = VOk v ->
  len_of features like RadiusOther field = VRaise (VErr TypeError)
  /\ ((r <= 0)%Q -> len_of features like (Radius r) field = VRaise (VErr ValueError))
  /\ ((0 < r)%Q -> gr_crs like = None -> len_of features like (Radius r) field = VRaise (VErr ValueError))
  /\ ((0 < r)%Q -> gr_crs like <> None -> (exists f, In f (rows_of v) /\ type_of lib (w_geom (snd f)) = OtherType) -> len_of features like (Radius r) field = VRaise (VErr TypeError))
  /\ ((0 < r)%Q -> gr_crs like <> None -> Forall (fun f => type_of lib (w_geom (snd f)) <> OtherType) (rows_of v) ->
       len_of features like (Radius r) FieldOther = VRaise (VErr TypeError)
       /\ (forall s, ~ In s (all_columns (c_schema (v_geo v))) -> len_of features like (Radius r) (FieldName s) = VRaise (VErr ValueError))
       /\ (forall s, In s (all_columns (c_schema (v_geo v))) -> scalar_field s = false -> len_of features like (Radius r) (FieldName s) = VRaise (VErr TypeError))).
Proof.
  intros GV. unfold LengthRaster.length. rewrite GV. cbn [vbind].
  assert (FB2 : gr_crs (first_band like) = gr_crs like) by (unfold first_band; now destruct (b_chunks (gr like)) as [[? ?] ?]).
  assert (Q0 : (0 < r)%Q -> Qle_bool r 0 = false) by (intros P; destruct (Qle_bool r 0) eqn:Q0; [apply Qle_bool_iff in Q0; lra|reflexivity]).
  split; [reflexivity|]. split; [intros L; apply Qle_bool_iff in L; now rewrite L|]. split; [intros P C; now rewrite (Q0 P), FB2, C|]. split.
  - intros P C (f & Hf & T). rewrite (Q0 P), FB2. destruct (gr_crs like); [|congruence]. match goal with |- context [existsb ?g ?l] => replace (existsb g l) with true; [reflexivity|] end. symmetry. apply existsb_exists. exists f. split; [exact Hf|]. now rewrite T.
  - intros P C TY. rewrite (Q0 P), FB2. destruct (gr_crs like); [|congruence]. match goal with |- context [existsb ?f ?l] => replace (existsb f l) with false end.
    2:{ symmetry. apply Bool.not_true_iff_false. intros X. apply existsb_exists in X as (f & Hf & X). rewrite Forall_forall in TY. specialize (TY f Hf). destruct (type_of lib (w_geom (snd f))); try discriminate. congruence. }
    split; [reflexivity|]. split.
    + intros s NI. destruct (in_columns s _) eqn:E; [apply in_columns_iff in E; contradiction|reflexivity].
    + intros s HI SF. apply in_columns_iff in HI. now rewrite HI, SF.
Qed.
Theorem length_source features like r field e : get_vector files read_file features = VRaise e -> len_of features like r field = VRaise e.
Proof. intros GV. unfold LengthRaster.length. now rewrite GV. Qed.
End Main.
