From Coq Require Import QArith Qabs Qround Lqa String Lia ZifyBool.
From Verif Require Import Base BaseFacts Scalars Arr2Facts Chunks ChunksProofs Arr2 FocalSpec FocalValues FocalResults BandsSpec Bands BandsProofs BlockArgs BlockArgsSpec Blocks BlocksSpec
  MapBlocks MapBlocksSpec MapBlocksProofs Vectors VectorTable VectorTableSpec VectorTableProofs MapOverlap MapOverlapSpec GeoMap GeoMapSpec GeoMapOverlap CostPublicProofs ProximityChunk
  LineStats LineStatsSpec LineStatsProofs LengthRaster LengthRasterSpec.
Open Scope Z_scope.

Lemma qmin_le l : forall x, In x l -> (qmin l <= x)%Q.
Proof.
  unfold qmin. generalize (nth 0 l 0%Q). induction l as [|a l IH]; intros d x; [intros []|]. cbn [fold_right].
  intros [->|H].
  - destruct (Qle_bool x _) eqn:E; [apply Qle_refl|]. destruct (Qlt_le_dec (fold_right (fun a b => if Qle_bool a b then a else b) d l) x) as [L|L]; [now apply Qlt_le_weak|]. apply Qle_bool_iff in L. congruence.
  - specialize (IH d x H). destruct (Qle_bool a _) eqn:E; [|exact IH]. apply Qle_bool_iff in E. eapply Qle_trans; eauto.
Qed.
Lemma qmax_ge l : forall x, In x l -> (x <= qmax l)%Q.
Proof.
  unfold qmax. generalize (nth 0 l 0%Q). induction l as [|a l IH]; intros d x; [intros []|]. cbn [fold_right].
  intros [->|H].
  - destruct (Qle_bool x _) eqn:E; [now apply Qle_bool_iff|]. apply Qle_refl.
  - specialize (IH d x H). destruct (Qle_bool a _) eqn:E; [exact IH|]. eapply Qle_trans; [exact IH|]. destruct (Qlt_le_dec (fold_right (fun a b => if Qle_bool a b then b else a) d l) a) as [L|L]; [now apply Qlt_le_weak|]. apply Qle_bool_iff in L. congruence.
Qed.
Lemma nth_get {A} (l : list A) i x d : get l i = Ok x -> nth (Z.to_nat i) l d = x.
Proof. intros G. pose proof (get_ok_range _ _ _ G) as R. pose proof (CostPublicProofs.get_nth d l i R) as E. rewrite E in G. congruence. Qed.

Section Length.
Context {S : Type}.
Variables (zero : S) (add mul : S -> S -> S) (value : S -> num) (addn : num -> num -> num) (weight : num -> S) (lib : shapes S) (cast : dtype -> num -> num).
Hypothesis EX : exact_products zero add mul.
Notation sum := (sum_of zero add).
Let HX : exact zero add := proj1 EX.

Lemma sum_mul {A} (f : A -> S) w l : sum (fun x => mul (f x) w) l = mul (sum f l) w.
Proof. pose proof (proj1 (proj2 EX)) as D; pose proof (proj2 (proj2 EX)) as Z0. induction l as [|x l IH]; [symmetry; apply Z0|]. cbn [sum_of fold_right]. unfold sum_of in IH. rewrite IH. symmetry. apply D. Qed.

Variables (r : Q) (LAW : lawful zero add lib r).
Variables (columns : list string) (field : option string) (w : option (row -> S)).
(* the weights the code uses *)
Definition used : Prop :=
  match field with
  | None => w = None
  | Some s => s = "weights"%string /\ w = Some (fun f => weight (column_value "weights" columns (w_vals f)))
  end.
Hypothesis US : used.

Lemma weights_used : exists weights, weights_column field = inl weights /\ match weights with None => w = None | Some name => w = Some (fun f => weight (column_value name columns (w_vals f))) end.
Proof. unfold used in US. destruct field as [s|]; [|exists None; auto]. destruct US as [-> E]. exists (Some "weights"%string). auto. Qed.

Lemma grid_ok rows yc xc : exists grid, length_grid zero add mul value weight lib r columns field (clip_rows lib (aoi r yc xc) rows) yc xc = Ok grid
  /\ shaped2 (len yc) (len xc) grid /\ forall i j y x, get yc i = Ok y -> get xc j = Ok x -> at2 grid i j (value (total zero add mul lib r w rows y x)).
Proof.
  set (cr := clip_rows lib (aoi r yc xc) rows). pose proof (len_nonneg yc) as Ny. pose proof (len_nonneg xc) as Nx.
  set (reshape := fun out : list S => tab2 (len yc) (len xc) (fun i j => value (nth (Z.to_nat (i * len xc + j)) out zero))).
  assert (T : forall y x, In y yc -> In x xc -> sum (fun f => let l := length_within zero add lib r (w_geom f) y x in match w with Some w => mul l (w f) | None => l end) cr = total zero add mul lib r w rows y x).
  { intros y x Hy Hx. unfold total, cr, clip_rows. rewrite (sum_flat_map zero add HX). apply sum_ext. intros f _. assert (A : around (aoi r yc xc) r y x).
    { unfold around, aoi. cbn [x_min x_max y_min y_max]. pose proof (qmin_le _ _ Hx). pose proof (qmin_le _ _ Hy). pose proof (qmax_ge _ _ Hx). pose proof (qmax_ge _ _ Hy). repeat split; lra. }
    pose proof (clip_keeps _ _ _ _ LAW (w_geom f) _ y x A) as C. destruct (clipped lib (w_geom f) _) as [g|].
    - cbn [sum_of fold_right w_geom]. rewrite (add0r zero add HX), C. unfold used in US. destruct field as [s|]; [destruct US as [_ ->]|rewrite US]; reflexivity.
    - cbn [sum_of fold_right]. destruct w as [w'|]; [|exact C]. cbn zeta. rewrite <- C. symmetry. apply EX. }
  assert (R : forall out, len out = len yc * len xc -> (forall c, 0 <= c < len yc * len xc -> forall y x, get yc (c / len xc) = Ok y -> get xc (c mod len xc) = Ok x -> get out c = Ok (total zero add mul lib r w rows y x)) ->
     shaped2 (len yc) (len xc) (reshape out) /\ forall i j y x, get yc i = Ok y -> get xc j = Ok x -> at2 (reshape out) i j (value (total zero add mul lib r w rows y x))).
  { intros out L V. split; [now apply rect_tab2|]. intros i j y x Gy Gx. pose proof (get_ok_range _ _ _ Gy). pose proof (get_ok_range _ _ _ Gx).
    assert (D : (i * len xc + j) / len xc = i) by (rewrite Z.div_add_l, Z.div_small; lia). assert (M : (i * len xc + j) mod len xc = j) by (rewrite Z.add_comm, Z_mod_plus_full, Z.mod_small; lia).
    rewrite <- (nth_get out (i * len xc + j) _ zero (V (i * len xc + j) ltac:(nia) y x ltac:(now rewrite D) ltac:(now rewrite M))). exact (at2_tab (len yc) (len xc) (fun i j => value (nth (Z.to_nat (i * len xc + j)) out zero)) i j ltac:(lia) ltac:(lia)). }
  destruct cr as [|f0 cr'] eqn:EC.
  - cbn [length_grid]. eexists. split; [reflexivity|]. apply R; [apply full_len; nia|]. intros c Hc y x Gy Gx. rewrite <- (T y x); [|eapply get_in; eauto|eapply get_in; eauto]. apply get_full. exact Hc.
  - destruct weights_used as (ws & EW & HW). cbn [length_grid]. rewrite EW. 
    match goal with |- context [length_block _ _ _ ?b ?n (map ?f (f0 :: cr'))] => set (wtd := b); set (feat := f) end. rewrite <- EC in *. clear EC f0 cr'.
    assert (BC : buffers_cover (len yc * len xc) (map feat cr)).
    { intros f l c Hf Hl Hc. apply in_map_iff in Hf as (u & <- & Hu). cbn [feat f_lines] in Hl. apply in_map_iff in Hl as (k & <- & Hk). cbn [block_line l_clip l_near]. intros N. now apply (covered _ _ _ _ LAW). }
    destruct (length_block_spec zero add mul HX wtd (len yc * len xc) (map feat cr) ltac:(nia) BC) as (out & -> & LO & VO). cbn [rbind]. eexists. split; [reflexivity|]. apply R; [exact LO|].
    intros c Hc y x Gy Gx. rewrite (VO c Hc). f_equal. rewrite <- (T y x); [|eapply get_in; eauto|eapply get_in; eauto]. unfold cell_total. rewrite (sum_map zero add). apply sum_ext. intros f _. cbn [feat f_lines f_weight]. rewrite (sum_map zero add).
    assert (E : forall l, line_length zero mul wtd (match ws with Some name => weight (column_value name columns (w_vals f)) | None => zero end) c (block_line lib r yc xc l)
      = let s := match inside lib r l y x with Some s => s | None => zero end in match w with Some w => mul s (w f) | None => s end).
    { intros l. unfold line_length. cbn [block_line l_clip]. rewrite (nth_get _ _ _ 0%Q Gy), (nth_get _ _ _ 0%Q Gx). unfold wtd. destruct ws as [name|]; rewrite HW; cbn zeta; destruct (inside lib r l y x); try reflexivity. symmetry. apply EX. }
    rewrite (sum_ext zero add _ _ _ (fun l _ => E l)). cbn zeta. destruct w as [w'|]; [|reflexivity]. apply sum_mul.
Qed.

Lemma total_ext rows y y' x x' : (y == y')%Q -> (x == x')%Q -> total zero add mul lib r w rows y x = total zero add mul lib r w rows y' x'.
Proof.
  intros Ey Ex. unfold total. apply sum_ext. intros f _. replace (length_within zero add lib r (w_geom f) y' x') with (length_within zero add lib r (w_geom f) y x); [reflexivity|]. apply sum_ext. intros l _. now rewrite (inside_ext _ _ _ _ LAW l y y' x x').
Qed.
Lemma chunk_windowed rows count nv ev dy dx : geo_windowed (length_chunk zero add mul value weight lib r columns field rows) count nv ev dy dx (fun _ yc xc _ _ => value (total zero add mul lib r w rows yc xc)).
Proof.
  split; [intros a y y' x x' l Ey Ex; now rewrite (total_ext rows y y' x x' Ey Ex)|]. intros n m k xs ms p Hn Hm Hk _ Lb Ly Lx. cbn [length_chunk grun].
  destruct (grid_ok rows (geo_y p) (geo_x p)) as (grid & -> & SG & VG). cbn [rbind]. eexists. split; [reflexivity|]. rewrite Ly, Lx in SG. split.
  - split; [now rewrite len_map|]. apply Forall_forall. intros g Hg. apply in_map_iff in Hg as (? & <- & _). exact SG.
  - intros b i j band yc xc ws ns Gb Gy Gx _ _ _. exists grid. split; [|now apply VG]. now rewrite get_map_eq, Gb.
Qed.
Lemma depth_nonneg size : (0 < r)%Q -> 0 <= depth_of r size.
Proof.
  intros R. unfold depth_of. rewrite <- (Qceiling_Z 0). apply Qceiling_resp_le. change (inject_Z 0) with 0%Q. unfold Qdiv. apply Qmult_le_0_compat; [now apply Qlt_le_weak|]. apply Qinv_le_0_compat. apply Qabs_nonneg.
Qed.
Lemma depth_dict a b : 0 <= a -> 0 <= b -> depth_means (PDict [(PInt 1, PInt a); (PInt 2, PInt b)]) (Sym a) (Sym b).
Proof.
  intros A B. constructor.
  - repeat constructor; cbn [fst snd]; [exists 1, (Sym a)|exists 2, (Sym b)]; (split; [reflexivity|split; [lia|now constructor]]).
  - reflexivity.
  - unfold dict_axis. cbn. now constructor.
  - unfold dict_axis. cbn. now constructor.
Qed.
Variables (like : georaster) (ny nx : Z).
Hypothesis (Hy : 0 <= ny) (Hx : 0 <= nx) (HR : (0 < r)%Q).
Hypothesis (WF : raster_of_shape 1 ny nx (gr like)) (OG : on_grid ny nx like) (NE : no_empty_chunk (gr like)).
Let yd := depth_of r (af_e (gb_affine (gr_box like))).
Let xd := depth_of r (af_a (gb_affine (gr_box like))).
Hypothesis (FY : yd <= ny) (FX : xd <= nx).
Definition has_totals (rows : list row) (data : arr3 num) : Prop :=
  shaped3 1 ny nx data /\ forall y x yc xc, 0 <= y < ny -> 0 <= x < nx -> coordinates_of (gr_box like) y x yc xc -> at3 data 0 y x (value (total zero add mul lib r w rows yc xc)).
Lemma part_ok rows : exists data, (let* p := geo_map_overlap cast (length_chunk zero add mul value weight lib r columns field rows) [like]
   (PDict [(PInt 1, PInt yd); (PInt 2, PInt xd)]) (BNum (of_Z 0)) (Some F32) None F32 NvNone false in Ok (b_data p)) = Ok data /\ has_totals rows data.
Proof.
  pose proof (depth_nonneg (af_e (gb_affine (gr_box like))) HR) as Ny. pose proof (depth_nonneg (af_a (gb_affine (gr_box like))) HR) as Nx. fold yd in Ny. fold xd in Nx.
  assert (NV : exists nv, final_nv (Some F32) None F32 NvNone (b_dtype (gr like)) (b_nv (gr like)) (len (map gr [like])) = Ok nv).
  { unfold final_nv, resolve_out_null_value. cbn [out_data_dtype out_dtype_hint]. destruct (_ && _); [eexists; reflexivity|]. unfold get_default_null_value. cbn [rbind]. eexists. reflexivity. }
  destruct NV as [nv NV].
  assert (WF' : Forall (raster_of_shape 1 ny nx) (map gr [like])) by (constructor; [exact WF|constructor]).
  assert (SY : Number (of_Z 0) <> Unpadded -> symmetric (Sym yd) /\ symmetric (Sym xd)) by (intros _; split; eexists; reflexivity).
  assert (EV : forall d cs, even (Number (of_Z 0)) (Sym d) cs) by (intros d cs; left; exists d; split; [reflexivity|left; discriminate]).
  pose proof (geo_overlap_cells cast (length_chunk zero add mul value weight lib r columns field rows) like [] 1 ny nx (PDict [(PInt 1, PInt yd); (PInt 2, PInt xd)]) (Sym yd) (Sym xd) (BNum (of_Z 0)) (Number (of_Z 0))
    (Some F32) None F32 NvNone nv Z.le_0_1 Hy Hx WF' OG NE eq_refl eq_refl (depth_dict _ _ Ny Nx) (means_number _) (conj FY FY) (conj FX FX) SY (EV _ _) (EV _ _) NV) as G.
  specialize (G _ (chunk_windowed rows _ _ _ _ _)). destruct G as (ycs & xcs & data & mask & E & _ & _ & SD & _ & V).
  exists data. split; [now rewrite E|]. split; [exact SD|]. intros y x yc xc Ry Rx CO. destruct (V 0 y x ltac:(lia) Ry Rx) as [(ws & ns & VW & NW) V']. now apply (V' yc xc ws ns).
Qed.
Hypothesis ADDN : forall a b, addn (value a) (value b) = value (add a b).
Lemma total_app a b y x : total zero add mul lib r w (a ++ b) y x = add (total zero add mul lib r w a y x) (total zero add mul lib r w b y x).
Proof. unfold total. rewrite filter_app. now apply (sum_app zero add HX). Qed.
Lemma add3_totals a b da db : has_totals a da -> has_totals b db -> has_totals (a ++ b) (add3 addn da db).
Proof.
  intros [SA VA] [SB VB]. split; [apply map3_shaped; apply (zip3_shaped 1 ny nx da db (of_Z 0) (of_Z 0)); try assumption; lia|]. intros y x yc xc Ry Rx CO. rewrite total_app, <- ADDN.
  pose proof (at3_zip 1 ny nx da db 0 y x _ _ SA SB ltac:(lia) Hy (VA y x yc xc Ry Rx CO) (VB y x yc xc Ry Rx CO)) as Z0. exact (at3_map3 (fun '(x, y) => addn x y) _ 0 y x _ Z0).
Qed.
Lemma stack_totals parts ds : Forall2 has_totals parts ds -> parts <> [] -> exists data, sum_stack addn ds = Ok data /\ has_totals (concat parts) data.
Proof.
  intros F N. destruct F as [|p d parts ds P F]; [congruence|]. clear N. cbn [sum_stack concat]. eexists. split; [reflexivity|]. revert p d P. induction F as [|q e parts ds Q F IH]; intros p d P.
  - cbn [fold_left concat]. now rewrite app_nil_r.
  - cbn [fold_left concat]. rewrite app_assoc. apply IH. now apply add3_totals.
Qed.
Lemma partials_ok (parts : list (list (Z * row))) : parts <> [] -> exists data,
  (let* partials := traverse (fun part =>
     let* p := geo_map_overlap cast (length_chunk zero add mul value weight lib r columns field (map snd part)) [like] (PDict [(PInt 1, PInt yd); (PInt 2, PInt xd)]) (BNum (of_Z 0)) (Some F32) None F32 NvNone false in
     Ok (b_data p)) parts in sum_stack addn partials) = Ok data /\ has_totals (map snd (concat parts)) data.
Proof.
  intros N. assert (T : exists ds, traverse (fun part =>
     let* p := geo_map_overlap cast (length_chunk zero add mul value weight lib r columns field (map snd part)) [like] (PDict [(PInt 1, PInt yd); (PInt 2, PInt xd)]) (BNum (of_Z 0)) (Some F32) None F32 NvNone false in
     Ok (b_data p)) parts = Ok ds /\ Forall2 has_totals (map (map snd) parts) ds).
  { clear N. induction parts as [|p parts IH]; [exists []; split; [reflexivity|constructor]|]. destruct IH as (ds & E & F). destruct (part_ok (map snd p)) as (d & Ed & Hd). exists (d :: ds). cbn [traverse]. rewrite Ed, E. split; [reflexivity|]. now constructor. }
  destruct T as (ds & -> & F). cbn [rbind]. rewrite concat_map. apply stack_totals; [exact F|]. destruct parts; [congruence|discriminate].
Qed.
End Length.
