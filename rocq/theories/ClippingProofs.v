(* Proofs about clipping. *)
From Coq Require Import QArith.
From Verif Require Import Base BaseFacts Scalars Dtypes ChunksProofs ChunksSpec Arr2 Arr2Facts FocalSpec FocalValues FocalResults CostPublicProofs Raster RasterSpec RasterProofs RasterValues Rasterize RasterizeSpec RasterizeRaster RasterizeRasterSpec RasterizeRasterProofs Clipping ClippingSpec.
From Coq Require Import ZifyBool.
Open Scope Z_scope.

Lemma slice_chunks_sum l : forall lo hi, lo <= hi -> Forall (fun c => 0 <= c) l ->
  fold_right Z.add 0 (slice_chunks lo hi l) = Z.max 0 (Z.min hi (fold_right Z.add 0 l) - Z.max lo 0).
Proof.
  induction l as [|c l IH]; intros lo hi H F; [cbn; lia|]. inversion F as [|? ? Hc Fl]; subst. cbn [slice_chunks]. rewrite fold_right_app. cbn [fold_right].
  assert (T : 0 <= fold_right Z.add 0 l). { clear -Fl. induction Fl; cbn; lia. }
  specialize (IH (lo - c) (hi - c) ltac:(lia) Fl). destruct (Z.ltb_spec 0 (Z.min hi c - Z.max lo 0)); cbn [fold_right]; rewrite IH; lia.
Qed.
Lemma slice_chunks_nonneg l : forall lo hi, Forall (fun c => 0 <= c) (slice_chunks lo hi l).
Proof. induction l as [|c l IH]; intros lo hi; [constructor|]. cbn [slice_chunks]. apply Forall_app. split; [|apply IH]. destruct (Z.ltb_spec 0 (Z.min hi c - Z.max lo 0)); repeat constructor. lia. Qed.
Lemma slice_chunks_cuts n l lo hi : cuts n l -> 0 <= lo -> lo < hi -> hi <= n -> cuts (hi - lo) (slice_chunks lo hi l) /\ slice_chunks lo hi l <> [].
Proof.
  intros [F S] H1 H2 H3. assert (E : fold_right Z.add 0 (slice_chunks lo hi l) = hi - lo) by (rewrite slice_chunks_sum by (assumption || lia); lia).
  split; [split; [apply slice_chunks_nonneg|exact E]|]. intros X. rewrite X in E. cbn in E. lia.
Qed.
Lemma slice_chunks_thick l : forall lo hi, Forall (fun c => 2 <= c) (slice_chunks lo hi l) <-> no_single lo hi l.
Proof.
  induction l as [|c l IH]; intros lo hi; cbn [slice_chunks].
  - split; [|constructor]. intros _ before c after E. destruct before; discriminate.
  - rewrite Forall_app, IH. split.
    + intros [F N] before d after E. destruct before as [|e before]; injection E as <- E; cbn [fold_right].
      * destruct (Z.ltb_spec 0 (Z.min hi c - Z.max lo 0)); [|lia]. inversion F; subst. lia.
      * specialize (N before d after E). cbn zeta in N |- *. lia.
    + intros N. split.
      * specialize (N [] c l eq_refl). cbn [fold_right] in N. cbn zeta in N. destruct (Z.ltb_spec 0 (Z.min hi c - Z.max lo 0)); repeat constructor. lia.
      * intros before d after ->. specialize (N (c :: before) d after eq_refl). cbn [fold_right] in N. cbn zeta in N |- *. lia.
Qed.
Lemma crop_tab {A} ny nx (b : box) (F : Z -> A) : is_window ny nx b ->
  crop nx b (tab (ny * nx) F) = tab ((r1 b - r0 b) * (c1 b - c0 b)) (fun i => F ((r0 b + i / (c1 b - c0 b)) * nx + (c0 b + i mod (c1 b - c0 b)))).
Proof.
  intros (H1 & H2 & H3 & H4). unfold crop.
  rewrite <- (concat_tab2 (r1 b - r0 b) (c1 b - c0 b) (fun i j => F ((r0 b + i) * nx + (c0 b + j)))) by lia. f_equal. unfold tab2.
  assert (Z0 : zrange (r0 b) (r1 b) = tab (r1 b - r0 b) (fun i => r0 b + i)).
  { apply list_tab; [lia|rewrite ProximityChunk.len_zrange; lia|]. intros i Hi. rewrite ProximityChunk.get_zrange by lia. f_equal. }
  rewrite Z0. unfold tab at 2 3. rewrite map_map. apply map_ext_in. intros i Hi. apply zrange_in in Hi.
  assert (B : 0 <= (r0 b + i) * nx /\ (r0 b + i) * nx + nx <= ny * nx) by nia.
  apply list_tab; [lia|rewrite slice_len; rewrite ?len_tab; lia|]. intros j Hj. rewrite get_slice by lia. rewrite get_tab by lia. f_equal. f_equal. lia.
Qed.

Section Whole.
Variable cast : dtype -> num -> num.
Variable fd : num -> dtype.
Variable sb : option Z -> list gfeature -> region.
Variable rw : grid -> list Q -> option box.
Variable tb : table -> list Q.

(* the cells of a part of l *)
Definition part_of (nb ny nx : Z) (l out : located) (b : box) : Prop :=
  located_ok nb (r1 b - r0 b) (c1 b - c0 b) out /\ r_dtype (l_raster out) = r_dtype (l_raster l) /\ r_nv (l_raster out) = r_nv (l_raster l) /\ k_crs (l_grid out) = k_crs (l_grid l)
  /\ k_row (l_grid out) = k_row (l_grid l) + r0 b /\ k_col (l_grid out) = k_col (l_grid l) + c0 b
  /\ forall d i j, 0 <= d < nb -> 0 <= i < r1 b - r0 b -> 0 <= j < c1 b - c0 b ->
     value (l_raster out) d (i * (c1 b - c0 b) + j) = value (l_raster l) d ((r0 b + i) * nx + (c0 b + j))
     /\ null (l_raster out) d (i * (c1 b - c0 b) + j) = null (l_raster l) d ((r0 b + i) * nx + (c0 b + j)).

Lemma width_eq nb ny nx l : located_ok nb ny nx l -> l_width l = nx.
Proof. intros (_ & _ & C & _). unfold l_width. rewrite total_sum. exact (proj2 (cuts_sum _ _ C)). Qed.
Lemma clip_box_ok nb ny nx l bounds b : located_ok nb ny nx l -> len bounds = 4 -> rw (l_grid l) bounds = Some b -> is_window ny nx b ->
  exists out, clip_box rw l bounds = Ok out /\ part_of nb ny nx l out b
  /\ k_ychunks (l_grid out) = slice_chunks (r0 b) (r1 b) (k_ychunks (l_grid l)) /\ k_xchunks (l_grid out) = slice_chunks (c0 b) (c1 b) (k_xchunks (l_grid l)).
Proof.
  intros L LB R W. pose proof (width_eq nb ny nx l L) as LW. destruct L as (WF & Cy & Cx & NE & Px). unfold clip_box. rewrite LB, R. cbn [negb Z.eqb].
  change (negb (4 =? 4)) with false. cbv iota zeta.
  pose proof W as (H1 & H2 & H3 & H4). set (h := r1 b - r0 b) in *. set (w := c1 b - c0 b) in *.
  pose proof (wf_mk nb (ny * nx) (l_raster l) WF) as EM. set (v := value (l_raster l)) in *. set (m := null (l_raster l)) in *. set (d := r_dtype (l_raster l)) in *. set (nv := r_nv (l_raster l)) in *.
  destruct WF as (Hb & Hc & SD & SM & HN).
  assert (ED : r_data (l_raster l) = tab2 nb (ny * nx) v) by (rewrite EM; reflexivity).
  assert (EK : r_mask (l_raster l) = tab2 nb (ny * nx) m) by (rewrite EM; reflexivity).
  set (pos := fun i => (r0 b + i / w) * nx + (c0 b + i mod w)).
  assert (CR : forall {A} (G : Z -> Z -> A), map (crop nx b) (tab2 nb (ny * nx) G) = tab2 nb (h * w) (fun e i => G e (pos i))).
  { intros A G. unfold tab2, tab at 1 3. rewrite map_map. apply map_ext. intros e. apply crop_tab. exact W. }
  assert (IR : forall e i, in_raster nb (h * w) e i -> in_raster nb (ny * nx) e (pos i)).
  { intros e i [He Hi]. split; [exact He|]. unfold pos. assert (0 <= i / w < h) by (split; [apply Z.div_pos; lia|apply Z.div_lt_upper_bound; nia]). assert (0 <= i mod w < w) by (apply Z.mod_pos_bound; lia). nia. }
  set (out := Located (mk nb (h * w) d nv (fun e i => v e (pos i)) (fun e i => m e (pos i)))
     (Grid (slice_chunks (r0 b) (r1 b) (k_ychunks (l_grid l))) (slice_chunks (c0 b) (c1 b) (k_xchunks (l_grid l))) (k_row (l_grid l) + r0 b) (k_col (l_grid l) + c0 b) (k_crs (l_grid l)))).
  exists out. split.
  - apply f_equal. unfold out, mk. f_equal. rewrite LW. f_equal; [now rewrite ED, CR|]. unfold masked. destruct (r_nv (l_raster l)) eqn:EN; [now rewrite EK, CR|].
    rewrite ED, CR. unfold tab2, tab. rewrite map_map. apply map_ext_in. intros e He. apply zrange_in in He. rewrite map_map. apply map_ext_in. intros i Hi. apply zrange_in in Hi.
    symmetry. apply HN; [reflexivity|]. apply IR. split; assumption.
  - split; [|split; reflexivity]. unfold part_of. cbn [out l_raster l_grid k_crs k_row k_col]. destruct (slice_chunks_cuts ny (k_ychunks (l_grid l)) (r0 b) (r1 b) Cy ltac:(lia) ltac:(lia) ltac:(lia)) as [Cy' _].
    destruct (slice_chunks_cuts nx (k_xchunks (l_grid l)) (c0 b) (c1 b) Cx ltac:(lia) ltac:(lia) ltac:(lia)) as [Cx' NE'].
    split; [|split; [reflexivity|split; [reflexivity|split; [reflexivity|split; [reflexivity|split; [reflexivity|]]]]]].
    + split; [|split; [exact Cy'|split; [exact Cx'|split; [exact NE'|lia]]]]. apply mk_wf; [exact Hb|nia|]. intros N e i Hi. apply HN; [exact N|]. now apply IR.
    + intros e i j He Hi Hj. assert (IN : in_raster nb (h * w) e (i * w + j)) by (split; [exact He|nia]). fold h w in IN |- *. rewrite value_mk, null_mk by exact IN. unfold pos.
      destruct (index_local w i j Hj) as [-> ->]. split; reflexivity.
Qed.
Lemma whole_part nb ny nx l : located_ok nb ny nx l -> part_of nb ny nx l l (Box 0 ny 0 nx).
Proof.
  intros L. unfold part_of. cbn [r0 r1 c0 c1]. rewrite !Z.sub_0_r, !Z.add_0_r. split; [exact L|]. do 5 (split; [reflexivity|]). intros d i j _ _ _. now rewrite !Z.add_0_l.
Qed.

Definition keeps (t : table) (crs : Z) (envelope invert : bool) (row col : Z) : bool := envelope || xorb invert (touched t crs row col).
Lemma touched_eq t crs row col : touched t crs row col = match touching_cell (Some crs) (t_parts t) row col with [] => false | _ => true end.
Proof. apply existsb_filter. Qed.

(* after the trimming *)
Lemma clip_rest nb ny nx l0 l b t crs c0' env inv : located_ok nb ny nx l0 -> part_of nb ny nx l0 l b -> thick (l_grid l) -> is_window ny nx b \/ b = Box 0 ny 0 nx -> k_crs (l_grid l0) = Some crs -> t_crs t = Some c0' -> env && inv = false ->
  exists out, (let* fr := rasterize cast fd sb (Table (t_parts t) None (Some crs) (t_columns t)) (l_grid l) NoField (Some Last) true false NvNone false in
     let* null_mask := get (r_mask (fst fr)) 0 in
     let* out := Raster.clip (l_raster l) true env inv (map negb null_mask) in Ok (Located out (l_grid l))) = Ok out
  /\ l_grid out = l_grid l /\ left_of nb nx (c1 b - c0 b) (r1 b - r0 b) l0 out (keeps t crs env inv).
Proof.
  intros L0 (L & ED & EN & EC & ER & EL & V) TH WB KC TC EI. set (h := r1 b - r0 b) in *. set (w := c1 b - c0 b) in *. rewrite KC in EC.
  set (feat := Table (t_parts t) None (Some crs) (t_columns t)). destruct L as (WF & GR).
  assert (CC : cells_crs feat (l_grid l) = Some crs) by (unfold cells_crs; now rewrite EC).
  destruct (mask_ok cast fd sb feat (l_grid l) h w NoField (Some Last) false false GR TH) as (fr & t' & E & WR & _ & _ & VR & _).
  { intros X. discriminate. } { intros regs X. discriminate. } { discriminate. }
  rewrite E. cbn [rbind fst]. rewrite CC in VR. cbn [feat t_parts] in VR.
  destruct WR as (_ & HC & _ & (SM & SF) & _). destruct (get_range (r_mask fr) 0 ltac:(lia)) as (mask & GM). rewrite GM. cbn [rbind].
  assert (LM : len mask = h * w) by (rewrite Forall_forall in SF; apply SF; exact (get_in _ _ _ GM)).
  destruct (clip_spec nb (h * w) (l_raster l) env inv (map negb mask) WF ltac:(now rewrite len_map) EI) as (r' & EO & WO & DO & NO & VO).
  rewrite EO. cbn [rbind]. exists (Located r' (l_grid l)). split; [reflexivity|]. split; [reflexivity|]. unfold left_of. cbn [l_raster l_grid].
  split; [split; assumption|]. split; [congruence|]. split. { rewrite NO. unfold null_value_of. now rewrite EN, ED. } split; [congruence|].
  intros d row col Hd HC'. unfold has_cell in HC'. cbn [l_grid] in HC'. unfold null_at, value_at. cbn [l_raster l_grid].
  set (i := row - k_row (l_grid l)). set (j := col - k_col (l_grid l)). assert (Hi : 0 <= i < h) by lia. assert (Hj : 0 <= j < w) by lia.
  assert (IN : in_raster nb (h * w) d (i * w + j)) by (split; [exact Hd|nia]).
  destruct (V d i j Hd Hi Hj) as [VV VN]. destruct (VR i j Hi Hj) as [_ VM]. rewrite xorb_false_r in VM.
  replace (k_row (l_grid l) + i) with row in VM by lia. replace (k_col (l_grid l) + j) with col in VM by lia. rewrite <- touched_eq in VM.
  assert (GT : get (map negb mask) (i * w + j) = Ok (touched t crs row col)).
  { destruct (get_range mask (i * w + j) ltac:(nia)) as (x & GX). rewrite get_map_eq, GX. cbn [rbind]. do 2 f_equal. unfold null in VM.
    assert (X : val2 false (r_mask fr) 0 (i * w + j) = x). { unfold val2. rewrite GM. cbn [rbind]. now rewrite GX. } rewrite X in VM. rewrite VM. apply negb_involutive. }
  destruct (VO d (i * w + j) IN _ GT) as (VA & VB & _). rewrite VA, VN. replace (row - k_row (l_grid l0)) with (r0 b + i) by lia. replace (col - k_col (l_grid l0)) with (c0 b + j) by lia.
  split; [reflexivity|]. intros HN. rewrite VB by (rewrite VA, VN; exact HN). exact VV.
Qed.

Lemma trimmed nb ny nx l t crs c' bounds b env inv : located_ok nb ny nx l -> k_crs (l_grid l) = Some crs -> t_crs t = Some c' -> env && inv = false ->
  len (used_bounds tb t crs bounds) = 4 -> rw (l_grid l) (used_bounds tb t crs bounds) = Some b -> is_window ny nx b -> thick_window b (l_grid l) ->
  exists out, clip_with cast fd sb rw tb t l inv true bounds env = Ok out
  /\ k_row (l_grid out) = k_row (l_grid l) + r0 b /\ k_col (l_grid out) = k_col (l_grid l) + c0 b
  /\ left_of nb nx (c1 b - c0 b) (r1 b - r0 b) l out (keeps t crs env inv).
Proof.
  intros L KC TC EI LB R W TW. unfold clip_with. rewrite KC. assert (CB : (match bounds with Some x => negb (len x =? 4) | None => false end) = false). { destruct bounds as [x|]; [|reflexivity]. cbn [used_bounds] in LB. now rewrite LB. }
  rewrite CB, EI. unfold to_crs. rewrite TC. cbn [rbind]. destruct (clip_box_ok nb ny nx l _ b L LB R W) as (l' & E & P & EY & EX).
  assert (TH : thick (l_grid l')) by (unfold thick; rewrite EY, EX; split; apply slice_chunks_thick, TW).
  fold (used_bounds tb t crs bounds). rewrite E. cbn [rbind]. destruct (clip_rest nb ny nx l l' b t crs c' env inv L P TH (or_introl W) KC TC EI) as (out & EO & G & X).
  exists out. split; [exact EO|]. rewrite G. destruct P as (_ & _ & _ & _ & ER & EL & _). auto.
Qed.
Lemma untrimmed nb ny nx l t crs c' inv : located_ok nb ny nx l -> k_crs (l_grid l) = Some crs -> t_crs t = Some c' -> thick (l_grid l) ->
  exists out, clip_with cast fd sb rw tb t l inv false None false = Ok out /\ l_grid out = l_grid l
  /\ left_of nb nx nx ny l out (keeps t crs false inv).
Proof.
  intros L KC TC TH. unfold clip_with. rewrite KC. cbn [andb]. unfold to_crs. rewrite TC. cbn [rbind].
  destruct (clip_rest nb ny nx l l (Box 0 ny 0 nx) t crs c' false inv L (whole_part nb ny nx l L) TH (or_intror eq_refl) KC TC eq_refl) as (out & EO & G & X).
  exists out. split; [exact EO|]. split; [exact G|]. cbn [r0 r1 c0 c1] in X. now rewrite !Z.sub_0_r in X.
Qed.
Lemma box_cells nb ny nx l bounds b : located_ok nb ny nx l -> len bounds = 4 -> rw (l_grid l) bounds = Some b -> is_window ny nx b ->
  exists out, clip_box rw l bounds = Ok out /\ located_ok nb (r1 b - r0 b) (c1 b - c0 b) out /\ r_dtype (l_raster out) = r_dtype (l_raster l) /\ r_nv (l_raster out) = r_nv (l_raster l)
  /\ k_crs (l_grid out) = k_crs (l_grid l) /\ k_row (l_grid out) = k_row (l_grid l) + r0 b /\ k_col (l_grid out) = k_col (l_grid l) + c0 b
  /\ forall d row col, 0 <= d < nb -> has_cell (r1 b - r0 b) (c1 b - c0 b) out row col ->
     value_at out (c1 b - c0 b) d row col = value_at l nx d row col /\ null_at out (c1 b - c0 b) d row col = null_at l nx d row col.
Proof.
  intros L LB R W. destruct (clip_box_ok nb ny nx l bounds b L LB R W) as (out & E & (L' & ED & EN & EC & ER & EL & V) & _). exists out. do 7 (split; [assumption|]).
  intros d row col Hd [Hr Hc]. unfold value_at, null_at. destruct (V d (row - k_row (l_grid out)) (col - k_col (l_grid out)) Hd ltac:(lia) ltac:(lia)) as [-> ->].
  rewrite ER, EL. split; f_equal; lia.
Qed.
Lemma refusals t l inv trim bounds env : env && inv = false ->
  (k_crs (l_grid l) = None -> clip_with cast fd sb rw tb t l inv trim bounds env = Err ValueError)
  /\ (forall b, bounds = Some b -> len b <> 4 -> clip_with cast fd sb rw tb t l inv trim bounds env = Err ValueError)
  /\ (t_crs t = None -> clip_with cast fd sb rw tb t l inv trim bounds env = Err ValueError)
  /\ (forall crs c', k_crs (l_grid l) = Some crs -> t_crs t = Some c' -> trim = true -> len (used_bounds tb t crs bounds) = 4 -> rw (l_grid l) (used_bounds tb t crs bounds) = None ->
      clip_with cast fd sb rw tb t l inv trim bounds env = Err KeyError)
  /\ (forall b, len b <> 4 -> clip_box rw l b = Err ValueError) /\ (forall b, len b = 4 -> rw (l_grid l) b = None -> clip_box rw l b = Err KeyError).
Proof.
  intros EI. unfold clip_with. rewrite EI. split; [|split; [|split; [|split; [|split]]]].
  - intros ->. reflexivity.
  - intros b -> LB. destruct (k_crs (l_grid l)); [|reflexivity]. destruct (Z.eqb_spec (len b) 4); [contradiction|reflexivity].
  - intros TC. destruct (k_crs (l_grid l)); [|reflexivity]. destruct (match bounds with Some b => _ | None => _ end); [reflexivity|]. unfold to_crs. now rewrite TC.
  - intros crs c' -> TC -> LB R. assert (CB : (match bounds with Some x => negb (len x =? 4) | None => false end) = false). { destruct bounds as [x|]; [|reflexivity]. cbn [used_bounds] in LB. now rewrite LB. }
    rewrite CB. unfold to_crs. rewrite TC. cbn [rbind]. fold (used_bounds tb t crs bounds). unfold clip_box. now rewrite LB, R.
  - intros b LB. unfold clip_box. destruct (Z.eqb_spec (len b) 4); [contradiction|reflexivity].
  - intros b LB R. unfold clip_box. now rewrite LB, R.
Qed.
(* the result does not depend on the chunks and the partitions *)
Lemma left_same nb nx nx' ny' l1 l2 o1 o2 keep1 keep2 : (forall row col, keep1 row col = keep2 row col) -> l_raster l1 = l_raster l2 -> k_row (l_grid l1) = k_row (l_grid l2) -> k_col (l_grid l1) = k_col (l_grid l2) ->
  k_row (l_grid o1) = k_row (l_grid o2) -> k_col (l_grid o1) = k_col (l_grid o2) -> 0 < nx' ->
  left_of nb nx nx' ny' l1 o1 keep1 -> left_of nb nx nx' ny' l2 o2 keep2 -> same_cells nb (ny' * nx') o1 o2.
Proof.
  intros HK ER RR RC OR OC Hx (_ & D1 & N1 & _ & V1) (_ & D2 & N2 & _ & V2). split; [exact OR|]. split; [exact OC|]. split; [congruence|]. split; [congruence|].
  intros d i Hd Hi. set (row := i / nx' + k_row (l_grid o1)). set (col := i mod nx' + k_col (l_grid o1)).
  assert (B : 0 <= i / nx' < ny') by (split; [apply Z.div_pos; lia|apply Z.div_lt_upper_bound; lia]). assert (B' : 0 <= i mod nx' < nx') by (apply Z.mod_pos_bound; lia).
  destruct (V1 d row col Hd) as [A1 A2]; [unfold has_cell, row, col; lia|]. destruct (V2 d row col Hd) as [A3 A4]; [unfold has_cell, row, col; lia|].
  assert (P : (row - k_row (l_grid o1)) * nx' + (col - k_col (l_grid o1)) = i). { unfold row, col. rewrite (Z.div_mod i nx') at 3 by lia. lia. }
  assert (P2 : (row - k_row (l_grid o2)) * nx' + (col - k_col (l_grid o2)) = i) by (rewrite <- OR, <- OC; exact P).
  unfold null_at, value_at in *. rewrite P in A1, A2. rewrite P2 in A3, A4. rewrite ER, RR, RC, HK in A1. rewrite ER, RR, RC in A2.
  split; [congruence|]. intros HN. rewrite A2, A4 by congruence. reflexivity.
Qed.
Lemma same_results nb ny nx l1 l2 t1 t2 crs c1' c2' bounds b env inv : located_ok nb ny nx l1 -> located_ok nb ny nx l2 ->
  l_raster l1 = l_raster l2 -> k_row (l_grid l1) = k_row (l_grid l2) -> k_col (l_grid l1) = k_col (l_grid l2) -> k_crs (l_grid l1) = Some crs -> k_crs (l_grid l2) = Some crs ->
  t_crs t1 = Some c1' -> t_crs t2 = Some c2' -> concat (t_parts t1) = concat (t_parts t2) -> env && inv = false ->
  len bounds = 4 -> rw (l_grid l1) bounds = Some b -> rw (l_grid l2) bounds = Some b -> is_window ny nx b -> thick_window b (l_grid l1) -> thick_window b (l_grid l2) ->
  exists o1 o2, clip_with cast fd sb rw tb t1 l1 inv true (Some bounds) env = Ok o1 /\ clip_with cast fd sb rw tb t2 l2 inv true (Some bounds) env = Ok o2
  /\ same_cells nb ((r1 b - r0 b) * (c1 b - c0 b)) o1 o2.
Proof.
  intros L1 L2 ER RR RC K1 K2 T1 T2 EP EI LB R1 R2 W TW1 TW2. destruct (trimmed nb ny nx l1 t1 crs c1' (Some bounds) b env inv L1 K1 T1 EI LB R1 W TW1) as (o1 & E1 & RO1 & CO1 & X1).
  destruct (trimmed nb ny nx l2 t2 crs c2' (Some bounds) b env inv L2 K2 T2 EI LB R2 W TW2) as (o2 & E2 & RO2 & CO2 & X2). exists o1, o2. split; [exact E1|]. split; [exact E2|].
  destruct W as (_ & _ & W & _).
  apply (left_same nb nx _ _ l1 l2 o1 o2 (keeps t1 crs env inv) (keeps t2 crs env inv)); try assumption; try congruence; [|lia].
  intros row col. unfold keeps, touched. now rewrite EP.
Qed.
Lemma complement nb ny nx l t crs c' bounds b : located_ok nb ny nx l -> k_crs (l_grid l) = Some crs -> t_crs t = Some c' ->
  len (used_bounds tb t crs bounds) = 4 -> rw (l_grid l) (used_bounds tb t crs bounds) = Some b -> is_window ny nx b -> thick_window b (l_grid l) ->
  exists o1 o2 o3, clip cast fd sb rw tb t l bounds = Ok o1 /\ erase cast fd sb rw tb t l bounds = Ok o2 /\ clip_box rw l (used_bounds tb t crs bounds) = Ok o3
  /\ forall d i, 0 <= d < nb -> 0 <= i < (r1 b - r0 b) * (c1 b - c0 b) ->
     null (l_raster o3) d i = null (l_raster o1) d i && null (l_raster o2) d i
     /\ null (l_raster o1) d i || null (l_raster o2) d i = true
     /\ (null (l_raster o1) d i = false -> value (l_raster o1) d i = value (l_raster o3) d i)
     /\ (null (l_raster o2) d i = false -> value (l_raster o2) d i = value (l_raster o3) d i).
Proof.
  intros L K T LB R W TW. destruct (trimmed nb ny nx l t crs c' bounds b false false L K T eq_refl LB R W TW) as (o1 & E1 & RO1 & CO1 & _ & _ & _ & _ & X1).
  destruct (trimmed nb ny nx l t crs c' bounds b false true L K T eq_refl LB R W TW) as (o2 & E2 & RO2 & CO2 & _ & _ & _ & _ & X2).
  destruct (box_cells nb ny nx l _ b L LB R W) as (o3 & E3 & _ & _ & _ & _ & RO3 & CO3 & X3). exists o1, o2, o3. do 3 (split; [assumption|]). intros d i Hd Hi.
  destruct W as (W1 & _ & W2 & _). set (w := c1 b - c0 b) in *. set (h := r1 b - r0 b) in *. set (row := i / w + k_row (l_grid o1)). set (col := i mod w + k_col (l_grid o1)).
  assert (B : 0 <= i / w < h) by (split; [apply Z.div_pos; lia|apply Z.div_lt_upper_bound; nia]). assert (B' : 0 <= i mod w < w) by (apply Z.mod_pos_bound; lia).
  destruct (X1 d row col Hd) as [A1 A2]; [unfold has_cell, row, col; lia|]. destruct (X2 d row col Hd) as [A3 A4]; [unfold has_cell, row, col; lia|]. destruct (X3 d row col Hd) as [A5 A6]; [unfold has_cell, row, col; lia|].
  assert (P : (row - k_row (l_grid o1)) * w + (col - k_col (l_grid o1)) = i). { unfold row, col. rewrite (Z.div_mod i w) at 3 by lia. lia. }
  assert (P2 : (row - k_row (l_grid o2)) * w + (col - k_col (l_grid o2)) = i) by (rewrite RO2, CO2, <- RO1, <- CO1; exact P).
  assert (P3 : (row - k_row (l_grid o3)) * w + (col - k_col (l_grid o3)) = i) by (rewrite RO3, CO3, <- RO1, <- CO1; exact P).
  unfold null_at, value_at in A1, A2, A3, A4, A5, A6. rewrite P in A1, A2. rewrite P2 in A3, A4. rewrite P3 in A5, A6. rewrite A1, A3, A6. rewrite A5. unfold keeps in *. cbn [orb] in *.
  rewrite A1 in A2. rewrite A3 in A4. destruct (null (l_raster l) d _), (touched t crs row col); cbn in *; repeat split; auto; discriminate.
Qed.
Lemma left_ext nb nx nx' ny' l out k1 k2 : (forall row col, k1 row col = k2 row col) -> left_of nb nx nx' ny' l out k1 -> left_of nb nx nx' ny' l out k2.
Proof. intros H (A & B & C & D & V). do 4 (split; [assumption|]). intros d row col Hd Hc. rewrite <- H. now apply V. Qed.
Lemma clip_ok nb ny nx l t crs c' bounds b : located_ok nb ny nx l -> k_crs (l_grid l) = Some crs -> t_crs t = Some c' ->
  len (used_bounds tb t crs bounds) = 4 -> rw (l_grid l) (used_bounds tb t crs bounds) = Some b -> is_window ny nx b -> thick_window b (l_grid l) ->
  exists out, clip cast fd sb rw tb t l bounds = Ok out
  /\ k_row (l_grid out) = k_row (l_grid l) + r0 b /\ k_col (l_grid out) = k_col (l_grid l) + c0 b
  /\ left_of nb nx (c1 b - c0 b) (r1 b - r0 b) l out (touched t crs).
Proof.
  intros L K T LB R W TW. destruct (trimmed nb ny nx l t crs c' bounds b false false L K T eq_refl LB R W TW) as (o & E & A & B & X). exists o. do 3 (split; [assumption|]).
  revert X. apply left_ext. intros row col. unfold keeps. cbn [orb]. apply xorb_false_l.
Qed.
Lemma erase_ok nb ny nx l t crs c' bounds b : located_ok nb ny nx l -> k_crs (l_grid l) = Some crs -> t_crs t = Some c' ->
  len (used_bounds tb t crs bounds) = 4 -> rw (l_grid l) (used_bounds tb t crs bounds) = Some b -> is_window ny nx b -> thick_window b (l_grid l) ->
  exists out, erase cast fd sb rw tb t l bounds = Ok out
  /\ k_row (l_grid out) = k_row (l_grid l) + r0 b /\ k_col (l_grid out) = k_col (l_grid l) + c0 b
  /\ left_of nb nx (c1 b - c0 b) (r1 b - r0 b) l out (fun row col => negb (touched t crs row col)).
Proof.
  intros L K T LB R W TW. destruct (trimmed nb ny nx l t crs c' bounds b false true L K T eq_refl LB R W TW) as (o & E & A & B & X). exists o. do 3 (split; [assumption|]).
  revert X. apply left_ext. reflexivity.
Qed.
Lemma envelope_ok nb ny nx l t crs c' b : located_ok nb ny nx l -> k_crs (l_grid l) = Some crs -> t_crs t = Some c' ->
  len (used_bounds tb t crs None) = 4 -> rw (l_grid l) (used_bounds tb t crs None) = Some b -> is_window ny nx b -> thick_window b (l_grid l) ->
  exists out, envelope cast fd sb rw tb t l = Ok out
  /\ k_row (l_grid out) = k_row (l_grid l) + r0 b /\ k_col (l_grid out) = k_col (l_grid l) + c0 b
  /\ left_of nb nx (c1 b - c0 b) (r1 b - r0 b) l out (fun _ _ => true).
Proof. intros L K T LB R W TW. exact (trimmed nb ny nx l t crs c' None b true false L K T eq_refl LB R W TW). Qed.
Lemma mask_all nb ny nx l t crs c' invert : located_ok nb ny nx l -> k_crs (l_grid l) = Some crs -> t_crs t = Some c' -> thick (l_grid l) ->
  exists out, mask cast fd sb rw tb t l invert = Ok out /\ l_grid out = l_grid l
  /\ left_of nb nx nx ny l out (fun row col => xorb invert (touched t crs row col)).
Proof. intros L K T TH. exact (untrimmed nb ny nx l t crs c' invert L K T TH). Qed.
(* a single row or column of a chunk *)
Lemma thin_window t l inv bounds b env crs : k_crs (l_grid l) = Some crs -> rw (l_grid l) (used_bounds tb t crs bounds) = Some b -> ~ thick_window b (l_grid l) ->
  forall out, clip_with cast fd sb rw tb t l inv true bounds env <> Ok out.
Proof.
  intros K R NT out H. unfold clip_with in H. rewrite K in H. match type of H with (if ?x then _ else _) = _ => destruct x; [discriminate|] end.
  destruct (env && inv); [discriminate|]. unfold to_crs in H. destruct (t_crs t); [|discriminate]. cbn [rbind] in H. fold (used_bounds tb t crs bounds) in H.
  unfold clip_box in H. rewrite R in H. destruct (negb _); [discriminate|]. cbn [rbind l_grid] in H.
  match type of H with (let* fr := ?x in _) = _ => destruct x eqn:E; [|discriminate] end. apply thin_refused in E; [exact E|].
  intros [T1 T2]. cbn [k_ychunks k_xchunks] in T1, T2. apply NT. split; now apply slice_chunks_thick.
Qed.
Lemma thin_mask t l inv : ~ thick (l_grid l) -> forall out, mask cast fd sb rw tb t l inv <> Ok out.
Proof.
  intros NT out H. unfold mask, clip_with in H. destruct (k_crs (l_grid l)); [|discriminate]. cbn [andb] in H. unfold to_crs in H. destruct (t_crs t); [|discriminate]. cbn [rbind] in H.
  match type of H with (let* fr := ?x in _) = _ => destruct x eqn:E; [|discriminate] end. now apply thin_refused in E.
Qed.
End Whole.
