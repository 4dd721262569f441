From Coq Require Import QArith Lia.
From Coq Require Import ZifyBool.
From Verif Require Import Base BaseFacts Scalars Arr2 Arr2Facts FocalSpec FocalValues Raster RasterSpec Mosaic MosaicSpec MosaicWhole MosaicWholeSpec MosaicWholeProofs Grids Chunks ChunksSpec ChunksProofs Pieces PiecesSpec.
Open Scope Z_scope.

Lemma find_some l x i : find_coord l x = Some i -> exists y, get l i = Ok y /\ (y == x)%Q.
Proof.
  revert i. induction l as [|y l IH]; intros i H; [discriminate|]. cbn [find_coord] in H. destruct (Qeq_bool y x) eqn:E.
  - injection H as <-. exists y. split; [apply get_cons0|now apply Qeq_bool_iff].
  - destruct (find_coord l x) as [j|]; [|discriminate]. cbn [option_map] in H. assert (i = 1 + j) by congruence. subst i. destruct (IH j eq_refl) as (z & G & EQ). exists z. split; [|exact EQ].
    pose proof (get_ok_range _ _ _ G). rewrite get_cons by lia. now replace (1 + j - 1) with j by lia.
Qed.
Lemma find_none l x i y : find_coord l x = None -> get l i = Ok y -> ~ (y == x)%Q.
Proof.
  revert i. induction l as [|z l IH]; intros i H G; [destruct (get_nil _ _ G)|]. cbn [find_coord] in H. destruct (Qeq_bool z x) eqn:E; [discriminate|].
  destruct (find_coord l x) eqn:F; [discriminate|]. pose proof (get_ok_range _ _ _ G) as R. destruct (Z.eq_dec i 0) as [-> | N].
  - rewrite get_cons0 in G. injection G as ->. intros Q. apply Qeq_bool_iff in Q. congruence.
  - rewrite get_cons in G by lia. exact (IH _ eq_refl G).
Qed.
Lemma find_part l p a b k x : distinct l -> 0 <= a <= b -> b <= len l -> len p = b - a -> (forall i, 0 <= i < b - a -> get p i = get l (a + i)) -> get l k = Ok x ->
  find_coord p x = if (a <=? k) && (k <? b) then Some (k - a) else None.
Proof.
  intros D R1 R2 L P G. destruct (find_coord p x) as [i|] eqn:E.
  - apply find_some in E. destruct E as (y & Gy & EQ). pose proof (get_ok_range _ _ _ Gy) as R. rewrite P in Gy by lia. pose proof (D _ _ _ _ Gy G EQ) as <-.
    replace ((a <=? a + i) && (a + i <? b)) with true by lia. f_equal. lia.
  - destruct ((a <=? k) && (k <? b)) eqn:K; [|reflexivity]. exfalso. assert (Gk : get p (k - a) = Ok x) by (rewrite P by lia; now replace (a + (k - a)) with k by lia).
    exact (find_none _ _ _ _ E Gk (Qeq_refl x)).
Qed.

Lemma shape_get {T} (a : arr3 T) m h w b i j : shape3 m h w a -> 0 <= b < m -> 0 <= i < h -> 0 <= j < w -> exists v, get3 a b i j = Ok v.
Proof.
  intros [L F] Rb Ri Rj. unfold get3. destruct (get_range a b ltac:(lia)) as (p & Gp). rewrite Gp. cbn [rbind]. rewrite Forall_forall in F. destruct (F p (get_in _ _ _ Gp)) as [Lp Fp].
  destruct (get_range p i ltac:(lia)) as (row & Gr). rewrite Gr. cbn [rbind]. rewrite Forall_forall in Fp. pose proof (Fp row (get_in _ _ _ Gr)). destruct (get_range row j ltac:(lia)) as (v & Gv). eauto.
Qed.
Lemma get_shape {T} (a : arr3 T) m h w b i j v : shape3 m h w a -> get3 a b i j = Ok v -> 0 <= b < m /\ 0 <= i < h /\ 0 <= j < w.
Proof.
  intros [L F] G. unfold get3 in G. destruct (get a b) as [p|] eqn:Gp; [|discriminate]. cbn [rbind] in G. destruct (get p i) as [row|] eqn:Gr; [|discriminate]. cbn [rbind] in G.
  rewrite Forall_forall in F. destruct (F p (get_in _ _ _ Gp)) as [Lp Fp]. rewrite Forall_forall in Fp. pose proof (Fp row (get_in _ _ _ Gr)).
  pose proof (get_ok_range _ _ _ Gp). pose proof (get_ok_range _ _ _ Gr). pose proof (get_ok_range _ _ _ G). lia.
Qed.

Section Together.
Variable cast : dtype -> num -> num.
Variable reconcile_other : num -> dtype -> num * bool.
Variable add : dtype -> num -> num -> num.
Variable fill : dtype -> num -> res num.
Variable result_type : list dtype -> dtype.
Variable chunk : list num -> option (chunked num).
Variables (d : dtype) (nv : num) (b0 nb ny nx n : Z) (r : Chunks.raster num Q).
Hypothesis W : well_shaped n ny nx r.
Hypothesis RB : 0 <= b0 /\ 0 < nb /\ b0 + nb <= n.
Hypothesis DY : distinct (r_y r).
Hypothesis DX : distinct (r_x r).
Hypothesis CL : clean cast d nv r.
Hypothesis NV : null_value_for cast reconcile_other fill d nv.
Hypothesis CN : cast d nv = nv.
Hypothesis RT : forall k, 0 < k -> result_type (full k d) = d.

Let ys := r_y r.
Let xs := r_x r.
Let nc := ny * nx.
Lemma LY : len ys = ny. Proof. apply W. Qed.
Lemma LX : len xs = nx. Proof. apply W. Qed.
Lemma ny0 : 0 <= ny. Proof. rewrite <- LY. apply len_nonneg. Qed.
Lemma nx0 : 0 <= nx. Proof. rewrite <- LX. apply len_nonneg. Qed.

Lemma cell_number i j : 0 <= i < ny -> 0 <= j < nx -> (i * nx + j) / nx = i /\ (i * nx + j) mod nx = j /\ 0 <= i * nx + j < nc.
Proof.
  intros Ri Rj. split; [|split].
  - symmetry. apply (Z.div_unique_pos _ _ _ j); lia.
  - symmetry. apply (Z.mod_unique_pos _ _ i); lia.
  - unfold nc. nia.
Qed.
Lemma number_cell c : 0 <= c < nc -> 0 <= c / nx < ny /\ 0 <= c mod nx < nx /\ c = c / nx * nx + c mod nx.
Proof.
  intros R. unfold nc in R. assert (0 < nx) by (pose proof nx0; destruct (Z.eq_dec nx 0) as [Z0|Z0]; [rewrite Z0 in R; lia|lia]). pose proof (Z.mod_pos_bound c nx ltac:(lia)). pose proof (Z.div_mod c nx ltac:(lia)).
  split; [split; [apply Z.div_pos; lia|apply Z.div_lt_upper_bound; [lia|rewrite Z.mul_comm; lia]]|]. rewrite (Z.mul_comm (c / nx)). lia.
Qed.

Section Piece.
Variables (k : box) (p : Chunks.raster num Q).
Hypothesis BI : box_in ny nx k.
Hypothesis P : piece_of b0 nb r k p.

Lemma entry_eq {T} (a ar : arr3 T) other b i j : shape3 n ny nx ar ->
  (forall b i j, 0 <= b < nb -> 0 <= i < y1 k - y0 k -> 0 <= j < x1 k - x0 k -> get3 a b i j = get3 ar (b0 + b) (y0 k + i) (x0 k + j)) ->
  0 <= b < nb -> 0 <= i < ny -> 0 <= j < nx ->
  exists v, get3 ar (b0 + b) i j = Ok v /\ entry p ys xs a other b (i * nx + j) = if (y0 k <=? i) && (i <? y1 k) && ((x0 k <=? j) && (j <? x1 k)) then v else other.
Proof.
  intros SH A Rb Ri Rj. destruct (shape_get ar n ny nx (b0 + b) i j SH ltac:(lia) Ri Rj) as (v & Gv). exists v. split; [exact Gv|].
  destruct (cell_number i j Ri Rj) as (E1 & E2 & _). unfold entry. rewrite LX, E1, E2.
  destruct (get_range ys i ltac:(rewrite LY; lia)) as (y & Gy). destruct (get_range xs j ltac:(rewrite LX; lia)) as (x & Gx). rewrite Gy, Gx.
  destruct P as ((_ & _ & _ & Ly & Lx) & _ & PY & PX). destruct BI as (B1 & B2 & B3 & B4).
  rewrite (find_part ys (r_y p) (y0 k) (y1 k) i y DY) by (auto; rewrite LY; lia). rewrite (find_part xs (r_x p) (x0 k) (x1 k) j x DX) by (auto; rewrite LX; lia).
  destruct ((y0 k <=? i) && (i <? y1 k)) eqn:E3; [|reflexivity]. destruct ((x0 k <=? j) && (j <? x1 k)) eqn:E4; [|reflexivity]. cbn [andb].
  rewrite A by lia. replace (y0 k + (i - y0 k)) with i by lia. replace (x0 k + (j - x0 k)) with j by lia. now rewrite Gv.
Qed.
Definition inb (i j : Z) : bool := (y0 k <=? i) && (i <? y1 k) && ((x0 k <=? j) && (j <? x1 k)).
Lemma inb_holds i j : inb i j = true <-> holds k i j.
Proof. unfold inb, holds. lia. Qed.
Lemma placed_eq : place d nv ys xs p = Raster.Raster d (Some nv) (tab2 nb nc (entry p ys xs (Chunks.r_data p) nv)) (tab2 nb nc (entry p ys xs (Chunks.r_mask p) true)).
Proof. destruct P as (([LD _] & [LM _] & _) & _). unfold place. rewrite LD, LM, LY, LX. reflexivity. Qed.
Lemma placed_cell b i j : 0 <= b < nb -> 0 <= i < ny -> 0 <= j < nx ->
  exists v m, get3 (Chunks.r_data r) (b0 + b) i j = Ok v /\ get3 (Chunks.r_mask r) (b0 + b) i j = Ok m
  /\ value (place d nv ys xs p) b (i * nx + j) = (if inb i j then v else nv) /\ null (place d nv ys xs p) b (i * nx + j) = if inb i j then m else true.
Proof.
  intros Rb Ri Rj. destruct (cell_number i j Ri Rj) as (_ & _ & R). destruct P as (_ & PC & _).
  destruct (entry_eq (Chunks.r_data p) (Chunks.r_data r) nv b i j) as (v & Gv & Ev); try assumption; [apply W|intros; now apply PC|].
  destruct (entry_eq (Chunks.r_mask p) (Chunks.r_mask r) true b i j) as (m & Gm & Em); try assumption; [apply W|intros; now apply PC|].
  exists v, m. split; [exact Gv|]. split; [exact Gm|]. rewrite placed_eq. unfold value, null. cbn [Raster.r_data Raster.r_mask]. rewrite !val2_tab by lia. auto.
Qed.
Lemma nb_nc : 0 <= nc. Proof. unfold nc. pose proof ny0. pose proof nx0. nia. Qed.
Lemma tab_shaped {T} (f : Z -> Z -> T) : shaped2 nb nc (tab2 nb nc f).
Proof.
  pose proof nb_nc. split; [unfold tab2; apply len_tab; lia|]. apply Forall_forall. intros row H1. unfold tab2, tab in H1. apply in_map_iff in H1. destruct H1 as (b & <- & _). apply len_tab. lia.
Qed.
Lemma placed_source : source cast d nc (place d nv ys xs p).
Proof.
  exists nb. split.
  - rewrite placed_eq. split; [lia|]. split; [apply nb_nc|]. split; [apply tab_shaped|]. split; [apply tab_shaped|]. discriminate.
  - intros b c [Rb Rc]. destruct (number_cell c Rc) as (Ri & Rj & ->). destruct (placed_cell b _ _ Rb Ri Rj) as (v & m & Gv & Gm & -> & ->).
    destruct (CL _ _ _ _ _ Gv Gm) as (C1 & C2 & C3). destruct NV as (NT & _). rewrite placed_eq. cbn [Raster.r_nv Raster.r_dtype]. destruct (inb _ _).
    + split; [intros ->; congruence|]. split; [exact C1|]. now rewrite C1.
    + split; [reflexivity|]. split; [exact CN|]. now rewrite CN.
Qed.
Lemma placed_contribution b i j v m : 0 <= b < nb -> 0 <= i < ny -> 0 <= j < nx -> get3 (Chunks.r_data r) (b0 + b) i j = Ok v -> get3 (Chunks.r_mask r) (b0 + b) i j = Ok m ->
  contribution cast d nv b (i * nx + j) (place d nv ys xs p) = if inb i j && negb m then [v] else [].
Proof.
  intros Rb Ri Rj Gv Gm. destruct (placed_cell b i j Rb Ri Rj) as (v' & m' & Gv' & Gm' & EV & EN). rewrite Gv in Gv'. rewrite Gm in Gm'. injection Gv' as <-. injection Gm' as <-.
  destruct (CL _ _ _ _ _ Gv Gm) as (C1 & _ & C3). unfold contribution. rewrite EV, EN.
  replace (len (Raster.r_data (place d nv ys xs p)) <=? b) with false by (rewrite placed_eq; cbn [Raster.r_data]; unfold tab2; rewrite len_tab; lia).
  destruct (inb i j); [|reflexivity]. destruct m; [reflexivity|]. cbn [andb negb]. rewrite C1, C3. reflexivity.
Qed.
End Piece.

Variables (ks : list box) (ps : list (Chunks.raster num Q)).
Hypothesis KS : Forall (box_in ny nx) ks.
Hypothesis PS : Forall2 (piece_of b0 nb r) ks ps.
Hypothesis NE : ks <> [].
Let rs := map (place d nv ys xs) ps.

Lemma sources : Forall (source cast d nc) (map (fun x => x) rs).
Proof.
  rewrite map_id. unfold rs. clear NE. induction PS as [|k p ks' ps' H F IH]; [constructor|]. inversion KS; subst. cbn [map]. constructor; [eapply placed_source; eassumption|auto].
Qed.
Lemma rs_len : len rs = len ks.
Proof. unfold rs, len. rewrite map_length. f_equal. clear -PS. induction PS; cbn [List.length]; lia. Qed.
Lemma rs_nonempty : rs <> [].
Proof. intros E. pose proof rs_len as L. rewrite E in L. destruct ks; [now destruct NE|]. rewrite len_cons in L. unfold len at 1 in L. cbn [List.length] in L. pose proof (len_nonneg l). lia. Qed.
Lemma rs_all s : In s rs -> r_dtype s = d /\ r_nv s = Some nv /\ len (Raster.r_data s) = nb.
Proof.
  unfold rs. intros H. apply in_map_iff in H. destruct H as (p & <- & H). split; [reflexivity|]. split; [reflexivity|].
  assert (exists k, piece_of b0 nb r k p) as (k & Pk). { clear -PS H. induction PS as [|k q ks' ps' P F IH]; [destruct H|]. destruct H as [<-|H]; [eauto|auto]. }
  rewrite (placed_eq k p Pk). cbn [Raster.r_data]. unfold tab2. apply len_tab. lia.
Qed.
Lemma dtypes : map r_dtype rs = full (len rs) d.
Proof.
  assert (G : forall l, (forall s, In s l -> r_dtype s = d) -> map r_dtype l = full (len l) d).
  { induction l as [|s l IH]; intros H; [reflexivity|]. cbn [map]. rewrite H by now left. rewrite IH by (intros; apply H; now right). unfold full. rewrite len_cons. pose proof (len_nonneg l).
    replace (Z.to_nat (1 + len l)) with (S (Z.to_nat (len l))) by lia. reflexivity. }
  apply G. intros s H. apply rs_all in H. tauto.
Qed.
Lemma the_dtype : result_dtype result_type rs None d.
Proof. right. split; [reflexivity|]. rewrite dtypes, RT; [reflexivity|]. pose proof rs_nonempty. destruct rs; [easy|]. rewrite len_cons. pose proof (len_nonneg l). lia. Qed.
Lemma the_null : result_null rs d None nv.
Proof.
  right. split; [reflexivity|]. left. pose proof rs_nonempty as N. pose proof rs_all as A. destruct rs as [|s l]; [easy|]. exists [], s, l. split; [reflexivity|]. split; [apply A; now left|constructor].
Qed.
Lemma same_refl v : same_value v v = true.
Proof. destruct v; try reflexivity. now apply num_eqb_refl. Qed.
Lemma not_close : no_close_nulls nv (map (fun x => x) rs).
Proof. rewrite map_id. intros s old H E _. apply rs_all in H. destruct H as (_ & H & _). rewrite H in E. injection E as <-. apply same_refl. Qed.
Lemma bands nb' : is_nbands (map (fun x => x) rs) nb' -> nb' = nb.
Proof. rewrite map_id. intros (_ & s & H & <-). apply rs_all in H. tauto. Qed.

(* what the pieces contribute *)
Lemma contributed b i j v m : 0 <= b < nb -> 0 <= i < ny -> 0 <= j < nx -> get3 (Chunks.r_data r) (b0 + b) i j = Ok v -> get3 (Chunks.r_mask r) (b0 + b) i j = Ok m ->
  contributions cast d nv (map (fun x => x) rs) b (i * nx + j) = flat_map (fun k => if inb k i j && negb m then [v] else []) ks.
Proof.
  intros Rb Ri Rj Gv Gm. rewrite map_id. unfold contributions, rs. clear NE. induction PS as [|k p ks' ps' H F IH]; [reflexivity|]. inversion KS; subst. cbn [map flat_map]. f_equal; [eapply placed_contribution; eassumption|auto].
Qed.
Lemma flat_copies (f : box -> bool) (v : num) l u : In u (flat_map (fun k => if f k then [v] else []) l) -> u = v.
Proof. intros H. apply in_flat_map in H. destruct H as (k & _ & H). destruct (f k); [|destruct H]. destruct H as [<-|[]]. reflexivity. Qed.

Lemma picked_copy m l v u : (m = First \/ m = Last \/ m = Min \/ m = Max) -> (forall w, In w l -> w = v) -> l <> [] -> picked m l u -> u = v.
Proof.
  intros HM A N K. assert (E : forall le, is_extreme le l u -> u = v).
  { intros le H. unfold is_extreme in H. destruct (filter _ l) as [|w t] eqn:F.
    - destruct l as [|w l]; [easy|]. rewrite <- (A w) by now left. subst u. destruct (is_nan w) eqn:X; [destruct w; try discriminate X; reflexivity|].
      assert (I : In w (filter (fun v => negb (is_nan v)) (w :: l))) by (apply filter_In; rewrite X; split; [now left|reflexivity]). rewrite F in I. destruct I.
    - destruct H as [H _]. rewrite <- F in H. apply filter_In in H. apply A. tauto. }
  destruct HM as [-> | [-> | [-> | ->]]]; cbn [picked] in K; try (now apply E in K).
  - destruct l; [discriminate|]. injection K as <-. apply A. now left.
  - destruct (rev l) eqn:F; [discriminate|]. injection K as <-. apply A. apply in_rev. rewrite F. now left.
Qed.

Lemma cell_of {T} (a : arr3 T) b i j v : shape3 n ny nx a -> get3 a b i j = Ok v -> 0 <= i < ny /\ 0 <= j < nx.
Proof. intros S G. destruct (get_shape _ _ _ _ _ _ _ _ S G). tauto. Qed.

Lemma together m : covering ny nx ks -> m = First \/ m = Last \/ (m = Min \/ m = Max) /\ d <> BOOL -> chunk_ok chunk ->
  exists out, mosaic cast reconcile_other add fill result_type chunk (fun x => x) nc rs m None None = Ok out
  /\ wf nb nc out /\ r_dtype out = d /\ r_nv out = Some nv /\ gives_back b0 nb r out.
Proof.
  intros CV HM CK.
  destruct (whole_picked cast reconcile_other add fill result_type chunk (fun x => x) d nv nc NV rs m None None) as (out & nb' & E & NB & WF & ED & EN & C).
  all: try first [exact rs_nonempty | exact HM | exact CK | exact nb_nc | exact sources | exact not_close | apply result_dtype_eq, the_dtype | apply result_null_eq, the_null].
  apply bands in NB. subst nb'. exists out. split; [exact E|]. split; [exact WF|]. split; [exact ED|]. split; [exact EN|].
  intros b i j v q Rb Gv Gm. destruct (cell_of _ _ _ _ _ (proj1 W) Gv) as [Ri Rj]. fold xs. rewrite LX. destruct (cell_number i j Ri Rj) as (_ & _ & Rc).
  destruct (C b (i * nx + j) (conj Rb Rc)) as (C1 & C2 & C3). rewrite (contributed b i j v q Rb Ri Rj Gv Gm) in C1, C3. destruct (CL _ _ _ _ _ Gv Gm) as (_ & _ & CQ). destruct q.
  - assert (L : flat_map (fun k => if inb k i j && negb true then [v] else []) ks = []) by (clear; induction ks as [|k l IH]; [reflexivity|cbn [flat_map]; change (negb true) with false in *; rewrite andb_false_r; exact IH]).
    rewrite L in C1. split; [now apply C1|]. subst v. apply C2. now apply C1.
  - assert (L : flat_map (fun k => if inb k i j && negb false then [v] else []) ks <> []).
    { destruct (CV i j Ri Rj) as (k & I & H). intros Z. apply in_split in I. destruct I as (l1 & l2 & ->). rewrite flat_map_app in Z. apply app_eq_nil in Z. destruct Z as [_ Z]. cbn [flat_map] in Z. apply inb_holds in H. rewrite H in Z. discriminate. }
    split; [destruct (null out b (i * nx + j)) eqn:X; [|reflexivity]; now destruct (L (proj1 C1 eq_refl))|].
    rewrite (picked_copy m (flat_map (fun k => if inb k i j && negb false then [v] else []) ks) v (value out b (i * nx + j))); [apply same_refl|tauto|intros w H; exact (flat_copies (fun k => inb k i j && negb false) v ks w H)|exact L|exact (C3 L)].
Qed.

Lemma single (f : box -> bool) (v : num) : (exists! n, exists k, get ks n = Ok k /\ f k = true) -> flat_map (fun k => if f k then [v] else []) ks = [v].
Proof.
  clear KS PS NE rs. induction ks as [|k l IH]; intros (q & (k' & G & H) & U); [destruct (get_nil _ _ G)|]. cbn [flat_map]. destruct (f k) eqn:F.
  - assert (q = 0) by (apply U; exists k; split; [apply get_cons0|exact F]). subst q. cbn [app]. f_equal.
    assert (N : forall k2, In k2 l -> f k2 = false).
    { intros k2 I. destruct (f k2) eqn:F2; [|reflexivity]. apply In_nth_error in I. destruct I as (i & I). assert (G2 : get (k :: l) (1 + Z.of_nat i) = Ok k2).
      { rewrite get_cons by lia. replace (1 + Z.of_nat i - 1) with (Z.of_nat i) by lia. unfold get. replace (Z.of_nat i <? 0) with false by lia. rewrite Nat2Z.id, I. reflexivity. }
      specialize (U (1 + Z.of_nat i) ltac:(eauto)). lia. }
    clear -N. induction l as [|a l IH]; [reflexivity|]. cbn [flat_map]. rewrite N by now left. apply IH. intros; apply N; now right.
  - apply IH. assert (q <> 0) by (intros ->; rewrite get_cons0 in G; congruence). pose proof (get_ok_range _ _ _ G). exists (q - 1). split.
    + exists k'. split; [|exact H]. now rewrite get_cons in G by lia.
    + intros q' (k2 & G2 & H2). pose proof (get_ok_range _ _ _ G2). specialize (U (1 + q')). pose proof (U ltac:(exists k2; rewrite get_cons by lia; replace (1 + q' - 1) with q' by lia; auto)). lia.
Qed.
Lemma tiling_covers : tiling ny nx ks -> covering ny nx ks.
Proof. intros T i j Ri Rj. destruct (T i j Ri Rj) as (q & (k & G & H) & _). exists k. split; [exact (get_in _ _ _ G)|exact H]. Qed.

Lemma together_sum : tiling ny nx ks -> is_int_dtype d = true -> int_adds d (add d) ->
  exists out, mosaic cast reconcile_other add fill result_type chunk (fun x => x) nc rs Sum None None = Ok out
  /\ wf nb nc out /\ r_dtype out = d /\ r_nv out = Some nv /\ gives_back b0 nb r out.
Proof.
  intros TL HI HA.
  destruct (whole_sum cast reconcile_other add fill result_type chunk (fun x => x) d nv nc NV rs None None) as (out & nb' & E & NB & WF & ED & EN & C).
  all: try first [exact rs_nonempty | exact HI | exact HA | exact nb_nc | exact sources | exact not_close | apply result_dtype_eq, the_dtype | apply result_null_eq, the_null].
  apply bands in NB. subst nb'. exists out. split; [exact E|]. split; [exact WF|]. split; [exact ED|]. split; [exact EN|].
  intros b i j v q Rb Gv Gm. destruct (cell_of _ _ _ _ _ (proj1 W) Gv) as [Ri Rj]. fold xs. rewrite LX. destruct (cell_number i j Ri Rj) as (_ & _ & Rc).
  destruct (C b (i * nx + j) (conj Rb Rc)) as (C1 & C2). rewrite (contributed b i j v q Rb Ri Rj Gv Gm) in C2. destruct (CL _ _ _ _ _ Gv Gm) as (_ & CT & CQ). rewrite C1. destruct q.
  - assert (L : flat_map (fun k => if inb k i j && negb true then [v] else []) ks = []) by (clear; induction ks as [|k l IH]; [reflexivity|cbn [flat_map]; change (negb true) with false in *; rewrite andb_false_r; exact IH]).
    rewrite L in C2. cbn [is_int_sum] in C2. rewrite C2; [subst v; split; apply same_refl|]. right. intros pre mid post X N. destruct pre; [|discriminate]. destruct mid; [now destruct N|discriminate].
  - assert (L : flat_map (fun k => if inb k i j && negb false then [v] else []) ks = [v]).
    { apply (single (fun k => inb k i j && negb false)). destruct (TL i j Ri Rj) as (s & (k & G & H) & U). exists s. split; [exists k; split; [exact G|]; apply inb_holds in H; now rewrite H|].
      intros s' (k2 & G2 & H2). apply U. exists k2. split; [exact G2|]. apply inb_holds. now rewrite andb_true_r in H2. }
    rewrite L in C2. assert (IV : exists z, v = of_Z z /\ int_min d <= z <= int_max d).
    { unfold of_dtype in CT. destruct (is_float_dtype d) eqn:F; [|exact CT]. destruct d; discriminate. }
    destruct IV as (z & -> & Rz).
    assert (ONE : forall u, is_int_sum d nv [of_Z z] u -> u = of_Z z).
    { intros u (zs & s & EZ & -> & R & q & ES). destruct zs as [|z' [|? ?]]; try discriminate. assert (EZ' : of_Z z = of_Z z') by (change ([of_Z z] = [of_Z z']) in EZ; congruence). apply of_Z_inj in EZ'. subst z'. cbn [zsum] in ES. unfold zsum in ES. cbn [fold_right] in ES.
      assert (q = 0) by nia. subst q. f_equal. lia. }
    assert (VAL : value out b (i * nx + j) = of_Z z).
    { apply ONE, C2. right. intros pre mid post X N S. assert (mid = [of_Z z]).
      { destruct pre as [|a [|? ?]]; destruct mid as [|c [|? ?]]; destruct post; try (now destruct N); cbn [app] in X; try discriminate X. now injection X as <-. }
      subst mid. apply ONE in S. subst nv. rewrite same_refl in CQ. discriminate. }
    rewrite VAL. split; [exact CQ|apply same_refl].
Qed.
End Together.
