From Coq Require Import QArith Qminmax Lqa Lia ZifyBool.
From Verif Require Import Base BaseFacts Chunks ChunksSpec ChunksProofs CostPublicProofs ProximityChunk RasterStack Arr2Facts FocalResults Blocks BlocksSpec PadGridSpec PadGridProofs ChunkBoxes ChunkBoxesSpec.
Open Scope Z_scope.

Lemma Qmin_lt a b : (a <= b)%Q -> (Qmin a b == a)%Q.
Proof. apply Q.min_l. Qed.
Lemma len_xs g : 0 <= gb_nx g -> len (xs_of g) = gb_nx g.
Proof. intros. unfold xs_of. rewrite len_map, len_zrange; lia. Qed.
Lemma len_ys g : 0 <= gb_ny g -> len (ys_of g) = gb_ny g.
Proof. intros. unfold ys_of. rewrite len_map, len_zrange; lia. Qed.
Lemma get_xs g j : 0 <= j < gb_nx g -> get (xs_of g) j = Ok (fst (gb_coord g 0 j)).
Proof. intros. unfold xs_of. rewrite get_map_eq, get_zrange by lia. now replace (0 + j) with j by lia. Qed.
Lemma get_ys g i : 0 <= i < gb_ny g -> get (ys_of g) i = Ok (snd (gb_coord g i 0)).
Proof. intros. unfold ys_of. rewrite get_map_eq, get_zrange by lia. now replace (0 + i) with i by lia. Qed.
Lemma ends_slice l lo hi a b : 0 <= lo -> lo + 2 <= hi -> hi <= len l -> get l lo = Ok a -> get l (hi - 1) = Ok b -> ends (slice l lo hi) = Ok (a, b).
Proof.
  intros H0 H1 H2 GA GB. unfold ends. rewrite !slice_len by lia. rewrite !get_slice by lia. replace (lo + 0) with lo by lia. replace (lo + (hi - lo - 1)) with (hi - 1) by lia. rewrite GA. cbn [rbind]. rewrite GB. reflexivity.
Qed.
Lemma bounds_ok g ylo yhi xlo xhi : north_up g -> 0 <= ylo -> ylo + 2 <= yhi -> yhi <= gb_ny g -> 0 <= xlo -> xlo + 2 <= xhi -> xhi <= gb_nx g ->
  exists b, rio_bounds (slice (xs_of g) xlo xhi) (slice (ys_of g) ylo yhi) = Ok b /\ area_of g ylo yhi xlo xhi b.
Proof.
  intros NU Y0 Y1 Y2 X0 X1 X2. pose proof NU as (RX & RY & _ & _ & NY & NX). unfold rio_bounds.
  rewrite !slice_len by (rewrite ?len_xs, ?len_ys; lia). replace ((xhi - xlo =? 1) || (yhi - ylo =? 1)) with false by lia.
  rewrite (ends_slice (xs_of g) xlo xhi _ _ X0 X1) by (rewrite ?len_xs by lia; try lia; apply get_xs; lia). cbn [rbind].
  rewrite (ends_slice (ys_of g) ylo yhi _ _ Y0 Y1) by (rewrite ?len_ys by lia; try lia; apply get_ys; lia). cbn [rbind].
  eexists. split; [reflexivity|].
  set (a := af_a (gb_affine g)) in *. set (e := af_e (gb_affine g)) in *.
  pose proof (coord_x g NU 0 xlo) as CX0. pose proof (coord_x g NU 0 (xhi - 1)) as CX1. pose proof (coord_y g NU ylo 0) as CY0. pose proof (coord_y g NU (yhi - 1) 0) as CY1. fold a in CX0, CX1. fold e in CY0, CY1.
  assert (DX : ~ (inject_Z (xhi - xlo - 1) == 0)%Q) by (change 0%Q with (inject_Z 0); rewrite inject_Z_injective; lia).
  assert (DY : ~ (inject_Z (yhi - ylo - 1) == 0)%Q) by (change 0%Q with (inject_Z 0); rewrite inject_Z_injective; lia).
  rewrite !inject_sub in DX, DY. rewrite inject_sub in CX1, CY1. change (inject_Z 1) with 1%Q in *.
  assert (EX : ((fst (gb_coord g 0 (xhi - 1)) - fst (gb_coord g 0 xlo)) / inject_Z (xhi - xlo - 1) == a)%Q) by (rewrite CX0, CX1, !inject_sub; change (inject_Z 1) with 1%Q; field; exact DX).
  assert (EY : ((snd (gb_coord g (yhi - 1) 0) - snd (gb_coord g ylo 0)) / inject_Z (yhi - ylo - 1) == e)%Q) by (rewrite CY0, CY1, !inject_sub; change (inject_Z 1) with 1%Q; field; exact DY).
  set (qx := ((fst (gb_coord g 0 (xhi - 1)) - fst (gb_coord g 0 xlo)) / inject_Z (xhi - xlo - 1))%Q) in *. set (qy := ((snd (gb_coord g (yhi - 1) 0) - snd (gb_coord g ylo 0)) / inject_Z (yhi - ylo - 1))%Q) in *.
  assert (LX : (inject_Z xlo * a <= inject_Z xhi * a)%Q) by (apply Qmult_le_compat_r; [rewrite <- Zle_Qle; lia|lra]).
  assert (LY : (inject_Z yhi * e <= inject_Z ylo * e)%Q). { assert (X : (inject_Z ylo * - e <= inject_Z yhi * - e)%Q) by (apply Qmult_le_compat_r; [rewrite <- Zle_Qle; lia|lra]). lra. }
  assert (W : (fst (gb_coord g 0 xlo) - qx / 2 == west g + inject_Z xlo * a)%Q) by (rewrite CX0, EX; field).
  assert (E : (fst (gb_coord g 0 (xhi - 1)) + qx / 2 == west g + inject_Z xhi * a)%Q) by (rewrite CX1, EX; field).
  assert (N : (snd (gb_coord g ylo 0) - qy / 2 == north g + inject_Z ylo * e)%Q) by (rewrite CY0, EY; field).
  assert (S : (snd (gb_coord g (yhi - 1) 0) + qy / 2 == north g + inject_Z yhi * e)%Q) by (rewrite CY1, EY; field).
  unfold area_of. cbn [b_west b_east b_south b_north]. fold a e.
  split; [rewrite Q.min_l by lra; exact W|]. split; [rewrite Q.max_r by lra; exact E|]. split; [rewrite Q.max_l by lra; exact N|]. rewrite Q.min_r by lra. exact S.
Qed.
Lemma sum_nonneg2 cs : Forall (fun c => 2 <= c) cs -> 0 <= sum cs.
Proof. induction 1; [reflexivity|]. rewrite sum_cons. lia. Qed.
Lemma zrange_step a b : a < b -> zrange a b = a :: zrange (a + 1) b.
Proof.
  intros H. apply list_ext; [rewrite len_cons, !len_zrange; lia|]. intros k v G. pose proof (get_ok_range _ _ _ G) as K. rewrite len_zrange in K by lia. rewrite get_zrange in G by lia. rewrite <- G.
  destruct (Z.eq_dec k 0) as [->|N]; [rewrite get_cons0; f_equal; lia|]. rewrite get_cons, get_zrange by lia. f_equal. lia.
Qed.

Section Boxes.
Variable g : geobox.
Hypothesis NU : north_up g.
Variables (ycs xcs : list Z).
Hypothesis (CY : sum ycs = gb_ny g) (CX : sum xcs = gb_nx g) (BY : Forall (fun c => 2 <= c) ycs) (BX : Forall (fun c => 2 <= c) xcs).
Lemma row_ok ylo yhi row : 0 <= ylo -> ylo + 2 <= yhi -> yhi <= gb_ny g -> forall todo done, xcs = done ++ todo ->
  exists t, box_row (xs_of g) (slice (ys_of g) ylo yhi) row (len done) (sum done) todo = Ok t
  /\ map fst t = map (fun col => (row, col)) (zrange (len done) (len xcs))
  /\ forall r col b, In (r, col, b) t -> exists lo hi, spans xcs col lo hi /\ area_of g ylo yhi lo hi b.
Proof.
  intros Y0 Y1 Y2. induction todo as [|c todo IH]; intros done E.
  - exists []. split; [reflexivity|]. split; [|intros ? ? ? []]. rewrite E, app_nil_r. unfold zrange. now replace (Z.to_nat (len done - len done)) with 0%nat by lia.
  - assert (SP : 0 <= sum done /\ 2 <= c /\ sum done + c <= gb_nx g).
    { pose proof BX as B. rewrite E in B. apply Forall_app in B as [B1 B2]. apply Forall_cons_iff in B2 as [B3 B4]. pose proof (sum_nonneg2 _ B1). pose proof (sum_nonneg2 _ B4). rewrite <- CX, E, sum_app, sum_cons. lia. }
    destruct SP as (S0 & S1 & S2). cbn [box_row]. destruct (bounds_ok g ylo yhi (sum done) (sum done + c) NU) as (b & EB & AB); try lia. rewrite EB. cbn [rbind].
    destruct (IH (done ++ [c])) as (t & ET & MT & AT); [rewrite <- app_assoc; exact E|]. rewrite len_app, sum_app in ET. replace (len [c]) with 1 in ET by reflexivity. replace (sum [c]) with c in ET by (rewrite sum_cons; cbn; lia).
    rewrite ET. cbn [rbind]. exists ((row, len done, b) :: t). split; [reflexivity|]. split.
    + cbn [map fst]. rewrite MT, len_app. rewrite (zrange_step (len done)) by (rewrite E, len_app, len_cons; pose proof (len_nonneg todo); lia). reflexivity.
    + intros r col b' [I|I]; [|now apply (AT r)]. injection I as <- <- <-. exists (sum done), (sum done + c). split; [|exact AB]. exists c, done, todo. auto.
Qed.
Definition right_row (p : Z * Z * bbox) : Prop :=
  exists ylo yhi xlo xhi, spans ycs (fst (fst p)) ylo yhi /\ spans xcs (snd (fst p)) xlo xhi /\ area_of g ylo yhi xlo xhi (snd p).
Lemma rows_ok : forall todo done, ycs = done ++ todo ->
  exists t, box_rows (xs_of g) (ys_of g) (len done) (sum done) todo xcs = Ok t
  /\ map fst t = flat_map (fun row => map (fun col => (row, col)) (zrange 0 (len xcs))) (zrange (len done) (len ycs)) /\ Forall right_row t.
Proof.
  induction todo as [|c todo IH]; intros done E.
  - exists []. split; [reflexivity|]. split; [|constructor]. rewrite E, app_nil_r. unfold zrange. now replace (Z.to_nat (len done - len done)) with 0%nat by lia.
  - assert (SP : 0 <= sum done /\ 2 <= c /\ sum done + c <= gb_ny g).
    { pose proof BY as B. rewrite E in B. apply Forall_app in B as [B1 B2]. apply Forall_cons_iff in B2 as [B3 B4]. pose proof (sum_nonneg2 _ B1). pose proof (sum_nonneg2 _ B4). rewrite <- CY, E, sum_app, sum_cons. lia. }
    destruct SP as (S0 & S1 & S2). cbn [box_rows]. destruct (row_ok (sum done) (sum done + c) (len done)) with (todo := xcs) (done := @nil Z) as (h & EH & MH & AH); try lia; try reflexivity.
    change (len (@nil Z)) with 0 in EH, MH. change (sum []) with 0 in EH. rewrite EH. cbn [rbind].
    destruct (IH (done ++ [c])) as (t & ET & MT & AT); [rewrite <- app_assoc; exact E|]. rewrite len_app, sum_app in ET. replace (len [c]) with 1 in ET by reflexivity. replace (sum [c]) with c in ET by (rewrite sum_cons; cbn; lia).
    rewrite ET. cbn [rbind]. exists (h ++ t). split; [reflexivity|]. split.
    + rewrite map_app, MH, MT, len_app. rewrite (zrange_step (len done)) by (rewrite E, len_app, len_cons; pose proof (len_nonneg todo); lia). reflexivity.
    + apply Forall_app. split; [|exact AT]. apply Forall_forall. intros [[r col] b] I. destruct (AH r col b I) as (xlo & xhi & SX & AX).
      assert (R : r = len done). { assert (IN : In (r, col) (map fst h)) by (apply in_map_iff; now exists (r, col, b)). rewrite MH in IN. apply in_map_iff in IN as (k & IN & _). congruence. }
      exists (sum done), (sum done + c), xlo, xhi. cbn [fst snd]. split; [|split; assumption]. exists c, done, todo. auto.
Qed.
Theorem boxes_ok : exists t, chunk_boxes g ycs xcs = Ok t
  /\ map fst t = flat_map (fun row => map (fun col => (row, col)) (zrange 0 (len xcs))) (zrange 0 (len ycs))
  /\ forall row col b, In (row, col, b) t -> exists ylo yhi xlo xhi, spans ycs row ylo yhi /\ spans xcs col xlo xhi /\ area_of g ylo yhi xlo xhi b.
Proof.
  destruct (rows_ok ycs []) as (t & E & M & A); [reflexivity|]. exists t. split; [exact E|]. split; [exact M|]. intros row col b I. rewrite Forall_forall in A. exact (A _ I).
Qed.
End Boxes.

(* ---------------- chunks with one row or column ---------------- *)
Lemma ends_ok l : 1 <= len l -> exists p, ends l = Ok p.
Proof. intros H. unfold ends. destruct (get_range l 0) as [a E]; [lia|]. rewrite E. cbn [rbind]. destruct (get_range l (len l - 1)) as [b F]; [lia|]. rewrite F. eexists. reflexivity. Qed.
Lemma bounds_nonempty x y : 1 <= len x -> 1 <= len y -> (len x = 1 \/ len y = 1) /\ rio_bounds x y = Err ValueError \/ len x <> 1 /\ len y <> 1 /\ exists b, rio_bounds x y = Ok b.
Proof.
  intros X Y. unfold rio_bounds. destruct ((len x =? 1) || (len y =? 1)) eqn:E; [left; split; [lia|reflexivity]|right]. split; [lia|]. split; [lia|].
  destruct (ends_ok x X) as ((a & b) & ->). cbn [rbind]. destruct (ends_ok y Y) as ((c & d) & ->). cbn [rbind]. eauto.
Qed.
Lemma row_any x y row : 1 <= len y -> forall cs col j, Forall (fun c => 1 <= c) cs -> 0 <= j -> j + sum cs <= len x ->
  (In 1 cs \/ len y = 1 /\ cs <> []) /\ box_row x y row col j cs = Err ValueError \/ ~ In 1 cs /\ (len y <> 1 \/ cs = []) /\ exists t, box_row x y row col j cs = Ok t.
Proof.
  intros Y. induction cs as [|c cs IH]; intros col j F J S; [right; split; [auto|]; split; [auto|]; eexists; reflexivity|].
  apply Forall_cons_iff in F as [F1 F2]. rewrite sum_cons in S. pose proof (sum_nonneg cs ltac:(eapply Forall_impl; [|exact F2]; cbn; lia)) as SN. cbn [box_row].
  assert (L : len (slice x j (j + c)) = c) by (rewrite slice_len; lia).
  destruct (bounds_nonempty (slice x j (j + c)) y) as [[D ->]|(D1 & D2 & b & ->)]; try lia.
  - left. split; [|reflexivity]. rewrite L in D. destruct D as [->|D]; [left; now left|]. right. split; [exact D|discriminate].
  - cbn [rbind]. rewrite L in D1. destruct (IH (col + 1) (j + c) F2) as [[D ->]|(D3 & D4 & t & ->)]; try lia.
    + left. split; [|reflexivity]. destruct D as [D|[D _]]; [left; now right|contradiction].
    + right. split; [intros [E|E]; [lia|contradiction]|]. split; [now left|]. eexists. reflexivity.
Qed.
Lemma rows_any x y xcs : xcs <> [] -> Forall (fun c => 1 <= c) xcs -> sum xcs = len x -> forall cs row i, Forall (fun c => 1 <= c) cs -> 0 <= i -> i + sum cs <= len y ->
  (In 1 cs \/ In 1 xcs /\ cs <> []) -> box_rows x y row i cs xcs = Err ValueError.
Proof.
  intros NE FX SX. induction cs as [|c cs IH]; intros row i F I S D; [destruct D as [[]|[_ D]]; contradiction|].
  apply Forall_cons_iff in F as [F1 F2]. rewrite sum_cons in S. pose proof (sum_nonneg cs ltac:(eapply Forall_impl; [|exact F2]; cbn; lia)) as SN. cbn [box_rows].
  assert (L : len (slice y i (i + c)) = c) by (rewrite slice_len; lia).
  destruct (row_any x (slice y i (i + c)) row ltac:(lia) xcs 0 0 FX) as [[_ ->]|(D3 & D4 & t & ->)]; try lia; [reflexivity|].
  cbn [rbind]. rewrite (IH (row + 1) (i + c) F2); try lia; [reflexivity|].
  destruct D as [[D|D]|[D _]]; [|now left|contradiction]. destruct D4 as [D4|D4]; [lia|contradiction].
Qed.
Lemma boxes_refused g ycs xcs : sum ycs = gb_ny g -> sum xcs = gb_nx g -> Forall (fun c => 1 <= c) ycs -> Forall (fun c => 1 <= c) xcs -> ycs <> [] -> xcs <> [] ->
  In 1 ycs \/ In 1 xcs -> chunk_boxes g ycs xcs = Err ValueError.
Proof.
  intros SY SX FY FX NY NX D. pose proof (sum_nonneg ycs ltac:(eapply Forall_impl; [|exact FY]; cbn; lia)). pose proof (sum_nonneg xcs ltac:(eapply Forall_impl; [|exact FX]; cbn; lia)).
  unfold chunk_boxes. apply rows_any; try assumption; rewrite ?len_xs, ?len_ys; try lia. tauto.
Qed.

(* ---------------- the boxes tile the raster ---------------- *)
Lemma spans_cons c cs k lo hi : spans (c :: cs) k lo hi <-> k = 0 /\ lo = 0 /\ hi = c \/ 0 < k /\ spans cs (k - 1) (lo - c) (hi - c).
Proof.
  split.
  - intros (d & [|e before] & after & E & K & L & H).
    + left. cbn [app] in E. injection E as <- <-. change (len (@nil Z)) with 0 in K. change (sum []) with 0 in L. lia.
    + right. cbn [app] in E. injection E as <- ->. rewrite len_cons in K. rewrite sum_cons in L. pose proof (len_nonneg before). split; [lia|]. exists d, before, after. repeat split; lia.
  - intros [(-> & -> & ->)|(P & d & before & after & -> & K & L & H)].
    + exists c, [], cs. repeat split.
    + exists d, (c :: before), after. rewrite len_cons, sum_cons. repeat split; lia.
Qed.
Lemma spans_nil k lo hi : ~ spans [] k lo hi.
Proof. intros (d & [|e before] & after & E & _); discriminate. Qed.
Lemma spans_range cs : Forall (fun c => 0 <= c) cs -> forall k lo hi, spans cs k lo hi -> 0 <= k < len cs /\ 0 <= lo <= hi /\ hi <= sum cs.
Proof.
  intros F k lo hi (c & before & after & -> & K & L & H). apply Forall_app in F as [F1 F2]. apply Forall_cons_iff in F2 as [F2 F3]. pose proof (sum_nonneg _ F1). pose proof (sum_nonneg _ F3).
  rewrite sum_app, sum_cons, len_app, len_cons. pose proof (len_nonneg before). pose proof (len_nonneg after). lia.
Qed.
Lemma spans_find cs : Forall (fun c => 0 <= c) cs -> forall i, 0 <= i < sum cs -> exists k lo hi, spans cs k lo hi /\ lo <= i < hi.
Proof.
  induction 1 as [|c cs C F IH]; intros i I; [change (sum []) with 0 in I; lia|]. rewrite sum_cons in I. destruct (Z_lt_dec i c) as [L|L].
  - exists 0, 0, c. split; [|lia]. apply spans_cons. now left.
  - destruct (IH (i - c)) as (k & lo & hi & S & B); [lia|]. pose proof (spans_range cs F _ _ _ S). exists (k + 1), (lo + c), (hi + c). split; [|lia]. apply spans_cons. right. split; [lia|].
    now replace (k + 1 - 1) with k by lia; replace (lo + c - c) with lo by lia; replace (hi + c - c) with hi by lia.
Qed.
Lemma spans_unique cs : Forall (fun c => 0 <= c) cs -> forall i k lo hi k' lo' hi', spans cs k lo hi -> spans cs k' lo' hi' -> lo <= i < hi -> lo' <= i < hi' -> k = k' /\ lo = lo' /\ hi = hi'.
Proof.
  induction 1 as [|c cs C F IH]; intros i k lo hi k' lo' hi' S S' B B'; [now apply spans_nil in S|]. apply spans_cons in S, S'.
  destruct S as [(-> & -> & ->)|(P & S)], S' as [(-> & -> & ->)|(P' & S')]; [lia| | |].
  - pose proof (spans_range cs F _ _ _ S'). lia.
  - pose proof (spans_range cs F _ _ _ S). lia.
  - specialize (IH (i - c) _ _ _ _ _ _ S S'). lia.
Qed.
Lemma spans_same cs : forall k lo hi lo' hi', spans cs k lo hi -> spans cs k lo' hi' -> lo = lo' /\ hi = hi'.
Proof.
  induction cs as [|c cs IH]; intros k lo hi lo' hi' S S'; [now apply spans_nil in S|]. apply spans_cons in S, S'.
  destruct S as [(-> & -> & ->)|(P & S)], S' as [(? & -> & ->)|(P' & S')]; try lia. specialize (IH _ _ _ _ _ S S'). lia.
Qed.
Lemma between g xlo xhi j : (0 < g)%Q -> ((inject_Z xlo * g < (inject_Z j + (1 # 2)) * g)%Q /\ ((inject_Z j + (1 # 2)) * g < inject_Z xhi * g)%Q <-> xlo <= j < xhi).
Proof.
  intros G. rewrite !(Qmult_lt_r _ _ _ G). split.
  - intros [A B]. split.
    + destruct (Z_le_gt_dec xlo j) as [H|H]; [exact H|]. assert (X : (inject_Z (j + 1) <= inject_Z xlo)%Q) by (rewrite <- Zle_Qle; lia). rewrite inject_Z_plus in X. change (inject_Z 1) with 1%Q in X. lra.
    + destruct (Z_lt_ge_dec j xhi) as [H|H]; [exact H|]. assert (X : (inject_Z xhi <= inject_Z j)%Q) by (rewrite <- Zle_Qle; lia). lra.
  - intros [A B]. assert (X : (inject_Z xlo <= inject_Z j)%Q) by (rewrite <- Zle_Qle; lia). assert (Y : (inject_Z (j + 1) <= inject_Z xhi)%Q) by (rewrite <- Zle_Qle; lia). rewrite inject_Z_plus in Y. change (inject_Z 1) with 1%Q in Y. lra.
Qed.
Lemma inside_iff g ylo yhi xlo xhi b i j : north_up g -> area_of g ylo yhi xlo xhi b ->
  (inside b (fst (gb_coord g i j)) (snd (gb_coord g i j)) <-> ylo <= i < yhi /\ xlo <= j < xhi).
Proof.
  intros NU (W & E & N & S). pose proof NU as (RX & RY & _). unfold inside. pose proof (coord_x g NU i j) as X. pose proof (coord_y g NU i j) as Y. set (a := af_a (gb_affine g)) in *. set (e := af_e (gb_affine g)) in *.
  pose proof (between a xlo xhi j RX) as BX. pose proof (between (- e) ylo yhi i ltac:(lra)) as BY. rewrite <- BX, <- BY. rewrite X, Y, W, E, N, S. split; intros ((? & ?) & ? & ?); (split; split; lra).
Qed.
Theorem boxes_tile g ycs xcs t : north_up g -> sum ycs = gb_ny g -> sum xcs = gb_nx g -> Forall (fun c => 2 <= c) ycs -> Forall (fun c => 2 <= c) xcs -> chunk_boxes g ycs xcs = Ok t ->
  forall i j, 0 <= i < gb_ny g -> 0 <= j < gb_nx g -> exists row col b, In (row, col, b) t /\ inside b (fst (gb_coord g i j)) (snd (gb_coord g i j))
  /\ forall row' col' b', In (row', col', b') t -> inside b' (fst (gb_coord g i j)) (snd (gb_coord g i j)) -> row' = row /\ col' = col.
Proof.
  intros NU SY SX FY FX ET i j I J. destruct (boxes_ok g NU ycs xcs SY SX FY FX) as (t' & ET' & M & A). rewrite ET in ET'. injection ET' as <-.
  assert (FY0 : Forall (fun c => 0 <= c) ycs) by (eapply Forall_impl; [|exact FY]; cbn; lia). assert (FX0 : Forall (fun c => 0 <= c) xcs) by (eapply Forall_impl; [|exact FX]; cbn; lia).
  destruct (spans_find ycs FY0 i) as (row & ylo & yhi & S & B); [lia|]. destruct (spans_find xcs FX0 j) as (col & xlo & xhi & S' & B'); [lia|].
  assert (IN : In (row, col) (map fst t)).
  { rewrite M. apply in_flat_map. exists row. split; [apply zrange_in; pose proof (spans_range ycs FY0 _ _ _ S); lia|]. apply in_map. apply zrange_in. pose proof (spans_range xcs FX0 _ _ _ S'). lia. }
  apply in_map_iff in IN as ([[r c] b] & E & IN). cbn [fst] in E. injection E as -> ->. exists row, col, b. split; [exact IN|].
  destruct (A _ _ _ IN) as (y0 & y1 & x0 & x1 & T & T' & AR). destruct (spans_same _ _ _ _ _ _ S T) as [<- <-]. destruct (spans_same _ _ _ _ _ _ S' T') as [<- <-].
  split; [apply (inside_iff g ylo yhi xlo xhi); tauto|]. intros row' col' b' IN' INS. destruct (A _ _ _ IN') as (y0' & y1' & x0' & x1' & U & U' & AR').
  rewrite (inside_iff g _ _ _ _ _ _ _ NU AR') in INS. destruct INS as [I1 I2]. split; [apply (spans_unique ycs FY0 i _ _ _ _ _ _ U S); lia|apply (spans_unique xcs FX0 j _ _ _ _ _ _ U' S'); lia].
Qed.

(* ---------------- with bands ---------------- *)
Lemma len_positions n m : 0 <= n -> 0 <= m -> len (flat_map (fun row => map (fun col => (row, col)) (zrange 0 m)) (zrange 0 n)) = n * m.
Proof.
  intros N M. assert (H : forall l : list Z, len (flat_map (fun row => map (fun col => (row, col)) (zrange 0 m)) l) = len l * m).
  { induction l as [|a l IH]; [reflexivity|]. cbn [flat_map]. rewrite len_app, len_map, len_zrange, IH, len_cons by lia. lia. }
  rewrite H, len_zrange by lia. lia.
Qed.
Lemma combine_app {A B} (a a' : list A) (b b' : list B) : length a = length b -> combine (a ++ a') (b ++ b') = combine a b ++ combine a' b'.
Proof. revert b. induction a as [|x a IH]; intros [|y b] E; try discriminate; [reflexivity|]. cbn in *. now rewrite IH by lia. Qed.
Lemma combine_full {A B} (x : A) (t : list B) : combine (full (len t) x) t = map (fun b => (x, b)) t.
Proof. unfold full, len. rewrite Nat2Z.id. induction t as [|b t IH]; [reflexivity|]. cbn. now rewrite IH. Qed.
Lemma bands_rows {A} (t : list A) : forall l : list Z, combine (flat_map (fun i => full (len t) i) l) (concat (map (fun _ => t) l)) = flat_map (fun i => map (fun b => (i, b)) t) l.
Proof.
  induction l as [|i l IH]; [reflexivity|]. cbn [flat_map map concat]. rewrite combine_app, combine_full, IH; [reflexivity|]. unfold full. rewrite repeat_length. unfold len. lia.
Qed.
Lemma full_map {A} n (t : A) : 0 <= n -> full n t = map (fun _ => t) (zrange 0 n).
Proof. intros N. apply list_ext; [rewrite full_len, len_map, len_zrange; lia|]. intros i x G. pose proof (get_ok_range _ _ _ G) as K. rewrite full_len in K by lia. rewrite get_full in G by lia. injection G as <-. rewrite get_map_eq, get_zrange by lia. reflexivity. Qed.
Theorem bands_ok nbands g ycs xcs t : 0 <= nbands -> chunk_boxes g ycs xcs = Ok t -> len t = len ycs * len xcs ->
  chunk_boxes_bands nbands g ycs xcs = Ok (flat_map (fun i => map (fun b => (i, b)) t) (zrange 0 nbands)).
Proof. intros N E L. unfold chunk_boxes_bands. rewrite E. cbn [rbind]. rewrite <- L, full_map, bands_rows by lia. reflexivity. Qed.
Theorem boxes_bands nbands g ycs xcs t : 0 <= nbands -> north_up g -> sum ycs = gb_ny g -> sum xcs = gb_nx g -> Forall (fun c => 2 <= c) ycs -> Forall (fun c => 2 <= c) xcs -> chunk_boxes g ycs xcs = Ok t ->
  chunk_boxes_bands nbands g ycs xcs = Ok (flat_map (fun i => map (fun b => (i, b)) t) (zrange 0 nbands)).
Proof.
  intros N NU SY SX FY FX ET. apply bands_ok; [exact N|exact ET|]. destruct (boxes_ok g NU ycs xcs SY SX FY FX) as (t' & ET' & M & A). rewrite ET in ET'. injection ET' as <-.
  rewrite <- (len_map fst), M, len_positions by apply len_nonneg. reflexivity.
Qed.
