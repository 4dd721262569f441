(* The results of map_overlap. *)
From Coq Require Import Lia ZifyBool ZifyNat.
From Verif Require Import Base BaseFacts Scalars NumFacts Arr2 Arr2Facts Chunks ChunksProofs FocalSpec FocalResults
  Bands BandsSpec BandsProofs BlockArgs BlockArgsSpec BlockArgsProofs MapBlocks MapBlocksSpec MapBlocksProofs MapOverlap MapOverlapSpec MapOverlapProofs.
Open Scope Z_scope.

(* ---- the arguments ---- *)
Definition bare (k : kind) : bool := match k with Unpadded => true | _ => false end.
Definition dconst (k : kind) (nv : option num) (d : dtype) : num :=
  match k with Null => match nv with Some v => v | None => default_null d end | Number v => v | _ => NaN end.
Definition mconst (k : kind) (nv : option num) : bool :=
  match k with Null => true | Number v => match nv with Some n => nan_equal v n | None => false end | _ => false end.
Lemma str_eqb_refl s : str_eqb s s = true.
Proof. unfold str_eqb. destruct (list_eq_dec _ s s); [reflexivity|contradiction]. Qed.
Lemma resolve_ok b k nv d : boundary_means b k ->
  exists db mb, resolve_boundary b nv d = Ok (db, mb) /\ pads k db (dconst k nv d) /\ pads k mb (mconst k nv) /\ adds_nothing db = bare k.
Proof.
  intros M. destruct M as [ |s E|s E|s E|s E|s E|v]; cbn [resolve_boundary].
  - eexists _, _. split; [reflexivity|]. cbn. auto.
  - rewrite E. eexists _, _. split; [reflexivity|]. cbn. auto.
  - rewrite E. eexists _, _. split; [reflexivity|]. cbn. auto.
  - rewrite E. eexists _, _. split; [reflexivity|]. cbn. auto.
  - rewrite E. eexists _, _. split; [reflexivity|]. cbn. auto.
  - destruct E as [-> |[-> | ->]]; eexists _, _; (split; [reflexivity|]); cbn; auto.
  - unfold mconst. destruct nv as [n|]; [destruct (nan_equal v n)|]; eexists _, _; (split; [reflexivity|]); cbn; auto.
Qed.
Lemma axis_sides v d : axis_means v d -> sides d.
Proof. intros M. inversion M; subst; unfold sides; cbn; lia. Qed.
Lemma depth_sides depth dy dx : depth_means depth dy dx -> sides dy /\ sides dx.
Proof.
  intros M. assert (DA : forall items k a, dict_axis items k a -> sides a).
  { intros items k a D. unfold dict_axis in D. destruct (last_for k items); [now apply axis_sides in D|subst; unfold sides; cbn; lia]. }
  inversion M; subst; [unfold sides; cbn; lia|split; eapply axis_sides; eassumption|split; eapply DA; eassumption].
Qed.
Lemma asymmetric_ok b k dy dx : boundary_means b k -> (k <> Unpadded -> symmetric dy /\ symmetric dx) -> check_asymmetric (Sym 0, dy, dx) b = Ok tt.
Proof.
  intros M S. unfold check_asymmetric.
  destruct (match b with BNone => true | BStr s => str_eqb (lower s) s_none | BNum _ => false end) eqn:E; [reflexivity|].
  assert (K : k <> Unpadded). { intros ->. inversion M as [ |s L| | | | | ]; subst; [discriminate|]. rewrite L in E. discriminate. }
  destruct (S K) as [[p ->] [q ->]]. reflexivity.
Qed.
Lemma fits_depth d n : fits d n -> depth_for_axis d <= n.
Proof. unfold fits. destruct d; cbn; lia. Qed.

(* ---- what is seen in a block ---- *)
Lemma val3_at {A} (d : A) nb ny nx (a : list (list (list A))) b i j : shaped3 nb ny nx a -> 0 <= b < nb -> 0 <= i < ny -> 0 <= j < nx -> at3 a b i j (val3 d a b i j).
Proof. intros S Hb Hi Hj. pose proof (at3_tab3 nb ny nx (val3 d a) b i j Hb Hi Hj) as T. now rewrite <- (shaped3_is_tab3 d nb ny nx a S) in T by lia. Qed.
Lemma at3_val3 {A} (d : A) nb ny nx (a : list (list (list A))) b i j u : shaped3 nb ny nx a -> at3 a b i j u -> val3 d a b i j = u.
Proof. intros S T. destruct (at3_range _ _ _ _ _ _ _ _ S T) as (R1 & R2 & R3). eapply at3_fun; [now apply (val3_at d nb ny nx)|exact T]. Qed.
Lemma added_plus k d : added k (before d) = plus (bare k) d.
Proof. destruct k; reflexivity. Qed.
Definition full_array {A} (z c : A) k dy dx nb ny nx (a : list (list (list A))) : list (list (list A)) :=
  tab3 nb (ny + 2 * plus (bare k) dy) (nx + 2 * plus (bare k) dx) (fun o i j => continued c k ny nx (val3 z a) o (i - plus (bare k) dy) (j - plus (bare k) dx)).
Section Cut.
Context {A : Type}.
Variables (z c : A) (k : kind) (dy dx : axdepth) (nb ny nx : Z) (a : list (list (list A))).
Hypothesis (SA : shaped3 nb ny nx a) (Hb : 0 <= nb) (Hy : 0 <= ny) (Hx : 0 <= nx).
Variables (bs ys xs : Z * Z) (ly ry lx rx : Z).
Hypothesis (Rb : 0 <= fst bs <= snd bs) (Rn : snd bs <= nb).
Hypothesis (MY : margins (bare k) dy ny ys ly ry) (MX : margins (bare k) dx nx xs lx rx).
Let ya := around (bare k) dy ys ly ry.
Let xa := around (bare k) dx xs lx rx.
Let W := slice3 (full_array z c k dy dx nb ny nx a) bs ya xa.

Lemma cut_is : W = tab3 (size bs) (size ya) (size xa) (fun b i j => continued c k ny nx (val3 z a) (fst bs + b) (fst ys - ly + i) (fst xs - lx + j)).
Proof.
  destruct MY as (Y1 & Y2 & Y3 & Y4 & Y5 & _), MX as (X1 & X2 & X3 & X4 & X5 & _). unfold W, full_array, ya, xa, size, around. destruct bs as [b0 b1]. cbn [fst snd] in *.
  rewrite slice3_tab3 by lia. apply tab3_ext. intros b i j Hb' Hi Hj. f_equal; lia.
Qed.
Lemma cut_shaped : shaped3 (size bs) (size ya) (size xa) W.
Proof.
  rewrite cut_is. destruct MY as (Y1 & Y2 & Y3 & Y4 & Y5 & _), MX as (X1 & X2 & X3 & X4 & X5 & _). apply shaped3_tab3; unfold ya, xa, size, around; cbn [fst snd]; lia.
Qed.
Definition beyond_is (beyond : option A -> Prop) : Prop :=
  match k with Unpadded => forall v, beyond v -> v = None | Null | Number _ => forall v, beyond v -> v = Some c | _ => True end.
Lemma cut_sees beyond b y x di dj v : beyond_is beyond -> fst bs <= b < snd bs -> fst ys <= y < snd ys -> fst xs <= x < snd xs ->
  - low dy <= di <= high dy -> - low dx <= dj <= high dx -> sees (at3 a b) beyond k ny nx (y + di) (x + dj) v ->
  sees (at3 W (b - fst bs)) (fun v => v = None) Unpadded (size ya) (size xa) (y - fst ys + ly + di) (x - fst xs + lx + dj) v.
Proof.
  intros BY Rb' Ry Rx Di Dj SE.
  pose proof MY as (Y1 & Y2 & Y3 & Y4 & Y5 & Y6 & Y7). pose proof MX as (X1 & X2 & X3 & X4 & X5 & X6 & X7).
  assert (IN : 0 <= y - fst ys + ly + di < size ya -> 0 <= x - fst xs + lx + dj < size xa ->
     at3 W (b - fst bs) (y - fst ys + ly + di) (x - fst xs + lx + dj) (continued c k ny nx (val3 z a) b (y + di) (x + dj))).
  { intros I J. rewrite cut_is.
    pose proof (at3_tab3 (size bs) (size ya) (size xa) (fun b i j => continued c k ny nx (val3 z a) (fst bs + b) (fst ys - ly + i) (fst xs - lx + j)) (b - fst bs) (y - fst ys + ly + di) (x - fst xs + lx + dj)) as T.
    cbv beta in T. replace (fst bs + (b - fst bs)) with b in T by lia. replace (fst ys - ly + (y - fst ys + ly + di)) with (y + di) in T by lia. replace (fst xs - lx + (x - fst xs + lx + dj)) with (x + dj) in T by lia.
    apply T; unfold size in *; lia. }
  unfold sees in SE |- *.
  assert (SRC : forall n i, source Unpadded n i = if (0 <=? i) && (i <? n) then Some i else None) by (intros; unfold source; destruct ((0 <=? i) && (i <? n)); reflexivity).
  destruct (bare k) eqn:BK.
  - assert (K : k = Unpadded) by (destruct k; try discriminate; reflexivity).
    destruct (Y7 eq_refl) as [Ya Yb]. destruct (X7 eq_refl) as [Xa Xb].
    assert (EY : ((0 <=? y - fst ys + ly + di) && (y - fst ys + ly + di <? size ya)) = ((0 <=? y + di) && (y + di <? ny))).
    { unfold ya, size, around, plus in *. cbn [fst snd] in *. lia. }
    assert (EX : ((0 <=? x - fst xs + lx + dj) && (x - fst xs + lx + dj <? size xa)) = ((0 <=? x + dj) && (x + dj <? nx))).
    { unfold xa, size, around, plus in *. cbn [fst snd] in *. lia. }
    rewrite !SRC. rewrite EY, EX. unfold beyond_is in BY. rewrite K in SE, BY. rewrite !SRC in SE.
    destruct ((0 <=? y + di) && (y + di <? ny)) eqn:C1; [|now apply BY]. destruct ((0 <=? x + dj) && (x + dj <? nx)) eqn:C2; [|now apply BY].
    destruct SE as (u & -> & T). exists u. split; [reflexivity|].
    assert (I : 0 <= y - fst ys + ly + di < size ya) by lia. assert (J : 0 <= x - fst xs + lx + dj < size xa) by lia. specialize (IN I J).
    unfold continued in IN. rewrite K, !SRC, C1, C2 in IN. now rewrite (at3_val3 z nb ny nx a b _ _ u SA T) in IN.
  - destruct (Y6 eq_refl) as [-> ->]. destruct (X6 eq_refl) as [-> ->].
    assert (I : 0 <= y - fst ys + low dy + di < size ya) by (unfold ya, size, around, plus in *; cbn [fst snd] in *; lia).
    assert (J : 0 <= x - fst xs + low dx + dj < size xa) by (unfold xa, size, around, plus in *; cbn [fst snd] in *; lia).
    specialize (IN I J). rewrite !SRC. replace ((0 <=? y - fst ys + low dy + di) && (y - fst ys + low dy + di <? size ya)) with true by lia.
    replace ((0 <=? x - fst xs + low dx + dj) && (x - fst xs + low dx + dj <? size xa)) with true by lia. unfold continued in IN.
    destruct (source k ny (y + di)) as [y'|] eqn:S1; [destruct (source k nx (x + dj)) as [x'|] eqn:S2|].
    + destruct SE as (u & -> & T). exists u. split; [reflexivity|]. now rewrite (at3_val3 z nb ny nx a b _ _ u SA T) in IN.
    + exists c. split; [|exact IN]. unfold beyond_is in BY. unfold source in S2. destruct k; try discriminate; try (now apply BY); destruct ((0 <=? x + dj) && (x + dj <? nx)); discriminate.
    + exists c. split; [|exact IN]. unfold beyond_is in BY. unfold source in S1. destruct k; try discriminate; try (now apply BY); destruct ((0 <=? y + di) && (y + di <? ny)); discriminate.
Qed.
End Cut.
Lemma beyond_value_is cast k r : beyond_is (cast (b_dtype r) (dconst k (b_nv r) (b_dtype r))) k (beyond_value cast k r).
Proof. destruct k; cbn; auto. Qed.
Lemma nan_equal_here nv v n : nv = Some n -> nan_equal v n = true <-> null_value_here nv v.
Proof.
  intros ->. unfold nan_equal, null_value_here. destruct (is_nan v) eqn:V.
  - split; [intros N; exists n; auto|]. intros (n' & [= <-] & [[N _]|E]); [exact N|]. destruct (num_eqb_not_nan _ _ E). congruence.
  - split; [intros E; exists n; auto|]. intros (n' & [= <-] & [[_ N]|E]); [congruence|exact E].
Qed.
Lemma mconst_iff v nv : mconst (Number v) nv = true <-> null_value_here nv v.
Proof. unfold mconst. destruct nv as [n|]; [now apply nan_equal_here|]. split; [discriminate|]. intros (n & [=] & _). Qed.
Lemma beyond_null_is k r : beyond_is (mconst k (b_nv r)) k (beyond_null k r).
Proof.
  destruct k as [| | | | |u]; cbn [beyond_is beyond_null]; auto. intros v (q & -> & Q). f_equal. rewrite <- mconst_iff in Q. destruct q, (mconst (Number u) (b_nv r)); try reflexivity; destruct Q as [Q1 Q2]; [specialize (Q1 eq_refl)|specialize (Q2 eq_refl)]; congruence.
Qed.
(* something is seen everywhere *)
Lemma source_range k n i i' d e : source k n i = Some i' -> - d <= i < n + e -> d <= n -> e <= n -> 0 < n -> 0 <= i' < n.
Proof. unfold source. destruct ((0 <=? i) && (i <? n)) eqn:E; [intros [= <-] R D F N; lia|]. destruct k; intros H R D F N; try discriminate; match type of H with Some ?t = _ => assert (HH : i' = t) by congruence; rewrite HH end; destruct (i <? 0) eqn:S; lia. Qed.
Lemma window_exists {A} (z : A) k dy dx nb ny nx (a : list (list (list A))) (beyond : option A -> Prop) b y x : shaped3 nb ny nx a -> fits dy ny -> fits dx nx ->
  0 <= b < nb -> 0 <= y < ny -> 0 <= x < nx -> (exists v, beyond v) ->
  exists w, window dy dx (fun di dj => sees (at3 a b) beyond k ny nx (y + di) (x + dj)) w.
Proof.
  intros S [F1 F2] [F3 F4] Hb Hy Hx [v BV].
  exists (fun di dj => match source k ny (y + di), source k nx (x + dj) with Some y', Some x' => Some (val3 z a b y' x') | _, _ => v end).
  intros di dj Di Dj. unfold sees. destruct (source k ny (y + di)) as [y'|] eqn:E1; [|exact BV]. destruct (source k nx (x + dj)) as [x'|] eqn:E2; [|exact BV].
  eexists. split; [reflexivity|]. apply (val3_at z nb ny nx); auto.
  - apply (source_range k ny _ y' (low dy) (high dy) E1); lia.
  - apply (source_range k nx _ x' (low dx) (high dx) E2); lia.
Qed.

(* ---- the inputs ---- *)
Lemma wrapper_args_split f ds ms nv id : len ds = len ms -> wrapper_args f (ds ++ (if wants_masks f then ms else [])) (Ok nv) id
  = run f ds (if wants_masks f then Some ms else None) (if wants_out_nv f then Some nv else None) id.
Proof.
  intros L. unfold wrapper_args. destruct (wants_masks f).
  - assert (E : Z.to_nat (len (ds ++ ms) / 2) = length ds).
    { unfold len in *. rewrite app_length. replace (Z.of_nat (length ds + length ms)) with (Z.of_nat (length ds) * 2) by lia. rewrite Z.div_mul by lia. lia. }
    rewrite E, firstn_app, firstn_all, Nat.sub_diag, skipn_app, skipn_all, Nat.sub_diag. cbn [firstn skipn app]. rewrite app_nil_r. destruct (wants_out_nv f); reflexivity.
  - rewrite app_nil_r. destruct (wants_out_nv f); reflexivity.
Qed.
Lemma width {A} nb ny nx (a : list (list (list A))) : shaped3 nb ny nx a -> 0 < nb -> 0 < ny -> len (nth 0 (nth 0 a []) []) = nx.
Proof.
  intros [L F] Hb Hy. destruct a as [|band a]; [unfold len in L; cbn in L; lia|]. inversion F as [|? ? [L2 F2] _]; subst. destruct band as [|row band]; [unfold len in Hy; cbn in Hy; lia|]. inversion F2; subst. reflexivity.
Qed.
Lemma pad3_full {A} (z c : A) k (b : dbound A) dy dx nb ny nx a : pads k b c -> shaped3 nb ny nx a -> 0 <= nb -> 0 <= ny -> 0 <= nx -> sides dy -> sides dx -> fits dy ny -> fits dx nx ->
  pad3 b (before dy) (before dx) (len (nth 0 (nth 0 a []) [])) a = full_array z c k dy dx nb ny nx a.
Proof.
  intros P S Hb Hy Hx [Y _] [X _] [Fy _] [Fx _]. assert (before dy <= ny) by (destruct dy; exact Fy). assert (before dx <= nx) by (destruct dx; exact Fx).
  destruct (Z.eq_dec nb 0) as [N|N].
  { destruct S as [L _]. rewrite N in *. destruct a; [reflexivity|]. rewrite len_cons in L. pose proof (len_nonneg a). lia. }
  unfold full_array. rewrite <- !added_plus. rewrite <- (pad3_tab k b c (before dy) (before dx) nb ny nx (val3 z a) (len (nth 0 (nth 0 a []) []))) by (try lia; try assumption; intros; eapply width; eauto; lia).
  f_equal. now apply shaped3_is_tab3.
Qed.

Lemma aligned_ok {B} (h : braster -> res B) (w : braster -> B) t l : (forall r, In r l -> h r = Ok (w r)) ->
  (forall c r, h (BRaster (b_dtype r) (b_nv r) c (b_data r) (b_mask r)) = h r) -> traverse h (align_to t l) = Ok (map w l).
Proof.
  intros H C. unfold align_to. induction l as [|r l IH]; [reflexivity|]. cbn [map traverse].
  replace (h (if chunks3_eqb (b_chunks r) t then r else BRaster (b_dtype r) (b_nv r) t (b_data r) (b_mask r))) with (h r) by (destruct (chunks3_eqb _ _); [reflexivity|now rewrite C]).
  rewrite H by now left. cbn [rbind]. rewrite IH by (intros; apply H; now right). reflexivity.
Qed.
Section Main.
Variables (cast : dtype -> num -> num) (f : func) (r0 : braster) (rest : list braster) (nb ny nx : Z) (depth : py) (dy dx : axdepth) (bnd : boundary) (k : kind).
Variables (dt meta : option dtype) (inf : dtype) (nva : nvarg) (nv : option num).
Let rs := r0 :: rest.
Hypothesis (Hb : 0 <= nb) (Hy : 0 <= ny) (Hx : 0 <= nx).
Hypothesis (WF : Forall (raster_of_shape nb ny nx) rs).
Hypothesis (AG : check_dtype_meta_agree dt meta = Ok tt).
Hypothesis (DM : depth_means depth dy dx) (BM : boundary_means bnd k) (FY : fits dy ny) (FX : fits dx nx).
Hypothesis (SY : k <> Unpadded -> symmetric dy /\ symmetric dx).
Hypothesis (NV : final_nv dt meta inf nva (b_dtype r0) (b_nv r0) (len rs) = Ok nv).
Let given := if wants_out_nv f then Some nv else None.

Definition whole_data (r : braster) : blk := BData (full_array NaN (cast (b_dtype r) (dconst k (b_nv r) (b_dtype r))) k dy dx nb ny nx (b_data r)).
Definition whole_mask (r : braster) : blk := BMask (full_array false (mconst k (b_nv r)) k dy dx nb ny nx (b_mask r)).
Definition whole : list blk := map whole_data rs ++ (if wants_masks f then map whole_mask rs else []).

Lemma data_ok t : traverse (continued_data cast bnd dy dx) (align_to t rs) = Ok (map whole_data rs).
Proof.
  apply aligned_ok; [|reflexivity]. intros r Hr. rewrite Forall_forall in WF. destruct (WF r Hr) as (S1 & _). destruct (depth_sides _ _ _ DM) as [SDy SDx].
  unfold continued_data. destruct (resolve_ok bnd k (b_nv r) (b_dtype r) BM) as (db & mb & -> & P1 & _). cbn [rbind]. unfold whole_data. do 2 f_equal.
  apply pad3_full; auto. now apply pads_map.
Qed.
Lemma masks_ok t : traverse (continued_mask bnd dy dx) (align_to t rs) = Ok (map whole_mask rs).
Proof.
  apply aligned_ok; [|reflexivity]. intros r Hr. rewrite Forall_forall in WF. destruct (WF r Hr) as (_ & S1 & _). destruct (depth_sides _ _ _ DM) as [SDy SDx].
  unfold continued_mask. destruct (resolve_ok bnd k (b_nv r) (b_dtype r) BM) as (db & mb & -> & _ & P2 & _). cbn [rbind]. unfold whole_mask. do 2 f_equal.
  now apply pad3_full.
Qed.

(* the blocks around one chunk *)
Section Block.
Variables (id : Z * Z * Z) (bs ys xs : Z * Z) (ly ry lx rx : Z).
Hypothesis (Rb : 0 <= fst bs <= snd bs) (Rn : snd bs <= nb).
Hypothesis (MY : margins (bare k) dy ny ys ly ry) (MX : margins (bare k) dx nx xs lx rx).
Let ya := around (bare k) dy ys ly ry.
Let xa := around (bare k) dx xs lx rx.
Definition dblocks : list blk := map (cut_blk bs ya xa) (map whole_data rs).
Definition mblocks : option (list blk) := if wants_masks f then Some (map (cut_blk bs ya xa) (map whole_mask rs)) else None.
Lemma block_args nvr : (wants_out_nv f = true -> nvr = Ok nv) -> wrapper_args f (map (cut_blk bs ya xa) whole) nvr id = run f dblocks mblocks given id.
Proof.
  intros O. rewrite (wrapper_args_nv f _ nvr nv) by exact O. unfold whole. rewrite map_app. unfold dblocks, mblocks.
  replace (map (cut_blk bs ya xa) (if wants_masks f then map whole_mask rs else [])) with (if wants_masks f then map (cut_blk bs ya xa) (map whole_mask rs) else []) by (destruct (wants_masks f); reflexivity).
  apply wrapper_args_split. now rewrite !len_map.
Qed.
Lemma block_arguments : arguments f (len rs) (size bs) (size ya) (size xa) dblocks mblocks.
Proof.
  rewrite Forall_forall in WF. split; [unfold dblocks; now rewrite !len_map|]. split.
  - unfold dblocks. rewrite map_map. apply Forall_map. rewrite Forall_forall. intros r Hr. cbn. now apply cut_shaped.
  - unfold mblocks. destruct (wants_masks f); [|reflexivity]. eexists. split; [reflexivity|]. split; [now rewrite !len_map|].
    rewrite map_map. apply Forall_map. rewrite Forall_forall. intros r Hr. cbn. now apply cut_shaped.
Qed.
Lemma sizes_ok : 0 <= size bs /\ 0 <= size ya /\ 0 <= size xa.
Proof. destruct MY as (Y1 & Y2 & Y3 & _), MX as (X1 & X2 & X3 & _). unfold size, ya, xa, around. cbn [fst snd]. lia. Qed.
Variables (b y x : Z).
Hypothesis (Ib : fst bs <= b < snd bs) (Iy : fst ys <= y < snd ys) (Ix : fst xs <= x < snd xs).
Lemma block_sees_values ws : value_windows cast k dy dx ny nx rs b y x ws -> block_windows dy dx (size ya) (size xa) dblocks (b - fst bs) (y - fst ys + ly) (x - fst xs + lx) ws.
Proof.
  unfold value_windows, block_windows, dblocks. rewrite map_map. intros V. pose proof WF as W. revert W V. generalize rs as l. intros l W V. induction V as [|r w l ws H V IH]; cbn [map]; constructor.
  - inversion W as [|? ? (S & _) W']; subst. intros di dj Di Dj. specialize (H di dj Di Dj). cbn [cut_blk whole_data data_cell].
    apply (cut_sees NaN (cast (b_dtype r) (dconst k (b_nv r) (b_dtype r))) k dy dx nb ny nx (b_data r) S Hy bs ys xs ly ry lx rx Rb Rn MY MX (beyond_value cast k r)); auto. apply beyond_value_is.
  - apply IH. now inversion W.
Qed.
Lemma block_sees_nulls ns : null_windows f k dy dx ny nx rs b y x ns -> block_mask_windows dy dx (size ya) (size xa) mblocks (b - fst bs) (y - fst ys + ly) (x - fst xs + lx) ns.
Proof.
  unfold null_windows, block_mask_windows, mblocks. destruct (wants_masks f); [|now intros ->]. intros (q & -> & V). rewrite map_map. pose proof WF as W. revert W V. generalize rs as l. intros l W V. induction V as [|r w l ws H V IH]; cbn [map]; constructor.
  - inversion W as [|? ? (_ & S & _) W']; subst. intros di dj Di Dj. specialize (H di dj Di Dj). cbn [cut_blk whole_mask mask_cell].
    apply (cut_sees false (mconst k (b_nv r)) k dy dx nb ny nx (b_mask r) S Hy bs ys xs ly ry lx rx Rb Rn MY MX (beyond_null k r)); auto. apply beyond_null_is.
  - apply IH. now inversion W.
Qed.
Lemma block_position : 0 <= b - fst bs < size bs /\ 0 <= y - fst ys + ly < size ya /\ 0 <= x - fst xs + lx < size xa
  /\ (k = Unpadded \/ within dy dx (size ya) (size xa) (y - fst ys + ly) (x - fst xs + lx)).
Proof.
  destruct MY as (Y1 & Y2 & Y3 & _ & _ & Y6 & _), MX as (X1 & X2 & X3 & _ & _ & X6 & _). unfold size, ya, xa, around, within. cbn [fst snd]. repeat split; try lia.
  destruct (bare k) eqn:K; [left; destruct k; try discriminate; reflexivity|right]. destruct (Y6 eq_refl), (X6 eq_refl). lia.
Qed.
End Block.

Lemma chunks_ok : exists bcs ycs xcs, b_chunks r0 = (bcs, ycs, xcs) /\ cuts nb bcs /\ cuts ny ycs /\ cuts nx xcs /\ ycs <> [] /\ xcs <> [].
Proof. inversion WF as [|? ? (_ & _ & CH) _]; subst. destruct (b_chunks r0) as [[bcs ycs] xcs]. exists bcs, ycs, xcs. tauto. Qed.
Definition at_chunk := let '(bcs, ycs, xcs) := b_chunks r0 in chunk_at (bare k) dy dx bcs ycs xcs.
(* the place of the cells handed over for a chunk *)
Definition handed : places := fun id n m w b y x => exists bs ys xs ly ry lx rx, at_chunk id bs ys xs ly ry lx rx
  /\ n = size bs /\ m = size ys + ly + ry /\ w = size xs + lx + rx /\ b = fst bs /\ y = fst ys - ly /\ x = fst xs - lx.
Lemma handed_at id bs ys xs ly ry lx rx : at_chunk id bs ys xs ly ry lx rx ->
  handed id (size bs) (size (around (bare k) dy ys ly ry)) (size (around (bare k) dx xs lx rx)) (fst bs) (fst ys - ly) (fst xs - lx).
Proof. intros C. exists bs, ys, xs, ly, ry, lx, rx. unfold size, around. cbn [fst snd]. repeat split; try assumption; lia. Qed.
Lemma count_ok : len (b_data r0) = nb.
Proof. inversion WF as [|? ? (S & _) _]; subst. apply S. Qed.
Lemma blocks_of {B} (z : B) (h : list blk -> Z * Z * Z -> res (arr3 B)) :
  (forall id bs ys xs ly ry lx rx, at_chunk id bs ys xs ly ry lx rx -> 0 <= fst bs <= snd bs -> snd bs <= nb -> margins (bare k) dy ny ys ly ry -> margins (bare k) dx nx xs lx rx ->
     exists a, h (map (cut_blk bs (around (bare k) dy ys ly ry) (around (bare k) dx xs lx rx)) whole) id = Ok a
       /\ shaped3 (size bs) (size (around (bare k) dy ys ly ry)) (size (around (bare k) dx xs lx rx)) a) ->
  exists G, dask_map_overlap h (bare k) dy dx (b_chunks r0) whole = Ok (tab3 nb ny nx G)
  /\ forall b y x, 0 <= b < nb -> 0 <= y < ny -> 0 <= x < nx ->
     exists id bs ys xs ly ry lx rx a, at_chunk id bs ys xs ly ry lx rx /\ fst bs <= b < snd bs /\ fst ys <= y < snd ys /\ fst xs <= x < snd xs
       /\ 0 <= fst bs <= snd bs /\ snd bs <= nb /\ margins (bare k) dy ny ys ly ry /\ margins (bare k) dx nx xs lx rx
       /\ h (map (cut_blk bs (around (bare k) dy ys ly ry) (around (bare k) dx xs lx rx)) whole) id = Ok a
       /\ at3 a (b - fst bs) (y - fst ys + ly) (x - fst xs + lx) (G b y x).
Proof.
  unfold at_chunk. intros H. destruct chunks_ok as (bcs & ycs & xcs & EC & Cb & Cy & Cx & Ny & Nx). destruct (depth_sides _ _ _ DM) as [SDy SDx]. rewrite EC in *.
  apply (overlap_blocks z h (bare k) dy dx bcs ycs xcs nb ny nx whole); auto using fits_depth.
  - intros E. apply SY. intros ->. discriminate.
  - intros E. apply SY. intros ->. discriminate.
Qed.
Lemma windows_exist b y x : 0 <= b < nb -> 0 <= y < ny -> 0 <= x < nx ->
  exists ws ns, value_windows cast k dy dx ny nx rs b y x ws /\ null_windows f k dy dx ny nx rs b y x ns.
Proof.
  intros H1 H2 H3. unfold value_windows, null_windows.
  assert (V : exists ws, Forall2 (fun r w => window dy dx (fun di dj => sees (value_at r b) (beyond_value cast k r) k ny nx (y + di) (x + dj)) w) rs ws).
  { pose proof WF as W. revert W. generalize rs as l. intros l W. induction W as [|r l (S & _) W IH]; [exists []; constructor|]. destruct IH as (ws & IH).
    destruct (window_exists NaN k dy dx nb ny nx (b_data r) (beyond_value cast k r) b y x S FY FX H1 H2 H3) as (w & Hw); [destruct k; cbn; eauto|].
    exists (w :: ws). constructor; assumption. }
  assert (N : exists ws, Forall2 (fun r w => window dy dx (fun di dj => sees (null_at r b) (beyond_null k r) k ny nx (y + di) (x + dj)) w) rs ws).
  { clear V. pose proof WF as W. revert W. generalize rs as l. intros l W. induction W as [|r l (_ & S & _) W IH]; [exists []; constructor|]. destruct IH as (ws & IH).
    destruct (window_exists false k dy dx nb ny nx (b_mask r) (beyond_null k r) b y x S FY FX H1 H2 H3) as (w & Hw); [destruct k as [| | | | |u]; cbn [beyond_null]; eauto; exists (Some (mconst (Number u) (b_nv r))), (mconst (Number u) (b_nv r)); split; [reflexivity|apply mconst_iff]|].
    exists (w :: ws). constructor; assumption. }
  destruct V as (ws & V), N as (ns & N). destruct (wants_masks f); [exists ws, (Some ns)|exists ws, None]; split; eauto.
Qed.

Lemma map_overlap_located g : located f (len rs) given handed (k = Unpadded) dy dx g ->
  exists data mask, map_overlap cast f rs depth bnd dt meta inf nva false
    = Ok (BRaster (out_data_dtype dt meta inf) nv (full nb 1, snd (fst (b_chunks r0)), snd (b_chunks r0)) data mask)
  /\ shaped3 nb ny nx data /\ shaped3 nb ny nx mask
  /\ forall b y x, 0 <= b < nb -> 0 <= y < ny -> 0 <= x < nx ->
       (exists ws ns, value_windows cast k dy dx ny nx rs b y x ws /\ null_windows f k dy dx ny nx rs b y x ns)
       /\ forall ws ns, value_windows cast k dy dx ny nx rs b y x ws -> null_windows f k dy dx ny nx rs b y x ns ->
          at3 data b y x (g b y x ws ns) /\ exists m, at3 mask b y x m /\ (m = true <-> null_value_here nv (g b y x ws ns)).
Proof.
  intros CW. set (nvr := wrapper_out_nv false dt meta inf nva (b_dtype r0) (b_nv r0) (len rs)).
  assert (ON : nvr = Ok nv) by (unfold nvr; rewrite <- NV; apply wrapper_nv_agrees; auto).
  assert (RUN : forall id bs ys xs ly ry lx rx, at_chunk id bs ys xs ly ry lx rx -> 0 <= fst bs <= snd bs -> snd bs <= nb -> margins (bare k) dy ny ys ly ry -> margins (bare k) dx nx xs lx rx ->
     exists a, wrapper f None (map (cut_blk bs (around (bare k) dy ys ly ry) (around (bare k) dx xs lx rx)) whole) nvr id = Ok a
       /\ shaped3 (size bs) (size (around (bare k) dy ys ly ry)) (size (around (bare k) dx xs lx rx)) a
       /\ forall b y x ws ns, fst bs <= b < snd bs -> fst ys <= y < snd ys -> fst xs <= x < snd xs -> value_windows cast k dy dx ny nx rs b y x ws -> null_windows f k dy dx ny nx rs b y x ns ->
            at3 a (b - fst bs) (y - fst ys + ly) (x - fst xs + lx) (g b y x ws ns)).
  { intros id bs ys xs ly ry lx rx CA Rb Rn MY MX. destruct (sizes_ok bs ys xs ly ry lx rx Rb MY MX) as (Z1 & Z2 & Z3).
    destruct (CW _ _ _ _ _ id _ _ _ Z1 Z2 Z3 (block_arguments bs ys xs ly ry lx rx Rb Rn MY MX) (handed_at _ _ _ _ _ _ _ _ CA)) as (d & E & S & V).
    exists d. split; [|split; [exact S|]].
    - unfold wrapper. rewrite (block_args id bs ys xs ly ry lx rx nvr) by auto. rewrite E. reflexivity.
    - intros b y x ws ns Ib Iy Ix VW NW. destruct (block_position bs ys xs ly ry lx rx MY MX b y x Ib Iy Ix) as (P1 & P2 & P3 & P4).
      replace b with (fst bs + (b - fst bs)) at 2 by lia. replace y with (fst ys - ly + (y - fst ys + ly)) at 2 by lia. replace x with (fst xs - lx + (x - fst xs + lx)) at 2 by lia.
      apply V; auto; [now apply block_sees_values|now apply block_sees_nulls]. }
  destruct (blocks_of NaN (fun args id => wrapper f None args nvr id)) as (G & E & HG).
  { intros id bs ys xs ly ry lx rx CA Rb Rn MY MX. destruct (RUN id bs ys xs ly ry lx rx CA Rb Rn MY MX) as (a & Ea & S & _). eauto. }
  exists (tab3 nb ny nx G), (tab3 nb ny nx (fun b i j => is_null nv (G b i j))). split; [|split; [now apply shaped3_tab3|split; [now apply shaped3_tab3|]]].
  - unfold map_overlap, rs. rewrite AG. cbn [rbind]. fold rs. pose proof (shapes_ok r0 rest nb ny nx WF) as SH. pose proof (len_align r0 rest) as LA. fold rs in SH, LA. rewrite SH. cbn [negb].
    rewrite (proj2 (depth_spec depth dy dx) DM). cbn [rbind]. rewrite (asymmetric_ok bnd k dy dx BM SY). cbn [rbind]. rewrite data_ok. cbn [rbind]. rewrite LA. fold nvr.
    replace (if wants_masks f then traverse (continued_mask bnd dy dx) (align_to (b_chunks r0) rs) else Ok []) with (Ok (if wants_masks f then map whole_mask rs else [])) by (destruct (wants_masks f); [now rewrite masks_ok|reflexivity]).
    cbn [rbind]. destruct (resolve_ok bnd k (b_nv r0) (b_dtype r0) BM) as (db & mb & -> & _ & _ & NB). cbn [rbind]. rewrite NB. fold whole. rewrite E. cbn [rbind]. rewrite NV. cbn [rbind].
    rewrite map3_tab3, count_ok. reflexivity.
  - intros b y x H1 H2 H3. split; [now apply windows_exist|]. intros ws ns VW NW.
    destruct (HG b y x H1 H2 H3) as (id & bs & ys & xs & ly & ry & lx & rx & a & CA & Ib & Iy & Ix & Rb & Rn & MY & MX & Ea & Aa).
    destruct (RUN id bs ys xs ly ry lx rx CA Rb Rn MY MX) as (a' & Ea' & _ & V). rewrite Ea in Ea'. injection Ea' as <-.
    specialize (V b y x ws ns Ib Iy Ix VW NW). pose proof (at3_fun _ _ _ _ _ _ Aa V) as EG.
    split; [rewrite <- EG; now apply (at3_tab3 nb ny nx G)|]. exists (is_null nv (G b y x)). split; [now apply (at3_tab3 nb ny nx (fun b i j => is_null nv (G b i j)))|]. rewrite EG.
    unfold is_null. destruct nv as [n|]; [|split; [discriminate|intros (n & [=] & _)]]. unfold null_value_here. destruct (is_nan n) eqn:N.
    + split; [intros I; exists n; auto|]. intros (n' & [= <-] & [[_ I]|I]); [exact I|]. destruct (num_eqb_not_nan _ _ I). congruence.
    + split; [intros I; exists n; auto|]. intros (n' & [= <-] & [[I _]|I]); [congruence|exact I].
Qed.

Lemma map_overlap_located_masked g : (wants_out_nv f = false \/ nva <> NvNone \/ out_dtype_hint dt meta <> None) -> located_masked f (len rs) given handed (k = Unpadded) dy dx g ->
  let n := match nv with Some v => v | None => default_null (out_data_dtype dt meta inf) end in
  exists data mask, map_overlap cast f rs depth bnd dt meta inf nva true
    = Ok (BRaster (out_data_dtype dt meta inf) (Some n) (full nb 1, snd (fst (b_chunks r0)), snd (b_chunks r0)) data mask)
  /\ shaped3 nb ny nx data /\ shaped3 nb ny nx mask
  /\ forall b y x, 0 <= b < nb -> 0 <= y < ny -> 0 <= x < nx ->
       (exists ws ns, value_windows cast k dy dx ny nx rs b y x ws /\ null_windows f k dy dx ny nx rs b y x ns)
       /\ forall ws ns v m, value_windows cast k dy dx ny nx rs b y x ws -> null_windows f k dy dx ny nx rs b y x ns -> g b y x ws ns = (v, m) ->
          at3 mask b y x m /\ at3 data b y x (if m then n else match out_dtype_hint dt meta with Some h => cast h v | None => v end).
Proof.
  intros OK CW n. set (nvr := wrapper_out_nv true dt meta inf nva (b_dtype r0) (b_nv r0) (len rs)).
  assert (ON : wants_out_nv f = true -> nvr = Ok nv).
  { intros W. destruct OK as [O|O]; [congruence|]. unfold nvr. rewrite <- NV. apply wrapper_nv_agrees; auto. }
  set (hint := out_dtype_hint dt meta). set (castv := fun d : arr3 num => match hint with Some h => map3 (cast h) d | None => d end).
  assert (CS : forall n m k d, shaped3 n m k d -> shaped3 n m k (castv d)) by (intros; unfold castv; destruct hint; [now apply map3_shaped|assumption]).
  assert (CV : forall d b i j v, at3 d b i j v -> at3 (castv d) b i j (match hint with Some h => cast h v | None => v end)).
  { intros d b i j v A. unfold castv. destruct hint as [h|]; [now apply (at3_map3 (cast h))|exact A]. }
  assert (RUN : forall id bs ys xs ly ry lx rx, at_chunk id bs ys xs ly ry lx rx -> 0 <= fst bs <= snd bs -> snd bs <= nb -> margins (bare k) dy ny ys ly ry -> margins (bare k) dx nx xs lx rx ->
     exists a, wrapper_pair cast f None hint (map (cut_blk bs (around (bare k) dy ys ly ry) (around (bare k) dx xs lx rx)) whole) nvr id = Ok a
       /\ shaped3 (size bs) (size (around (bare k) dy ys ly ry)) (size (around (bare k) dx xs lx rx)) a
       /\ forall b y x ws ns, fst bs <= b < snd bs -> fst ys <= y < snd ys -> fst xs <= x < snd xs -> value_windows cast k dy dx ny nx rs b y x ws -> null_windows f k dy dx ny nx rs b y x ns ->
            at3 a (b - fst bs) (y - fst ys + ly) (x - fst xs + lx) (match hint with Some h => cast h (fst (g b y x ws ns)) | None => fst (g b y x ws ns) end, snd (g b y x ws ns))).
  { intros id bs ys xs ly ry lx rx CA Rb Rn MY MX. destruct (sizes_ok bs ys xs ly ry lx rx Rb MY MX) as (Z1 & Z2 & Z3).
    destruct (CW _ _ _ _ _ id _ _ _ Z1 Z2 Z3 (block_arguments bs ys xs ly ry lx rx Rb Rn MY MX) (handed_at _ _ _ _ _ _ _ _ CA)) as (d & o & E & S1 & S2 & V).
    exists (zip3 (castv d) o). split; [|split].
    - unfold wrapper_pair. rewrite (block_args id bs ys xs ly ry lx rx nvr) by auto. rewrite E. cbn [rbind]. rewrite (same_shape_ok _ _ _ _ _ S2 S1). cbn [negb]. reflexivity.
    - apply zip3_shaped; try exact NaN; try exact false; auto.
    - intros b y x ws ns Ib Iy Ix VW NW. destruct (block_position bs ys xs ly ry lx rx MY MX b y x Ib Iy Ix) as (P1 & P2 & P3 & P4).
      destruct (V (b - fst bs) (y - fst ys + ly) (x - fst xs + lx) ws ns) as [V1 V2]; auto; [now apply block_sees_values|now apply block_sees_nulls|].
      replace (fst bs + (b - fst bs)) with b in V1, V2 by lia. replace (fst ys - ly + (y - fst ys + ly)) with y in V1, V2 by lia. replace (fst xs - lx + (x - fst xs + lx)) with x in V1, V2 by lia.
      apply (at3_zip (size bs) (size (around (bare k) dy ys ly ry)) (size (around (bare k) dx xs lx rx))); auto. }
  destruct (blocks_of (NaN, false) (fun args id => wrapper_pair cast f None hint args nvr id)) as (G & E & HG).
  { intros id bs ys xs ly ry lx rx CA Rb Rn MY MX. destruct (RUN id bs ys xs ly ry lx rx CA Rb Rn MY MX) as (a & Ea & S & _). eauto. }
  exists (tab3 nb ny nx (fun b i j => if snd (G b i j) then n else fst (G b i j))), (tab3 nb ny nx (fun b i j => snd (G b i j))). split; [|split; [now apply shaped3_tab3|split; [now apply shaped3_tab3|]]].
  - unfold map_overlap, rs. rewrite AG. cbn [rbind]. fold rs. pose proof (shapes_ok r0 rest nb ny nx WF) as SH. pose proof (len_align r0 rest) as LA. fold rs in SH, LA. rewrite SH. cbn [negb].
    rewrite (proj2 (depth_spec depth dy dx) DM). cbn [rbind]. rewrite (asymmetric_ok bnd k dy dx BM SY). cbn [rbind]. rewrite data_ok. cbn [rbind]. rewrite LA. fold nvr hint.
    replace (if wants_masks f then traverse (continued_mask bnd dy dx) (align_to (b_chunks r0) rs) else Ok []) with (Ok (if wants_masks f then map whole_mask rs else [])) by (destruct (wants_masks f); [now rewrite masks_ok|reflexivity]).
    cbn [rbind]. destruct (resolve_ok bnd k (b_nv r0) (b_dtype r0) BM) as (db & mb & -> & _ & _ & NB). cbn [rbind]. rewrite NB. fold whole. rewrite E. cbn [rbind]. rewrite NV. cbn [rbind]. fold n.
    rewrite !map3_tab3, where3_tab3, count_ok. reflexivity.
  - intros b y x H1 H2 H3. split; [now apply windows_exist|]. intros ws ns v m VW NW GE.
    destruct (HG b y x H1 H2 H3) as (id & bs & ys & xs & ly & ry & lx & rx & a & CA & Ib & Iy & Ix & Rb & Rn & MY & MX & Ea & Aa).
    destruct (RUN id bs ys xs ly ry lx rx CA Rb Rn MY MX) as (a' & Ea' & _ & V). rewrite Ea in Ea'. injection Ea' as <-.
    specialize (V b y x ws ns Ib Iy Ix VW NW). rewrite GE in V. cbn [fst snd] in V. pose proof (at3_fun _ _ _ _ _ _ Aa V) as EG.
    pose proof (at3_tab3 nb ny nx (fun b i j => snd (G b i j)) b y x H1 H2 H3) as T1. pose proof (at3_tab3 nb ny nx (fun b i j => if snd (G b i j) then n else fst (G b i j)) b y x H1 H2 H3) as T2.
    cbv beta in T1, T2. rewrite EG in T1, T2. split; assumption.
Qed.

Lemma map_overlap_cells g : windowed f (len rs) given (k = Unpadded) dy dx g ->
  exists data mask, map_overlap cast f rs depth bnd dt meta inf nva false
    = Ok (BRaster (out_data_dtype dt meta inf) nv (full nb 1, snd (fst (b_chunks r0)), snd (b_chunks r0)) data mask)
  /\ shaped3 nb ny nx data /\ shaped3 nb ny nx mask
  /\ forall b y x, 0 <= b < nb -> 0 <= y < ny -> 0 <= x < nx ->
       (exists ws ns, value_windows cast k dy dx ny nx rs b y x ws /\ null_windows f k dy dx ny nx rs b y x ns)
       /\ forall ws ns, value_windows cast k dy dx ny nx rs b y x ws -> null_windows f k dy dx ny nx rs b y x ns ->
          at3 data b y x (g ws ns) /\ exists m, at3 mask b y x m /\ (m = true <-> null_value_here nv (g ws ns)).
Proof.
  intros W. apply (map_overlap_located (fun _ _ _ => g)). intros n m w xs ms id b0 y0 x0 H1 H2 H3 A _. exact (W n m w xs ms id H1 H2 H3 A).
Qed.
Lemma map_overlap_masked g : (wants_out_nv f = false \/ nva <> NvNone \/ out_dtype_hint dt meta <> None) -> windowed_masked f (len rs) given (k = Unpadded) dy dx g ->
  let n := match nv with Some v => v | None => default_null (out_data_dtype dt meta inf) end in
  exists data mask, map_overlap cast f rs depth bnd dt meta inf nva true
    = Ok (BRaster (out_data_dtype dt meta inf) (Some n) (full nb 1, snd (fst (b_chunks r0)), snd (b_chunks r0)) data mask)
  /\ shaped3 nb ny nx data /\ shaped3 nb ny nx mask
  /\ forall b y x, 0 <= b < nb -> 0 <= y < ny -> 0 <= x < nx ->
       (exists ws ns, value_windows cast k dy dx ny nx rs b y x ws /\ null_windows f k dy dx ny nx rs b y x ns)
       /\ forall ws ns v m, value_windows cast k dy dx ny nx rs b y x ws -> null_windows f k dy dx ny nx rs b y x ns -> g ws ns = (v, m) ->
          at3 mask b y x m /\ at3 data b y x (if m then n else match out_dtype_hint dt meta with Some h => cast h v | None => v end).
Proof.
  intros O W. apply (map_overlap_located_masked (fun _ _ _ => g) O). intros n m w xs ms id b0 y0 x0 H1 H2 H3 A _. exact (W n m w xs ms id H1 H2 H3 A).
Qed.
End Main.

(* ---- calls that are refused ---- *)
Lemma shapes_differ_refused r0 rest r n m k n' m' k' : In r rest -> 0 < n -> 0 < m -> shaped3 n m k (b_data r0) -> shaped3 n' m' k' (b_data r) -> n <> n' \/ m <> m' \/ k <> k' ->
  forallb (fun q => same_shape3 (b_data q) (b_data r0)) (r0 :: rest) = false.
Proof.
  intros I Hn Hm S1 S2 NE.
  apply not_true_is_false. intros F. rewrite forallb_forall in F. specialize (F r (or_intror I)). unfold same_shape3 in F. apply lists_eqb_eq in F.
  unfold len3 in F. destruct S1 as [L1 F1], S2 as [L2 F2].
  assert (EN : n' = n) by (rewrite <- L1, <- L2, <- (len_map (fun band => map (fun row => len row) band) (b_data r)), F; apply len_map).
  destruct (b_data r0) as [|x0 t0]; [unfold len in L1; cbn in L1; lia|]. destruct (b_data r) as [|x t]; [discriminate|]. cbn [map] in F. injection F as F _.
  inversion F1 as [|? ? [B1 R1] _]; subst. inversion F2 as [|? ? [B2 R2] _]; subst.
  assert (EM : len x = len x0) by (rewrite <- (len_map (fun row => len row) x), F; apply len_map).
  destruct x0 as [|y0 u0]; [unfold len in Hm; cbn in Hm; lia|]. destruct x as [|y u]; [discriminate|]. cbn [map] in F. injection F as F _.
  inversion R1; subst. inversion R2; subst. lia.
Qed.
Lemma no_meaning_resolve b : (forall k, ~ boundary_means b k) -> forall nv d, resolve_boundary b nv d = Err ValueError.
Proof.
  intros N nv d. destruct b as [|s|v]; [exfalso; eapply N; constructor| |exfalso; eapply N; constructor].
  cbn [resolve_boundary]. assert (E : forall t k, (lower s = t -> boundary_means (BStr s) k) -> str_eqb (lower s) t = false).
  { intros t k H. unfold str_eqb. destruct (list_eq_dec _ (lower s) t) as [E|E]; [|reflexivity]. exfalso. exact (N k (H E)). }
  rewrite (E s_null Null) by (intros; constructor; auto). rewrite (E s_null_value Null) by (intros; constructor; auto). rewrite (E s_nodata Null) by (intros; constructor; auto).
  rewrite (E s_reflect Mirrored) by (intros; constructor; auto). rewrite (E s_periodic Repeated) by (intros; constructor; auto). rewrite (E s_nearest Closest) by (intros; constructor; auto). rewrite (E s_none Unpadded) by (intros; constructor; auto).
  reflexivity.
Qed.
Lemma grow_refused d n c : sides d -> n < depth_for_axis d -> cuts n c -> c <> [] -> grow (depth_for_axis d) c = Err ValueError.
Proof.
  intros S L C N. destruct (sides_max d S) as (M0 & _). destruct (cuts_sum _ _ C) as [F SM]. pose proof (sum_nonneg c F). unfold grow. replace (depth_for_axis d =? 0) with false by lia.
  destruct (minimum_spec (depth_for_axis d) c ltac:(lia) N F) as [_ M2]. apply M2. lia.
Qed.
Lemma fits_not d n : ~ fits d n -> n < depth_for_axis d.
Proof. unfold fits. destruct d; cbn; lia. Qed.
Lemma traverse_first {A B} (h : A -> res B) l e : l <> [] -> (forall x, In x l -> h x = Err e) -> traverse h l = Err e.
Proof. intros N H. destruct l as [|x l]; [contradiction|]. cbn. now rewrite H by now left. Qed.
Section Refused.
Variables (cast : dtype -> num -> num) (f : func) (dt meta : option dtype) (inf : dtype) (nva : nvarg) (rm : bool).
Lemma agree_cases : check_dtype_meta_agree dt meta = Ok tt \/ check_dtype_meta_agree dt meta = Err ValueError.
Proof. unfold check_dtype_meta_agree. destruct dt, meta; auto. destruct (dtype_eqb d d0); auto. Qed.
Lemma map_overlap_refused depth b :
  map_overlap cast f [] depth b dt meta inf nva rm = Err ValueError
  /\ (forall d m rs, dt = Some d -> meta = Some m -> dtype_eqb d m = false -> map_overlap cast f rs depth b dt meta inf nva rm = Err ValueError)
  /\ (forall r0 rest r n m k n' m' k', In r rest -> 0 < n -> 0 < m -> shaped3 n m k (b_data r0) -> shaped3 n' m' k' (b_data r) -> n <> n' \/ m <> m' \/ k <> k' ->
       map_overlap cast f (r0 :: rest) depth b dt meta inf nva rm = Err ValueError)
  /\ (forall rs, (forall dy dx, ~ depth_means depth dy dx) ->
       map_overlap cast f rs depth b dt meta inf nva rm = Err ValueError \/ map_overlap cast f rs depth b dt meta inf nva rm = Err TypeError)
  /\ (forall rs dy dx k, depth_means depth dy dx -> boundary_means b k -> k <> Unpadded -> ~ symmetric dy \/ ~ symmetric dx -> map_overlap cast f rs depth b dt meta inf nva rm = Err ValueError)
  /\ (forall rs dy dx, depth_means depth dy dx -> (forall k, ~ boundary_means b k) -> map_overlap cast f rs depth b dt meta inf nva rm = Err ValueError).
Proof.
  split; [reflexivity|]. split; [|split; [|split; [|split]]].
  - intros d m rs -> -> E. destruct rs; [reflexivity|]. cbn [map_overlap check_dtype_meta_agree]. now rewrite E.
  - intros r0 rest r n m k n' m' k' I Hn Hm S1 S2 NE. unfold map_overlap. destruct agree_cases as [-> | ->]; [|reflexivity]. cbn [rbind].
    rewrite (shapes_differ_refused r0 rest r n m k n' m' k') by assumption. reflexivity.
  - intros rs N. destruct rs as [|r0 rest]; [now left|]. unfold map_overlap. destruct agree_cases as [-> | ->]; [|now left]. cbn [rbind]. destruct (negb _); [now left|].
    destruct (depth_cases depth) as [(dy & dx & E)|[-> | ->]]; [exfalso; apply depth_spec in E; exact (N _ _ E)|now left|now right].
  - intros rs dy dx k D B K NS. destruct rs as [|r0 rest]; [reflexivity|]. unfold map_overlap. destruct agree_cases as [-> | ->]; [|reflexivity]. cbn [rbind]. destruct (negb _); [reflexivity|].
    rewrite (proj2 (depth_spec depth dy dx) D). cbn [rbind]. replace (check_asymmetric (Sym 0, dy, dx) b) with (@Err unit ValueError); [reflexivity|].
    unfold check_asymmetric. replace (match b with BNone => true | BStr s => str_eqb (lower s) s_none | BNum _ => false end) with false.
    + destruct dy as [n|l r]; [|reflexivity]. destruct dx as [n'|l r]; [|reflexivity]. exfalso. destruct NS as [NS|NS]; apply NS; eexists; reflexivity.
    + destruct B as [ |s E|s E|s E|s E|s E|v]; try contradiction; try (rewrite E; reflexivity); [|reflexivity]. destruct E as [-> |[-> | ->]]; reflexivity.
  - intros rs dy dx D N. destruct rs as [|r0 rest]; [reflexivity|]. unfold map_overlap. destruct agree_cases as [-> | ->]; [|reflexivity]. cbn [rbind]. destruct (negb _); [reflexivity|].
    rewrite (proj2 (depth_spec depth dy dx) D). cbn [rbind].
    assert (C : check_asymmetric (Sym 0, dy, dx) b = Ok tt \/ check_asymmetric (Sym 0, dy, dx) b = Err ValueError) by (unfold check_asymmetric; destruct (match b with BNone => true | BStr s => str_eqb (lower s) s_none | BNum _ => false end), (is_tuple dy), (is_tuple dx); auto).
    destruct C as [-> | ->]; [|reflexivity]. cbn [rbind]. rewrite (traverse_first _ _ ValueError); [reflexivity|unfold align_to; discriminate|].
    intros r _. unfold continued_data. now rewrite no_meaning_resolve.
Qed.
Lemma map_overlap_too_deep depth b r0 rest nb ny nx dy dx k : 0 <= nb -> 0 <= ny -> 0 <= nx -> Forall (raster_of_shape nb ny nx) (r0 :: rest) ->
  depth_means depth dy dx -> boundary_means b k -> ~ fits dy ny \/ ~ fits dx nx -> map_overlap cast f (r0 :: rest) depth b dt meta inf nva rm = Err ValueError.
Proof.
  intros Hb Hy Hx WF D B NF. unfold map_overlap. destruct agree_cases as [-> | ->]; [|reflexivity]. cbn [rbind]. destruct (negb _); [reflexivity|].
  rewrite (proj2 (depth_spec depth dy dx) D). cbn [rbind].
  assert (C : check_asymmetric (Sym 0, dy, dx) b = Ok tt \/ check_asymmetric (Sym 0, dy, dx) b = Err ValueError) by (unfold check_asymmetric; destruct (match b with BNone => true | BStr s => str_eqb (lower s) s_none | BNum _ => false end), (is_tuple dy), (is_tuple dx); auto).
  destruct C as [-> | ->]; [|reflexivity]. cbn [rbind].
  assert (T : forall l, exists o, traverse (continued_data cast b dy dx) l = Ok o).
  { induction l as [|r l [o IH]]; [eexists; reflexivity|]. cbn [traverse]. unfold continued_data at 1. destruct (resolve_ok b k (b_nv r) (b_dtype r) B) as (db & mb & -> & _). cbn [rbind]. rewrite IH. eexists. reflexivity. }
  assert (T2 : forall l, exists o, traverse (continued_mask b dy dx) l = Ok o).
  { induction l as [|r l [o IH]]; [eexists; reflexivity|]. cbn [traverse]. unfold continued_mask at 1. destruct (resolve_ok b k (b_nv r) (b_dtype r) B) as (db & mb & -> & _). cbn [rbind]. rewrite IH. eexists. reflexivity. }
  destruct (T (align_to (b_chunks r0) (r0 :: rest))) as [o1 ->]. cbn [rbind].
  assert (M : exists o, (if wants_masks f then traverse (continued_mask b dy dx) (align_to (b_chunks r0) (r0 :: rest)) else Ok []) = Ok o) by (destruct (wants_masks f); [apply T2|eexists; reflexivity]).
  destruct M as [o2 ->]. cbn [rbind]. destruct (resolve_ok b k (b_nv r0) (b_dtype r0) B) as (db & mb & -> & _). cbn [rbind].
  assert (DE : forall X (h : list blk -> Z * Z * Z -> res (arr3 X)), dask_map_overlap h (adds_nothing db) dy dx (b_chunks r0) (o1 ++ o2) = Err ValueError).
  { intros X h. inversion WF as [|? ? (_ & _ & CH) _]; subst. destruct (b_chunks r0) as [[bcs ycs] xcs]. destruct CH as (_ & Cy & Cx & _ & Ny & Nx). destruct (depth_sides _ _ _ D) as [SDy SDx]. unfold dask_map_overlap.
    destruct (Z_lt_ge_dec ny (depth_for_axis dy)) as [L|L]; [now rewrite (grow_refused dy ny ycs)|].
    destruct (grow_ok dy ny ycs SDy ltac:(lia) Cy Ny) as (o & -> & _). cbn [rbind].
    destruct NF as [NF|NF]; apply fits_not in NF; [lia|]. now rewrite (grow_refused dx nx xcs). }
  rewrite !DE. destruct rm; reflexivity.
Qed.
End Refused.
