From Coq Require Import QArith Qround Lqa String Lia.
From Verif Require Import Base BaseFacts Scalars Arr2 Arr2Facts ChunksProofs RasterStack PadProofs Grids GridsProofs FocalSpec BandsSpec Bands Vectors VectorsProofs Frames FramesProofs Extract ExtractSpec.
Open Scope Z_scope.

(* ---- lists ---- *)
Lemma full_const {A B} (d : A) (l : list B) : full (len l) d = map (fun _ => d) l.
Proof. unfold full, len. rewrite Nat2Z.id. induction l; cbn [length repeat map]; congruence. Qed.
Lemma put_where_spec {A B} (g : B -> bool) (f : B -> A) (d : A) l :
  put_where (map g l) (map f (where_true (map g l) l)) (full (len l) d) = Ok (map (fun x => if g x then f x else d) l).
Proof.
  rewrite full_const. unfold where_true. induction l as [|a l IH]; [reflexivity|]. cbn [map combine filter fst].
  destruct (g a); cbn [map snd put_where]; rewrite IH; reflexivity.
Qed.
Lemma where_true_good {A} (g : A -> bool) l a : In a (where_true (map g l) l) -> g a = true.
Proof.
  unfold where_true. induction l as [|b l IH]; [intros []|]. cbn [map combine filter fst]. destruct (g b) eqn:E; cbn [map snd]; [intros [<-|H]; auto|auto].
Qed.
Lemma get_concat {A} (n : Z) (h : Z -> list A) nb : 0 <= nb -> (forall i, 0 <= i < nb -> len (h i) = n) ->
  len (concat (map h (zrange 0 nb))) = n * nb /\ forall i k, 0 <= i < nb -> 0 <= k < n -> get (concat (map h (zrange 0 nb))) (n * i + k) = get (h i) k.
Proof.
  intros Hb. pattern nb. apply natlike_ind; [..|exact Hb]; clear nb Hb.
  - intros _. split; [cbn; lia|intros; lia].
  - intros nb Hb IH H. destruct IH as [L G]; [intros; apply H; lia|]. unfold Z.succ in *. rewrite zrange_snoc, map_app, concat_app by lia. cbn [map concat]. rewrite app_nil_r.
    specialize (H nb ltac:(lia)) as Hn. rewrite len_app, L, Hn. split; [nia|]. intros i k Hi Hk.
    destruct (Z.eq_dec i nb) as [-> |N].
    + rewrite get_app2 by nia. f_equal. rewrite L. lia.
    + rewrite get_app1 by nia. apply G; lia.
Qed.
Lemma concat_ranges n nb : 0 <= n -> 0 <= nb -> concat (map (fun i => zrange (n * i) (n * (i + 1))) (zrange 0 nb)) = zrange 0 (n * nb).
Proof.
  intros Hn Hb. pattern nb. apply natlike_ind; [..|exact Hb]; clear nb Hb.
  - now rewrite Z.mul_0_r.
  - intros nb Hb IH. unfold Z.succ. rewrite zrange_snoc, map_app, concat_app, IH by lia. cbn [map concat]. rewrite app_nil_r.
    symmetry. apply zrange_join. nia.
Qed.
Lemma fold_rows {I} (ix : I -> list Z) (a b : I -> list num) k1 k2 l : forall x y z,
  fold_left concat_rows (map (fun i => Frame (ix i) [(k1, NumCol (a i)); (k2, NumCol (b i))]) l) (Frame x [(k1, NumCol y); (k2, NumCol z)])
  = Frame (x ++ concat (map ix l)) [(k1, NumCol (y ++ concat (map a l))); (k2, NumCol (z ++ concat (map b l)))].
Proof.
  induction l as [|i l IH]; intros x y z; cbn [map fold_left concat]; [now rewrite !app_nil_r|]. unfold concat_rows at 2. cbn [index columns combine map append_columns].
  rewrite IH. now rewrite !app_assoc.
Qed.
Lemma fold_columns {I} (c : I -> string * column_data) ix l : forall cols,
  fold_left concat_columns (map (fun i => Frame ix [c i]) l) (Frame ix cols) = Frame ix (cols ++ map c l).
Proof.
  induction l as [|i l IH]; intros cols; cbn [map fold_left]; [now rewrite app_nil_r|]. unfold concat_columns at 2. cbn [index columns]. rewrite IH.
  now rewrite <- app_assoc.
Qed.

(* ---- one band ---- *)
Section Band.
Variables (cast : dtype -> num -> num) (t : affine Q) (nr nc : Z).
Definition inside (p : Z * Z) : bool := let '(r, c) := p in (r >=? 0) && (r <? nr) && (c >=? 0) && (c <? nc).
Lemma inside_iff r c : inside (r, c) = true <-> 0 <= r < nr /\ 0 <= c < nc.
Proof. unfold inside. rewrite !andb_true_iff, !Z.geb_le, !Z.ltb_lt. lia. Qed.
Lemma at_get {A} (d : A) (a : list (list A)) r c : shaped2 nr nc a -> 0 <= r < nr -> 0 <= c < nc -> exists row, get a r = Ok row /\ get row c = Ok (val2 d a r c).
Proof.
  intros [L F] Hr Hc. destruct (get_range a r ltac:(lia)) as [row E]. exists row. split; [exact E|]. unfold val2. rewrite E.
  rewrite Forall_forall in F. assert (In row a) as I by (eapply get_in; eauto). specialize (F _ I). destruct (get_range row c ltac:(lia)) as [x Ex]. now rewrite Ex.
Qed.
Lemma vindex_ok {A} (d : A) a i band cells : get a i = Ok band -> shaped2 nr nc band -> (forall p, In p cells -> inside p = true) ->
  vindex a i cells = Ok (map (fun p => val2 d band (fst p) (snd p)) cells).
Proof.
  intros E S H. unfold vindex. apply traverse_ok. intros [r c] Hp. specialize (H _ Hp). apply inside_iff in H as [Hr Hc].
  assert (forall B (l : list B) k, 0 <= k -> get_wrapped l k = get l k) as W.
  { intros B l k Hk. unfold get_wrapped. destruct (Z.ltb_spec k 0); [lia|reflexivity]. }
  rewrite !W by (apply get_ok_range in E; lia). rewrite E. cbn [rbind].
  destruct (at_get d band r c S Hr Hc) as (row & E1 & E2). rewrite !W by lia. rewrite E1. cbn [rbind]. rewrite W by lia. exact E2.
Qed.
Definition cell_value (bd : list (list num)) (bm : list (list bool)) (p : Z * Z) : num :=
  if inside p then if val2 false bm (fst p) (snd p) then NaN else cast F64 (val2 NaN bd (fst p) (snd p)) else NaN.
Lemma extract_band_ok data mask i bd bm cells : get data i = Ok bd -> get mask i = Ok bm -> shaped2 nr nc bd -> shaped2 nr nc bm ->
  extract_band cast data mask i (len (map inside cells)) (map inside cells) cells = Ok (map (cell_value bd bm) cells).
Proof.
  intros Ed Em Sd Sm. unfold extract_band.
  assert (W : forall p, In p (where_true (map inside cells) cells) -> inside p = true) by (intros p; apply where_true_good).
  rewrite (vindex_ok NaN data i bd _ Ed Sd W). cbn [rbind]. rewrite map_map, len_map, put_where_spec. cbn [rbind].
  rewrite (vindex_ok false mask i bm _ Em Sm W). cbn [rbind]. rewrite put_where_spec. cbn [rbind]. f_equal.
  clear W. induction cells as [|p cells IH]; [reflexivity|]. cbn [map combine]. rewrite IH. f_equal. unfold cell_value. now destruct (inside p).
Qed.
Lemma proper_det : proper t -> ~ (det t == 0)%Q.
Proof. unfold proper, det. intros P H. apply P. lra. Qed.
Lemma cell_value_under bd bm g p : proper t -> shaped2 nr nc bd -> shaped2 nr nc bm -> coordinates g = Ok p ->
  value_under cast t nr nc bd bm g (cell_value bd bm (cell_index t p)).
Proof.
  intros P Sd Sm E. apply proper_det in P. destruct g as [x y| |]; cbn [coordinates] in E; [|injection E as <-; reflexivity|discriminate].
  injection E as <-. cbn [value_under cell_index]. destruct (qindex x y t) as [r0 c0] eqn:Q0. split.
  - intros r c Hr Hc (u & v & [U1 U2] & [V1 V2] & Ex & Ey).
    assert (K : qindex x y t = (r, c)) by (apply (index_point t r c u v x y); assumption). rewrite K in Q0. injection Q0 as <- <-.
    unfold cell_value. rewrite (proj2 (inside_iff r c)) by lia. cbn [fst snd]. split.
    + intros (row & E1 & E2). unfold val2 at 1. now rewrite E1, E2.
    + intros w (row & E1 & E2) (row' & E3 & E4). unfold val2 at 1. rewrite E1, E2. unfold val2. now rewrite E3, E4.
  - intros H. unfold cell_value. destruct (inside (r0, c0)) eqn:I; [|reflexivity]. apply inside_iff in I as [Hr Hc]. exfalso.
    destruct (point_index t x y r0 c0 P Q0) as (u & v & U1 & U2 & V1 & V2 & Ex & Ey). apply (H r0 c0 Hr Hc). exists u, v. repeat split; assumption.
Qed.
End Band.

(* ---- the frames ---- *)
Section Whole.
Variables (cast : dtype -> num -> num) (reproject : Z -> Z -> geometry -> geometry).
Definition vals (t : affine Q) nr nc data mask (xy : list (option (Q * Q))) (i : Z) : list num :=
  match get data i, get mask i with
  | Ok bd, Ok bm => map (fun p => cell_value cast nr nc bd bm (cell_index t p)) xy
  | _, _ => []
  end.
Lemma len_vals t nb nr nc data mask xy i : shaped3 nb nr nc data -> shaped3 nb nr nc mask -> 0 <= i < nb -> len (vals t nr nc data mask xy i) = len xy.
Proof.
  intros [Ld _] [Lm _] Hi. unfold vals. destruct (get_range data i ltac:(lia)) as [bd ->]. destruct (get_range mask i ltac:(lia)) as [bm ->]. apply len_map.
Qed.
Lemma frames_ok t nb nr nc data mask xy axis name : shaped3 nb nr nc data -> shaped3 nb nr nc mask ->
  let cells := map (cell_index t) xy in let valid := map (inside nr nc) cells in
  traverse (fun i => let* extracted := extract_band cast data mask i (len valid) valid cells in Ok (band_frame axis i (len valid) name extracted)) (zrange 0 nb)
  = Ok (map (fun i => band_frame axis i (len xy) name (vals t nr nc data mask xy i)) (zrange 0 nb)).
Proof.
  intros [Ld Fd] [Lm Fm] cells valid. apply traverse_ok. intros i Hi. apply zrange_in in Hi. unfold vals.
  destruct (get_range data i ltac:(lia)) as [bd Ed]. destruct (get_range mask i ltac:(lia)) as [bm Em]. rewrite Ed, Em.
  rewrite Forall_forall in Fd, Fm. unfold valid. rewrite (extract_band_ok cast nr nc data mask i bd bm cells Ed Em (Fd _ (get_in _ _ _ Ed)) (Fm _ (get_in _ _ _ Em))).
  cbn [rbind]. unfold cells. rewrite !map_map, !len_map. reflexivity.
Qed.
Lemma coords_ok gs : points_only gs -> exists xy, traverse coordinates gs = Ok xy /\ len xy = len gs /\ forall k g, get gs k = Ok g -> exists p, get xy k = Ok p /\ coordinates g = Ok p.
Proof.
  unfold points_only. induction gs as [|g gs IH]; intros H.
  - exists []. split; [reflexivity|split; [reflexivity|]]. intros k g E. destruct (get_nil _ _ E).
  - destruct IH as (xy & E & L & G); [intros I; apply H; now right|].
    assert (exists p, coordinates g = Ok p) as [p Ep]. { destruct g; cbn; [eauto..|]. exfalso. apply H. now left. }
    exists (p :: xy). cbn [traverse]. rewrite Ep. cbn [rbind]. rewrite E. split; [reflexivity|]. split; [now rewrite !len_cons, L|].
    intros k g' Ek. pose proof (get_ok_range _ _ _ Ek) as Hk. destruct (Z.eq_dec k 0) as [-> |N].
    + rewrite get_cons0 in Ek. injection Ek as <-. rewrite get_cons0. eauto.
    + rewrite get_cons in Ek by lia. rewrite get_cons by lia. eauto.
Qed.
Lemma vals_under t nb nr nc data mask gs xy i k g bd bm : proper t -> shaped3 nb nr nc data -> shaped3 nb nr nc mask ->
  (forall k g, get gs k = Ok g -> exists p, get xy k = Ok p /\ coordinates g = Ok p) ->
  get data i = Ok bd -> get mask i = Ok bm -> get gs k = Ok g ->
  exists v, get (vals t nr nc data mask xy i) k = Ok v /\ value_under cast t nr nc bd bm g v.
Proof.
  intros P [Ld Fd] [Lm Fm] G Ed Em Eg. destruct (G k g Eg) as (p & Ep & Ec). unfold vals. rewrite Ed, Em.
  rewrite Forall_forall in Fd, Fm. eexists. split; [rewrite get_map_eq, Ep; reflexivity|].
  apply cell_value_under; auto; [apply Fd|apply Fm]; eapply get_in; eauto.
Qed.
Lemma name_eqb name : name <> ""%string -> String.eqb name "" = false.
Proof. intros N. now apply String.eqb_neq. Qed.
Lemma points_all gs : points_only gs <-> forallb is_point gs = true.
Proof.
  rewrite forallb_forall. unfold points_only. split.
  - intros H [ | |] I; try reflexivity. contradiction.
  - intros H I. specialize (H _ I). discriminate.
Qed.
Lemma extract_start rc pc gs t nb nr nc data mask name skip axis : same_crs rc pc -> points_only gs -> name <> ""%string ->
  shaped3 nb nr nc data -> shaped3 nb nr nc mask ->
  exists xy, len xy = len gs /\ (forall k g, get gs k = Ok g -> exists p, get xy k = Ok p /\ coordinates g = Ok p) /\
  extract_points cast reproject rc pc gs t nb nr nc data mask name skip axis
  = concat_frames axis (map (fun i => band_frame axis i (len xy) name (vals t nr nc data mask xy i)) (zrange 0 nb)).
Proof.
  intros C P N Sd Sm. destruct (coords_ok gs P) as (xy & E & L & G). exists xy. split; [exact L|split; [exact G|]].
  unfold extract_points. rewrite (name_eqb _ N), (proj1 (points_all gs) P), andb_false_r.
  replace (match rc with Some rc => match pc with Some pc => Ok (if rc =? pc then gs else map (reproject pc rc) gs) | None => Err ValueError end | None => Ok gs end) with (Ok gs)
    by (destruct C as [-> |<-]; [reflexivity|destruct rc; [now rewrite Z.eqb_refl|reflexivity]]).
  cbn [rbind]. rewrite E. cbn [rbind]. cbv zeta. pose proof (frames_ok t nb nr nc data mask xy axis name Sd Sm) as F. cbv zeta in F. unfold inside in F. rewrite F. reflexivity.
Qed.
Lemma zrange_first nb : 0 < nb -> zrange 0 nb = 0 :: zrange 1 nb.
Proof. intros H. rewrite (zrange_join 0 1 nb) by lia. reflexivity. Qed.
Lemma rows rc pc gs t nb nr nc data mask name skip : same_crs rc pc -> points_only gs -> name <> ""%string -> name <> "band"%string ->
  0 < nb -> proper t -> shaped3 nb nr nc data -> shaped3 nb nr nc mask ->
  exists bands values, extract_points cast reproject rc pc gs t nb nr nc data mask name skip 0
    = Ok (Frame (zrange 0 (nb * len gs)) [("band"%string, NumCol bands); (name, NumCol values)])
  /\ len bands = nb * len gs /\ len values = nb * len gs
  /\ forall i k g bd bm, get data i = Ok bd -> get mask i = Ok bm -> get gs k = Ok g ->
     get bands (i * len gs + k) = Ok (of_Z (i + 1)) /\ exists v, get values (i * len gs + k) = Ok v /\ value_under cast t nr nc bd bm g v.
Proof.
  intros C P N NB Hb PT Sd Sm. destruct (extract_start rc pc gs t nb nr nc data mask name skip 0 C P N Sd Sm) as (xy & L & G & ->).
  unfold concat_frames. rewrite (zrange_first nb Hb). cbn [map]. cbn [Z.eqb].
  assert (BF : forall i, band_frame 0 i (len xy) name (vals t nr nc data mask xy i)
     = Frame (zrange (len xy * i) (len xy * (i + 1))) [("band"%string, NumCol (full (len xy) (of_Z (i + 1)))); (name, NumCol (vals t nr nc data mask xy i))]).
  { intros i. unfold band_frame. cbn [Z.eqb set_column]. destruct (String.eqb_spec "band" name) as [Eq|_]; [congruence|reflexivity]. }
  erewrite map_ext by apply BF. rewrite BF.
  rewrite (fold_rows (fun i => zrange (len xy * i) (len xy * (i + 1))) (fun i => full (len xy) (of_Z (i + 1))) (fun i => vals t nr nc data mask xy i)).
  set (hb := fun i => full (len xy) (of_Z (i + 1))). set (hv := fun i => vals t nr nc data mask xy i). set (hi := fun i => zrange (len xy * i) (len xy * (i + 1))).
  change (zrange (len xy * 0) (len xy * (0 + 1))) with (hi 0). change (full (len xy) (of_Z (0 + 1))) with (hb 0). change (vals t nr nc data mask xy 0) with (hv 0).
  assert (CC : forall A (h : Z -> list A), h 0 ++ concat (map h (zrange 1 nb)) = concat (map h (zrange 0 nb))).
  { intros A h. now rewrite (zrange_first nb Hb). }
  rewrite !CC. unfold hi. pose proof (len_nonneg xy) as L0. rewrite concat_ranges by lia.
  destruct (get_concat (len xy) hb nb ltac:(lia)) as [Lb Gb]; [intros; unfold hb; now apply full_len|].
  destruct (get_concat (len xy) hv nb ltac:(lia)) as [Lv Gv]; [intros; unfold hv; now apply (len_vals t nb)|].
  exists (concat (map hb (zrange 0 nb))), (concat (map hv (zrange 0 nb))). rewrite <- L. split; [now rewrite (Z.mul_comm nb)|].
  split; [rewrite Lb; lia|split; [rewrite Lv; lia|]]. intros i k g bd bm Ed Em Eg.
  assert (0 <= i < nb) as Hi. { destruct Sd as [Ld _]. apply get_ok_range in Ed. lia. }
  assert (0 <= k < len xy) as Hk by (apply get_ok_range in Eg; lia).
  rewrite (Z.mul_comm i). rewrite Gb, Gv by assumption. split; [unfold hb; now rewrite get_full|].
  unfold hv. exact (vals_under t nb nr nc data mask gs xy i k g bd bm PT Sd Sm G Ed Em Eg).
Qed.
Lemma columns_spec rc pc gs t nb nr nc data mask name skip : same_crs rc pc -> points_only gs -> name <> ""%string ->
  0 < nb -> proper t -> shaped3 nb nr nc data -> shaped3 nb nr nc mask ->
  exists cols, extract_points cast reproject rc pc gs t nb nr nc data mask name skip 1 = Ok (Frame (zrange 0 (len gs)) cols) /\ len cols = nb
  /\ forall i bd bm, get data i = Ok bd -> get mask i = Ok bm ->
     exists values, get cols i = Ok (numbered (name ++ "_") (i + 1), NumCol values) /\ len values = len gs
     /\ forall k g, get gs k = Ok g -> exists v, get values k = Ok v /\ value_under cast t nr nc bd bm g v.
Proof.
  intros C P N Hb PT Sd Sm. destruct (extract_start rc pc gs t nb nr nc data mask name skip 1 C P N Sd Sm) as (xy & L & G & ->).
  unfold concat_frames. rewrite (zrange_first nb Hb). cbn [map]. change (1 =? 0) with false. change (1 =? 1) with true. cbv iota.
  set (c := fun i => (numbered (name ++ "_") (i + 1), NumCol (vals t nr nc data mask xy i))).
  assert (BF : forall i, band_frame 1 i (len xy) name (vals t nr nc data mask xy i) = Frame (zrange 0 (len xy)) [c i]) by reflexivity.
  erewrite map_ext by apply BF. rewrite BF. rewrite fold_columns. exists ([c 0] ++ map c (zrange 1 nb)). rewrite <- L. split; [reflexivity|].
  change ([c 0] ++ map c (zrange 1 nb)) with (map c (0 :: zrange 1 nb)). rewrite <- (zrange_first nb Hb). split; [rewrite len_map, ProximityChunk.len_zrange; lia|].
  intros i bd bm Ed Em. assert (0 <= i < nb) as Hi. { destruct Sd as [Ld _]. apply get_ok_range in Ed. lia. }
  exists (vals t nr nc data mask xy i). split; [rewrite get_map_eq, ProximityChunk.get_zrange by lia; reflexivity|].
  split; [now apply (len_vals t nb)|]. intros k g Eg. exact (vals_under t nb nr nc data mask gs xy i k g bd bm PT Sd Sm G Ed Em Eg).
Qed.
Lemma other_crs rc pc gs t nb nr nc data mask name skip axis : rc <> pc -> (forall g, In g gs -> is_point (reproject pc rc g) = is_point g) ->
  extract_points cast reproject (Some rc) (Some pc) gs t nb nr nc data mask name skip axis
  = extract_points cast reproject (Some rc) (Some rc) (map (reproject pc rc) gs) t nb nr nc data mask name skip axis.
Proof.
  intros N H. unfold extract_points. rewrite Z.eqb_refl. destruct (Z.eqb_spec rc pc); [contradiction|].
  replace (forallb is_point (map (reproject pc rc) gs)) with (forallb is_point gs); [reflexivity|].
  clear N n. induction gs as [|g gs IH]; [reflexivity|]. cbn [map forallb]. rewrite H by now left. rewrite IH; [reflexivity|]. intros; apply H; now right.
Qed.
Lemma traverse_other gs : ~ points_only gs -> traverse coordinates gs = Err ValueError.
Proof.
  rewrite points_all. induction gs as [|g gs IH]; intros H; [now exfalso; apply H|]. cbn [traverse]. destruct g as [x y| |]; cbn [coordinates rbind]; [..|reflexivity].
  all: cbn [forallb is_point andb] in H; now rewrite IH.
Qed.
Lemma extract_refused rc pc gs t nb nr nc data mask name skip axis :
  extract_points cast reproject rc pc gs t nb nr nc data mask "" skip axis = Err ValueError
  /\ (name <> ""%string -> ~ points_only gs -> extract_points cast reproject rc pc gs t nb nr nc data mask name false axis = Err TypeError)
  /\ (name <> ""%string -> ~ points_only gs -> same_crs rc pc -> extract_points cast reproject rc pc gs t nb nr nc data mask name true axis = Err ValueError)
  /\ (name <> ""%string -> points_only gs -> rc <> None -> extract_points cast reproject rc None gs t nb nr nc data mask name skip axis = Err ValueError)
  /\ (name <> ""%string -> points_only gs -> same_crs rc pc -> shaped3 nb nr nc data -> shaped3 nb nr nc mask -> axis <> 0 -> axis <> 1 ->
      extract_points cast reproject rc pc gs t nb nr nc data mask name skip axis = Err ValueError).
Proof.
  split; [reflexivity|]. split; [|split; [|split]].
  - intros N P. unfold extract_points. rewrite (name_eqb _ N). destruct (forallb is_point gs) eqn:E; [|reflexivity]. exfalso. now apply P, points_all.
  - intros N P C. unfold extract_points. rewrite (name_eqb _ N). cbn [negb andb].
    destruct C as [-> |<-]; [|destruct rc as [rc|]]; rewrite ?Z.eqb_refl; cbn [rbind]; now rewrite traverse_other.
  - intros N P R. unfold extract_points. rewrite (name_eqb _ N), (proj1 (points_all gs) P), andb_false_r. destruct rc; [reflexivity|congruence].
  - intros N P C Sd Sm A0 A1. destruct (extract_start rc pc gs t nb nr nc data mask name skip axis C P N Sd Sm) as (xy & _ & _ & ->).
    unfold concat_frames. destruct (map _ _); [reflexivity|]. destruct (Z.eqb_spec axis 0); [contradiction|]. destruct (Z.eqb_spec axis 1); [contradiction|reflexivity].
Qed.
End Whole.
