From Coq Require Import QArith.
From Verif Require Import Base BaseFacts Scalars Dtypes Chunks ChunksProofs CostPublicProofs Arr2 Arr2Facts RasterStack FocalSpec BandsSpec BandConcat BandConcatSpec.
Open Scope Z_scope.

Lemma has_label l q : has l q = true <-> label l q.
Proof.
  unfold has, label. rewrite existsb_exists. split; intros (p & I & E); exists p; (split; [exact I|]).
  - apply Qeq_bool_iff in E. now rewrite E.
  - apply Qeq_bool_iff. now rewrite E.
Qed.
Lemma inner_kept l others : kept (fun q => forall o, In o others -> label o q) l (inner l others).
Proof.
  induction l as [|q l IH]; cbn [inner filter]; [constructor|]. destruct (forallb (fun o => has o q) others) eqn:E.
  - constructor; [|exact IH]. intros o I. rewrite forallb_forall in E. apply has_label. now apply E.
  - constructor; [|exact IH]. intros H. enough (forallb (fun o => has o q) others = true) by congruence. apply forallb_forall. intros o I. apply has_label. now apply H.
Qed.
Lemma kept_in P l l' : kept P l l' -> forall q, In q l' -> In q l /\ P q.
Proof. induction 1; cbn; [tauto| |]; intros p I; [destruct I as [<-|I]; [tauto|]|]; apply IHkept in I; tauto. Qed.
Lemma distinct_tl q l : distinct (q :: l) -> distinct l /\ ~ label l q.
Proof.
  intros D. split.
  - intros i j a b Ei Ej E. assert (0 <= i) by (apply get_ok_range in Ei; lia). assert (0 <= j) by (apply get_ok_range in Ej; lia).
    enough (i + 1 = j + 1) by lia. apply (D (i + 1) (j + 1) a b); [rewrite get_cons by lia|rewrite get_cons by lia|exact E];
      [now replace (i + 1 - 1) with i by lia|now replace (j + 1 - 1) with j by lia].
  - intros (p & I & E). apply in_get in I as (i & Ei). assert (0 <= i) by (apply get_ok_range in Ei; lia).
    enough (i + 1 = 0) by lia. apply (D (i + 1) 0 p q); [rewrite get_cons by lia; now replace (i + 1 - 1) with i by lia|apply get_cons0|exact E].
Qed.
Lemma distinct_cons q l : distinct l -> ~ label l q -> distinct (q :: l).
Proof.
  intros D N i j a b Ei Ej E. assert (0 <= i) by (apply get_ok_range in Ei; lia). assert (0 <= j) by (apply get_ok_range in Ej; lia).
  destruct (Z.eq_dec i 0) as [->|Ni], (Z.eq_dec j 0) as [->|Nj]; [reflexivity| | |].
  - exfalso. apply N. rewrite get_cons0 in Ei. injection Ei as <-. rewrite get_cons in Ej by lia. exists b. split; [eapply get_in; exact Ej|now rewrite E].
  - exfalso. apply N. rewrite get_cons0 in Ej. injection Ej as <-. rewrite get_cons in Ei by lia. exists a. split; [eapply get_in; exact Ei|exact E].
  - rewrite get_cons in Ei by lia. rewrite get_cons in Ej by lia. pose proof (D _ _ _ _ Ei Ej E). lia.
Qed.
Lemma kept_distinct P l l' : kept P l l' -> distinct l -> distinct l'.
Proof.
  induction 1; intros D; [exact D| |].
  - destruct (distinct_tl _ _ D) as [D' N]. apply distinct_cons; [now apply IHkept|]. intros (p & I & E). apply N. exists p. split; [|exact E]. now apply (kept_in _ _ _ H0).
  - apply IHkept. now apply (distinct_tl q).
Qed.

Lemma find_combine {A} index : forall (a : list A) q i p x, distinct index -> get index i = Ok p -> (p == q)%Q -> get a i = Ok x ->
  exists p', find (fun p => Qeq_bool (fst p) q) (combine index a) = Some (p', x).
Proof.
  induction index as [|h index IH]; intros a q i p x D Ei E Ea; [unfold get in Ei; destruct (Z.to_nat i), (i <? 0); discriminate|].
  assert (0 <= i) by (apply get_ok_range in Ei; lia). destruct a as [|y a]; [unfold get in Ea; destruct (Z.to_nat i), (i <? 0); discriminate|].
  cbn [combine find fst]. destruct (Z.eq_dec i 0) as [->|N].
  - rewrite get_cons0 in Ei. rewrite get_cons0 in Ea. injection Ei as ->. injection Ea as ->. rewrite (proj2 (Qeq_bool_iff _ _) E). eexists; reflexivity.
  - rewrite get_cons in Ei by lia. rewrite get_cons in Ea by lia. destruct (distinct_tl _ _ D) as [D' NL]. destruct (Qeq_bool h q) eqn:B.
    + exfalso. apply NL. exists p. split; [eapply get_in; exact Ei|]. apply Qeq_bool_iff in B. now rewrite E, B.
    + now apply (IH a q (i - 1) p x).
Qed.
Lemma reindex_ok {A} index new (a : list A) : distinct index -> len a = len index -> (forall q, In q new -> label index q) ->
  len (reindex index new a) = len new
  /\ forall k q i p, get new k = Ok q -> get index i = Ok p -> (p == q)%Q -> get (reindex index new a) k = get a i.
Proof.
  intros D L. induction new as [|h new IH]; intros H; [split; [reflexivity|]; intros k q i p E; unfold get in E; destruct (Z.to_nat k), (k <? 0); discriminate|].
  destruct (H h (or_introl eq_refl)) as (p0 & I0 & E0). apply in_get in I0 as (i0 & G0).
  destruct (get_range a i0) as [x0 X0]; [apply get_ok_range in G0; lia|].
  destruct (find_combine index a h i0 p0 x0 D G0 E0 X0) as (p' & F).
  assert (E : reindex index (h :: new) a = x0 :: reindex index new a) by (unfold reindex; cbn [flat_map]; rewrite F; reflexivity).
  rewrite E. destruct IH as [IL IG]; [intros q I; apply H; now right|]. split; [rewrite !len_cons; lia|].
  intros k q i p Ek Ei Q. assert (0 <= k) by (apply get_ok_range in Ek; lia). destruct (Z.eq_dec k 0) as [->|N].
  - rewrite get_cons0 in Ek. rewrite get_cons0. injection Ek as <-. assert (i = i0) by (apply (D _ _ _ _ Ei G0); now rewrite Q, E0). subst i. now rewrite X0.
  - rewrite get_cons in Ek by lia. rewrite get_cons by lia. now apply (IG (k - 1) q i p).
Qed.

(* cutting *)
Section Cut.
Context (r : bandsr) (ys xs : list Q) (G : good r) (Hy : forall q, In q ys -> label (b_y r) q) (Hx : forall q, In q xs -> label (b_x r) q).
Lemma reindex_in {A} index new (a : list A) x : In x (reindex index new a) -> In x a.
Proof.
  unfold reindex. rewrite in_flat_map. intros (q & _ & I). destruct (find _ (combine index a)) as [[p y]|] eqn:F; [|contradiction].
  destruct I as [<-|[]]. apply find_some in F as [F _]. now apply in_combine_r in F.
Qed.
Lemma cut_shape {A} (a : list (list (list A))) nb : shaped nb r a ->
  len (cut r ys xs a) = nb /\ Forall (shaped2 (len ys) (len xs)) (cut r ys xs a).
Proof.
  intros [L F]. destruct G as (_ & _ & DY & DX). unfold cut. split; [rewrite len_map; exact L|]. rewrite Forall_map. rewrite Forall_forall in *. intros band I.
  destruct (F band I) as [LB FB]. split.
  - rewrite len_map. now apply reindex_ok.
  - rewrite Forall_map, Forall_forall. intros row IR. apply reindex_in in IR. rewrite Forall_forall in FB. apply reindex_ok; [exact DX|now apply FB|exact Hx].
Qed.
Lemma cut_item {A} (a : list (list (list A))) nb b y x v i j p q : shaped nb r a -> item r a b y x v ->
  get ys i = Ok p -> (p == y)%Q -> get xs j = Ok q -> (q == x)%Q -> exists band, get (cut r ys xs a) b = Ok band /\ at2 band i j v.
Proof.
  intros [L F] (i0 & j0 & p0 & q0 & Ei0 & Ep0 & Ej0 & Eq0 & band & EB & row & ER & EV) Ei Ep Ej Eq. destruct G as (_ & _ & DY & DX).
  rewrite Forall_forall in F. destruct (F band (get_in _ _ _ EB)) as [LB FB]. rewrite Forall_forall in FB. pose proof (FB row (get_in _ _ _ ER)) as LR.
  unfold cut. eexists. split; [rewrite get_map_eq, EB; reflexivity|]. exists (reindex (b_x r) xs row). split.
  - rewrite get_map_eq. enough (E : get (reindex (b_y r) ys band) i = Ok row) by now rewrite E. rewrite <- ER. eapply (proj2 (reindex_ok (b_y r) ys band DY LB Hy)); [exact Ei|exact Ei0|now rewrite Ep0, Ep].
  - rewrite <- EV. eapply (proj2 (reindex_ok (b_x r) xs row DX LR Hx)); [exact Ej|exact Ej0|now rewrite Eq0, Eq].
Qed.
End Cut.

Lemma bands_before_nonneg rs : 0 <= bands_before rs.
Proof. induction rs as [|r rs IH]; cbn [bands_before fold_right]; [lia|]. assert (0 <= nbands r) by apply len_nonneg. unfold bands_before in IH. lia. Qed.
Lemma concat_len {B} (f : bandsr -> list B) rs : (forall r, In r rs -> len (f r) = nbands r) -> len (concat (map f rs)) = bands_before rs.
Proof.
  induction rs as [|r rs IH]; intros H; [reflexivity|]. cbn [map concat]. rewrite len_app, IH by (intros; apply H; now right). rewrite H by now left. reflexivity.
Qed.
Lemma concat_get {B} (f : bandsr -> list B) pre r post b : (forall s, In s (pre ++ r :: post) -> len (f s) = nbands s) -> 0 <= b < nbands r ->
  get (concat (map f (pre ++ r :: post))) (bands_before pre + b) = get (f r) b.
Proof.
  intros H I. induction pre as [|p pre IH].
  - cbn [app map concat bands_before fold_right]. rewrite get_app1; [reflexivity|]. rewrite H; [lia|now left].
  - cbn [app map concat bands_before fold_right]. fold (bands_before pre). pose proof (bands_before_nonneg pre).
    assert (L : len (f p) = nbands p) by (apply H; now left). rewrite get_app2 by lia.
    replace (nbands p + bands_before pre + b - len (f p)) with (bands_before pre + b) by lia. apply IH. intros s Is. apply H. now right.
Qed.
Lemma concat_forall {B} (P : B -> Prop) (f : bandsr -> list B) rs : (forall r, In r rs -> Forall P (f r)) -> Forall P (concat (map f rs)).
Proof. intros H. apply Forall_concat. rewrite Forall_map, Forall_forall. exact H. Qed.

Definition where_mask (v : num) (mask : list (list (list bool))) (data : list (list (list num))) : list (list (list num)) :=
  map (fun '(mb, db) => map (fun '(mr, dr) => map (fun '(m, x) => if m : bool then v else x) (combine mr dr)) (combine mb db)) (combine mask data).
Lemma len_combine {A B} (a : list A) (b : list B) : len a = len b -> len (combine a b) = len a.
Proof. unfold len. intros. rewrite combine_length. lia. Qed.
Lemma where_shaped v mask data nb ny nx : len mask = nb -> len data = nb -> Forall (shaped2 ny nx) mask -> Forall (shaped2 ny nx) data ->
  len (where_mask v mask data) = nb /\ Forall (shaped2 ny nx) (where_mask v mask data).
Proof.
  intros LM LD FM FD. unfold where_mask. split; [rewrite len_map, len_combine; lia|]. rewrite Forall_map, Forall_forall. intros [mb db] I.
  rewrite Forall_forall in FM, FD. destruct (FM mb (in_combine_l _ _ _ _ I)) as [L1 F1]. destruct (FD db (in_combine_r _ _ _ _ I)) as [L2 F2].
  split; [rewrite len_map, len_combine; lia|]. rewrite Forall_map, Forall_forall. intros [mr dr] I2. rewrite Forall_forall in F1, F2.
  rewrite len_map, len_combine; [apply F1; exact (in_combine_l _ _ _ _ I2)|]. rewrite (F1 mr (in_combine_l _ _ _ _ I2)), (F2 dr (in_combine_r _ _ _ _ I2)). reflexivity.
Qed.
Lemma where_at v mask data b i j m x mb db : get mask b = Ok mb -> get data b = Ok db -> at2 mb i j m -> at2 db i j x ->
  exists band, get (where_mask v mask data) b = Ok band /\ at2 band i j (if m : bool then v else x).
Proof.
  intros GM GD (mr & Emr & Em) (dr & Edr & Ex). unfold where_mask. eexists. split; [rewrite get_map_eq, (get_combine _ _ _ _ _ GM GD); reflexivity|].
  eexists. split; [rewrite get_map_eq, (get_combine _ _ _ _ _ Emr Edr); reflexivity|]. rewrite get_map_eq, (get_combine _ _ _ _ _ Em Ex). reflexivity.
Qed.

Section Concat.
Variable result_type : list dtype -> dtype.
Variable cast : dtype -> num -> num.
Notation band_concat := (band_concat result_type cast).
Definition any_null_value (rs : list bandsr) : Prop := exists r v, In r rs /\ b_nv r = Some v.

Lemma map3_shape (f : num -> num) a ny nx : Forall (shaped2 ny nx) a -> Forall (shaped2 ny nx) (map (map (map f)) a).
Proof.
  rewrite Forall_map, !Forall_forall. intros F band I. destruct (F band I) as [L R]. split; [now rewrite len_map|]. rewrite Forall_map. rewrite Forall_forall in *. intros row IR. rewrite len_map. now apply R.
Qed.
Lemma concat_ok r0 r1 rest : let rs := r0 :: r1 :: rest in Forall good rs ->
  exists r', band_concat rs = Ok r' /\ good r'
  /\ kept (fun q => forall r, In r (r1 :: rest) -> label (b_y r) q) (b_y r0) (b_y r')
  /\ kept (fun q => forall r, In r (r1 :: rest) -> label (b_x r) q) (b_x r0) (b_x r')
  /\ nbands r' = bands_before rs /\ b_dtype r' = result_type (map b_dtype rs)
  /\ (any_null_value rs -> b_nv r' = Some (default_null (b_dtype r'))) /\ (~ any_null_value rs -> b_nv r' = None)
  /\ forall pre r post b y x v m, rs = pre ++ r :: post -> 0 <= b < nbands r -> cell r b y x v m -> label (b_y r') y -> label (b_x r') x ->
     cell r' (bands_before pre + b) y x (match b_nv r' with Some nv => if m : bool then nv else cast (b_dtype r') v | None => cast (b_dtype r') v end) m.
Proof.
  intros rs F. unfold band_concat at 1. unfold rs at 1. cbv zeta iota beta. fold rs.
  set (ys := inner (b_y r0) (map b_y (r1 :: rest))). set (xs := inner (b_x r0) (map b_x (r1 :: rest))). set (d := result_type (map b_dtype rs)).
  set (data := map (map (map (cast d))) _). set (mask := concat _). set (nv := if existsb _ rs then _ else _).
  set (crs := match b_crs r0 with Some _ => _ | None => _ end). clearbody crs.
  assert (KY : kept (fun q => forall r, In r (r1 :: rest) -> label (b_y r) q) (b_y r0) ys).
  { assert (X : forall l l' (P Q : _ -> Prop), (forall q, P q <-> Q q) -> kept P l l' -> kept Q l l') by (intros l l' P Q HPQ; induction 1; constructor; try assumption; [now apply HPQ|intros Z; now apply H, HPQ]).
    refine (X _ _ _ _ _ (inner_kept _ _)). intros q. split; intros H; [intros r I; apply H; now apply in_map|intros o I; apply in_map_iff in I as (r & <- & I); now apply H]. }
  assert (KX : kept (fun q => forall r, In r (r1 :: rest) -> label (b_x r) q) (b_x r0) xs).
  { assert (X : forall l l' (P Q : _ -> Prop), (forall q, P q <-> Q q) -> kept P l l' -> kept Q l l') by (intros l l' P Q HPQ; induction 1; constructor; try assumption; [now apply HPQ|intros Z; now apply H, HPQ]).
    refine (X _ _ _ _ _ (inner_kept _ _)). intros q. split; intros H; [intros r I; apply H; now apply in_map|intros o I; apply in_map_iff in I as (r & <- & I); now apply H]. }
  clearbody ys xs.
  assert (LY : forall r q, In r rs -> In q ys -> label (b_y r) q).
  { intros r q I Iq. apply (kept_in _ _ _ KY) in Iq as [I0 HO]. destruct I as [<-|I]; [exists q; split; [exact I0|reflexivity]|now apply HO]. }
  assert (LX : forall r q, In r rs -> In q xs -> label (b_x r) q).
  { intros r q I Iq. apply (kept_in _ _ _ KX) in Iq as [I0 HO]. destruct I as [<-|I]; [exists q; split; [exact I0|reflexivity]|now apply HO]. }
  assert (GG : forall r, In r rs -> good r) by (intros r; rewrite Forall_forall in F; apply F).
  assert (SD : forall r, In r rs -> len (cut r ys xs (b_data r)) = nbands r /\ Forall (shaped2 (len ys) (len xs)) (cut r ys xs (b_data r))).
  { intros r I. apply cut_shape; [now apply GG|intros q; now apply LY|intros q; now apply LX|apply (GG r I)]. }
  assert (SM : forall r, In r rs -> len (cut r ys xs (b_mask r)) = nbands r /\ Forall (shaped2 (len ys) (len xs)) (cut r ys xs (b_mask r))).
  { intros r I. apply cut_shape; [now apply GG|intros q; now apply LY|intros q; now apply LX|apply (GG r I)]. }
  assert (LD : len data = bands_before rs) by (unfold data; rewrite len_map; apply concat_len; intros r I; now apply SD).
  assert (FD : Forall (shaped2 (len ys) (len xs)) data) by (apply map3_shape, concat_forall; intros r I; now apply SD).
  assert (LM : len mask = bands_before rs) by (apply concat_len; intros r I; now apply SM).
  assert (FM : Forall (shaped2 (len ys) (len xs)) mask) by (apply concat_forall; intros r I; now apply SM).
  assert (NV : (any_null_value rs -> nv = Some (default_null d)) /\ (~ any_null_value rs -> nv = None)).
  { unfold nv. split; intros H.
    - destruct H as (r & v & I & E). assert (X : existsb (fun r => match b_nv r with Some _ => true | None => false end) rs = true) by (apply existsb_exists; exists r; split; [exact I|now rewrite E]). now rewrite X.
    - destruct (existsb (fun r => match b_nv r with Some _ => true | None => false end) rs) eqn:X; [|reflexivity]. exfalso. apply H. apply existsb_exists in X as (r & I & E). destruct (b_nv r) as [v|] eqn:V; [|discriminate]. now exists r, v. }
  assert (NVC : nv = None \/ nv = Some (default_null d)) by (unfold nv; destruct (existsb _ rs); tauto). clearbody nv.
  set (data' := match nv with Some v => where_mask v mask data | None => data end).
  assert (LD' : len data' = bands_before rs /\ Forall (shaped2 (len ys) (len xs)) data').
  { unfold data'. destruct nv; [|now split]. now apply where_shaped. }
  eexists. split; [reflexivity|]. cbn [b_dtype b_nv b_y b_x b_data b_mask]. split; [|split; [exact KY|split; [exact KX|split; [exact (proj1 LD')|split; [reflexivity|split; [apply NV|split; [apply NV|]]]]]]].
  - split; [split; [reflexivity|exact (proj2 LD')]|]. cbn [b_data b_mask b_y b_x]. split; [split; [rewrite LM; symmetry; exact (proj1 LD')|exact FM]|].
    split; [apply (kept_distinct _ _ _ KY), (GG r0 (or_introl eq_refl))|apply (kept_distinct _ _ _ KX), (GG r0 (or_introl eq_refl))].
  - intros pre r post b y x v m ER Hb [CD CM] (p & Ip & Ep) (q & Iq & Eq). apply in_get in Ip as (i & Gi). apply in_get in Iq as (j & Gj).
    assert (I : In r rs) by (rewrite ER; apply in_or_app; right; now left).
    destruct (cut_item r ys xs (GG r I) (fun q => LY r q I) (fun q => LX r q I) (b_data r) _ b y x v i j p q (proj1 (GG r I)) CD Gi Ep Gj Eq) as (db & Gd & Ad).
    destruct (cut_item r ys xs (GG r I) (fun q => LY r q I) (fun q => LX r q I) (b_mask r) _ b y x m i j p q (proj1 (proj2 (GG r I))) CM Gi Ep Gj Eq) as (mb & Gm & Am).
    assert (GD : get data (bands_before pre + b) = Ok (map (map (cast d)) db)).
    { unfold data. rewrite get_map_eq, ER, concat_get by (try exact Hb; intros s Is; rewrite <- ER in Is; now apply SD). now rewrite Gd. }
    assert (GM : get mask (bands_before pre + b) = Ok mb).
    { unfold mask. rewrite ER, concat_get by (try exact Hb; intros s Is; rewrite <- ER in Is; now apply SM). exact Gm. }
    assert (AD : at2 (map (map (cast d)) db) i j (cast d v)).
    { destruct Ad as (row & E1 & E2). exists (map (cast d) row). rewrite !get_map_eq, E1, E2. now split. }
    split; exists i, j, p, q; (split; [exact Gi|split; [exact Ep|split; [exact Gj|split; [exact Eq|]]]]); cbn [b_data b_mask].
    + unfold data'. destruct nv as [nv|]; [|eexists; split; [exact GD|exact AD]]. now apply (where_at _ _ _ _ _ _ _ _ _ _ GM GD Am AD).
    + exists mb. now split.
Qed.
Lemma concat_few : band_concat [] = Err ValueError /\ forall r, band_concat [r] = Ok r.
Proof. split; reflexivity. Qed.
(* on one grid no cell is lost *)
Lemma kept_all P l l' : kept P l l' -> (forall q, In q l -> P q) -> l' = l.
Proof. induction 1; intros H'; [reflexivity|f_equal; apply IHkept; intros; apply H'; now right|exfalso; apply H, H'; now left]. Qed.
Lemma concat_same r0 r1 rest r' : let rs := r0 :: r1 :: rest in Forall good rs -> (forall r, In r rs -> b_y r = b_y r0 /\ b_x r = b_x r0) ->
  band_concat rs = Ok r' -> b_y r' = b_y r0 /\ b_x r' = b_x r0.
Proof.
  intros rs F H E. destruct (concat_ok r0 r1 rest F) as (r2 & E2 & _ & KY & KX & _). fold rs in E2. rewrite E in E2. injection E2 as <-.
  split; [apply (kept_all _ _ _ KY)|apply (kept_all _ _ _ KX)]; intros q Iq r I; destruct (H r (or_intror I)) as [HY HX]; exists q; (split; [|reflexivity]); [now rewrite HY|now rewrite HX].
Qed.
Lemma concat_crs r0 r1 rest r' : let rs := r0 :: r1 :: rest in band_concat rs = Ok r' -> (forall c, b_crs r0 = Some c -> b_crs r' = Some c) /\ ((forall r, In r rs -> b_crs r = None) -> b_crs r' = None).
Proof.
  intros rs E. unfold band_concat, rs in E. cbv zeta iota beta in E. injection E as <-. cbn [b_crs]. split; [now intros c ->|]. intros H.
  assert (X : forall l, (forall r, In r l -> b_crs r = None) -> forall c, fold_left (fun c r => match b_crs r with Some k => Some k | None => c end) l c = c).
  { induction l as [|a l IH]; intros HL c; [reflexivity|]. cbn [fold_left]. rewrite (HL a (or_introl eq_refl)). apply IH. intros; apply HL; now right. }
  pose proof (X rs H None) as Y. pose proof (H r0 (or_introl eq_refl)) as E0. unfold rs in Y. cbn [fold_left] in Y |- *. rewrite E0 in Y |- *. exact Y.
Qed.
End Concat.
