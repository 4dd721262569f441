From Coq Require Import QArith Lia.
From Verif Require Import Base BaseFacts Scalars NumFacts Arr2 Arr2Facts Chunks ChunksProofs RasterStack AggregateProofs FocalSpec BandsSpec FocalResults RasterSpec RasterValues ReconcileSpec Polygons PolygonsSpec.
Open Scope Z_scope.

(* ---- values ---- *)
Lemma same_eqb a b c : same_value a b = true -> num_eqb b c = true -> num_eqb a c = true.
Proof.
  unfold same_value. destruct a, b; try discriminate; cbn [num_eqb]; destruct c; try discriminate; try reflexivity.
  intros H1 H2. apply Qeq_bool_iff in H1, H2. apply Qeq_bool_iff. now rewrite H1.
Qed.
Lemma same_sym a b : same_value a b = true -> same_value b a = true.
Proof. unfold same_value. destruct a, b; try discriminate; try reflexivity. intros H. apply Qeq_bool_iff in H. apply Qeq_bool_iff. now symmetry. Qed.
Lemma eqb_nan v w : num_eqb v w = true -> is_nan v = false.
Proof. intros H. now apply num_eqb_not_nan in H. Qed.

(* ---- dissolving ---- *)
Definition covered (ps : list polygon) (v : num) (x : Z * Z) : Prop := exists p, In p ps /\ num_eqb (pg_value p) v = true /\ In x (pg_cells p).
Definition all_distinct (gs : list polygon) : Prop := forall i j p q, get gs i = Ok p -> get gs j = Ok q -> num_eqb (pg_value p) (pg_value q) = true -> i = j.
Lemma covered_cons g gs v x : covered (g :: gs) v x <-> num_eqb (pg_value g) v = true /\ In x (pg_cells g) \/ covered gs v x.
Proof. unfold covered. split; [intros (p & [<-|I] & E & H); [now left|right; eauto]|intros [[E H]|(p & I & E & H)]; [exists g|exists p]; repeat split; auto; [now left|now right]]. Qed.
Lemma covered_nil v x : ~ covered [] v x.
Proof. intros (p & [] & _). Qed.
Lemma into_covered gs p v x : covered (dissolve_into gs p) v x <-> covered gs v x \/ num_eqb (pg_value p) v = true /\ In x (pg_cells p).
Proof.
  induction gs as [|g gs IH]; cbn [dissolve_into].
  - rewrite covered_cons. pose proof (covered_nil v x). tauto.
  - destruct (num_eqb (pg_value g) (pg_value p)) eqn:E; rewrite !covered_cons; [|rewrite IH; tauto]. cbn [pg_value pg_cells]. rewrite in_app_iff.
    rewrite (num_eqb_congr_l _ _ v E). tauto.
Qed.
Lemma into_values gs p v : (exists g, In g (dissolve_into gs p) /\ pg_value g = v) <-> (exists g, In g gs /\ pg_value g = v) \/ pg_value p = v /\ forall g, In g gs -> num_eqb (pg_value g) (pg_value p) = false.
Proof.
  induction gs as [|g gs IH]; cbn [dissolve_into].
  - split; [intros (g & [<-|[]] & E); right; split; [exact E|intros ? []]|intros [(g & [] & _)|[E _]]; exists p; split; [now left|exact E]].
  - destruct (num_eqb (pg_value g) (pg_value p)) eqn:E.
    + split.
      * intros (h & [<-|I] & Eh); left; [exists g; split; [now left|exact Eh]|exists h; split; [now right|exact Eh]].
      * intros [(h & [<-|I] & Eh)|[_ H]]; [eexists; split; [now left|exact Eh]|exists h; split; [now right|exact Eh]|]. rewrite (H g (or_introl eq_refl)) in E. discriminate.
    + split.
      * intros (h & [<-|I] & Eh); [left; exists g; split; [now left|exact Eh]|]. destruct (proj1 IH) as [(h' & I' & E')|[E' H]]; [eauto|left; exists h'; split; [now right|exact E']|].
        right. split; [exact E'|]. intros k [<-|K]; auto.
      * intros [(h & [<-|I] & Eh)|[Eh H]]; [exists g; split; [now left|exact Eh]|..].
        -- destruct (proj2 IH) as (h' & I' & E'); [left; eauto|]. exists h'. split; [now right|exact E'].
        -- destruct (proj2 IH) as (h' & I' & E'); [right; split; [exact Eh|]; intros k K; apply H; now right|]. exists h'. split; [now right|exact E'].
Qed.
Lemma distinct_cons g gs : all_distinct (g :: gs) -> all_distinct gs /\ forall h, In h gs -> num_eqb (pg_value g) (pg_value h) = false.
Proof.
  intros D. split.
  - intros i j p q Gi Gj E. pose proof (get_ok_range _ _ _ Gi). pose proof (get_ok_range _ _ _ Gj).
    enough (i + 1 = j + 1) by lia. apply (D (i + 1) (j + 1) p q); [rewrite get_cons by lia; now replace (i + 1 - 1) with i by lia|rewrite get_cons by lia; now replace (j + 1 - 1) with j by lia|exact E].
  - intros h I. destruct (num_eqb (pg_value g) (pg_value h)) eqn:E; [|reflexivity]. exfalso.
    apply In_nth_error in I as [n N]. assert (G : get gs (Z.of_nat n) = Ok h).
    { unfold get. destruct (Z.ltb_spec (Z.of_nat n) 0); [lia|]. now rewrite Nat2Z.id, N. }
    enough (0 = Z.of_nat n + 1) by lia. apply (D 0 (Z.of_nat n + 1) g h); [apply get_cons0|rewrite get_cons by lia; now replace (Z.of_nat n + 1 - 1) with (Z.of_nat n) by lia|exact E].
Qed.
Lemma cons_distinct g gs : all_distinct gs -> (forall h, In h gs -> num_eqb (pg_value g) (pg_value h) = false) -> all_distinct (g :: gs).
Proof.
  intros D H i j p q Gi Gj E. pose proof (get_ok_range _ _ _ Gi). pose proof (get_ok_range _ _ _ Gj).
  destruct (Z.eq_dec i 0) as [-> |Ni]; destruct (Z.eq_dec j 0) as [-> |Nj]; [reflexivity|..].
  - rewrite get_cons0 in Gi. injection Gi as <-. rewrite get_cons in Gj by lia. rewrite (H q (get_in _ _ _ Gj)) in E. discriminate.
  - rewrite get_cons0 in Gj. injection Gj as <-. rewrite get_cons in Gi by lia. rewrite num_eqb_sym, (H p (get_in _ _ _ Gi)) in E. discriminate.
  - rewrite get_cons in Gi by lia. rewrite get_cons in Gj by lia. pose proof (D _ _ _ _ Gi Gj E). lia.
Qed.
Lemma into_distinct gs p : all_distinct gs -> all_distinct (dissolve_into gs p).
Proof.
  induction gs as [|g gs IH]; intros D; cbn [dissolve_into].
  - apply cons_distinct; [|intros ? []]. intros i j a b G. destruct (get_nil _ _ G).
  - apply distinct_cons in D as [D H]. destruct (num_eqb (pg_value g) (pg_value p)) eqn:E.
    + apply cons_distinct; [exact D|]. exact H.
    + apply cons_distinct; [now apply IH|]. intros h I. destruct (proj1 (into_values gs p (pg_value h))) as [(k & K & Ek)|[Ek _]]; [eauto|..].
      * rewrite <- Ek. now apply H.
      * now rewrite <- Ek.
Qed.
Lemma into_forall (P : polygon -> Prop) gs p : (forall g cells, P g -> P (Polygon (pg_value g) (pg_band g) (pg_cells g ++ cells))) -> Forall P gs -> P p -> Forall P (dissolve_into gs p).
Proof.
  intros H F Pp. induction F as [|g gs Pg F IH]; cbn [dissolve_into]; [now constructor|]. destruct (num_eqb _ _); constructor; auto.
Qed.
Lemma dissolve_forall (P : polygon -> Prop) ps : (forall g cells, P g -> P (Polygon (pg_value g) (pg_band g) (pg_cells g ++ cells))) ->
  (forall p, In p ps -> is_nan (pg_value p) = false -> P p) -> Forall P (dissolve ps).
Proof.
  intros H F. unfold dissolve.
  assert (K : forall l gs, Forall P gs -> Forall P l -> Forall P (fold_left dissolve_into l gs)).
  { induction l as [|p l IH]; intros gs G L; cbn [fold_left]; [exact G|]. inversion L; subst. apply IH; [now apply into_forall|assumption]. }
  apply K; [constructor|]. apply Forall_forall. intros p I. apply filter_In in I as [I N]. apply negb_true_iff in N. auto.
Qed.
Lemma dissolve_distinct ps : all_distinct (dissolve ps).
Proof.
  unfold dissolve. assert (K : forall l gs, all_distinct gs -> all_distinct (fold_left dissolve_into l gs)).
  { induction l as [|p l IH]; intros gs D; cbn [fold_left]; [exact D|]. apply IH. now apply into_distinct. }
  apply K. intros i j a b G. destruct (get_nil _ _ G).
Qed.
Lemma dissolve_covered ps v x : covered (dissolve ps) v x <-> covered ps v x.
Proof.
  unfold dissolve. assert (K : forall l gs, covered (fold_left dissolve_into l gs) v x <-> covered gs v x \/ covered l v x).
  { induction l as [|p l IH]; intros gs; cbn [fold_left]; [pose proof (covered_nil v x); tauto|]. rewrite IH, into_covered, covered_cons. tauto. }
  rewrite K. pose proof (covered_nil v x) as N. unfold covered at 2 3. split.
  - intros [H|(p & I & E & H)]; [contradiction|]. apply filter_In in I as [I _]. eauto.
  - intros (p & I & E & H). right. exists p. split; [|auto]. apply filter_In. split; [exact I|]. now rewrite (eqb_nan _ _ E).
Qed.
Lemma group_cells gs g x : all_distinct gs -> In g gs -> is_nan (pg_value g) = false -> In x (pg_cells g) <-> covered gs (pg_value g) x.
Proof.
  intros D I N. split; [intros H; exists g; repeat split; auto; now apply num_eqb_refl|].
  intros (p & Ip & E & H). revert D I Ip. induction gs as [|k gs IH]; intros D I Ip; [destruct I|]. apply distinct_cons in D as [D Hk].
  destruct I as [<-|I], Ip as [<-|Ip]; auto.
  - rewrite num_eqb_sym, (Hk p Ip) in E. discriminate.
  - rewrite (Hk g I) in E. discriminate.
Qed.

(* ---- arrays ---- *)
Lemma at2_map {A B} (f : A -> B) a r c y : at2 (map (map f) a) r c y <-> exists x, at2 a r c x /\ y = f x.
Proof.
  unfold at2. split.
  - intros (row & G1 & G2). rewrite get_map_eq in G1. destruct (get a r) as [row0|] eqn:E; [|discriminate]. cbn in G1. injection G1 as <-.
    rewrite get_map_eq in G2. destruct (get row0 c) as [x|] eqn:E2; [|discriminate]. cbn in G2. injection G2 as <-. eauto 6.
  - intros (x & (row & G1 & G2) & ->). exists (map f row). now rewrite !get_map_eq, G1, G2.
Qed.
Lemma get_combine_iff {A B} (a : list A) : forall (b : list B) k x y, get (combine a b) k = Ok (x, y) <-> get a k = Ok x /\ get b k = Ok y.
Proof.
  induction a as [|u a IH]; intros b k x y.
  - cbn [combine]. split; [intros G; destruct (get_nil _ _ G)|intros [G _]; destruct (get_nil _ _ G)].
  - destruct b as [|w b]; cbn [combine]; [split; [intros G; destruct (get_nil _ _ G)|intros [_ G]; destruct (get_nil _ _ G)]|].
    destruct (Z.eq_dec k 0) as [-> |N]; [rewrite !get_cons0; split; [intros [= <- <-]; auto|intros [[= <-] [= <-]]; reflexivity]|].
    destruct (Z_lt_dec k 0) as [L|L]; [split; [intros G|intros [G _]]; apply get_ok_range in G; lia|]. rewrite !get_cons by lia. apply IH.
Qed.
Lemma at2_zip {A B C} (f : A -> B -> C) (a : list (list A)) (b : list (list B)) r c y :
  at2 (map (fun '(u, w) => map (fun '(v, m) => f v m) (combine u w)) (combine a b)) r c y <-> exists v m, at2 a r c v /\ at2 b r c m /\ y = f v m.
Proof.
  unfold at2. split.
  - intros (row & G1 & G2). rewrite get_map_eq in G1. destruct (get (combine a b) r) as [[u w]|] eqn:E; [|discriminate]. cbn in G1. injection G1 as <-.
    rewrite get_map_eq in G2. destruct (get (combine u w) c) as [[v m]|] eqn:E2; [|discriminate]. cbn in G2. injection G2 as <-.
    apply get_combine_iff in E as [E1 E3]. apply get_combine_iff in E2 as [E2 E4]. exists v, m. eauto 8.
  - intros (v & m & (u & G1 & G2) & (w & G3 & G4) & ->). eexists. rewrite get_map_eq, (proj2 (get_combine_iff a b r u w)) by auto. split; [reflexivity|].
    now rewrite get_map_eq, (proj2 (get_combine_iff u w c v m)) by auto.
Qed.
Lemma at2_cut {A} ny nx (a : list (list A)) ys xs r c v : shaped2 ny nx a -> 0 <= fst ys -> snd ys <= ny -> 0 <= fst xs -> snd xs <= nx ->
  at2 (cut ys xs a) r c v <-> 0 <= r < snd ys - fst ys /\ 0 <= c < snd xs - fst xs /\ at2 a (fst ys + r) (fst xs + c) v.
Proof.
  intros [L F] Y1 Y2 X1 X2. rewrite Forall_forall in F. unfold at2, cut. split.
  - intros (row & G1 & G2). rewrite get_map_eq in G1. destruct (get (slice a (fst ys) (snd ys)) r) as [row0|] eqn:E; [|discriminate]. cbn in G1. injection G1 as <-.
    assert (len (slice a (fst ys) (snd ys)) <= Z.max 0 (snd ys - fst ys)) as LS.
    { destruct (Z_le_dec (fst ys) (snd ys)); [rewrite slice_len; lia|]. unfold slice. unfold len. rewrite firstn_length. lia. }
    pose proof (get_ok_range _ _ _ E) as R. assert (0 <= r < snd ys - fst ys) as Hr by lia. rewrite get_slice in E by lia.
    pose proof (F row0 (get_in _ _ _ E)) as LR.
    assert (len (slice row0 (fst xs) (snd xs)) <= Z.max 0 (snd xs - fst xs)) as LX.
    { destruct (Z_le_dec (fst xs) (snd xs)); [rewrite slice_len; lia|]. unfold slice, len. rewrite firstn_length. lia. }
    pose proof (get_ok_range _ _ _ G2) as R2. assert (0 <= c < snd xs - fst xs) as Hc by lia. rewrite get_slice in G2 by lia. eauto 6.
  - intros (Hr & Hc & row & G1 & G2). pose proof (F row (get_in _ _ _ G1)) as LR. eexists. rewrite get_map_eq, get_slice, G1 by lia. split; [reflexivity|]. now rewrite get_slice by lia.
Qed.
Lemma shaped_cut {A} ny nx (a : list (list A)) ys xs : shaped2 ny nx a -> 0 <= fst ys <= snd ys -> snd ys <= ny -> 0 <= fst xs <= snd xs -> snd xs <= nx ->
  shaped2 (snd ys - fst ys) (snd xs - fst xs) (cut ys xs a).
Proof.
  intros [L F] Y1 Y2 X1 X2. unfold cut. split; [rewrite len_map, slice_len; lia|]. apply Forall_map, Forall_forall. intros row H. apply in_slice in H.
  rewrite Forall_forall in F. specialize (F row H). rewrite slice_len; lia.
Qed.
Lemma shaped_zip {A B C} (f : A -> B -> C) ny nx (a : list (list A)) (b : list (list B)) : shaped2 ny nx a -> shaped2 ny nx b ->
  shaped2 ny nx (map (fun '(u, w) => map (fun '(v, m) => f v m) (combine u w)) (combine a b)).
Proof.
  intros [La Fa] [Lb Fb]. unfold len in La, Lb. split; [unfold len; rewrite map_length, combine_length; lia|]. apply Forall_map, Forall_forall. intros [u w] H.
  rewrite Forall_forall in Fa, Fb. pose proof (Fa u (in_combine_l _ _ _ _ H)). pose proof (Fb w (in_combine_r _ _ _ _ H)). unfold len in *. rewrite map_length, combine_length. lia.
Qed.
Lemma shaped_map {A B} (f : A -> B) ny nx a : shaped2 ny nx a -> shaped2 ny nx (map (map f) a).
Proof. intros [L F]. split; [now rewrite len_map|]. apply Forall_map. eapply Forall_impl; [|exact F]. intros row H. cbv beta. now rewrite len_map. Qed.

(* ---- one chunk ---- *)
Section Chunk.
Variables (cast : dtype -> num -> num) (shapes : arr2 num -> arr2 bool -> Z -> list (list (Z * Z) * num)).
Hypothesis (HS : covers shapes) (HC : respects cast).
Lemma working_spec d : match through_dtype d with Some w => rio_shapes_dtype d = w /\ dtype_eqb w d = false | None => rio_shapes_dtype d = d /\ dtype_eqb d d = true end.
Proof. destruct d; cbn; auto. Qed.
Lemma chunk_polygons d chunk mask neighbors y0 x0 band ny nx : shaped2 ny nx chunk -> shaped2 ny nx mask -> neighbors = 4 \/ neighbors = 8 ->
  let ps := shapes_delayed cast shapes d chunk mask neighbors y0 x0 band in
  (forall p, In p ps -> pg_band p = band /\ pg_cells p <> [])
  /\ forall v R C, covered ps v (R, C) <-> at2 mask (R - y0) (C - x0) false /\ exists w, at2 chunk (R - y0) (C - x0) w /\ num_eqb (converted cast d w) v = true.
Proof.
  intros Sc Sm N. unfold shapes_delayed, converted. cbv zeta.
  set (vm := map (map negb) mask). assert (Sv : shaped2 ny nx vm) by now apply shaped_map.
  set (chunk' := if dtype_eqb (rio_shapes_dtype d) d then chunk else map (fun '(row, mrow) => map (fun '(v, m) => cast (rio_shapes_dtype d) (if m : bool then of_Z 0 else v)) (combine row mrow)) (combine chunk mask)).
  assert (S' : shaped2 ny nx chunk'). { unfold chunk'. destruct (dtype_eqb (rio_shapes_dtype d) d); [exact Sc|]. now apply (shaped_zip (fun v (m : bool) => cast (rio_shapes_dtype d) (if m then of_Z 0 else v))). }
  assert (V : forall r c, at2 vm r c true <-> at2 mask r c false).
  { intros r c. unfold vm. rewrite at2_map. split; [intros (m & H & E); destruct m; [discriminate|exact H]|intros H; exists false; auto]. }
  assert (W : forall r c w, at2 mask r c false -> at2 chunk' r c w <-> exists v, at2 chunk r c v /\ w = match through_dtype d with Some wd => cast wd v | None => v end).
  { intros r c w M. unfold chunk'. pose proof (working_spec d) as K. destruct (through_dtype d) as [wd|]; destruct K as [-> K]; rewrite K.
    - rewrite (at2_zip (fun v (m : bool) => cast wd (if m then of_Z 0 else v))). split.
      + intros (v & m & H & Hm & ->). exists v. split; [exact H|]. destruct M as (row & G1 & G2). destruct Hm as (row' & G3 & G4). assert (m = false) as -> by congruence. reflexivity.
      + intros (v & H & ->). exists v, false. auto.
    - split; [intros H; eauto|intros (v & H & ->); exact H]. }
  destruct (HS ny nx chunk' vm neighbors S' Sv N) as [H1 H2]. split.
  - intros p I. apply in_map_iff in I as ([cells s] & <- & I). cbn [pg_band pg_cells]. split; [reflexivity|]. destruct (H1 _ _ I) as [NE _]. destruct cells; [congruence|discriminate].
  - intros v R C. split.
    + intros (p & I & E & X). apply in_map_iff in I as ([cells s] & <- & I). cbn [pg_cells pg_value] in *. apply in_map_iff in X as ([r c] & [= <- <-] & X).
      destruct (H1 _ _ I) as [_ K]. destruct (K r c X) as (M & w & Aw & Ew). apply V in M. apply (W r c w M) in Aw as (v0 & A0 & ->).
      replace (y0 + r - y0) with r by lia. replace (x0 + c - x0) with c by lia. split; [exact M|]. exists v0. split; [exact A0|].
      pose proof (working_spec d) as Q. destruct (through_dtype d) as [wd|]; destruct Q as [Q1 Q2]; rewrite Q1, Q2 in E.
      * eapply same_eqb; [|exact E]. apply HC. exact Ew.
      * eapply same_eqb; [exact Ew|exact E].
    + intros (M & w & Aw & E). destruct (H2 (R - y0) (C - x0) (proj2 (V _ _) M)) as (cells & s & I & X). destruct (H1 _ _ I) as [_ K]. destruct (K _ _ X) as (_ & w' & Aw' & Ew').
      apply (W _ _ _ M) in Aw' as (v0 & A0 & ->). assert (v0 = w) as ->. { destruct Aw as (r1 & G1 & G2), A0 as (r2 & G3 & G4). congruence. }
      eexists. split; [apply in_map_iff; exists (cells, s); split; [reflexivity|exact I]|]. cbn [pg_cells pg_value]. split.
      * pose proof (working_spec d) as Q. destruct (through_dtype d) as [wd|]; destruct Q as [Q1 Q2]; rewrite Q1, Q2.
        -- eapply same_eqb; [|exact E]. apply HC. now apply same_sym.
        -- eapply same_eqb; [|exact E]. now apply same_sym.
      * apply in_map_iff. exists (R - y0, C - x0). split; [f_equal; lia|exact X].
Qed.

(* ---- one band ---- *)
Lemma locations_cover cs n i : cuts n cs -> 0 <= i < n -> exists p, In p (chunks_to_array_locations cs) /\ fst p <= i < snd p.
Proof.
  intros [F S] Hi. destruct (locations_unique cs i F) as (k & (lo & hi & G & R) & _); [unfold ChunksSpec.sum; lia|]. exists (lo, hi). split; [now apply get_in in G|exact R].
Qed.
Lemma locations_inside cs n p : cuts n cs -> In p (chunks_to_array_locations cs) -> 0 <= fst p /\ fst p <= snd p /\ snd p <= n.
Proof. intros [F S] I. destruct p as [lo hi]. pose proof (locations_range cs F lo hi I) as H. unfold ChunksSpec.sum in H. cbn [fst snd]. lia. Qed.
Definition band_polygons d ycs xcs (bd : arr2 num) (bm : arr2 bool) neighbors band : list polygon :=
  flat_map (fun ys => flat_map (fun xs => shapes_delayed cast shapes d (cut ys xs bd) (cut ys xs bm) neighbors (fst ys) (fst xs) band) (chunks_to_array_locations xcs)) (chunks_to_array_locations ycs).
Lemma band_polygons_spec d ycs xcs bd bm neighbors band ny nx : cuts ny ycs -> cuts nx xcs -> shaped2 ny nx bd -> shaped2 ny nx bm -> neighbors = 4 \/ neighbors = 8 ->
  (forall p, In p (band_polygons d ycs xcs bd bm neighbors band) -> pg_band p = band /\ pg_cells p <> [])
  /\ forall v r c, covered (band_polygons d ycs xcs bd bm neighbors band) v (r, c) <-> at2 bm r c false /\ exists w, at2 bd r c w /\ num_eqb (converted cast d w) v = true.
Proof.
  intros Cy Cx Sd Sm N. unfold band_polygons.
  assert (K : forall ys xs, In ys (chunks_to_array_locations ycs) -> In xs (chunks_to_array_locations xcs) ->
    (0 <= fst ys /\ fst ys <= snd ys /\ snd ys <= ny) /\ (0 <= fst xs /\ fst xs <= snd xs /\ snd xs <= nx)
    /\ let ps := shapes_delayed cast shapes d (cut ys xs bd) (cut ys xs bm) neighbors (fst ys) (fst xs) band in
       (forall p, In p ps -> pg_band p = band /\ pg_cells p <> [])
       /\ forall v R C, covered ps v (R, C) <-> at2 (cut ys xs bm) (R - fst ys) (C - fst xs) false /\ exists w, at2 (cut ys xs bd) (R - fst ys) (C - fst xs) w /\ num_eqb (converted cast d w) v = true).
  { intros ys xs Iy Ix. pose proof (locations_inside _ _ _ Cy Iy) as Ry. pose proof (locations_inside _ _ _ Cx Ix) as Rx. split; [exact Ry|split; [exact Rx|]].
    apply (chunk_polygons d _ _ neighbors _ _ band (snd ys - fst ys) (snd xs - fst xs)); [apply (shaped_cut ny nx); auto; lia..|exact N]. }
  split.
  - intros p I. apply in_flat_map in I as (ys & Iy & I). apply in_flat_map in I as (xs & Ix & I). destruct (K ys xs Iy Ix) as (_ & _ & K1 & _). auto.
  - intros v r c. split.
    + intros (p & I & E & X). apply in_flat_map in I as (ys & Iy & I). apply in_flat_map in I as (xs & Ix & I). destruct (K ys xs Iy Ix) as (Ry & Rx & _ & K2).
      destruct (proj1 (K2 v r c)) as (M & w & Aw & Ew); [exists p; auto|].
      rewrite (at2_cut ny nx) in M by (auto; lia). rewrite (at2_cut ny nx) in Aw by (auto; lia). destruct M as (_ & _ & M), Aw as (_ & _ & Aw).
      replace (fst ys + (r - fst ys)) with r in * by lia. replace (fst xs + (c - fst xs)) with c in * by lia. eauto.
    + intros (M & w & Aw & Ew). assert (0 <= r < ny /\ 0 <= c < nx) as [Hr Hc].
      { destruct Sm as [L F]. destruct M as (row & G1 & G2). rewrite Forall_forall in F. pose proof (F row (get_in _ _ _ G1)). apply get_ok_range in G1, G2. lia. }
      destruct (locations_cover _ _ r Cy Hr) as (ys & Iy & Jy). destruct (locations_cover _ _ c Cx Hc) as (xs & Ix & Jx).
      destruct (K ys xs Iy Ix) as (Ry & Rx & _ & K2). destruct (proj2 (K2 v r c)) as (p & I & E & X).
      { rewrite (at2_cut ny nx) by (auto; lia). replace (fst ys + (r - fst ys)) with r by lia. replace (fst xs + (c - fst xs)) with c by lia.
        split; [split; [lia|split; [lia|exact M]]|]. exists w. split; [|exact Ew]. rewrite (at2_cut ny nx) by (auto; lia).
        replace (fst ys + (r - fst ys)) with r by lia. replace (fst xs + (c - fst xs)) with c by lia. split; [lia|split; [lia|exact Aw]]. }
      exists p. split; [|auto]. apply in_flat_map. exists ys. split; [exact Iy|]. apply in_flat_map. exists xs. auto.
Qed.

(* ---- all bands ---- *)
Lemma polygons d nb ny nx ycs xcs data mask neighbors : cuts ny ycs -> cuts nx xcs -> shaped3 nb ny nx data -> shaped3 nb ny nx mask -> neighbors = 4 \/ neighbors = 8 ->
  exists ps, to_polygons cast shapes d nb ycs xcs data mask neighbors = Ok ps /\ polygons_of cast d data mask ps.
Proof.
  intros Cy Cx [Ld Fd] [Lm Fm] N. unfold to_polygons.
  replace (existsb (Z.eqb neighbors) [4; 8]) with true by (destruct N as [-> | ->]; reflexivity). cbn [negb].
  set (band := fun i => match get data i, get mask i with Ok bd, Ok bm => dissolve (band_polygons d ycs xcs bd bm neighbors (i + 1)) | _, _ => [] end).
  assert (0 <= nb) as Hn by (rewrite <- Ld; apply len_nonneg).
  rewrite (traverse_ok _ band).
  2: { intros i I. apply zrange_in in I. unfold band. destruct (get_range data i ltac:(lia)) as [bd ->]. destruct (get_range mask i ltac:(lia)) as [bm ->]. reflexivity. }
  cbn [rbind]. eexists. split; [reflexivity|].
  assert (B : forall i, 0 <= i < nb -> all_distinct (band i) /\ (forall p, In p (band i) -> pg_band p = i + 1 /\ pg_cells p <> [] /\ is_nan (pg_value p) = false)
    /\ forall v r c, covered (band i) v (r, c) <-> has_value cast d data mask i r c v).
  { intros i Hi. unfold band. destruct (get_range data i ltac:(lia)) as [bd Ed]. destruct (get_range mask i ltac:(lia)) as [bm Em]. rewrite Ed, Em.
    rewrite Forall_forall in Fd, Fm. destruct (band_polygons_spec d ycs xcs bd bm neighbors (i + 1) ny nx Cy Cx (Fd _ (get_in _ _ _ Ed)) (Fm _ (get_in _ _ _ Em)) N) as [P1 P2].
    split; [apply dissolve_distinct|]. split.
    - intros p I. assert (F : Forall (fun p => pg_band p = i + 1 /\ pg_cells p <> [] /\ is_nan (pg_value p) = false) (dissolve (band_polygons d ycs xcs bd bm neighbors (i + 1)))).
      { apply dissolve_forall; cbn [pg_band pg_cells pg_value]; [|intros q Iq Nq; destruct (P1 q Iq); auto]. intros g cells (H1 & H2 & H3). split; [exact H1|split; [|exact H3]]. destruct (pg_cells g); [congruence|discriminate]. }
      rewrite Forall_forall in F. auto.
    - intros v r c. rewrite dissolve_covered, P2. unfold has_value, at3. split.
      + intros (M & w & Aw & E). split; [eauto|]. exists w. split; [eauto|exact E].
      + intros ((b1 & G1 & M) & w & (b2 & G2 & Aw) & E). assert (b1 = bm) as -> by congruence. assert (b2 = bd) as -> by congruence. split; [exact M|eauto]. }
  assert (I : forall p, In p (concat (map band (zrange 0 nb))) <-> exists i, 0 <= i < nb /\ In p (band i)).
  { intros p. rewrite in_concat. split; [intros (l & L & H); apply in_map_iff in L as (i & <- & L); apply zrange_in in L; eauto|].
    intros (i & Hi & H). exists (band i). split; [apply in_map; now apply zrange_in|exact H]. }
  split; [|split].
  - intros p Ip. apply I in Ip as (i & Hi & Ip). destruct (B i Hi) as (D & P & V). destruct (P p Ip) as (Eb & NE & NN). split; [exact NE|]. intros r c.
    rewrite (group_cells (band i) p (r, c) D Ip NN), V, Eb. now replace (i + 1 - 1) with i by lia.
  - intros b r c v H. assert (0 <= b < nb) as Hb. { destruct H as ((bm & G & _) & _). apply get_ok_range in G. lia. }
    destruct (B b Hb) as (D & P & V). apply V in H as (p & Ip & E & X). exists p. destruct (P p Ip) as [Eb _]. split; [apply I; eauto|auto].
  - intros i j p q Gi Gj Eb Ev.
    assert (K : forall n, 0 <= n -> n <= nb -> forall i j p q, get (concat (map band (zrange 0 n))) i = Ok p -> get (concat (map band (zrange 0 n))) j = Ok q -> pg_band p = pg_band q -> num_eqb (pg_value p) (pg_value q) = true -> i = j).
    { intros n H0. pattern n. apply natlike_ind; [..|exact H0]; clear n H0 i j p q Gi Gj Eb Ev.
      - intros _ i j p q G. destruct (get_nil _ _ G).
      - intros n H0 IH Hn' i j p q. unfold Z.succ in *. rewrite zrange_snoc, map_app, concat_app by lia. cbn [map concat]. rewrite app_nil_r.
        set (L := concat (map band (zrange 0 n))) in *. destruct (B n ltac:(lia)) as (D & P & _).
        assert (PL : forall p, In p L -> pg_band p < n + 1).
        { intros a Ia. unfold L in Ia. apply in_concat in Ia as (l & Il & Ia). apply in_map_iff in Il as (k & <- & Ik). apply zrange_in in Ik. destruct (B k ltac:(lia)) as (_ & P' & _). destruct (P' a Ia) as [-> _]. lia. }
        intros Gi Gj Eb Ev. destruct (Z_lt_dec i (len L)) as [Li|Li]; destruct (Z_lt_dec j (len L)) as [Lj|Lj].
        + rewrite get_app1 in Gi by lia. rewrite get_app1 in Gj by lia. apply (IH ltac:(lia) i j p q); auto.
        + rewrite get_app1 in Gi by lia. rewrite get_app2 in Gj by lia. apply get_in in Gi, Gj. apply PL in Gi. destruct (P q Gj) as [Eq _]. lia.
        + rewrite get_app2 in Gi by lia. rewrite get_app1 in Gj by lia. apply get_in in Gi, Gj. apply PL in Gj. destruct (P p Gi) as [Ep _]. lia.
        + rewrite get_app2 in Gi by lia. rewrite get_app2 in Gj by lia. pose proof (D _ _ _ _ Gi Gj Ev). lia. }
    exact (K nb ltac:(lia) ltac:(lia) i j p q Gi Gj Eb Ev).
Qed.
End Chunk.
Lemma has_value_iff cast d data mask b r c v w : num_eqb v w = true -> has_value cast d data mask b r c v <-> has_value cast d data mask b r c w.
Proof.
  intros E. unfold has_value. split; intros (M & u & A & H); (split; [exact M|]); exists u; (split; [exact A|]); rewrite num_eqb_sym in H |- *; [rewrite <- (num_eqb_congr_l v w _ E)|rewrite (num_eqb_congr_l v w _ E)]; exact H.
Qed.
Lemma polygons_unique cast d data mask ps qs : polygons_of cast d data mask ps -> polygons_of cast d data mask qs ->
  forall p, In p ps -> exists q, In q qs /\ same_polygon p q.
Proof.
  intros (P1 & P2 & P3) (Q1 & Q2 & Q3) p Ip. destruct (P1 p Ip) as [NE H]. destruct (pg_cells p) as [|[r c] cells] eqn:E; [congruence|]. rewrite <- E in *.
  assert (HV : has_value cast d data mask (pg_band p - 1) r c (pg_value p)) by (apply H; rewrite E; now left).
  destruct (Q2 _ _ _ _ HV) as (q & Iq & Eb & X). exists q. split; [exact Iq|]. destruct (Q1 q Iq) as [_ HQ]. pose proof (proj1 (HQ r c) X) as HV'.
  assert (num_eqb (pg_value p) (pg_value q) = true) as EV.
  { destruct HV as ((bm & G1 & M1) & w & (bd & G2 & A1) & E1). destruct HV' as ((bm' & G1' & M1') & w' & (bd' & G2' & A1') & E1').
    rewrite Eb in G1', G2'. replace (pg_band p - 1 + 1 - 1) with (pg_band p - 1) in * by lia. assert (bd' = bd) as -> by congruence.
    assert (w' = w) as ->. { destruct A1 as (? & K1 & K2), A1' as (? & K3 & K4). congruence. }
    now rewrite <- (num_eqb_congr_l _ _ (pg_value q) E1). }
  split; [lia|split; [exact EV|]]. intros [r' c']. rewrite H, HQ. replace (pg_band q - 1) with (pg_band p - 1) by lia. now apply has_value_iff.
Qed.
Lemma exact_value cast d v : keeps cast -> respects cast -> value_of d v -> match through_dtype d with Some w => value_of w v | None => True end ->
  same_value (converted cast d v) v = true.
Proof.
  intros K R V1 V2. unfold converted. destruct (through_dtype d) as [w|]; [|apply same_value_refl].
  pose proof (R d _ _ (K w v V2)) as H1. pose proof (K d v V1) as H2. unfold same_value in *. destruct (cast d (cast w v)), (cast d v), v; try discriminate; try reflexivity.
  apply Qeq_bool_iff in H1, H2. apply Qeq_bool_iff. now rewrite H1.
Qed.
Lemma exact_polygons cast d data mask ps : keeps cast -> respects cast -> representable d data mask -> polygons_of cast d data mask ps ->
  (forall p, In p ps -> forall r c, In (r, c) (pg_cells p) <-> at3 mask (pg_band p - 1) r c false /\ exists v, at3 data (pg_band p - 1) r c v /\ num_eqb v (pg_value p) = true)
  /\ (forall b r c v, at3 mask b r c false -> at3 data b r c v -> is_nan v = false -> exists p, In p ps /\ pg_band p = b + 1 /\ num_eqb v (pg_value p) = true /\ In (r, c) (pg_cells p)).
Proof.
  intros K R P (H1 & H2 & _).
  assert (E : forall b r c v, has_value cast d data mask b r c v <-> at3 mask b r c false /\ exists w, at3 data b r c w /\ num_eqb w v = true).
  { intros b r c v. unfold has_value. split; intros (M & w & A & E); (split; [exact M|]); exists w; (split; [exact A|]); destruct (P b r c w M A) as [V1 V2]; pose proof (exact_value cast d w K R V1 V2) as S.
    - eapply same_eqb; [apply same_sym, S|exact E].
    - eapply same_eqb; [exact S|exact E]. }
  split.
  - intros p I r c. destruct (H1 p I) as [_ H]. now rewrite H, E.
  - intros b r c v M A N. destruct (H2 b r c v) as (p & I & Eb & X); [apply E; split; [exact M|]; exists v; split; [exact A|now apply num_eqb_refl]|].
    exists p. split; [exact I|split; [exact Eb|split; [|exact X]]]. destruct (H1 p I) as [_ H]. apply H, E in X as (_ & w & A' & E'). rewrite Eb in A'. replace (b + 1 - 1) with b in A' by lia.
    assert (w = v) as ->; [|exact E']. destruct A as (? & K1 & ? & K2 & K3), A' as (? & K4 & ? & K5 & K6). congruence.
Qed.
