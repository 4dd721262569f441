(* Proofs about ZonalRaster.v. *)
From Coq Require Import QArith String Ascii DecimalString DecimalN NArith Lia ZifyBool ZifyNat Permutation Sorted OrdersEx.
From Verif Require Import Base BaseFacts Scalars NumFacts Arr2 Arr2Facts Dtypes ChunksProofs CostPublicProofs ProximityChunk FocalSpec FocalValues FocalResults Raster RasterSpec RasterProofs RasterStack Stats StatsSpec StatsProofs
  Zonal ZonalSpec ZonalProofs ZonalStats Vectors VectorsProofs Rasterize RasterizeSpec RasterizeRaster RasterizeRasterSpec RasterizeRasterProofs Frames FramesProofs ZonalRaster ZonalRasterSpec.
Open Scope Z_scope.

(* ---- lists ---- *)
Lemma get_block {A B} (f : A -> list B) m l : forall k j a, (forall x, In x l -> len (f x) = m) -> get l k = Ok a -> 0 <= j < m -> get (flat_map f l) (k * m + j) = get (f a) j.
Proof.
  induction l as [|x l IH]; intros k j a F H Hj; [pose proof (get_ok_range _ _ _ H) as R; change (len (@nil A)) with 0 in R; lia|]. cbn [flat_map].
  pose proof (get_ok_range _ _ _ H) as R. rewrite len_cons in R. pose proof (F x (or_introl eq_refl)) as L.
  destruct (Z.eq_dec k 0) as [->|K].
  - rewrite get_cons0 in H. injection H as ->. rewrite Z.mul_0_l, Z.add_0_l. apply get_app1. lia.
  - rewrite get_cons in H by lia. rewrite get_app2 by nia. rewrite L. replace (k * m + j - m) with ((k - 1) * m + j) by lia. apply IH; auto. intros y Hy. apply F. now right.
Qed.
Lemma len_blocks {A B} (f : A -> list B) m l : (forall x, In x l -> len (f x) = m) -> len (flat_map f l) = len l * m.
Proof.
  induction l as [|x l IH]; intros F; [reflexivity|]. cbn [flat_map]. rewrite len_app, len_cons, IH by (intros; apply F; now right). rewrite F by now left. lia.
Qed.
Lemma slice_block {A B} (f : A -> list B) m l k a : 0 <= m -> (forall x, In x l -> len (f x) = m) -> get l k = Ok a -> slice (flat_map f l) (k * m) (k * m + m) = f a.
Proof.
  intros Hm F H. pose proof (get_ok_range _ _ _ H) as R. assert (L : len (flat_map f l) = len l * m) by now apply len_blocks.
  assert (La : len (f a) = m) by (apply F; eapply get_in; exact H).
  assert (BD : 0 <= k * m /\ k * m + m <= len l * m) by nia.
  apply list_ext.
  - rewrite slice_len; lia.
  - intros i x Hi. pose proof (get_ok_range _ _ _ Hi) as Ri. rewrite slice_len in Ri by lia. rewrite get_slice in Hi by lia. rewrite (get_block f m l k i a) in Hi by (auto; lia). exact Hi.
Qed.
Lemma get_zrange1 n b : 0 <= b < n -> get (zrange 1 (n + 1)) b = Ok (b + 1).
Proof. intros H. rewrite get_zrange by lia. f_equal. lia. Qed.
Lemma of_option_map {A B} (f : A -> option B) l : (forall x, In x l -> exists y, f x = Some y) -> forall d, traverse (fun x => of_option (f x)) l = Ok (map (fun x => match f x with Some y => y | None => d end) l).
Proof. intros H d. apply traverse_ok. intros x Hx. destruct (H x Hx) as [y ->]. reflexivity. Qed.

(* ---- labels ---- *)
Lemma label_inj a b : 0 <= a -> 0 <= b -> band_label a = band_label b -> a = b.
Proof. apply numbered_inj. Qed.
Lemma lookup_found {A} (c : A -> string * string) (v : A -> num) L x : In x L -> (forall y, In y L -> c y = c x -> v y = v x) -> lookup_column (map c L) (map v L) (c x) = Ok (v x).
Proof.
  induction L as [|y L IH]; intros H U; [destruct H|]. cbn [map lookup_column]. destruct (column_eqb (c y) (c x)) eqn:E.
  - apply andb_prop in E as [E1 E2]. apply String.eqb_eq in E1, E2. f_equal. apply U; [now left|]. destruct (c y), (c x). cbn in *. congruence.
  - apply IH; [|intros; apply U; [now right|assumption]]. destruct H as [->|H]; [|exact H]. unfold column_eqb in E. now rewrite !String.eqb_refl in E.
Qed.
(* ---- the frame of all bands ---- *)
Definition pairs (nb : Z) (stats : list string) : list (Z * string) := flat_map (fun b => map (pair b) stats) (zrange 1 (nb + 1)).
Definition pair_label (p : Z * string) : string * string := (band_label (fst p), snd p).
Lemma columns_pairs nb stats : columns_of nb stats = map pair_label (pairs nb stats).
Proof. unfold columns_of, pairs. rewrite !flat_map_concat_map, concat_map, map_map. f_equal. apply map_ext. intros b. now rewrite map_map. Qed.
Lemma pairs_in nb stats p : In p (pairs nb stats) <-> 1 <= fst p <= nb /\ In (snd p) stats.
Proof.
  unfold pairs. rewrite in_flat_map. split.
  - intros (b & Hb & H). apply zrange_in' in Hb. apply in_map_iff in H as (s & <- & Hs). cbn. split; [lia|exact Hs].
  - intros [H1 H2]. exists (fst p). split; [apply zrange_in'; lia|]. apply in_map_iff. exists (snd p). split; [now destruct p|exact H2].
Qed.
(* ---- statistics do not depend on the order ---- *)
Section Stat.
Variable other : string -> list num -> num.
Lemma distinct_perm_values x y D : Permutation x y -> distinct_values x D -> distinct_values y D.
Proof.
  intros P (A & B & C). split; [|split; [|exact C]].
  - intros v H. rewrite <- (occ_perm v x y P). auto.
  - intros v H. apply B. eapply Permutation_in; [symmetry; exact P|exact H].
Qed.
Lemma stat_of_perm (other_perm : forall name x y, Permutation x y -> other name x = other name y) name n x y e : Permutation x y -> stat_of other name n x e -> stat_of other name n y e.
Proof.
  intros P. assert (L : len x = len y) by (unfold len; now rewrite (Permutation_length P)).
  assert (N : x = [] -> y = []) by (intros ->; now apply Permutation_nil).
  assert (I : forall v, In v x <-> In v y) by (intros v; split; apply Permutation_in; [exact P|now symmetry]).
  unfold stat_of.
  destruct (String.eqb name "count"); [now rewrite L|]. destruct (String.eqb name "size"); [auto|].
  destruct (String.eqb name "nunique"). { intros (D & H & E). exists D. split; [now apply (distinct_perm_values x)|exact E]. }
  destruct (String.eqb name "min"). { intros [[H E]|[H E]]; [left; auto|right]. split; [now apply I|]. intros v Hv. apply E. now apply I. }
  destruct (String.eqb name "max"). { intros [[H E]|[H E]]; [left; auto|right]. split; [now apply I|]. intros v Hv. apply E. now apply I. }
  destruct (String.eqb name "mode").
  { intros [[H E]|(H1 & H2 & H3 & H4)]; [left; auto|right]. split; [now apply I|]. split; [exact H2|].
    split; intros v Hv; apply I in Hv; rewrite <- !(occ_perm _ x y P); auto. }
  intros ->. now apply other_perm.
Qed.
(* ---- one aggregation ---- *)
Lemma other_zonal name zn ts z : let rows := flat_map leaves ts in
  zonal_agg (filter not_nan) (@concat num) (other name) zn None ts z = None /\ zone_cells zn rows z = [] \/
  zonal_agg (filter not_nan) (@concat num) (other name) zn None ts z = Some (other name (zone_valid zn None rows z)) /\ zone_cells zn rows z <> [].
Proof.
  intros rows. assert (C : forall vss cs, Forall2 (fun vs c => c = valid vs) vss cs -> concat cs = valid (concat vss)).
  { intros vss cs. induction 1 as [|vs c vss cs -> _ IH]; [reflexivity|]. cbn [concat]. rewrite IH. unfold valid. now rewrite filter_app. }
  destruct (zonal_spec (filter not_nan) (@concat num) (other name) (fun vs c => c = valid vs) (fun vs c => c = valid vs) zn None ts z) as [[E V]|(c & E & V & Q)].
  - intros vs _. reflexivity.
  - intros vss cs _. apply C.
  - intros vss cs _. apply C.
  - left. split; [exact E|]. now apply series_nil in V.
  - right. subst c. rewrite series_valid in E. split; [exact E|]. intros H. apply V. now apply series_nil.
Qed.
Lemma entry_ok name zn ts z : let rows := flat_map leaves ts in zone_cells zn rows z <> [] ->
  exists e, entry other name zn ts z = Some e /\ stat_of other name (len (zone_cells zn rows z)) (zone_valid zn None rows z) e.
Proof.
  intros rows H. assert (L : (len (zone_cells zn rows z) =? 0) = false). { destruct (zone_cells zn rows z); [congruence|]. rewrite len_cons. pose proof (len_nonneg l). lia. }
  assert (NV : Forall (fun v => is_nan v = false) (zone_valid zn None rows z)).
  { apply Forall_forall. intros v Hv. apply filter_In in Hv as [_ Hv]. unfold is_null in Hv. now destruct (is_nan v). }
  unfold entry, stat_of.
  destruct (String.eqb name "count"). { pose proof (count_zonal zn None ts z) as C. cbn zeta in C. fold rows in C. rewrite L in C. rewrite C. eexists. split; [reflexivity|reflexivity]. }
  destruct (String.eqb name "size"). { pose proof (size_zonal zn None ts z) as C. cbn zeta in C. fold rows in C. rewrite L in C. rewrite C. eexists. split; [reflexivity|reflexivity]. }
  destruct (String.eqb name "nunique").
  { pose proof (nunique_zonal zn None ts z) as C. cbn zeta in C. fold rows in C. rewrite L in C. rewrite C. eexists. split; [reflexivity|].
    exists (to_set (zone_valid zn None rows z)). split; [now apply to_set_distinct|]. now rewrite to_set_len. }
  destruct (String.eqb name "min"). { destruct (min_zonal zn None ts z) as [[_ E]|(m & E & _ & M)]; [contradiction|]. exists m. split; [exact E|exact M]. }
  destruct (String.eqb name "max"). { destruct (max_zonal zn None ts z) as [[_ E]|(m & E & _ & M)]; [contradiction|]. exists m. split; [exact E|exact M]. }
  destruct (String.eqb name "mode"). { destruct (mode_zonal zn None ts z) as [[_ E]|(m & E & _ & M)]; [contradiction|]. exists m. split; [exact E|exact M]. }
  destruct (other_zonal name zn ts z) as [[_ E]|[E _]]; [contradiction|]. eexists. split; [exact E|reflexivity].
Qed.

Section Frame.
Variable zn : option num.
Variable nb : Z.
Variable T : Z -> list (Zonal.tree (list row)).
Variable keys : list num.
Hypothesis keys_ok : forall z b s, In z keys -> 1 <= b <= nb -> exists e, entry other s zn (T b) z = Some e.
Hypothesis keys_distinct : ForallOrdPairs (fun a b => num_eqb a b = false) keys.
Hypothesis keys_nan : forall z, In z keys -> is_nan z = false.
Definition ent (z : num) (p : Z * string) : num := match entry other (snd p) zn (T (fst p)) z with Some e => e | None => NaN end.
Lemma agg_ok stats : agg other zn stats (map (fun b => (band_label b, T b)) (zrange 1 (nb + 1))) keys
  = Ok (ZFrame (columns_of nb stats) (map (fun z => (z, map (ent z) (pairs nb stats))) keys)).
Proof.
  unfold agg. set (bands := map _ (zrange 1 (nb + 1))).
  assert (C : flat_map (fun b => map (fun s => (b, s)) stats) bands = map (fun p => ((band_label (fst p), T (fst p)), snd p)) (pairs nb stats)).
  { unfold bands, pairs. rewrite !flat_map_concat_map, map_map, concat_map, map_map. f_equal. apply map_ext. intros b. now rewrite map_map. }
  rewrite C. rewrite traverse_ok with (g := fun z => (z, map (ent z) (pairs nb stats))).
  - cbn [rbind]. rewrite map_map. cbn [fst snd]. now rewrite columns_pairs.
  - intros z Hz. rewrite of_option_map with (d := NaN).
    + cbn [rbind]. rewrite map_map. reflexivity.
    + intros c Hc. apply in_map_iff in Hc as (p & <- & Hp). cbn [fst snd]. apply pairs_in in Hp as [Hp _]. now apply keys_ok.
Qed.
Lemma find_key (g : num -> num * list num) l z : (forall x, fst (g x) = x) -> ForallOrdPairs (fun a b => num_eqb a b = false) l -> In z l -> is_nan z = false -> find (fun q => num_eqb z (fst q)) (map g l) = Some (g z).
Proof.
  intros G. induction 1 as [|a l F D IH]; intros H N; [destruct H|]. cbn [map find]. rewrite G. destruct H as [->|H].
  - now rewrite num_eqb_refl.
  - rewrite Forall_forall in F. rewrite num_eqb_sym, (F z H). now apply IH.
Qed.
Lemma join_ok sa sb : join (ZFrame (columns_of nb sa) (map (fun z => (z, map (ent z) (pairs nb sa))) keys)) (ZFrame (columns_of nb sb) (map (fun z => (z, map (ent z) (pairs nb sb))) keys))
  = ZFrame (map pair_label (pairs nb sa ++ pairs nb sb)) (map (fun z => (z, map (ent z) (pairs nb sa ++ pairs nb sb))) keys).
Proof.
  unfold join. cbn [f_columns f_rows]. rewrite map_map, map_app, !columns_pairs. f_equal. apply map_ext_in. intros z Hz. unfold join_row. cbn [fst snd f_rows].
  rewrite (find_key (fun z => (z, map (ent z) (pairs nb sb)))); auto. cbn [snd]. now rewrite map_app.
Qed.
Lemma select_ok L names : 0 <= nb -> (forall p, In p (pairs nb names) -> In p L) -> (forall p, In p L -> 1 <= fst p <= nb) ->
  select (ZFrame (map pair_label L) (map (fun z => (z, map (ent z) L)) keys)) (columns_of nb names) = Ok (ZFrame (columns_of nb names) (map (fun z => (z, map (ent z) (pairs nb names))) keys)).
Proof.
  intros Hn I R. unfold select. cbn [f_columns f_rows].
  assert (E : traverse (fun r => let* vals := traverse (lookup_column (map pair_label L) (snd r)) (columns_of nb names) in Ok (fst r, vals)) (map (fun z => (z, map (ent z) L)) keys)
    = Ok (map (fun z => (z, map (ent z) (pairs nb names))) keys)).
  { clear keys_distinct. revert keys_ok keys_nan. induction keys as [|z zs IH]; intros K1 K2; [reflexivity|]. cbn [map traverse fst snd].
    rewrite columns_pairs.
    assert (E : traverse (lookup_column (map pair_label L) (map (ent z) L)) (map pair_label (pairs nb names)) = Ok (map (ent z) (pairs nb names))).
    { assert (G : forall P, (forall p, In p P -> In p L) -> traverse (lookup_column (map pair_label L) (map (ent z) L)) (map pair_label P) = Ok (map (ent z) P)).
      { induction P as [|p P IHP]; intros IP; [reflexivity|]. cbn [map traverse]. rewrite lookup_found.
        - cbn [rbind]. rewrite IHP; [reflexivity|]. intros. apply IP. now right.
        - apply IP. now left.
        - intros q Hq E. unfold pair_label in E. assert (E1 : band_label (fst q) = band_label (fst p)) by congruence. assert (E2 : snd q = snd p) by congruence.
          pose proof (R q Hq). pose proof (R p (IP p (or_introl eq_refl))). apply label_inj in E1; try lia. unfold ent. now rewrite E1, E2. }
      now apply G. }
    rewrite E. cbn [rbind]. rewrite <- columns_pairs. rewrite IH; [reflexivity| |].
    - intros; apply K1; [now right|assumption].
    - intros; apply K2; now right. }
  rewrite E. reflexivity.
Qed.
End Frame.
End Stat.
