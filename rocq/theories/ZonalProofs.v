From Coq Require Import QArith Reals Lra Sorted.
From Verif Require Import Base BaseFacts Scalars NumFacts ChunksProofs RasterStack Stats StatsSpec StatsProofs Zonal ZonalSpec.
Open Scope Z_scope.

Lemma tree_ind' {A} (P : tree A -> Prop) : (forall a, P (Leaf a)) -> (forall ts, Forall P ts -> P (Node ts)) -> forall t, P t.
Proof.
  intros HL HN. fix F 1. intros [a|ts]; [apply HL|]. apply HN. induction ts as [|t ts IH]; constructor; [apply F|exact IH].
Qed.

(* ---- minimum and maximum ---- *)
Section Extreme.
(* f selects by the order le *)
Variables (f : num -> num -> num) (le : num -> num -> bool).
Hypothesis f_nan_l : forall a b, is_nan a = true -> f a b = b.
Hypothesis f_nan_r : forall a b, is_nan b = true -> f a b = a.
Hypothesis f_sel : forall a b, is_nan a = false -> is_nan b = false -> (f a b = a \/ f a b = b) /\ le (f a b) a = true /\ le (f a b) b = true.
Hypothesis le_refl : forall a, is_nan a = false -> le a a = true.
Hypothesis le_trans : forall a b c, le a b = true -> le b c = true -> le a c = true.
Definition ext_of (x r : list num) : Prop :=
  x = [] /\ r = []
  \/ x <> [] /\ Forall (fun v => is_nan v = true) x /\ r = [NaN]
  \/ exists m, r = [m] /\ In m x /\ is_nan m = false /\ forall v, In v x -> is_nan v = false -> le m v = true.
Lemma is_nan_eq v : is_nan v = true -> v = NaN.
Proof. now destruct v. Qed.
Lemma fold_ext l : forall a, ext_of (a :: l) [fold_left f l a].
Proof.
  induction l as [|b l IH]; intros a.
  - cbn. destruct (is_nan a) eqn:E.
    + right. left. split; [discriminate|]. split; [now repeat constructor|]. now rewrite (is_nan_eq a E).
    + right. right. exists a. split; [reflexivity|]. split; [now left|]. split; [exact E|]. intros v [->|[]] _. now apply le_refl.
  - cbn [fold_left]. destruct (IH (f a b)) as [[H _]|[(_ & H & E)|(m & E & I & N & L)]]; [discriminate| |].
    + right. left. split; [discriminate|]. split; [|exact E]. inversion H as [|? ? H1 H2]; subst.
      destruct (is_nan a) eqn:Ea; [rewrite f_nan_l in H1 by exact Ea; now repeat constructor|].
      destruct (is_nan b) eqn:Eb; [rewrite f_nan_r in H1 by exact Eb; congruence|].
      destruct (f_sel a b Ea Eb) as ([S|S] & _); rewrite S in H1; congruence.
    + right. right. exists m. split; [exact E|].
      assert (K : forall v, v = a \/ v = b -> is_nan v = false -> le m v = true).
      { intros v Hv Nv. destruct (is_nan a) eqn:Ea; [rewrite f_nan_l in * by exact Ea; destruct Hv; subst; [congruence|apply L; [now left|exact Nv]]|].
        destruct (is_nan b) eqn:Eb; [rewrite f_nan_r in * by exact Eb; destruct Hv; subst; [apply L; [now left|exact Nv]|congruence]|].
        destruct (f_sel a b Ea Eb) as (S & S1 & S2). assert (Nf : is_nan (f a b) = false) by (destruct S as [S|S]; now rewrite S).
        pose proof (L _ (or_introl eq_refl) Nf). destruct Hv; subst; eauto. }
      split; [|split; [exact N|]].
      * destruct I as [I|I]; [|now right; right]. destruct (is_nan a) eqn:Ea; [rewrite f_nan_l in I by exact Ea; right; now left|].
        destruct (is_nan b) eqn:Eb; [rewrite f_nan_r in I by exact Eb; now left|]. destruct (f_sel a b Ea Eb) as ([S|S] & _); rewrite S in I; [now left|right; now left].
      * intros v [<-|[<-|Hv]] Nv; [apply K; auto|apply K; auto|]. apply L; [now right|exact Nv].
Qed.
Lemma handle_ext x : ext_of x (handle_empty f x).
Proof. destruct x as [|a l]; [now left|]. apply fold_ext. Qed.
Lemma ext_len x r : ext_of x r -> r = [] <-> x = [].
Proof. intros [[-> ->]|[(H & _ & ->)|(m & -> & I & _)]]; split; intros; try tauto; try discriminate. subst. destruct I. Qed.
(* aggregating the extremes of parts *)
Lemma ext_concat xs : forall rs r, Forall2 ext_of xs rs -> ext_of (concat rs) r -> ext_of (concat xs) r.
Proof.
  intros rs r F H.
  assert (A : forall v, In v (concat rs) -> In v (concat xs)).
  { clear H. induction F as [|x y xs rs E F IH]; cbn; [tauto|]. intros v. rewrite !in_app_iff. intros [I|I]; [left|right; auto].
    destruct E as [[_ ->]|[(N & All & ->)|(m & -> & Im & _)]]; [destruct I| |].
    - destruct I as [<-|[]]. destruct x as [|a x]; [contradiction|]. left. inversion All; subst. now apply is_nan_eq.
    - destruct I as [<-|[]]. exact Im. }
  assert (B : forall v, In v (concat xs) -> is_nan v = false -> exists w, In w (concat rs) /\ is_nan w = false /\ le w v = true).
  { clear H A. induction F as [|x y xs rs E F IH]; cbn; [tauto|]. intros v. rewrite !in_app_iff. intros [I|I] Nv.
    - destruct E as [[-> _]|[(N & All & ->)|(m & -> & Im & Nm & L)]]; [destruct I| |].
      + rewrite Forall_forall in All. apply All in I. congruence.
      + exists m. split; [now left|]. split; [exact Nm|]. auto.
    - destruct (IH v I Nv) as (w & Hw & K). exists w. rewrite in_app_iff. auto. }
  assert (C : concat rs = [] -> concat xs = []).
  { clear A B H. induction F as [|x y xs rs E F IH]; cbn; [tauto|]. intros H. apply app_eq_nil in H. destruct H as [H1 H2]. apply (ext_len x y E) in H1. subst. cbn. auto. }
  destruct H as [[E ->]|[(N & All & ->)|(m & -> & Im & Nm & L)]].
  - left. auto.
  - right. left. split.
    + destruct (concat rs) as [|a l] eqn:Er; [contradiction|]. intros Ex. specialize (A a (or_introl eq_refl)). now rewrite Ex in A.
    + split; [|reflexivity]. apply Forall_forall. intros v Hv. destruct (is_nan v) eqn:Ev; [reflexivity|]. destruct (B v Hv Ev) as (w & Hw & Nw & _).
      rewrite Forall_forall in All. apply All in Hw. congruence.
  - right. right. exists m. split; [reflexivity|]. split; [auto|]. split; [exact Nm|]. intros v Hv Nv. destruct (B v Hv Nv) as (w & Hw & Nw & K). eauto.
Qed.
Lemma reduction_ext t : ext_of (leaves t) (reduction f t).
Proof.
  induction t as [l|ts IH] using tree_ind'; [apply handle_ext|]. cbn [leaves reduction].
  rewrite !flat_map_concat_map. apply (ext_concat _ (map (reduction f) ts)); [|apply handle_ext].
  induction IH as [|t ts H _ IH]; cbn; constructor; auto.
Qed.
End Extreme.

Lemma fmin_nan_l a b : is_nan a = true -> fmin a b = b. Proof. unfold fmin. now intros ->. Qed.
Lemma fmin_nan_r a b : is_nan b = true -> fmin a b = a.
Proof. unfold fmin. intros E. rewrite E. destruct (is_nan a) eqn:Ea; [|reflexivity]. destruct a, b; try discriminate; reflexivity. Qed.
Lemma fmax_nan_l a b : is_nan a = true -> fmax a b = b. Proof. unfold fmax. now intros ->. Qed.
Lemma fmax_nan_r a b : is_nan b = true -> fmax a b = a.
Proof. unfold fmax. intros E. rewrite E. destruct (is_nan a) eqn:Ea; [|reflexivity]. destruct a, b; try discriminate; reflexivity. Qed.
Lemma ltb_leb a b : num_ltb a b = true -> num_leb a b = true. Proof. unfold num_leb. now intros ->. Qed.
Lemma nlt_leb a b : is_nan a = false -> is_nan b = false -> num_ltb b a = false -> num_leb a b = true.
Proof. intros Na Nb E. destruct (num_leb a b) eqn:L; [reflexivity|]. apply num_leb_total in L; [congruence|assumption..]. Qed.
Lemma fmin_sel a b : is_nan a = false -> is_nan b = false -> (fmin a b = a \/ fmin a b = b) /\ num_leb (fmin a b) a = true /\ num_leb (fmin a b) b = true.
Proof.
  unfold fmin. intros Na Nb. rewrite Na, Nb. destruct (num_ltb b a) eqn:E.
  - split; [now right|]. split; [now apply ltb_leb|now apply num_leb_refl].
  - split; [now left|]. split; [now apply num_leb_refl|now apply nlt_leb].
Qed.
Lemma fmax_sel a b : is_nan a = false -> is_nan b = false -> (fmax a b = a \/ fmax a b = b) /\ num_leb a (fmax a b) = true /\ num_leb b (fmax a b) = true.
Proof.
  unfold fmax. intros Na Nb. rewrite Na, Nb. destruct (num_ltb a b) eqn:E.
  - split; [now right|]. split; [now apply ltb_leb|now apply num_leb_refl].
  - split; [now left|]. split; [now apply num_leb_refl|now apply nlt_leb].
Qed.
Lemma nanmin_spec t : least_of (leaves t) (dask_nanmin t).
Proof. exact (reduction_ext fmin num_leb fmin_nan_l fmin_nan_r fmin_sel num_leb_refl num_leb_trans t). Qed.
Lemma nanmax_spec t : greatest_of (leaves t) (dask_nanmax t).
Proof. exact (reduction_ext fmax (fun a b => num_leb b a) fmax_nan_l fmax_nan_r fmax_sel num_leb_refl (fun a b c H1 H2 => num_leb_trans c b a H2 H1) t). Qed.
Lemma leaves_map {A B} (g : list A -> list B) (Hg : forall l l', g (l ++ l') = g l ++ g l') (Hn : g [] = []) t : leaves (tree_map g t) = g (leaves t).
Proof.
  induction t as [l|ts IH] using tree_ind'; [reflexivity|]. cbn [tree_map leaves]. induction IH as [|t ts H _ IH]; cbn; [now rewrite Hn|]. now rewrite Hg, H, IH.
Qed.
Lemma unmasked_app l l' : unmasked (l ++ l') = unmasked l ++ unmasked l'.
Proof. unfold unmasked. now rewrite filter_app, map_app. Qed.
Lemma raster_min_spec t : least_of (unmasked (leaves t)) (raster_min t).
Proof. unfold raster_min. rewrite <- (leaves_map unmasked unmasked_app eq_refl). apply nanmin_spec. Qed.
Lemma raster_max_spec t : greatest_of (unmasked (leaves t)) (raster_max t).
Proof. unfold raster_max. rewrite <- (leaves_map unmasked unmasked_app eq_refl). apply nanmax_spec. Qed.

(* ---- aggregation over any tree ---- *)
Lemma group_app z l l' : group z (l ++ l') = group z l ++ group z l'.
Proof. unfold group. now rewrite filter_app, map_app. Qed.
Section Agg.
Context {C : Type}.
Variables (chunk : list num -> C) (agg : list C -> C) (R Q : list num -> C -> Prop).
Hypothesis R_chunk : forall vs, vs <> [] -> R vs (chunk vs).
Hypothesis R_agg : forall vss cs, cs <> [] -> Forall2 R vss cs -> R (concat vss) (agg cs).
Hypothesis Q_agg : forall vss cs, cs <> [] -> Forall2 R vss cs -> Q (concat vss) (agg cs).
Definition entry (P : list num -> C -> Prop) (vs : list num) (o : option C) : Prop :=
  match o with
  | None => vs = []
  | Some c => vs <> [] /\ P vs c
  end.
Lemma node_parts z ts : Forall (fun t => entry R (group z (leaves t)) (agg_tree chunk agg z t)) ts ->
  exists vss, group z (flat_map leaves ts) = concat vss /\ Forall (fun vs => vs <> []) vss /\
  Forall2 R vss (flat_map (fun t => opt_list (agg_tree chunk agg z t)) ts).
Proof.
  induction 1 as [|t ts H _ (vss & E & N & F)]; [exists []; repeat constructor|]. cbn [flat_map]. rewrite group_app.
  destruct (agg_tree chunk agg z t) as [c|]; cbn in H.
  - exists (group z (leaves t) :: vss). cbn. rewrite E. split; [reflexivity|]. split; [constructor; tauto|]. constructor; tauto.
  - exists vss. rewrite H. cbn. auto.
Qed.
Lemma node_entry z ts (P : list num -> C -> Prop) : (forall vss cs, cs <> [] -> Forall2 R vss cs -> P (concat vss) (agg cs)) ->
  Forall (fun t => entry R (group z (leaves t)) (agg_tree chunk agg z t)) ts ->
  entry P (group z (leaves (Node ts))) (agg_tree chunk agg z (Node ts)).
Proof.
  intros HP H. destruct (node_parts z ts H) as (vss & E & N & F). cbn [leaves agg_tree]. rewrite E.
  destruct (flat_map (fun t => opt_list (agg_tree chunk agg z t)) ts) as [|c cs] eqn:Ec; cbn.
  - inversion F; subst. reflexivity.
  - split; [|apply HP; [discriminate|assumption]]. inversion F; subst. inversion N; subst. cbn. destruct x; [contradiction|discriminate].
Qed.
Lemma agg_tree_spec z t : entry R (group z (leaves t)) (agg_tree chunk agg z t).
Proof.
  induction t as [l|ts IH] using tree_ind'; [|now apply node_entry]. cbn [leaves agg_tree]. unfold present. destruct (group z l) as [|v vs] eqn:E; [reflexivity|]. rewrite <- E.
  cbn. split; [rewrite E; discriminate|]. apply R_chunk. rewrite E. discriminate.
Qed.
Lemma agg_root z ts : entry Q (group z (leaves (Node ts))) (agg_tree chunk agg z (Node ts)).
Proof. apply node_entry; [exact Q_agg|]. apply Forall_forall. intros t _. apply agg_tree_spec. Qed.
End Agg.

Lemma prepare_app zn dn l l' : prepare zn dn (l ++ l') = prepare zn dn l ++ prepare zn dn l'.
Proof. unfold prepare. now rewrite filter_app, map_app. Qed.
(* the series of zone z *)
Definition series (zn dn : option num) (rows : list row) (z : num) : list num := group z (prepare zn dn rows).
Lemma series_cells zn dn rows z : series zn dn rows z = map (fun r => null_to_nan dn (snd r)) (zone_cells zn rows z).
Proof.
  unfold series, group, prepare, zone_cells. induction rows as [|[k v] rows IH]; [reflexivity|]. cbn [filter fst].
  destruct (keep_zone zn k) eqn:K; cbn [map filter fst].
  - assert (E : num_eqb z k && negb (is_null zn k) = num_eqb z k).
    { destruct (num_eqb z k) eqn:Z1; [|reflexivity]. apply num_eqb_not_nan in Z1 as [_ Nk]. unfold is_null. rewrite Nk. cbn. destruct zn; cbn in K |- *; [exact K|reflexivity]. }
    rewrite E. destruct (num_eqb z k); cbn; now rewrite IH.
  - assert (E : is_null zn k = true) by (unfold is_null; destruct zn; cbn in K; [|discriminate]; apply negb_false_iff in K; rewrite K; apply orb_true_r).
    rewrite E, andb_false_r. exact IH.
Qed.
Lemma series_valid zn dn rows z : valid (series zn dn rows z) = zone_valid zn dn rows z.
Proof.
  rewrite series_cells. unfold zone_valid. induction (zone_cells zn rows z) as [|[k v] l IH]; [reflexivity|]. cbn [map filter snd valid].
  assert (E : is_nan (null_to_nan dn v) = is_null dn v /\ (is_null dn v = false -> null_to_nan dn v = v)).
  { unfold null_to_nan, is_null. destruct dn as [n|].
    - destruct (is_nan n) eqn:En; [destruct n; try discriminate; destruct v; cbn; auto|]. destruct (num_eqb v n) eqn:Ev; [rewrite orb_true_r; split; [reflexivity|discriminate]|]. rewrite orb_false_r. auto.
    - rewrite orb_false_r. auto. }
  destruct E as [E1 E2]. unfold valid in *. cbn [filter]. rewrite E1. destruct (is_null dn v); cbn; [exact IH|]. now rewrite E2, IH.
Qed.
Lemma series_nil zn dn rows z : series zn dn rows z = [] <-> zone_cells zn rows z = [].
Proof. rewrite series_cells. destruct (zone_cells zn rows z); split; intros; [reflexivity|reflexivity|discriminate|discriminate]. Qed.
Lemma zonal_spec {C T} (chunk : list num -> C) (agg : list C -> C) (fin : C -> T) (R Q : list num -> C -> Prop) zn dn ts z :
  (forall vs, vs <> [] -> R vs (chunk vs)) ->
  (forall vss cs, cs <> [] -> Forall2 R vss cs -> R (concat vss) (agg cs)) ->
  (forall vss cs, cs <> [] -> Forall2 R vss cs -> Q (concat vss) (agg cs)) ->
  let vs := series zn dn (flat_map leaves ts) z in
  zonal_agg chunk agg fin zn dn ts z = None /\ vs = [] \/
  exists c, zonal_agg chunk agg fin zn dn ts z = Some (fin c) /\ vs <> [] /\ Q vs c.
Proof.
  intros H1 H2 H3 vs. pose proof (agg_root chunk agg R Q H1 H2 H3 z (map (tree_map (prepare zn dn)) ts)) as H. unfold zonal_agg. cbn [tree_map].
  assert (E : group z (leaves (Node (map (tree_map (prepare zn dn)) ts))) = vs).
  { unfold vs, series. f_equal. apply (leaves_map (prepare zn dn) (prepare_app zn dn) eq_refl (Node ts)). }
  rewrite E in H. destruct (agg_tree chunk agg z (Node (map (tree_map (prepare zn dn)) ts))) as [c|]; cbn in *; [right; exists c; tauto|left; auto].
Qed.
