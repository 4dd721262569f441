From Coq Require Import QArith Sorted Permutation.
From Verif Require Import Base BaseFacts Scalars NumFacts Arr2Facts ChunksProofs CostPublicProofs ProximityChunk RasterStack Zonal ZonalSpec ZonalProofs Rasterize RasterizeSpec PadProofs.
Open Scope Z_scope.

Lemma list_eq_nil_dec {A} (l : list A) : {l = []} + {l <> []}.
Proof. destruct l; [now left|now right]. Qed.

(* ---- sorting ---- *)
Lemma insert_in prec f g l : In g (insert_by prec f l) <-> g = f \/ In g l.
Proof. induction l as [|h l IH]; cbn; [intuition congruence|]. destruct (prec f h); cbn; [intuition congruence|]. rewrite IH. intuition. Qed.
Lemma sort_in prec g l : In g (sort_by prec l) <-> In g l.
Proof. induction l as [|h l IH]; cbn; [tauto|]. rewrite insert_in, IH. intuition congruence. Qed.
Lemma insert_sorted' prec f l : (forall a b, prec a b = false -> prec b a = true) -> (forall a b c, prec a b = true -> prec b c = true -> prec a c = true) ->
  StronglySorted (fun a b => prec a b = true) l -> StronglySorted (fun a b => prec a b = true) (insert_by prec f l).
Proof.
  intros T R. induction l as [|h l IH]; intros S; cbn; [now repeat constructor|]. inversion S as [|? ? S1 S2]; subst. destruct (prec f h) eqn:E.
  - constructor; [exact S|]. constructor; [exact E|]. eapply Forall_impl; [|exact S2]. intros a. now apply R.
  - constructor; [now apply IH|]. apply Forall_forall. intros a Ha. apply insert_in in Ha as [->|Ha]; [now apply T|]. rewrite Forall_forall in S2. now apply S2.
Qed.
Lemma sort_sorted' prec l : (forall a b, prec a b = false -> prec b a = true) -> (forall a b c, prec a b = true -> prec b c = true -> prec a c = true) ->
  StronglySorted (fun a b => prec a b = true) (sort_by prec l).
Proof. intros T R. induction l; [constructor|]. cbn. now apply insert_sorted'. Qed.
Lemma asc_total ui a b : ascending_nan_first ui a b = false -> ascending_nan_first ui b a = true.
Proof.
  unfold ascending_nan_first. rewrite orb_false_iff, orb_true_iff. intros [N E]. destruct (is_nan (sort_key ui b)) eqn:Nb; [now left|right].
  apply num_leb_total in E; [|assumption..]. now apply ltb_leb.
Qed.
Lemma desc_total ui a b : descending_nan_first ui a b = false -> descending_nan_first ui b a = true.
Proof.
  unfold descending_nan_first. rewrite orb_false_iff, orb_true_iff. intros [N E]. destruct (is_nan (sort_key ui b)) eqn:Nb; [now left|right].
  apply num_leb_total in E; [|assumption..]. now apply ltb_leb.
Qed.
Lemma asc_trans ui a b c : ascending_nan_first ui a b = true -> ascending_nan_first ui b c = true -> ascending_nan_first ui a c = true.
Proof.
  unfold ascending_nan_first. rewrite !orb_true_iff. intros [H|H] [K|K]; auto; [apply num_leb_not_nan in H as [_ H]; congruence|]. right. eapply num_leb_trans; eassumption.
Qed.
Lemma desc_trans ui a b c : descending_nan_first ui a b = true -> descending_nan_first ui b c = true -> descending_nan_first ui a c = true.
Proof.
  unfold descending_nan_first. rewrite !orb_true_iff. intros [H|H] [K|K]; auto; [apply num_leb_not_nan in H as [H _]; congruence|]. right. eapply num_leb_trans; eassumption.
Qed.
Lemma burned_le ui f g : num_leb (burned ui f) (burned ui g) = num_leb (sort_key ui f) (sort_key ui g).
Proof.
  destruct ui; [|reflexivity]. unfold burned, sort_key, num_leb, num_ltb, num_eqb, of_Z, Qlt_bool, Qle_bool, Qeq_bool, Zeq_bool. cbn [Qnum Qden inject_Z].
  rewrite !Z.mul_1_r. apply eq_true_iff_eq. rewrite !orb_true_iff, !negb_true_iff, !Z.leb_gt.
  destruct (Z.compare_spec (f_index f + 1) (f_index g + 1)), (Z.compare_spec (f_index f) (f_index g)); intuition lia.
Qed.
Lemma burned_nan ui f : is_nan (burned ui f) = is_nan (sort_key ui f).
Proof. now destruct ui. Qed.

(* ---- one partition ---- *)
Lemma filter_rev' {A} (p : A -> bool) l : filter p (rev l) = rev (filter p l).
Proof. induction l as [|x l IH]; [reflexivity|]. cbn. rewrite filter_app, IH. cbn. destruct (p x); [reflexivity|]. now rewrite app_nil_r. Qed.
Lemma burn_app ui fill l f cell : burn_cell ui fill (l ++ [f]) cell = if touches f cell then burned ui f else burn_cell ui fill l cell.
Proof. unfold burn_cell. now rewrite fold_left_app. Qed.
Lemma touching_app ui l l' cell : touching ui (l ++ l') cell = touching ui l cell ++ touching ui l' cell.
Proof. unfold touching. now rewrite filter_app, map_app. Qed.
Lemma last_app_snoc {A} (l : list A) x d : List.last (l ++ [x]) d = x.
Proof. induction l as [|y l IH]; [reflexivity|]. cbn [app]. destruct (l ++ [x]) eqn:E; [now destruct l|exact IH]. Qed.
Lemma burn_last ui fill l cell : burn_cell ui fill l cell = List.last (touching ui l cell) fill.
Proof.
  induction l as [|f l IH] using rev_ind; [reflexivity|]. rewrite burn_app, touching_app. unfold touching at 2. cbn [filter].
  destruct (touches f cell); cbn [map]; [now rewrite last_app_snoc|]. now rewrite app_nil_r.
Qed.
Lemma last_in {A} (l : list A) d : l <> [] -> In (List.last l d) l.
Proof. induction l as [|x l IH]; [contradiction|]. intros _. destruct l as [|y l]; [now left|]. right. apply IH. discriminate. Qed.
(* in a sorted list the last touching feature is extreme *)
Lemma burn_sorted ui fill (prec : feature -> feature -> bool) (le : num -> num -> bool) l cell :
  (forall f g, In f l -> In g l -> prec f g = true -> le (burned ui g) (burned ui f) = true) -> (forall f, In f l -> le (burned ui f) (burned ui f) = true) ->
  StronglySorted (fun a b => prec a b = true) l ->
  (touching ui l cell = [] /\ burn_cell ui fill l cell = fill) \/ (In (burn_cell ui fill l cell) (touching ui l cell) /\ forall w, In w (touching ui l cell) -> le (burn_cell ui fill l cell) w = true).
Proof.
  intros HP HR HS. rewrite burn_last. destruct (touching ui l cell) as [|x t] eqn:E; [now left|right]. rewrite <- E.
  assert (N : touching ui l cell <> []) by (rewrite E; discriminate). clear E x t. split; [now apply last_in|].
  induction l as [|f l IH]; [contradiction|]. inversion HS as [|? ? S1 S2]; subst. unfold touching in *. cbn [filter] in *.
  assert (HP' : forall a b, In a l -> In b l -> prec a b = true -> le (burned ui b) (burned ui a) = true) by (intros; apply HP; [now right|now right|assumption]).
  assert (HR' : forall a, In a l -> le (burned ui a) (burned ui a) = true) by (intros; apply HR; now right).
  destruct (touches f cell); [|now apply IH]. cbn [map] in *. destruct (map (burned ui) (filter (fun f0 => touches f0 cell) l)) as [|y t] eqn:E.
  - intros w [<-|[]]. cbn. apply HR. now left.
  - change (List.last (burned ui f :: y :: t) fill) with (List.last (y :: t) fill). intros w [<-|Hw].
    + assert (L : In (List.last (y :: t) fill) (y :: t)) by (apply last_in; discriminate). rewrite <- E in L at 2. apply in_map_iff in L as (g & Eg & Hg). rewrite <- Eg.
      apply filter_In in Hg as [Hg _]. apply HP; [now left|now right|]. rewrite Forall_forall in S2. now apply S2.
    + apply IH; [assumption..|discriminate|exact Hw].
Qed.
Definition ok_values (ui : bool) (fill : num) (l : list feature) : Prop := forall f, In f l -> is_nan (burned ui f) = false /\ num_eqb (burned ui f) fill = false.
Lemma burn_resolves ui m fill gdf cell : is_nan fill = false -> ok_values ui fill gdf ->
  resolves m fill (touching ui gdf cell) (burn_cell ui fill (burn_order ui m gdf) cell).
Proof.
  intros NF OK. destruct m; cbn [burn_order].
  - rewrite burn_last. unfold touching. rewrite filter_rev', map_rev. destruct (map (burned ui) (filter (fun f => touches f cell) gdf)) as [|x l]; [reflexivity|]. cbn. apply last_app_snoc.
  - rewrite burn_last. unfold resolves. destruct (touching ui gdf cell); reflexivity.
  - assert (T : forall w, In w (touching ui (sort_by (descending_nan_first ui) gdf) cell) <-> In w (touching ui gdf cell)).
    { intros w. unfold touching. rewrite !in_map_iff. split; intros (f & E & H); exists f; (split; [exact E|]); rewrite filter_In in *; [now rewrite sort_in in H|now rewrite sort_in]. }
    destruct (burn_sorted ui fill (descending_nan_first ui) num_leb (sort_by (descending_nan_first ui) gdf) cell) as [[E B]|[I M]].
    + intros f g Hf Hg. apply sort_in in Hf, Hg. unfold descending_nan_first. rewrite burned_le. destruct (OK f Hf) as [Nf _]. rewrite burned_nan in Nf. now rewrite Nf.
    + intros f Hf. apply sort_in in Hf. apply num_leb_refl. now apply OK.
    + apply sort_sorted'; [apply desc_total|apply desc_trans].
    + rewrite B. destruct (touching ui gdf cell) as [|x l] eqn:E'; [reflexivity|]. exfalso. specialize (T x). rewrite E in T. destruct (proj2 T (or_introl eq_refl)).
    + unfold resolves. apply T in I. destruct (touching ui gdf cell) as [|x l] eqn:E'; [destruct I|]. rewrite <- E' in *. split; [eexists; split; [exact I|]; apply num_eqb_refl; apply in_map_iff in I as (f & <- & Hf); apply OK; now apply filter_In in Hf|]. intros w Hw. apply M. now apply T.
  - assert (T : forall w, In w (touching ui (sort_by (ascending_nan_first ui) gdf) cell) <-> In w (touching ui gdf cell)).
    { intros w. unfold touching. rewrite !in_map_iff. split; intros (f & E & H); exists f; (split; [exact E|]); rewrite filter_In in *; [now rewrite sort_in in H|now rewrite sort_in]. }
    destruct (burn_sorted ui fill (ascending_nan_first ui) (fun a b => num_leb b a) (sort_by (ascending_nan_first ui) gdf) cell) as [[E B]|[I M]].
    + intros f g Hf Hg. apply sort_in in Hf, Hg. unfold ascending_nan_first. rewrite burned_le. destruct (OK f Hf) as [Nf _]. rewrite burned_nan in Nf. now rewrite Nf.
    + intros f Hf. apply sort_in in Hf. apply num_leb_refl. now apply OK.
    + apply sort_sorted'; [apply asc_total|apply asc_trans].
    + rewrite B. destruct (touching ui gdf cell) as [|x l] eqn:E'; [reflexivity|]. exfalso. specialize (T x). rewrite E in T. destruct (proj2 T (or_introl eq_refl)).
    + unfold resolves. apply T in I. destruct (touching ui gdf cell) as [|x l] eqn:E'; [destruct I|]. rewrite <- E' in *. split; [eexists; split; [exact I|]; apply num_eqb_refl; apply in_map_iff in I as (f & <- & Hf); apply OK; now apply filter_In in Hf|]. intros w Hw. apply M. now apply T.
Qed.

(* ---- two bands ---- *)
(* values that are either the null value or a proper value *)
Definition proper (fill : num) (x : list num) : Prop := forall w, In w x -> is_nan w = false /\ num_eqb w fill = false.
Lemma resolves_in m fill x v : x <> [] -> proper fill x -> resolves m fill x v -> exists u, In u x /\ num_eqb v u = true.
Proof.
  intros N P. destruct x as [|y x]; [contradiction|]. destruct m; cbn [resolves]; [intros ->; exists y; split; [now left|]; apply num_eqb_refl; apply P; now left| |tauto|tauto].
  intros ->. exists (List.last (y :: x) fill). assert (I : In (List.last (y :: x) fill) (y :: x)) by (apply last_in; discriminate). split; [exact I|]. apply num_eqb_refl. now apply P.
Qed.
Lemma last_app {A} (l l' : list A) d : l' <> [] -> List.last (l ++ l') d = List.last l' d.
Proof. intros N. induction l as [|x l IH]; [reflexivity|]. cbn [app]. destruct (l ++ l') eqn:E; [destruct l; [now destruct l'|discriminate]|exact IH]. Qed.
Lemma last_irr {A} (l : list A) d d' : l <> [] -> List.last l d = List.last l d'.
Proof. induction l as [|x l IH]; [contradiction|]. intros _. destruct l; [reflexivity|]. apply IH. discriminate. Qed.
Definition join (m : overlap) (fill big a b : num) : num :=
  match m with
  | First => if num_eqb a fill then b else a
  | Last => if num_eqb b fill then a else b
  | Min => if num_eqb a fill && num_eqb b fill then fill else npmin (if num_eqb a fill then big else a) (if num_eqb b fill then big else b)
  | Max => if num_eqb a fill && num_eqb b fill then fill else npmax (if num_eqb a fill then big else a) (if num_eqb b fill then big else b)
  end.
Definition bound (m : overlap) (l : list num) : num := match m with Min => extreme fmax l | Max => extreme fmin l | _ => NaN end.
Lemma resolve_join m fill a b : resolve m fill a b = zip (join m fill (bound m (a ++ b))) a b.
Proof. now destruct m. Qed.
Lemma npmin_sel a b : is_nan a = false -> is_nan b = false -> (npmin a b = a \/ npmin a b = b) /\ num_leb (npmin a b) a = true /\ num_leb (npmin a b) b = true.
Proof. intros Na Nb. pose proof (fmin_sel a b Na Nb) as H. unfold npmin, fmin in *. rewrite Na, Nb in *. exact H. Qed.
Lemma npmax_sel a b : is_nan a = false -> is_nan b = false -> (npmax a b = a \/ npmax a b = b) /\ num_leb a (npmax a b) = true /\ num_leb b (npmax a b) = true.
Proof. intros Na Nb. pose proof (fmax_sel a b Na Nb) as H. unfold npmax, fmax in *. rewrite Na, Nb in *. exact H. Qed.
Lemma leb_eqb_l a b c : num_eqb a b = true -> num_leb b c = true -> num_leb a c = true.
Proof. intros E. unfold num_leb. now rewrite (num_ltb_eqb_l a b c E), (num_eqb_congr_l a b c E). Qed.
Lemma leb_eqb_r a b c : num_eqb a b = true -> num_leb c b = true -> num_leb c a = true.
Proof. intros E. unfold num_leb. rewrite (num_ltb_eqb_r c a b E), (num_eqb_sym c a), (num_eqb_sym c b), (num_eqb_congr_l a b c E). auto. Qed.
Lemma npmin_big a b : num_leb a b = true -> num_eqb (npmin b a) a = true /\ num_eqb (npmin a b) a = true.
Proof.
  intros L. pose proof (num_leb_not_nan _ _ L) as [Na Nb]. unfold npmin. rewrite Na, Nb. split.
  - destruct (num_ltb a b) eqn:E; [now apply num_eqb_refl|]. unfold num_leb in L. rewrite E in L. cbn in L. now rewrite num_eqb_sym.
  - destruct (num_ltb b a) eqn:E; [|now apply num_eqb_refl]. exfalso. unfold num_leb in L. rewrite (num_ltb_asym _ _ E) in L. cbn in L. rewrite num_eqb_sym, (num_ltb_neq _ _ E) in L. discriminate.
Qed.
Lemma npmax_small a b : num_leb b a = true -> num_eqb (npmax b a) a = true /\ num_eqb (npmax a b) a = true.
Proof.
  intros L. pose proof (num_leb_not_nan _ _ L) as [Nb Na]. unfold npmax. rewrite Na, Nb. split.
  - destruct (num_ltb b a) eqn:E; [now apply num_eqb_refl|]. unfold num_leb in L. rewrite E in L. exact L.
  - destruct (num_ltb a b) eqn:E; [|now apply num_eqb_refl]. exfalso. unfold num_leb in L. rewrite (num_ltb_asym _ _ E) in L. cbn in L. rewrite num_eqb_sym, (num_ltb_neq _ _ E) in L. discriminate.
Qed.
Lemma resolves_eqb m fill x v v' : (m = Min \/ m = Max) -> x <> [] -> num_eqb v' v = true -> resolves m fill x v -> resolves m fill x v'.
Proof.
  intros M N E R. destruct x as [|x0 x]; [contradiction|]. destruct M as [-> | ->]; cbn [resolves] in *; destruct R as [(u & I & K) L]; (split; [exists u; split; [exact I|]; eapply num_eqb_trans; eassumption|]).
  - intros w Hw. eapply leb_eqb_l; [exact E|]. auto.
  - intros w Hw. eapply leb_eqb_r; [exact E|]. auto.
Qed.
Lemma join_resolves m fill big x y a b : is_nan fill = false -> proper fill x -> proper fill y ->
  (m = Min -> num_leb a big = true /\ num_leb b big = true) -> (m = Max -> num_leb big a = true /\ num_leb big b = true) ->
  resolves m fill x a -> resolves m fill y b -> resolves m fill (x ++ y) (join m fill big a b).
Proof.
  intros NF PX PY HB HS RX RY.
  assert (EX : forall x a, proper fill x -> resolves m fill x a -> x <> [] -> is_nan a = false /\ num_eqb a fill = false).
  { clear - NF. intros x a P R N. destruct (resolves_in m fill x a N P R) as (u & I & E). split; [now apply num_eqb_not_nan in E|]. rewrite (num_eqb_congr_l a u fill E). now apply P. }
  assert (FF : num_eqb fill fill = true) by now apply num_eqb_refl.
  destruct (list_eq_nil_dec x) as [->|NX]; [cbn in RX; subst a|destruct (EX x a PX RX NX) as [Na Ea]].
  - destruct (list_eq_nil_dec y) as [->|NY]; [cbn in RY; subst b; cbn [app resolves]; destruct m; cbn [join]; rewrite ?FF; reflexivity|]. destruct (EX y b PY RY NY) as [Nb Eb].
    cbn [app]. destruct m; cbn [join]; rewrite ?FF, ?Eb; cbn [andb]; [exact RY|exact RY| |].
    + destruct (HB eq_refl) as [_ B2]. eapply resolves_eqb; [now left|exact NY| |exact RY]. now apply npmin_big.
    + destruct (HS eq_refl) as [_ B2]. eapply resolves_eqb; [now right|exact NY| |exact RY]. now apply npmax_small.
  - destruct (list_eq_nil_dec y) as [->|NY].
    + cbn in RY. subst b. rewrite app_nil_r. destruct m; cbn [join]; rewrite ?FF, ?Ea; cbn [andb]; [exact RX|exact RX| |].
      * destruct (HB eq_refl) as [B1 _]. eapply resolves_eqb; [now left|exact NX| |exact RX]. now apply npmin_big.
      * destruct (HS eq_refl) as [B1 _]. eapply resolves_eqb; [now right|exact NX| |exact RX]. now apply npmax_small.
    + destruct (EX y b PY RY NY) as [Nb Eb]. destruct x as [|x0 x]; [contradiction|]. destruct y as [|y0 y]; [contradiction|].
      destruct m; cbn [join app]; rewrite ?Ea, ?Eb; cbn [andb resolves] in *.
      * exact RX.
      * change (b = List.last ((x0 :: x) ++ y0 :: y) fill). rewrite last_app by discriminate. exact RY.
      * destruct RX as [(u & Iu & Eu) LX], RY as [(w & Iw & Ew) LY]. destruct (npmin_sel a b Na Nb) as ([S|S] & S1 & S2).
        -- split; [exists u; rewrite S; split; [change (In u ((x0 :: x) ++ y0 :: y)); rewrite in_app_iff; auto|exact Eu]|].
           intros q Hq. change (In q ((x0 :: x) ++ y0 :: y)) in Hq. apply in_app_iff in Hq as [Hq|Hq]; [eapply num_leb_trans; [exact S1|auto]|eapply num_leb_trans; [exact S2|auto]].
        -- split; [exists w; rewrite S; split; [change (In w ((x0 :: x) ++ y0 :: y)); rewrite in_app_iff; auto|exact Ew]|].
           intros q Hq. change (In q ((x0 :: x) ++ y0 :: y)) in Hq. apply in_app_iff in Hq as [Hq|Hq]; [eapply num_leb_trans; [exact S1|auto]|eapply num_leb_trans; [exact S2|auto]].
      * destruct RX as [(u & Iu & Eu) LX], RY as [(w & Iw & Ew) LY]. destruct (npmax_sel a b Na Nb) as ([S|S] & S1 & S2).
        -- split; [exists u; rewrite S; split; [change (In u ((x0 :: x) ++ y0 :: y)); rewrite in_app_iff; auto|exact Eu]|].
           intros q Hq. change (In q ((x0 :: x) ++ y0 :: y)) in Hq. apply in_app_iff in Hq as [Hq|Hq]; [eapply num_leb_trans; [|exact S1]; auto|eapply num_leb_trans; [|exact S2]; auto].
        -- split; [exists w; rewrite S; split; [change (In w ((x0 :: x) ++ y0 :: y)); rewrite in_app_iff; auto|exact Ew]|].
           intros q Hq. change (In q ((x0 :: x) ++ y0 :: y)) in Hq. apply in_app_iff in Hq as [Hq|Hq]; [eapply num_leb_trans; [|exact S1]; auto|eapply num_leb_trans; [|exact S2]; auto].
Qed.
(* ---- a chunk ---- *)
Lemma zip_spec f a b : len a = len b -> len (zip f a b) = len a /\ forall i x y, get a i = Ok x -> get b i = Ok y -> get (zip f a b) i = Ok (f x y).
Proof.
  intros L. unfold zip. split; [rewrite len_map, len_combine'; lia|]. intros i x y Hx Hy. rewrite get_map_eq, (get_combine' a b i x y Hx Hy). reflexivity.
Qed.
Lemma extreme_bound f le l v : (forall a b, is_nan a = true -> f a b = b) -> (forall a b, is_nan b = true -> f a b = a) ->
  (forall a b, is_nan a = false -> is_nan b = false -> (f a b = a \/ f a b = b) /\ le (f a b) a = true /\ le (f a b) b = true) ->
  (forall a, is_nan a = false -> le a a = true) -> (forall a b c, le a b = true -> le b c = true -> le a c = true) ->
  In v l -> is_nan v = false -> le (extreme f l) v = true.
Proof.
  intros H1 H2 H3 H4 H5 I N. destruct l as [|x l]; [destruct I|]. unfold extreme. cbn [fold_left]. rewrite H1 by reflexivity.
  destruct (fold_ext f le H1 H2 H3 H4 H5 l x) as [[E _]|[(_ & A & _)|(m & E & _ & _ & L)]]; [discriminate| |].
  - rewrite Forall_forall in A. apply A in I. congruence.
  - injection E as ->. now apply L.
Qed.
Lemma get_in' {A} (l : list A) i x : get l i = Ok x -> In x l.
Proof. unfold get. destruct (i <? 0); [discriminate|]. destruct (nth_error l (Z.to_nat i)) eqn:E; [|discriminate]. intros [= ->]. eapply nth_error_In, E. Qed.
Definition fine (m : overlap) (fill : num) (n : Z) (T : Z -> list num) (a : list num) : Prop :=
  len a = n /\ (forall i, 0 <= i < n -> proper fill (T i)) /\ forall i x, get a i = Ok x -> resolves m fill (T i) x.
Lemma fine_not_nan m fill n T a x : is_nan fill = false -> fine m fill n T a -> In x a -> is_nan x = false.
Proof.
  intros NF (L & P & R) I. apply in_get in I as (i & G). pose proof (get_ok_range _ _ _ G) as Hi. rewrite L in Hi. specialize (R i x G). specialize (P i Hi).
  destruct (list_eq_nil_dec (T i)) as [E|N]; [rewrite E in R; cbn in R; now subst|]. destruct (resolves_in _ _ _ _ N P R) as (u & _ & E). now apply num_eqb_not_nan in E.
Qed.
Lemma resolve_fine m fill n T U a b : is_nan fill = false -> fine m fill n T a -> fine m fill n U b -> fine m fill n (fun i => T i ++ U i) (resolve m fill a b).
Proof.
  intros NF FA FB. pose proof FA as (LA & PA & RA). pose proof FB as (LB & PB & RB). rewrite resolve_join.
  destruct (zip_spec (join m fill (bound m (a ++ b))) a b ltac:(lia)) as [ZL ZG]. split; [lia|]. split.
  - intros i Hi w Hw. apply in_app_iff in Hw as [Hw|Hw]; [now apply (PA i)|now apply (PB i)].
  - intros i x G. pose proof (get_ok_range _ _ _ G) as Hi. rewrite ZL, LA in Hi. destruct (get_range a i) as [u Gu]; [lia|]. destruct (get_range b i) as [w Gw]; [lia|].
    rewrite (ZG i u w Gu Gw) in G. injection G as <-.
    assert (Nu : is_nan u = false) by (eapply fine_not_nan; [exact NF|exact FA|]; now apply get_in' in Gu).
    assert (Nw : is_nan w = false) by (eapply fine_not_nan; [exact NF|exact FB|]; now apply get_in' in Gw).
    assert (Iu : In u (a ++ b)) by (apply in_app_iff; left; now apply get_in' in Gu). assert (Iw : In w (a ++ b)) by (apply in_app_iff; right; now apply get_in' in Gw).
    apply join_resolves; auto.
    + intros ->. cbn [bound]. split; apply (extreme_bound fmax (fun a b => num_leb b a)); auto using fmax_nan_l, fmax_nan_r, fmax_sel, num_leb_refl; intros p q r H1 H2; exact (num_leb_trans r q p H2 H1).
    + intros ->. cbn [bound]. split; apply (extreme_bound fmin num_leb); auto using fmin_nan_l, fmin_nan_r, fmin_sel, num_leb_refl; intros p q r; apply num_leb_trans.
Qed.
Lemma proper_touching ui fill l i : ok_values ui fill l -> proper fill (touching ui l i).
Proof. intros OK w H. apply in_map_iff in H as (f & <- & Hf). apply filter_In in Hf as [Hf _]. now apply OK. Qed.
Lemma part_fine ui m fill n gdf : is_nan fill = false -> 0 <= n -> ok_values ui fill gdf -> fine m fill n (touching ui gdf) (rasterize_onto_chunk ui m fill n gdf).
Proof.
  intros NF Hn OK. unfold rasterize_onto_chunk. split; [rewrite len_map, len_zrange; lia|]. split; [intros; now apply proper_touching|].
  intros i x G. pose proof (get_ok_range _ _ _ G) as Hi. rewrite len_map, len_zrange in Hi. rewrite get_map_eq, get_zrange in G by lia. injection G as <-. now apply burn_resolves.
Qed.
Lemma steps_fine ui m fill n t : is_nan fill = false -> 0 <= n -> ok_values ui fill (concat (partitions t)) ->
  fine m fill n (touching ui (concat (partitions t))) (reduce_stack ui m fill n t).
Proof.
  intros NF Hn. induction t as [gdf|t IH|t IHt u IHu]; cbn [partitions reduce_stack]; intros OK.
  - cbn [concat] in *. rewrite app_nil_r in *. now apply part_fine.
  - now apply IH.
  - rewrite concat_app in *. assert (O1 : ok_values ui fill (concat (partitions t))) by (intros f Hf; apply OK, in_app_iff; now left).
    assert (O2 : ok_values ui fill (concat (partitions u))) by (intros f Hf; apply OK, in_app_iff; now right).
    pose proof (resolve_fine m fill n _ _ _ _ NF (IHt O1) (IHu O2)) as (L & P & R). split; [exact L|]. split; [intros; now apply proper_touching|]. intros i x G. rewrite touching_app. now apply R.
Qed.
(* partitions that do not match the chunk touch none of its cells *)
Lemma touching_filter ui (matches : list feature -> bool) parts i : (forall p f, In p parts -> matches p = false -> In f p -> touches f i = false) ->
  touching ui (concat (filter matches parts)) i = touching ui (concat parts) i.
Proof.
  induction parts as [|p parts IH]; intros H; [reflexivity|]. cbn [filter concat]. rewrite touching_app, <- IH by (intros q f Hq; apply H; now right).
  destruct (matches p) eqn:E; [cbn [concat]; apply touching_app|]. assert (N : touching ui p i = []); [|now rewrite N].
  assert (K : forall f, In f p -> touches f i = false) by (intros f; apply (H p); [now left|exact E]). unfold touching. clear - K.
  induction p as [|f p IH]; [reflexivity|]. cbn. rewrite (K f (or_introl eq_refl)). apply IH. intros g Hg. apply K. now right.
Qed.
Lemma rasterize_spec ui m fill n parts matches t : is_nan fill = false -> 0 <= n ->
  (forall f, In f (concat parts) -> is_nan (burned ui f) = false /\ num_eqb (burned ui f) fill = false) ->
  (forall p f i, In p parts -> matches p = false -> In f p -> 0 <= i < n -> touches f i = false) ->
  match t with None => filter matches parts = [] | Some t => partitions t = filter matches parts end ->
  len (rasterize_chunk ui m fill n t) = n /\
  forall i, 0 <= i < n -> exists v, get (rasterize_chunk ui m fill n t) i = Ok v /\ resolves m fill (touching ui (concat parts) i) v /\
    get (null_mask fill (rasterize_chunk ui m fill n t)) i = Ok (match touching ui (concat parts) i with [] => true | _ => false end).
Proof.
  intros NF Hn OK HM HT.
  assert (F : fine m fill n (touching ui (concat (filter matches parts))) (rasterize_chunk ui m fill n t)).
  { destruct t as [t|]; cbn [rasterize_chunk].
    - rewrite <- HT. apply steps_fine; [exact NF|exact Hn|]. rewrite HT. intros f Hf. apply OK. apply in_concat in Hf as (p & Hp & Hf). apply filter_In in Hp as [Hp _]. apply in_concat. eauto.
    - rewrite HT. split; [apply full_len; lia|]. split; [intros i _ w []|]. intros i x G. pose proof (get_ok_range _ _ _ G) as R. rewrite full_len in R by lia. rewrite get_full in G by lia. cbn. congruence. }
  destruct F as (L & P & R). split; [exact L|]. intros i Hi. destruct (get_range (rasterize_chunk ui m fill n t) i) as [v G]; [lia|]. exists v. split; [exact G|].
  specialize (R i v G). specialize (P i Hi). rewrite touching_filter in R, P by (intros; eapply HM; eassumption). split; [exact R|].
  unfold null_mask. rewrite get_map_eq, G, NF. f_equal. destruct (touching ui (concat parts) i) as [|w l] eqn:E.
  - cbn in R. subst. now apply num_eqb_refl.
  - destruct (resolves_in m fill (w :: l) v ltac:(discriminate) P R) as (u & I & Eu). rewrite (num_eqb_congr_l v u fill Eu). now apply P.
Qed.
(* ---- masks ---- *)
Lemma mask_onto_tab invert n gdf : mask_onto_chunk invert n gdf = map (fun i => if xorb (existsb (fun f => touches f i) gdf) invert then 1 else 0) (zrange 0 n).
Proof. unfold mask_onto_chunk. apply map_ext. intros i. now destruct (existsb (fun f => touches f i) gdf), invert. Qed.
Lemma mask_fold (invert : bool) n parts : forall q, fold_left (fun acc q => map (fun ab => if invert then Z.min (fst ab) (snd ab) else Z.max (fst ab) (snd ab)) (combine acc (mask_onto_chunk invert n q)))
  parts (mask_onto_chunk invert n q) = mask_onto_chunk invert n (q ++ concat parts).
Proof.
  induction parts as [|p parts IH]; intros q; cbn [fold_left concat]; [now rewrite app_nil_r|]. rewrite app_assoc, <- IH. f_equal. rewrite !mask_onto_tab, combine_map, map_map. apply map_ext. intros i. cbn [fst snd].
  rewrite existsb_app. now destruct (existsb (fun f => touches f i) q), (existsb (fun f => touches f i) p), invert.
Qed.
Lemma mask_spec invert n parts matches : 0 <= n -> (forall p f i, In p parts -> matches p = false -> In f p -> 0 <= i < n -> touches f i = false) ->
  len (mask_chunk invert n (filter matches parts)) = n /\
  forall i, 0 <= i < n -> get (mask_chunk invert n (filter matches parts)) i = Ok (if xorb (existsb (fun f => touches f i) (concat parts)) invert then 1 else 0).
Proof.
  intros Hn HM.
  assert (E : mask_chunk invert n (filter matches parts) = map (fun i => if xorb (existsb (fun f => touches f i) (concat (filter matches parts))) invert then 1 else 0) (zrange 0 n)).
  { destruct (filter matches parts) as [|p ps]; cbn [mask_chunk].
    - cbn. apply list_ext; [rewrite full_len, len_map, len_zrange by lia; lia|]. intros i x G. pose proof (get_ok_range _ _ _ G) as R. rewrite full_len in R by lia. rewrite get_full in G by lia. rewrite get_map_eq, get_zrange by lia. rewrite <- G. now destruct invert.
    - rewrite mask_fold, mask_onto_tab. reflexivity. }
  rewrite E. split; [rewrite len_map, len_zrange; lia|]. intros i Hi. rewrite get_map_eq, get_zrange by lia. cbn [Z.add].
  assert (X : existsb (fun f => touches f i) (concat (filter matches parts)) = existsb (fun f => touches f i) (concat parts)); [|now rewrite X].
  assert (HM' : forall p f, In p parts -> matches p = false -> In f p -> touches f i = false) by (intros; eapply HM; eassumption). clear - HM'.
  induction parts as [|p parts IH]; [reflexivity|]. cbn [filter concat]. rewrite existsb_app, <- IH by (intros q f Hq; apply HM'; now right).
  destruct (matches p) eqn:Em; [cbn [concat]; apply existsb_app|]. assert (N : existsb (fun f => touches f i) p = false); [|now rewrite N].
  destruct (existsb (fun f => touches f i) p) eqn:X; [|reflexivity]. apply existsb_exists in X as (f & Hf & Tf). rewrite (HM' p f (or_introl eq_refl) Em Hf) in Tf. discriminate.
Qed.
