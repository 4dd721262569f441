From Coq Require Import QArith Permutation.
From Verif Require Import Base BaseFacts Scalars NumFacts Chunks ChunksProofs Arr2 Arr2Facts Dtypes Raster FocalSpec FocalValues RasterSpec RasterProofs.
Open Scope Z_scope.
Ltac cells HI := rewrite ?null_mk, ?value_mk by exact HI.
Lemma same_value_refl x : same_value x x = true.
Proof. rewrite same_value_nan. apply nan_equal_refl. Qed.

Section Cast.
Variable cast : dtype -> num -> num.
Variable float_dtype : num -> dtype.

(* ---------------- remap_range ---------------- *)
Lemma remap_cell_spec inc ranges v : remap_cell inc ranges v
  = match find (fun '(lo, hi, _) => contains inc lo hi v) ranges with Some (_, _, new) => new | None => v end.
Proof.
  induction ranges as [|[[lo hi] new] ranges IH]; [reflexivity|]. cbn [remap_cell find].
  replace (in_range inc lo hi v) with (contains inc lo hi v) by (destruct inc; reflexivity). destruct (contains inc lo hi v); [reflexivity|exact IH].
Qed.
Lemma find_map {A B} (f : A -> B) p l : find p (map f l) = option_map f (find (fun x => p (f x)) l).
Proof. induction l as [|x l IH]; [reflexivity|]. cbn. destruct (p (f x)); [reflexivity|exact IH]. Qed.
Lemma find_ext {A} (p q : A -> bool) l : (forall x, p x = q x) -> find p l = find q l.
Proof. intros H. induction l as [|x l IH]; [reflexivity|]. cbn. now rewrite H, IH. Qed.
Lemma normalize_spec ms ms' : normalize_mappings ms = Ok ms' -> ms' = ms /\ ms <> [] /\
  Forall (fun '(lo, hi, _) => num_ltb (scalar_num lo) (scalar_num hi) = true) ms.
Proof.
  unfold normalize_mappings. destruct ms as [|m ms0] eqn:E; [discriminate|]. rewrite <- E. intros H.
  destruct (traverse check_mapping ms) as [u|] eqn:ET; [|discriminate]. cbn [rbind] in H. injection H as <-. split; [reflexivity|].
  split; [rewrite E; discriminate|]. clear E. revert u ET. induction ms as [|[[lo hi] o] ms IH]; intros u ET; [constructor|].
  cbn [traverse] in ET. unfold check_mapping at 1 in ET. destruct (is_nan (scalar_num lo) || is_nan (scalar_num hi)) eqn:EN; [discriminate|].
  destruct (num_leb (scalar_num hi) (scalar_num lo)) eqn:EL; [discriminate|]. cbn [rbind] in ET.
  destruct (traverse check_mapping ms) as [u'|] eqn:ET'; [|discriminate]. constructor; [|now apply (IH u')].
  apply orb_false_iff in EN. destruct EN as [N1 N2].
  destruct (num_total (scalar_num lo) (scalar_num hi)) as [H|[H|H]]; auto; exfalso;
    unfold num_leb in EL; apply orb_false_iff in EL; destruct EL as [L1 L2]; [rewrite num_eqb_sym in H|]; congruence.
Qed.
Lemma normalize_bad ms : ms = [] \/ (exists lo hi o, In (lo, hi, o) ms /\ num_ltb (scalar_num lo) (scalar_num hi) = false) ->
  normalize_mappings ms = Err ValueError.
Proof.
  intros [->|(lo & hi & o & HI & H)]; [reflexivity|]. unfold normalize_mappings. destruct ms as [|m ms0] eqn:E; [destruct HI|]. rewrite <- E in *. clear E.
  assert (ET : traverse check_mapping ms = Err ValueError); [|now rewrite ET].
  induction ms as [|[[lo' hi'] o'] ms IH]; [destruct HI|]. cbn [traverse].
  assert (HC : check_mapping (lo', hi', o') = Ok tt \/ check_mapping (lo', hi', o') = Err ValueError).
  { unfold check_mapping. destruct (_ || _); [now right|]. destruct (num_leb _ _); auto. }
  destruct HI as [HI|HI].
  - injection HI as -> -> ->. unfold check_mapping. destruct (is_nan (scalar_num lo) || is_nan (scalar_num hi)) eqn:EN; [reflexivity|].
    apply orb_false_iff in EN. destruct EN as [N1 N2].
    destruct (num_total (scalar_num lo) (scalar_num hi)) as [K|[K|K]]; auto; [congruence| |]; unfold num_leb.
    + rewrite num_eqb_sym in K. rewrite K, orb_true_r. reflexivity.
    + rewrite K. reflexivity.
  - destruct HC as [-> | ->]; [|reflexivity]. cbn [rbind]. now rewrite IH.
Qed.
(* values of the result survive the cast to its dtype *)
Definition exact (d : dtype) (x : num) : Prop := cast d x = x.
Lemma remap_range_spec nb nc r ms inc r' : wf nb nc r -> remap_range cast float_dtype r ms inc = Ok r' ->
  (forall b c, in_raster nb nc b c -> exact (r_dtype r') (value r b c)) ->
  (forall lo hi s, In (lo, hi, Some s) ms -> exact (r_dtype r') (scalar_num s)) ->
  (forall v, r_nv r' = Some v -> exact (r_dtype r') v) ->
  wf nb nc r'
  /\ r_nv r' = (match r_nv r with
                | Some v => Some v
                | None => if existsb (fun '(_, _, o) => match o with None => true | _ => false end) ms
                          then Some (default_null (r_dtype r')) else None
                end)
  /\ forall b c, in_raster nb nc b c ->
     null r' b c = null r b c || (match first_mapping inc ms (value r b c) with
                                  | Some None => true
                                  | Some (Some s) => hits r' (scalar_num s)
                                  | None => hits r' (value r b c)
                                  end)
     /\ (null r' b c = false ->
         value r' b c = match first_mapping inc ms (value r b c) with Some (Some s) => scalar_num s | _ => value r b c end).
Proof.
  intros W H X1 X2 X3. destruct (wf_ex _ _ _ W) as (d & nv & v & m & -> & Hb & Hc & HN). unfold remap_range in H.
  destruct (normalize_mappings ms) as [ms'|] eqn:EN; [|discriminate]. apply normalize_spec in EN. destruct EN as (-> & _ & _). cbn [rbind] in H.
  destruct (match flat_map _ ms with [] => _ | _ => _ end) as [common|] eqn:EC; [|discriminate]. clear EC. cbn [rbind] in H.
  cbn [r_dtype r_nv mk r_data r_mask] in H. set (od := promote_types d common) in *.
  set (nv' := match nv with Some v => Some v | None => _ end) in *.
  set (nv0 := match nv' with Some v => v | None => of_Z 0 end) in *.
  set (ranges := map _ ms) in H.
  assert (ED : (if dtype_eqb od d then tab2 nb nc v else map2 (cast od) (tab2 nb nc v)) = tab2 nb nc (fun b c => if dtype_eqb od d then v b c else cast od (v b c))).
  { destruct (dtype_eqb od d); [reflexivity|apply map2_tab']. }
  rewrite ED in H. unfold remap_values in H. rewrite zip2_tab, data_to_raster_nomask in H. injection H as <-. cbn [r_dtype mk] in X1, X2, X3.
  assert (EV : forall b c, in_raster nb nc b c -> (if dtype_eqb od d then v b c else cast od (v b c)) = v b c).
  { intros b c HI. specialize (X1 b c HI). revert X1. cells HI. unfold exact. intros ->. now destruct (dtype_eqb od d). }
  assert (EF : forall x, option_map snd (find (fun '(lo, hi, _) => contains inc lo hi x) ranges)
      = option_map (fun o => cast od (match o with Some s => scalar_num s | None => nv0 end)) (first_mapping inc ms x)).
  { intros x. unfold ranges, first_mapping. rewrite find_map.
    rewrite (find_ext _ (fun '(lo, hi, _) => contains inc (scalar_num lo) (scalar_num hi) x)) by (intros [[? ?] ?]; reflexivity).
    destruct (find _ ms) as [[[lo hi] o]|]; reflexivity. }
  assert (ER : forall x, remap_cell inc ranges x = match first_mapping inc ms x with
                | Some o => cast od (match o with Some s => scalar_num s | None => nv0 end) | None => x end).
  { intros x. rewrite remap_cell_spec. specialize (EF x). destruct (find _ ranges) as [[[lo hi] o]|], (first_mapping inc ms x); cbn in EF; congruence. }
  assert (EN0 : forall w, nv' = Some w -> nv0 = w /\ cast od nv0 = w).
  { intros w E. unfold nv0. rewrite E. split; [reflexivity|]. now apply X3. }
  split; [apply mk_wf; [lia|lia|]|split; [reflexivity|]].
  { intros E b c _. now rewrite E. }
  intros b c HI. cells HI. rewrite EV by exact HI. unfold hits. cbn [r_nv mk]. rewrite ER.
  (* the target of the first mapping *)
  assert (ET : forall s, first_mapping inc ms (v b c) = Some (Some s) -> cast od (scalar_num s) = scalar_num s).
  { intros s E. unfold first_mapping in E. destruct (find _ ms) as [[[lo hi] o]|] eqn:EFi; [|discriminate]. injection E as ->.
    apply find_some in EFi. now apply (X2 lo hi). }
  assert (EM : nv' = None -> m b c = false /\ first_mapping inc ms (v b c) <> Some None).
  { unfold nv'. intros E. destruct nv; [discriminate|]. destruct (existsb _ ms) eqn:EX; [discriminate|]. split; [now apply HN|].
    intros EQ. unfold first_mapping in EQ. destruct (find _ ms) as [[[lo hi] o]|] eqn:EFi; [|discriminate]. injection EQ as ->.
    apply find_some in EFi. assert (K : existsb (fun '(_, _, o) => match o with None => true | Some _ => false end) ms = true).
    { apply existsb_exists. exists (lo, hi, None). split; [apply EFi|reflexivity]. } congruence. }
  destruct nv' as [w|] eqn:ENV.
  - destruct (EN0 w eq_refl) as [E0 E1]. destruct (m b c) eqn:EM'; [split; [rewrite E1; apply same_value_refl|]|].
    { rewrite E1, same_value_refl. discriminate. }
    cbn [orb]. destruct (first_mapping inc ms (v b c)) as [[s|]|].
    + rewrite ET by reflexivity. auto.
    + rewrite E1, same_value_refl. split; [reflexivity|discriminate].
    + auto.
  - destruct (EM eq_refl) as [-> EQ]. cbn [orb]. destruct (first_mapping inc ms (v b c)) as [[s|]|]; [|congruence|auto]. rewrite ET by reflexivity. auto.
Qed.
Lemma remap_range_bad r ms inc : ms = [] \/ (exists lo hi o, In (lo, hi, o) ms /\ num_ltb (scalar_num lo) (scalar_num hi) = false) ->
  remap_range cast float_dtype r ms inc = Err ValueError.
Proof. intros H. unfold remap_range. now rewrite normalize_bad. Qed.

(* ---------------- where ---------------- *)
Lemma branch_data_tab nb nc nv x (a : Z -> Z -> num) : branch_ok nb nc x ->
  branch_data (tab2 nb nc a) nv x = tab2 nb nc (fun b c => match x with BNone => nv | _ => branch_value x b c end).
Proof.
  intros H. destruct x as [r|s|]; cbn [branch_data]; [|apply map2_tab'|apply map2_tab']. cbn in H. rewrite (wf_mk _ _ _ H) at 1. reflexivity.
Qed.
Lemma branch_mask_tab nb nc x (a : Z -> Z -> num) : branch_ok nb nc x ->
  branch_mask (tab2 nb nc a) x = tab2 nb nc (fun b c => match x with BNone => false | _ => branch_null x b c end).
Proof.
  intros H. destruct x as [r|s|]; cbn [branch_mask]; [|apply map2_tab'|apply map2_tab']. cbn in H. rewrite (wf_mk _ _ _ H) at 1. reflexivity.
Qed.
Lemma where_spec nb nc out cond x y r' : wf nb nc cond -> branch_ok nb nc x -> branch_ok nb nc y ->
  where_raster cast float_dtype out cond x y = Ok r' ->
  (forall v, r_nv r' = Some v -> exact out v) ->
  (forall b c, in_raster nb nc b c -> let z := if cond_true cond b c then x else y in branch_null z b c = false -> exact out (branch_value z b c)) ->
  wf nb nc r' /\ r_dtype r' = out
  /\ (r_nv r' = None <-> masked cond || branch_masked x || branch_masked y = false)
  /\ (forall v, r_nv r' = Some v -> where_nv float_dtype x y = Ok v)
  /\ forall b c, in_raster nb nc b c ->
     let z := if cond_true cond b c then x else y in
     null r' b c = null cond b c || branch_null z b c || hits r' (branch_value z b c)
     /\ (null r' b c = true -> r_nv r' = Some (value r' b c) \/ hits r' (value r' b c) = true)
     /\ (null r' b c = false -> value r' b c = branch_value z b c).
Proof.
  intros W WX WY H X3 X1. destruct (wf_ex _ _ _ W) as (d & nv & v & m & -> & Hb & Hc & HN). unfold where_raster in H. cbn [r_dtype mk r_data r_mask] in H.
  destruct (is_float_dtype d); [discriminate|].
  assert (NN : ~ (x = BNone /\ y = BNone)) by (intros [-> ->]; discriminate).
  match type of H with match x with _ => _ end = Ok _ => idtac end.
  assert (H' : forall K : res raster, (match x, y with BNone, BNone => Err ValueError | _, _ => K end) = K).
  { intros K. destruct x, y; try reflexivity. exfalso. now apply NN. }
  rewrite H' in H. clear H'.
  destruct (negb _); [discriminate|]. rewrite map2_tab' in H.
  set (t := fun i j : Z => match d with BOOL => _ | _ => _ end) in H.
  assert (ET : forall b c, in_raster nb nc b c -> cond_true (mk nb nc d nv v m) b c = t b c).
  { intros b c HI. unfold cond_true. cells HI. reflexivity. }
  destruct (masked (mk nb nc d nv v m) || branch_masked x || branch_masked y) eqn:EM.
  - destruct (where_nv float_dtype x y) as [w|] eqn:EW; [|discriminate]. cbn [rbind] in H.
    rewrite fill_tab, !branch_data_tab, !branch_mask_tab, !select_tab in H by assumption. cbv zeta in H. rewrite fill_tab, map2_tab', fill_tab, mask_tab in H. injection H as <-.
    match goal with |- context [wf nb nc (Raster ?d0 ?n0 (tab2 _ _ ?v0) (tab2 _ _ ?m0))] =>
      change (Raster d0 n0 (tab2 nb nc v0) (tab2 nb nc m0)) with (mk nb nc d0 n0 v0 m0) in * end.
    cbn [r_nv mk] in X3. specialize (X3 w eq_refl). unfold exact in X3, X1.
    split; [apply mk_wf; [lia|lia|discriminate]|]. split; [reflexivity|]. split; [split; discriminate|]. split; [intros ? [= <-]; reflexivity|].
    intros b c HI. specialize (X1 b c HI). cbv zeta in X1. rewrite ET in * by exact HI. cells HI. unfold hits. cbn [r_nv mk]. rewrite X3. cbv zeta.
    destruct (m b c) eqn:EMC; cbn [orb].
    { rewrite same_value_refl. split; [reflexivity|]. split; [now left|discriminate]. }
    destruct (t b c).
    + destruct x as [rx|sx|]; cbn [branch_null branch_value] in *; [revert X1; destruct (null rx b c); intros X1; cbn [orb]| |].
      * rewrite same_value_refl. split; [reflexivity|]. split; [now left|discriminate].
      * rewrite (X1 eq_refl). split; [reflexivity|]. split; auto.
      * rewrite (X1 eq_refl). split; [reflexivity|]. split; auto.
      * rewrite X3, same_value_refl. split; [reflexivity|]. split; [now left|discriminate].
    + destruct y as [rx|sx|]; cbn [branch_null branch_value] in *; [revert X1; destruct (null rx b c); intros X1; cbn [orb]| |].
      * rewrite same_value_refl. split; [reflexivity|]. split; [now left|discriminate].
      * rewrite (X1 eq_refl). split; [reflexivity|]. split; auto.
      * rewrite (X1 eq_refl). split; [reflexivity|]. split; auto.
      * rewrite X3, same_value_refl. split; [reflexivity|]. split; [now left|discriminate].
  - rewrite !branch_data_tab, !select_tab in H by assumption. cbv zeta in H. rewrite !map2_tab' in H. injection H as <-.
    match goal with |- context [wf nb nc (Raster ?d0 ?n0 (tab2 _ _ ?v0) (tab2 _ _ ?m0))] =>
      change (Raster d0 n0 (tab2 nb nc v0) (tab2 nb nc m0)) with (mk nb nc d0 n0 v0 m0) in * end.
    split; [apply mk_wf; [lia|lia|reflexivity]|]. split; [reflexivity|]. split; [split; reflexivity|]. split; [discriminate|].
    apply orb_false_iff in EM. destruct EM as [EM EY]. apply orb_false_iff in EM. destruct EM as [EM EX].
    unfold masked in EM. cbn [r_nv mk] in EM. destruct nv; [discriminate|].
    intros b c HI. specialize (X1 b c HI). cbv zeta in X1. rewrite ET in * by exact HI. cells HI. unfold hits. cbn [r_nv mk]. cbv zeta. rewrite (HN eq_refl b c HI).
    assert (NB : forall z, branch_ok nb nc z -> branch_masked z = false -> branch_null z b c = false /\ z <> BNone).
    { intros z WZ EZ. destruct z as [r|s|]; [|split; [reflexivity|discriminate]|discriminate]. split; [|discriminate]. cbn in *. unfold masked in EZ.
      destruct WZ as (_ & _ & _ & _ & HZ). destruct (r_nv r); [discriminate|]. now apply HZ. }
    destruct (NB x WX EX) as [NX NX'], (NB y WY EY) as [NY NY'].
    destruct (t b c); [rewrite NX|rewrite NY]; (split; [reflexivity|]; split; [discriminate|]); intros _.
    + destruct x; try congruence; exact (X1 NX).
    + destruct y; try congruence; exact (X1 NY).
Qed.
Lemma where_errors out cond x y : (is_float_dtype (r_dtype cond) = true -> where_raster cast float_dtype out cond x y = Err TypeError)
  /\ (is_float_dtype (r_dtype cond) = false -> where_raster cast float_dtype out cond BNone BNone = Err ValueError).
Proof. unfold where_raster. split; intros ->; reflexivity. Qed.

(* ---------------- reclassify ---------------- *)
Lemma lookup_acc pairs v : forall acc, fold_left (fun acc '(k, w) => if num_eqb k v then Some w else acc) pairs acc
  = match lookup pairs v with Some w => Some w | None => acc end.
Proof.
  unfold lookup. induction pairs as [|[k w] pairs IH]; intros acc; [reflexivity|]. cbn [fold_left].
  rewrite IH. rewrite (IH (if num_eqb k v then Some w else None)). destruct (fold_left _ pairs None); [reflexivity|]. now destruct (num_eqb k v).
Qed.
Lemma lookup_cons k w pairs v : lookup ((k, w) :: pairs) v = match lookup pairs v with Some x => Some x | None => if num_eqb k v then Some w else None end.
Proof. unfold lookup at 1. cbn [fold_left]. apply lookup_acc. Qed.
Lemma lookup_spec (f : option scalar -> num) remapping v :
  match lookup (map (fun '(k, o) => (k, f o)) remapping) v with
  | Some w => exists o, maps_to remapping v o /\ w = f o
  | None => forall o, ~ maps_to remapping v o
  end.
Proof.
  induction remapping as [|[k o] l IH]; [intros o (k & [] & _)|]. cbn [map]. rewrite lookup_cons.
  destruct (lookup (map _ l) v) as [w|].
  - destruct IH as (o' & (k' & HI & HK) & ->). exists o'. split; [exists k'; split; [now right|exact HK]|reflexivity].
  - destruct (num_eqb k v) eqn:E.
    + exists o. split; [exists k; split; [now left|exact E]|reflexivity].
    + intros o' (k' & [HI|HI] & HK); [injection HI as -> ->; congruence|]. apply (IH o'). now exists k'.
Qed.
Lemma maps_to_unique remapping v o o' : distinct_keys remapping -> maps_to remapping v o -> maps_to remapping v o' -> o = o'.
Proof.
  intros HD (k & HI & HK) (k' & HI' & HK').
  destruct (ForallOrdPairs_In HD _ _ HI HI') as [E|[E|E]]; [congruence| |]; cbn in E; exfalso.
  - rewrite (num_eqb_sym k' v) in HK'. pose proof (num_eqb_trans _ _ _ HK HK'). congruence.
  - rewrite (num_eqb_sym k v) in HK. pose proof (num_eqb_trans _ _ _ HK' HK). congruence.
Qed.
Lemma reclassify_spec nb nc r remapping unmapped r' dict' : wf nb nc r -> distinct_keys remapping ->
  reclassify cast float_dtype r remapping unmapped = Ok (r', dict') ->
  (forall b c, in_raster nb nc b c -> exact (r_dtype r') (value r b c)) ->
  (forall k s, In (k, Some s) remapping -> exact (r_dtype r') (scalar_num s)) ->
  (forall v, r_nv r' = Some v -> exact (r_dtype r') v) ->
  wf nb nc r'
  /\ (forall v, r_nv r' = Some v -> v = match r_nv r with Some v => v | None => default_null (r_dtype r') end)
  /\ (r_nv r' = None <-> r_nv r = None /\ unmapped = false /\ forall k, ~ In (k, None) remapping)
  /\ forall b c, in_raster nb nc b c ->
     (null r b c = true -> null r' b c = true)
     /\ (null r b c = false ->
         (forall s, maps_to remapping (value r b c) (Some s) -> value r' b c = scalar_num s /\ null r' b c = hits r' (scalar_num s))
         /\ (maps_to remapping (value r b c) None -> null r' b c = true)
         /\ ((forall o, ~ maps_to remapping (value r b c) o) ->
             if unmapped then null r' b c = true
             else value r' b c = value r b c /\ null r' b c = hits r' (value r b c))).
Proof.
  intros W HD H X1 X2 X3. destruct (wf_ex _ _ _ W) as (d & nv & v & m & -> & Hb & Hc & HN). unfold reclassify in H.
  destruct (match flat_map _ remapping with [] => _ | _ => _ end) as [od|] eqn:EC; [|discriminate]. clear EC. cbn [rbind] in H.
  cbn [r_nv mk r_dtype r_data r_mask] in H. set (w := match nv with Some v => v | None => default_null od end) in *.
  rewrite zip2_tab, data_to_raster_nomask in H. cbn [rbind] in H. injection H as <- _. cbn [r_dtype mk] in *.
  set (any := existsb _ remapping) in *. set (mkd := masked (mk nb nc d nv v m) || unmapped || any) in *.
  assert (EA : any = false <-> forall k, ~ In (k, None) remapping).
  { unfold any. split.
    - intros E k HI. assert (K : existsb (fun '(_, o) => match o with None => true | Some _ => false end) remapping = true)
        by (apply existsb_exists; exists (k, None); now split). congruence.
    - intros HI. apply not_true_is_false. intros E. apply existsb_exists in E. destruct E as ([k [s|]] & HI' & E); [discriminate|]. exact (HI k HI'). }
  assert (EMK : mkd = false <-> nv = None /\ unmapped = false /\ any = false).
  { unfold mkd, masked. cbn [r_nv mk]. destruct nv, unmapped, any; cbn; intuition congruence. }
  split; [apply mk_wf; [lia|lia|]|].
  { destruct mkd; [discriminate|reflexivity]. }
  split. { cbn [r_nv mk]. destruct mkd; [|discriminate]. intros x [= <-]. reflexivity. }
  split. { cbn [r_nv mk]. rewrite <- EA. rewrite <- EMK. destruct mkd; intuition congruence. }
  intros b c HI. cells HI. unfold hits. cbn [r_nv mk].
  specialize (X1 b c HI). revert X1. cells HI. intros X1. unfold exact in *. cbn [r_nv mk] in X3.
  set (cell := reclassify_cell _ unmapped w (m b c) (v b c)).
  assert (EW : mkd = true -> cast od w = w) by (intros E; rewrite E in X3; now apply X3).
  assert (MM : m b c = true -> mkd = true).
  { intros E. destruct mkd; [reflexivity|]. destruct (proj1 EMK eq_refl) as (EN & _ & _). rewrite (HN EN b c HI) in E. discriminate. }
  split.
  - intros E. unfold cell, reclassify_cell. rewrite E. rewrite (MM E). rewrite EW by now apply MM. apply same_value_refl.
  - intros E. unfold cell, reclassify_cell. rewrite E.
    pose proof (lookup_spec (fun o => match o with Some s => scalar_num s | None => w end) remapping (v b c)) as LS.
    rewrite E in *. destruct (lookup _ (v b c)) as [x|].
    + destruct LS as (o & HM & ->). split; [|split].
      * intros s HS. pose proof (maps_to_unique _ _ _ _ HD HM HS) as ->. destruct HS as (k & HS & _). rewrite (X2 k s HS). split; [reflexivity|]. now destruct mkd.
      * intros HS. pose proof (maps_to_unique _ _ _ _ HD HM HS) as ->.
        assert (K : mkd = true). { destruct mkd; [reflexivity|]. destruct (proj1 EMK eq_refl) as (_ & _ & EA'). destruct HS as (k & HS & _). destruct (proj1 EA EA' k HS). }
        rewrite K, EW by exact K. apply same_value_refl.
      * intros HS. destruct (HS _ HM).
    + split; [intros s HS; destruct (LS _ HS)|]. split; [intros HS; destruct (LS _ HS)|]. intros _. destruct unmapped.
      * assert (K : mkd = true) by (unfold mkd; now rewrite orb_true_r). rewrite K, EW by exact K. apply same_value_refl.
      * rewrite X1. split; [reflexivity|]. now destruct mkd.
Qed.
Lemma reclassify_dict r remapping unmapped r' dict' : reclassify cast float_dtype r remapping unmapped = Ok (r', dict') ->
  (forall k, ~ In (k, None) remapping) -> dict' = map (fun '(k, o) => (k, option_map scalar_num o)) remapping.
Proof.
  intros H HN. unfold reclassify in H.
  destruct (match flat_map _ remapping with [] => _ | _ => _ end) as [od|]; [|discriminate]. cbn [rbind] in H.
  cbn [data_to_raster rbind] in H. injection H as _ <-. rewrite map_map. apply map_ext_in. intros [k [s|]] HI; [reflexivity|]. destruct (HN k HI).
Qed.
End Cast.

(* ---------------- clip ---------------- *)
Lemma clip_spec nb nc r envelope invert touched : wf nb nc r -> len touched = nc -> envelope && invert = false ->
  exists r', clip r true envelope invert touched = Ok r' /\ wf nb nc r' /\ r_dtype r' = r_dtype r /\ r_nv r' = Some (null_value_of r)
  /\ forall b c, in_raster nb nc b c -> forall t, get touched c = Ok t ->
     null r' b c = null r b c || negb (envelope || xorb invert t)
     /\ (null r' b c = false -> value r' b c = value r b c)
     /\ (null r' b c = true -> value r' b c = null_value_of r \/ null r b c = true /\ value r' b c = value r b c).
Proof.
  intros W HT HE. destruct (wf_ex _ _ _ W) as (d & nv & v & m & -> & Hb & Hc & HN). unfold clip. cbn [negb]. rewrite HE.
  set (T := fun c => match get touched c with Ok t => t | Err _ => false end).
  assert (ET : touched = tab nc T).
  { apply list_tab; [lia|exact HT|]. intros i Hi. unfold T. destruct (get_range touched i) as [t ->]; [lia|reflexivity]. }
  set (k := fun c => envelope || xorb invert (T c)).
  assert (EB : (if envelope then map (fun _ => true) touched else if invert then map negb touched else touched) = tab nc k).
  { unfold k. clearbody T. rewrite ET. unfold tab. destruct envelope; [now rewrite map_map|]. destruct invert; [now rewrite map_map|]. apply map_ext. intros a. now destruct (T a). }
  rewrite EB. rewrite len_mk by lia. rewrite tab_full by lia. change (tab nb (fun _ => tab nc k)) with (tab2 nb nc (fun _ c => k c)).
  cbn [r_data mk]. rewrite same_shape_tab by lia. cbn [negb]. rewrite zip2_tab, map2_tab'. cbv zeta.
  assert (EM : (if masked (mk nb nc d nv v m) then zip2 orb (tab2 nb nc (fun _ c => negb (k c))) (r_mask (mk nb nc d nv v m)) else tab2 nb nc (fun _ c => negb (k c)))
    = tab2 nb nc (fun b c => m b c || negb (k c))).
  { unfold masked. cbn [r_nv mk r_mask]. destruct nv; [rewrite zip2_tab; apply tab2_ext; intros; apply orb_comm|].
    apply tab2_ext. intros i j Hi Hj. now rewrite HN by (auto; split; assumption). }
  rewrite EM. eexists. split; [reflexivity|].
  match goal with |- context [wf nb nc (Raster ?d0 ?n0 (tab2 _ _ ?v0) (tab2 _ _ ?m0))] =>
    change (Raster d0 n0 (tab2 nb nc v0) (tab2 nb nc m0)) with (mk nb nc d0 n0 v0 m0) in * end.
  split; [apply mk_wf; [lia|lia|discriminate]|]. split; [reflexivity|]. split; [reflexivity|].
  intros b c HI t Ht. cells HI. assert (EK : k c = envelope || xorb invert t) by (unfold k, T; now rewrite Ht). rewrite EK.
  split; [reflexivity|]. split.
  - intros H. apply orb_false_iff in H. destruct H as [_ H]. apply negb_false_iff in H. now rewrite H.
  - intros H. apply orb_true_iff in H. destruct (envelope || xorb invert t); [right|now left]. split; [|reflexivity]. now destruct H.
Qed.
Lemma clip_errors r has_crs envelope invert touched : has_crs = false \/ envelope && invert = true ->
  clip r has_crs envelope invert touched = Err ValueError.
Proof. unfold clip. intros [->|H]; [reflexivity|]. destruct has_crs; [|reflexivity]. now rewrite H. Qed.
Lemma clip_partition nb nc r touched inside outside : wf nb nc r -> len touched = nc ->
  clip r true false false touched = Ok inside -> clip r true false true touched = Ok outside ->
  forall b c, in_raster nb nc b c ->
  (null r b c = true -> null inside b c = true /\ null outside b c = true)
  /\ (null r b c = false -> (null inside b c = false /\ get touched c = Ok true /\ null outside b c = true /\ value inside b c = value r b c)
                         \/ (null outside b c = false /\ get touched c = Ok false /\ null inside b c = true /\ value outside b c = value r b c)).
Proof.
  intros W L E1 E2 b c I.
  destruct (clip_spec nb nc r false false touched W L eq_refl) as (i & F1 & _ & _ & _ & H1). destruct (clip_spec nb nc r false true touched W L eq_refl) as (o & F2 & _ & _ & _ & H2).
  rewrite F1 in E1. rewrite F2 in E2. injection E1 as ->. injection E2 as ->.
  destruct (get_range touched c) as [t G]; [unfold in_raster in I; lia|]. specialize (H1 b c I t G). specialize (H2 b c I t G).
  destruct H1 as (N1 & V1 & _), H2 as (N2 & V2 & _). cbn in N1, N2. rewrite N1 in V1. rewrite N2 in V2. split.
  - intros N. rewrite N1, N2, N. auto.
  - intros N. rewrite N in *. rewrite N1, N2. destruct t; cbn in *; [left|right]; auto.
Qed.
