(* astype, get_bands, stack_bands, split_bands, and histories of calls. *)
From Coq Require Import QArith Permutation.
From Verif Require Import Base BaseFacts Scalars NumFacts Chunks ChunksProofs Arr2 Arr2Facts Dtypes Raster FocalSpec FocalValues RasterSpec RasterProofs RasterValues.
Open Scope Z_scope.

Lemma traverse_forall2 {A B} (f : A -> res B) l : forall l', traverse f l = Ok l' -> Forall2 (fun x y => f x = Ok y) l l'.
Proof.
  induction l as [|x l IH]; intros l' H; cbn [traverse] in H; [injection H as <-; constructor|].
  destruct (f x) eqn:E; [|discriminate]. cbn [rbind] in H. destruct (traverse f l); [|discriminate]. cbn [rbind] in H. injection H as <-.
  constructor; auto.
Qed.
Lemma len_app {A} (l l' : list A) : len (l ++ l') = len l + len l'.
Proof. unfold len. rewrite app_length. lia. Qed.
Lemma get_app1 {A} (l l' : list A) k : k < len l -> get (l ++ l') k = get l k.
Proof.
  intros H. unfold get. destruct (k <? 0) eqn:E; [reflexivity|]. rewrite nth_error_app1; [reflexivity|]. unfold len in H. lia.
Qed.
Lemma get_app2 {A} (l l' : list A) k : len l <= k -> get (l ++ l') k = get l' (k - len l).
Proof.
  intros H. pose proof (len_nonneg l). unfold get. replace (k <? 0) with false by lia. replace (k - len l <? 0) with false by lia.
  rewrite nth_error_app2 by (unfold len in *; lia). replace (Z.to_nat (k - len l)) with (Z.to_nat k - length l)%nat by (unfold len; lia). reflexivity.
Qed.
Lemma wf_rows nb nc r b c : wf nb nc r -> in_raster nb nc b c ->
  exists row mrow, get (r_data r) b = Ok row /\ get (r_mask r) b = Ok mrow /\ get row c = Ok (value r b c) /\ get mrow c = Ok (null r b c).
Proof.
  intros W HI. destruct (wf_ex _ _ _ W) as (d & nv & v & m & -> & Hb & Hc & HN). cells HI. destruct HI as [H1 H2]. cbn [r_data r_mask mk].
  exists (tab nc (v b)), (tab nc (m b)). unfold tab2. rewrite !get_tab by lia. auto.
Qed.

(* get_bands *)
Lemma get_bands_spec nb nc r bands : wf nb nc r -> bands <> [] -> Forall (fun b => 1 <= b <= nb) bands ->
  exists r', get_bands r bands = Ok r' /\ wf (len bands) nc r' /\ r_dtype r' = r_dtype r /\ r_nv r' = r_nv r
  /\ forall k b c, get bands k = Ok b -> 0 <= c < nc -> value r' k c = value r (b - 1) c /\ null r' k c = null r (b - 1) c.
Proof.
  intros W NE HB. destruct (wf_ex _ _ _ W) as (d & nv & v & m & -> & Hb & Hc & HN). unfold get_bands. rewrite len_mk by lia.
  assert (LB : 0 < len bands) by (destruct bands; [congruence|rewrite len_cons; pose proof (len_nonneg bands); lia]).
  replace (len bands =? 0) with false by lia.
  assert (EE : existsb (fun b => (b <? 1) || (nb <? b)) bands = false).
  { apply not_true_is_false. intros E. apply existsb_exists in E. destruct E as (b & HI & E). rewrite Forall_forall in HB. specialize (HB b HI). lia. }
  rewrite EE. cbn [r_data r_mask mk r_dtype r_nv]. rewrite Forall_forall in HB.
  rewrite (traverse_ok _ (fun b => tab nc (v (b - 1)))) by (intros b HI; specialize (HB b HI); unfold tab2; now rewrite get_tab by lia).
  rewrite (traverse_ok _ (fun b => tab nc (m (b - 1)))) by (intros b HI; specialize (HB b HI); unfold tab2; now rewrite get_tab by lia).
  cbn [rbind]. eexists. split; [reflexivity|].
  set (B := fun k => match get bands k with Ok b => b | Err _ => 0 end).
  assert (EB : bands = tab (len bands) B).
  { apply list_tab; [lia|reflexivity|]. intros i Hi. unfold B. destruct (get_range bands i) as [t ->]; [lia|reflexivity]. }
  assert (EM : forall (A : Type) (f : Z -> Z -> A), map (fun b => tab nc (f (b - 1))) bands = tab2 (len bands) nc (fun k c => f (B k - 1) c)).
  { intros A f. rewrite EB at 1. unfold tab2, tab. now rewrite map_map. }
  rewrite (EM num v), (EM bool m).
  match goal with |- context [wf ?n nc (Raster ?d0 ?n0 (tab2 _ _ ?v0) (tab2 _ _ ?m0))] =>
    change (Raster d0 n0 (tab2 n nc v0) (tab2 n nc m0)) with (mk n nc d0 n0 v0 m0) in * end.
  assert (HIB : forall k, 0 <= k < len bands -> 1 <= B k <= nb).
  { intros k Hk. unfold B. destruct (get_range bands k) as [b G]; [lia|]. rewrite G. apply HB. now apply (get_in _ k). }
  split; [apply mk_wf; [lia|lia|]|].
  { intros EN k c [Hk Hc']. apply HN; [exact EN|]. specialize (HIB k Hk). split; lia. }
  split; [reflexivity|]. split; [reflexivity|]. intros k b c G Hc'. pose proof (get_ok_range _ _ _ G) as Hk.
  assert (HI : in_raster (len bands) nc k c) by (split; lia). rewrite value_mk, null_mk by exact HI.
  assert (HB' : B k = b) by (unfold B; now rewrite G). rewrite HB'. specialize (HIB k Hk). rewrite HB' in HIB.
  assert (HI' : in_raster nb nc (b - 1) c) by (split; lia). rewrite value_mk, null_mk by exact HI'. auto.
Qed.
Lemma get_bands_errors r bands : (bands = [] -> get_bands r bands = Err ValueError)
  /\ ((exists b, In b bands /\ (b < 1 \/ len (r_data r) < b)) -> get_bands r bands = Err IndexError).
Proof.
  split; [now intros ->|]. intros (b & HI & H). unfold get_bands.
  assert (LB : 0 < len bands) by (destruct bands as [|x bands]; [destruct HI|rewrite len_cons; pose proof (len_nonneg bands); lia]).
  replace (len bands =? 0) with false by lia.
  assert (E : existsb (fun b => (b <? 1) || (len (r_data r) <? b)) bands = true) by (apply existsb_exists; exists b; split; [exact HI|lia]).
  now rewrite E.
Qed.

Section Cast.
Variable cast : dtype -> num -> num.
Variable reconcile_other : num -> dtype -> num * bool.

Lemma astype_spec nb nc r d new r' : wf nb nc r -> astype cast reconcile_other r d new = Ok r' ->
  (forall b c, in_raster nb nc b c -> null r b c = false -> cast d (value r b c) = value r b c) ->
  wf nb nc r' /\ r_dtype r' = d /\ masked r' = masked r
  /\ forall b c, in_raster nb nc b c -> null r' b c = null r b c /\ (null r b c = false -> value r' b c = value r b c).
Proof.
  intros W H X. destruct (wf_ex _ _ _ W) as (dt & nv & v & m & -> & Hb & Hc & HN). unfold astype in H. cbn [r_dtype r_nv mk r_data r_mask] in H.
  destruct (dtype_eqb d dt && _) eqn:E1.
  { injection H as <-. apply andb_true_iff in E1. destruct E1 as [E1 _]. apply dtype_eqb_eq in E1. subst d. split; [exact W|]. auto. }
  rewrite map2_tab' in H.
  assert (X' : forall b c, in_raster nb nc b c -> m b c = false -> cast d (v b c) = v b c).
  { intros b c HI. specialize (X b c HI). revert X. now cells HI. }
  assert (K : exists nv' v', r' = mk nb nc d nv' v' m /\ (nv' = None <-> nv = None) /\ forall b c, in_raster nb nc b c -> m b c = false -> v' b c = v b c).
  { destruct nv as [old|].
    - assert (K2 : forall nv0, Raster d (Some nv0) (fill_where (tab2 nb nc m) nv0 (tab2 nb nc (fun i j => cast d (v i j)))) (tab2 nb nc m)
         = mk nb nc d (Some nv0) (fun b c => if m b c then nv0 else cast d (v b c)) m) by (intros; now rewrite fill_tab).
      destruct new as [new|].
      + destruct (num_close new old).
        * injection H as <-. exists (Some old), (fun b c => cast d (v b c)). repeat split; auto; discriminate.
        * destruct (reconcile reconcile_other new d) as [nv0 warned]. destruct warned; [discriminate|]. injection H as <-. rewrite K2.
          eexists _, _. split; [reflexivity|]. split; [split; discriminate|]. intros b c HI E. rewrite E. now apply X'.
      + destruct (reconcile reconcile_other old d) as [nv0 warned]. injection H as <-. rewrite K2.
        eexists _, _. split; [reflexivity|]. split; [split; discriminate|]. intros b c HI E. rewrite E. now apply X'.
    - injection H as <-. exists None, (fun b c => cast d (v b c)). repeat split; auto. }
  destruct K as (nv' & v' & -> & EN & EV). split; [apply mk_wf; [lia|lia|]|].
  { intros E. apply HN. now apply EN. }
  split; [reflexivity|]. split. { unfold masked. cbn [r_nv mk]. destruct nv, nv'; try reflexivity; exfalso; [now apply proj1 in EN; specialize (EN eq_refl)|now apply proj2 in EN; specialize (EN eq_refl)]. }
  intros b c HI. cells HI. split; [reflexivity|]. intros E. now apply EV.
Qed.
(* unless a new null value close to the old one is given, the null cells hold the
   null value afterwards *)
Lemma astype_nulls nb nc r d new r' b c : wf nb nc r -> astype cast reconcile_other r d new = Ok r' ->
  dtype_eqb d (r_dtype r) = false \/ (exists n, new = Some n /\ null_values_equal (r_nv r) new = false) ->
  match r_nv r, new with Some old, Some n => num_close n old = false | _, _ => True end ->
  in_raster nb nc b c -> null r' b c = true -> r_nv r' = Some (value r' b c).
Proof.
  intros W H HE HC HI. destruct (wf_ex _ _ _ W) as (dt & nv & v & m & -> & Hb & Hcc & HN). unfold astype in H. cbn [r_dtype r_nv mk r_data r_mask] in *.
  assert (E1 : dtype_eqb d dt && match new with None => true | Some _ => null_values_equal nv new end = false).
  { destruct HE as [->|(n & -> & ->)]; [reflexivity|apply andb_false_r]. }
  rewrite E1 in H. clear E1 HE. rewrite map2_tab' in H. destruct nv as [old|].
  - assert (K2 : forall nv0, Raster d (Some nv0) (fill_where (tab2 nb nc m) nv0 (tab2 nb nc (fun i j => cast d (v i j)))) (tab2 nb nc m)
         = mk nb nc d (Some nv0) (fun b c => if m b c then nv0 else cast d (v b c)) m) by (intros; now rewrite fill_tab).
    destruct new as [new|]; [rewrite HC in H; destruct (reconcile reconcile_other new d) as [nv0 warned]; destruct warned; [discriminate|]
      |destruct (reconcile reconcile_other old d) as [nv0 warned]]; injection H as <-; rewrite K2; cells HI; now intros ->.
  - injection H as <-. change (Raster d None (tab2 nb nc (fun i j => cast d (v i j))) (tab2 nb nc m)) with (mk nb nc d None (fun i j => cast d (v i j)) m).
    cells HI. rewrite (HN eq_refl b c HI). discriminate.
Qed.

(* ---------------- stack ---------------- *)
Definition raster_like nc (d : dtype) (r r' : raster) : Prop :=
  exists nb, wf nb nc r /\ wf nb nc r' /\ r_dtype r' = d
  /\ forall b c, in_raster nb nc b c -> null r' b c = null r b c /\ (null r b c = false -> value r' b c = value r b c).
Definition castable nc (d : dtype) (r : raster) : Prop :=
  exists nb, wf nb nc r /\ forall b c, in_raster nb nc b c -> null r b c = false -> cast d (value r b c) = value r b c.
Lemma cast_if_needed_spec nc d nodata r r' : castable nc d r -> cast_if_needed cast reconcile_other d nodata r = Ok r' -> raster_like nc d r r'.
Proof.
  intros (nb & W & X) H. unfold cast_if_needed in H. exists nb. split; [exact W|]. destruct (_ && _) eqn:E.
  - injection H as <-. apply andb_true_iff in E. destruct E as [E _]. apply dtype_eqb_eq in E. split; [exact W|]. auto.
  - destruct (astype_spec nb nc r d (Some nodata) r' W H X) as (W' & ED & _ & HC). auto.
Qed.
(* a band of the inputs and its row in the concatenation *)
Lemma bands_concat nc d rs rs' : Forall2 (raster_like nc d) rs rs' ->
  len (concat (map r_data rs')) = len (all_bands rs)
  /\ len (concat (map r_mask rs')) = len (all_bands rs)
  /\ Forall (fun row => len row = nc) (concat (map r_data rs')) /\ Forall (fun row => len row = nc) (concat (map r_mask rs'))
  /\ forall k r b, get (all_bands rs) k = Ok (r, b) -> exists nb r', wf nb nc r /\ wf nb nc r' /\ 0 <= b < nb
       /\ (forall c, 0 <= c < nc -> null r' b c = null r b c /\ (null r b c = false -> value r' b c = value r b c))
       /\ get (concat (map r_data rs')) k = get (r_data r') b /\ get (concat (map r_mask rs')) k = get (r_mask r') b.
Proof.
  induction 1 as [|r r' rs rs' HR HF IH].
  - repeat split; try constructor. intros k r b G. exfalso. exact (get_nil _ _ G).
  - destruct IH as (L1 & L2 & F1 & F2 & IH). destruct HR as (nb & W & W' & ED & HC).
    pose proof W as (Hb & Hc & (LD & _) & _). pose proof W' as (_ & _ & (LD' & FD') & (LM' & FM') & _).
    unfold all_bands. cbn [map concat]. fold (all_bands rs).
    assert (LP : len (map (pair r) (zrange 0 (len (r_data r)))) = nb) by (rewrite len_map, ProximityChunk.len_zrange; lia).
    rewrite !len_app. rewrite LP, LD', LM', L1, L2. split; [reflexivity|]. split; [reflexivity|]. split; [now apply Forall_app|]. split; [now apply Forall_app|].
    intros k r0 b G. pose proof (get_ok_range _ _ _ G) as HK. rewrite len_app, LP in HK.
    destruct (Z.ltb_spec k nb) as [HL|HL].
    + rewrite get_app1 in G by lia. rewrite get_map_eq, ProximityChunk.get_zrange in G by lia. cbn in G. injection G as <- <-.
      exists nb, r'. split; [exact W|]. split; [exact W'|]. split; [lia|]. split; [intros c Hc'; apply HC; split; lia|].
      rewrite !get_app1 by lia. auto.
    + rewrite get_app2 in G by lia. rewrite LP in G. destruct (IH _ _ _ G) as (nb' & r1 & A1 & A2 & A3 & A4 & A5 & A6).
      exists nb', r1. split; [exact A1|]. split; [exact A2|]. split; [exact A3|]. split; [exact A4|].
      rewrite !get_app2 by lia. rewrite LD', LM'. auto.
Qed.

Lemma split_bands_spec nb nc r : wf nb nc r ->
  exists bs, split_bands r = Ok bs /\ len bs = nb
  /\ forall k, 0 <= k < nb -> exists s, get bs k = Ok s /\ wf 1 nc s /\ r_dtype s = r_dtype r /\ r_nv s = r_nv r
     /\ forall c, 0 <= c < nc -> value s 0 c = value r k c /\ null s 0 c = null r k c.
Proof.
  intros W. pose proof W as (Hb & Hc & (LD & _) & _). unfold split_bands. rewrite LD.
  set (G := fun b => match get_bands r [b] with Ok s => s | Err _ => r end).
  assert (HG : forall b, 1 <= b <= nb -> get_bands r [b] = Ok (G b) /\ wf 1 nc (G b) /\ r_dtype (G b) = r_dtype r /\ r_nv (G b) = r_nv r
     /\ forall c, 0 <= c < nc -> value (G b) 0 c = value r (b - 1) c /\ null (G b) 0 c = null r (b - 1) c).
  { intros b HB. destruct (get_bands_spec nb nc r [b] W) as (s & E & W1 & ED & EN & HC); [discriminate|now constructor|].
    unfold G. rewrite E. split; [reflexivity|]. split; [exact W1|]. split; [exact ED|]. split; [exact EN|]. intros c Hc'. now apply (HC 0 b c). }
  exists (map G (zrange 1 (nb + 1))). split.
  - apply traverse_ok. intros b HI. apply zrange_in' in HI. apply HG. lia.
  - split; [rewrite len_map, ProximityChunk.len_zrange; lia|]. intros k Hk. exists (G (1 + k)).
    split; [rewrite get_map_eq, ProximityChunk.get_zrange by lia; reflexivity|].
    destruct (HG (1 + k)) as (_ & W1 & ED & EN & HC); [lia|]. replace (1 + k - 1) with k in HC by lia. auto.
Qed.
(* the null value of the stack *)
Definition stack_nv (rs : list raster) (d : dtype) (null_value : option num) : num :=
  match null_value with
  | Some v => v
  | None => match flat_map (fun r => match r_nv r with Some v => [v] | None => [] end) rs with v :: _ => v | [] => default_null d end
  end.
Definition stack_dtype (rs : list raster) (dt : option dtype) : dtype :=
  match dt with Some d => d | None => match rs with r0 :: others => fold_left promote_types (map r_dtype others) (r_dtype r0) | [] => BOOL end end.
Lemma cast_all nc d nodata rs rs' : traverse (cast_if_needed cast reconcile_other d nodata) rs = Ok rs' ->
  Forall (castable nc d) rs -> Forall2 (raster_like nc d) rs rs'.
Proof.
  intros ET. apply traverse_forall2 in ET. induction ET as [|x y l l' E _ IH]; intros HF; [constructor|]. inversion HF; subst. constructor; [|now apply IH].
  eapply cast_if_needed_spec; eassumption.
Qed.
Lemma stack_spec nc rs dt nv r' : 0 <= nc -> let d := stack_dtype rs dt in
  stack_bands cast reconcile_other rs dt nv = Ok r' -> Forall (castable nc d) rs ->
  exists nb, wf nb nc r' /\ nb = len (all_bands rs) /\ r_dtype r' = d
  /\ (2 <= len rs -> r_nv r' = Some (stack_nv rs d nv))
  /\ forall k r b c, get (all_bands rs) k = Ok (r, b) -> 0 <= c < nc ->
     null r' k c = null r b c /\ (null r b c = false -> value r' k c = value r b c).
Proof.
  intros Hnc d H HF. destruct rs as [|r0 others]; [discriminate|]. unfold stack_bands in H. fold (stack_dtype (r0 :: others) dt) in H.
  change (match dt with Some d => d | None => fold_left promote_types (map r_dtype others) (r_dtype r0) end) with (stack_dtype (r0 :: others) dt) in H. fold d in H.
  change (match nv with Some v => v | None => _ end) with (stack_nv (r0 :: others) d nv) in H. set (nodata := stack_nv _ _ _) in *.
  destruct others as [|r1 rs].
  - inversion HF as [|? ? HC _]; subst. pose proof (cast_if_needed_spec _ _ _ _ _ HC H) as (nb & W & W' & ED & HC'). pose proof W as (Hb & _ & (LD & _) & _).
    exists nb. split; [exact W'|]. unfold all_bands. cbn [map concat]. rewrite app_nil_r. split; [rewrite len_map, ProximityChunk.len_zrange; lia|].
    split; [exact ED|]. split; [cbn; lia|]. intros k r b c G HC''. pose proof (get_ok_range _ _ _ G) as HK. rewrite len_map, ProximityChunk.len_zrange in HK.
    rewrite get_map_eq, ProximityChunk.get_zrange in G by lia. cbn in G. injection G as <- <-. apply HC'. split; lia.
  - remember (r0 :: r1 :: rs) as all eqn:EA. destruct (traverse (cast_if_needed cast reconcile_other d nodata) all) as [rs'|] eqn:ET; [|discriminate]. cbn [rbind] in H.
    assert (F2 : Forall2 (raster_like nc d) all rs').
    { exact (cast_all nc d nodata all rs' ET HF). }
    destruct (bands_concat nc d all rs' F2) as (L1 & L2 & F1 & F2' & HB). set (nb := len (all_bands all)) in *.
    assert (NB : 0 < nb). { unfold nb. subst all. unfold all_bands. cbn [map concat]. rewrite len_app, len_map, ProximityChunk.len_zrange.
      inversion HF as [|? ? (n & (Hn & _ & (LD & _) & _) & _) _]; subst. pose proof (len_nonneg (concat (map (fun r => map (pair r) (zrange 0 (len (r_data r)))) (r1 :: rs)))). cbn [map concat] in *. lia. }
    destruct (data_to_raster_spec nb nc d (concat (map r_data rs')) (Some (concat (map r_mask rs'))) (Some nodata) false) as (r2 & E & W' & ED & EN & HC);
      [lia|lia|now split|now split|]. rewrite H in E. injection E as <-.
    exists nb. split; [exact W'|]. split; [reflexivity|]. split; [exact ED|]. split; [intros _; exact EN|].
    intros k r b c G Hc. pose proof (get_ok_range _ _ _ G) as HK. fold nb in HK.
    destruct (HB k r b G) as (n & r1' & Wr & Wr' & Hbn & HV & GD & GM).
    destruct (HC k c) as (EN' & _ & EV & _); [split; lia|]. rewrite EN', EV by now left.
    unfold val2. rewrite GD, GM. apply (HV c Hc).
Qed.
Lemma stack_split nc rs dt nv r' : 0 <= nc -> let d := stack_dtype rs dt in
  stack_bands cast reconcile_other rs dt nv = Ok r' -> Forall (castable nc d) rs ->
  exists bs, split_bands r' = Ok bs /\ len bs = len (all_bands rs)
  /\ forall k r b, get (all_bands rs) k = Ok (r, b) -> exists s, get bs k = Ok s /\ wf 1 nc s /\ r_dtype s = d
     /\ (2 <= len rs -> r_nv s = Some (stack_nv rs d nv))
     /\ forall c, 0 <= c < nc -> null s 0 c = null r b c /\ (null r b c = false -> value s 0 c = value r b c).
Proof.
  intros Hnc d H HF. destruct (stack_spec nc rs dt nv r' Hnc H HF) as (nb & W & EB & ED & EN & HC).
  destruct (split_bands_spec nb nc r' W) as (bs & ES & LB & HS). exists bs. split; [exact ES|]. split; [congruence|].
  intros k r b G. pose proof (get_ok_range _ _ _ G) as HK. destruct (HS k) as (s & GS & WS & ED' & EN' & HV); [lia|]. exists s. split; [exact GS|]. split; [exact WS|].
  split; [rewrite ED'; exact ED|]. split; [intros L; rewrite EN'; now apply EN|]. intros c Hc. destruct (HV c Hc) as [-> ->]. now apply (HC k r b c).
Qed.
Lemma all_bands_len rs : len (all_bands rs) = fold_right Z.add 0 (map (fun r => len (r_data r)) rs).
Proof.
  induction rs as [|r rs IH]; [reflexivity|]. unfold all_bands in *. cbn [map concat fold_right]. rewrite len_app, IH, len_map, ProximityChunk.len_zrange.
  pose proof (len_nonneg (r_data r)). lia.
Qed.
End Cast.

(* ---------------- histories ---------------- *)
Section History.
Variable cast : dtype -> num -> num.
Variable float_dtype : num -> dtype.
Variable reconcile_other : num -> dtype -> num * bool.
Hypothesis cast_bool_nan : cast BOOL NaN = of_Z 1.
Hypothesis float_not_bool : forall v, float_dtype v <> BOOL.

Inductive call :=
| CSetNullValue (s : option scalar) | CSetNull (m : raster) | CBurn | CAstype (d : dtype) | CClip (envelope invert : bool) (touched : list bool).
Definition run_call (r : raster) (k : call) : res raster :=
  match k with
  | CSetNullValue s => set_null_value cast float_dtype r s
  | CSetNull m => set_null r m
  | CBurn => Ok (burn_mask r)
  | CAstype d => astype cast reconcile_other r d None
  | CClip envelope invert touched => clip r true envelope invert touched
  end.
Definition call_ok nb nc (k : call) : Prop :=
  match k with
  | CSetNullValue (Some s) => fits s
  | CSetNull m => mask_ok nb nc m
  | CAstype d => d <> BOOL
  | CClip e i touched => len touched = nc
  | _ => True
  end.
Lemma astype_burned nb nc r d r' : d <> BOOL -> wf nb nc r -> burned nb nc r -> astype cast reconcile_other r d None = Ok r' -> wf nb nc r' /\ burned nb nc r'.
Proof.
  intros ND W HB H. destruct (wf_ex _ _ _ W) as (dt & nv & v & m & -> & Hb & Hc & HN). unfold astype in H. cbn [r_dtype r_nv mk r_data r_mask] in H.
  destruct (dtype_eqb d dt && true) eqn:E. { injection H as <-. auto. }
  rewrite map2_tab' in H. destruct nv as [old|].
  - destruct (reconcile reconcile_other old d) as [nv0 warned]. rewrite fill_tab in H. injection H as <-.
    match goal with |- context [wf nb nc (Raster ?d0 ?n0 (tab2 _ _ ?v0) (tab2 _ _ ?m0))] =>
      change (Raster d0 n0 (tab2 nb nc v0) (tab2 nb nc m0)) with (mk nb nc d0 n0 v0 m0) in * end.
    split; [apply mk_wf; [lia|lia|discriminate]|]. apply mk_burned; [|congruence]. intros b c HI ->. reflexivity.
  - injection H as <-. match goal with |- context [wf nb nc (Raster ?d0 ?n0 (tab2 _ _ ?v0) (tab2 _ _ ?m0))] =>
      change (Raster d0 n0 (tab2 nb nc v0) (tab2 nb nc m0)) with (mk nb nc d0 n0 v0 m0) in * end.
    split; [apply mk_wf; [lia|lia|exact HN]|]. apply mk_burned; [|congruence]. intros b c HI. rewrite (HN eq_refl b c HI). discriminate.
Qed.
Lemma call_burned nb nc r k r' : wf nb nc r -> burned nb nc r -> call_ok nb nc k -> run_call r k = Ok r' -> wf nb nc r' /\ burned nb nc r'.
Proof.
  intros W HB HK H. destruct k as [s|m| |d|e i touched]; cbn [run_call call_ok] in *.
  - apply (set_null_value_burned cast float_dtype cast_bool_nan nb nc r s r'); auto.
  - rewrite (set_null_ok nb nc) in H by assumption. injection H as <-. destruct (with_nulls_spec nb nc r (selected_by m) W) as (W' & ED & EN & HC).
    split; [exact W'|].
    assert (EB : r_dtype r = BOOL -> null_value_of r = of_Z 1).
    { intros E. unfold null_value_of. destruct HB as [_ HB]. destruct (HB E) as [-> | ->]; [now rewrite E|reflexivity]. }
    split; [|rewrite ED, EN; intros E; right; now rewrite EB].
    intros b c HI E. destruct (HC b c HI) as (_ & _ & HV). rewrite (HV E), EN. f_equal. destruct (dtype_eqb (r_dtype r) BOOL) eqn:E2; [|reflexivity].
    apply dtype_eqb_eq in E2. now apply EB.
  - injection H as <-. rewrite (burn_burned nb nc) by assumption. auto.
  - now apply (astype_burned nb nc r d).
  - destruct (e && i) eqn:EE. { rewrite clip_errors in H by auto. discriminate. }
    destruct (clip_spec nb nc r e i touched W HK EE) as (r2 & E & W' & ED & EN & HC). rewrite H in E. injection E as <-. split; [exact W'|]. split.
    + intros b c HI E. pose proof HI as [_ HI2]. destruct (get_range touched c) as [t Ht]; [lia|]. destruct (HC b c HI t Ht) as (EQ & HV & HO).
      destruct (null r b c) eqn:ENB.
      * destruct HB as [HB _]. specialize (HB b c HI ENB). destruct (HO E) as [-> |[_ ->]]; [exact EN|].
        rewrite EN. f_equal. unfold null_value_of. now rewrite HB.
      * destruct (HO E) as [-> |[K _]]; [exact EN|congruence].
    + rewrite ED, EN. intros E. right. f_equal. unfold null_value_of. destruct HB as [_ HB]. destruct (HB E) as [-> | ->]; [now rewrite E|reflexivity].
Qed.
End History.
Lemma calls_burned cast float_dtype reconcile_other : cast BOOL NaN = of_Z 1 -> (forall v, float_dtype v <> BOOL) ->
  forall nb nc ks r r', wf nb nc r -> burned nb nc r -> Forall (call_ok nb nc) ks ->
  foldM (run_call cast float_dtype reconcile_other) ks r = Ok r' -> wf nb nc r' /\ burned nb nc r'.
Proof.
  intros C F nb nc. induction ks as [|k ks IH]; cbn; intros r r' W B O H; [injection H as <-; auto|].
  inversion O as [|? ? O1 O2]; subst. destruct (run_call cast float_dtype reconcile_other r k) as [r1|] eqn:E; [|discriminate]. cbn in H.
  destruct (call_burned cast float_dtype reconcile_other C F nb nc r k r1 W B O1 E) as [W1 B1]. exact (IH r1 r' W1 B1 O2 H).
Qed.
Lemma set_null_spec nb nc r m : wf nb nc r -> mask_ok nb nc m ->
  exists r', set_null r m = Ok r' /\ wf nb nc r' /\ r_dtype r' = r_dtype r /\ r_nv r' = Some (null_value_of r)
  /\ forall b c, in_raster nb nc b c ->
     null r' b c = null r b c || selected_by m b c
     /\ (null r' b c = false -> value r' b c = value r b c)
     /\ (null r' b c = true -> value r' b c = if dtype_eqb (r_dtype r) BOOL then of_Z 1 else null_value_of r).
Proof. intros W M. exists (with_nulls nb nc r (selected_by m)). split; [now apply set_null_ok|]. exact (with_nulls_spec nb nc r (selected_by m) W). Qed.
Lemma set_null_union nb nc r ms : wf nb nc r -> Forall (mask_ok nb nc) ms -> ms <> [] ->
  exists r', foldM set_null ms r = Ok r' /\ wf nb nc r' /\ r_dtype r' = r_dtype r /\ r_nv r' = Some (null_value_of r)
  /\ forall b c, in_raster nb nc b c ->
     null r' b c = null r b c || existsb (fun m => selected_by m b c) ms
     /\ (null r' b c = false -> value r' b c = value r b c).
Proof.
  intros W M N. eexists. split; [now apply (set_null_seq nb nc)|]. destruct (with_nulls_spec nb nc r (fun b c => existsb (fun m => selected_by m b c) ms) W) as (A & B & C & D).
  split; [exact A|]. split; [exact B|]. split; [exact C|]. intros b c I. destruct (D b c I) as (D1 & D2 & _). auto.
Qed.
