(* Proofs about the keywords of the functions for blocks (C88). *)
From Coq Require Import String.
From Verif Require Import Base BaseFacts RasterStack WriteOptionsProofs Keywords KeywordsSpec.
Open Scope Z_scope.

Lemma has_in names k : has names k = true <-> List.In k names.
Proof.
  unfold has. rewrite existsb_exists. split.
  - intros (x & Hx & E). apply String.eqb_eq in E. now subst.
  - intros H. exists k. split; [exact H|apply String.eqb_refl].
Qed.
Lemma has_not names k : has names k = false <-> ~ List.In k names.
Proof. rewrite <- has_in. now destruct (has names k). Qed.

Section Dicts.
Context {V : Type}.
Implicit Types d : dict V.

Lemma in_keys d k : List.In k (keys d) <-> exists v, gives d k v.
Proof.
  unfold keys, gives. rewrite in_map_iff. split.
  - intros ((k', v) & E & H). cbn [fst] in E. subst. now exists v.
  - intros (v & H). now exists (k, v).
Qed.
Lemma collision_iff names d : collision names d = true <-> exists k v, gives d k v /\ List.In k names.
Proof.
  unfold collision. rewrite existsb_exists. split.
  - intros (k & Hk & Hn). apply in_keys in Hk. destruct Hk as (v & Hv). apply has_in in Hn. now exists k, v.
  - intros (k & v & Hv & Hn). exists k. rewrite in_keys, has_in. split; [now exists v|exact Hn].
Qed.
Lemma gives_without names d k v : gives (without names d) k v <-> gives d k v /\ ~ List.In k names.
Proof. unfold gives, without. rewrite filter_In. cbn [fst]. rewrite Bool.negb_true_iff, has_not. reflexivity. Qed.
Lemma keywords_without names d : keywords d -> keywords (without names d).
Proof.
  unfold keywords, without. induction d as [|(k, v) d IH]; cbn [filter map fst]; intros H; [constructor|].
  inversion H as [|? ? Hn Hd]; subst. destruct (negb _); cbn [map fst]; [|exact (IH Hd)].
  constructor; [|exact (IH Hd)]. intros Hin. apply Hn. apply in_map_iff in Hin. destruct Hin as (x & E & Hx).
  apply filter_In in Hx. apply in_map_iff. exists x. tauto.
Qed.

Lemma assign_keys k v d : forall x, List.In x (map fst (assign k v d)) <-> x = k \/ List.In x (map fst d).
Proof.
  induction d as [|(k', v') d IH]; intros x; cbn [assign map fst].
  - cbn. firstorder congruence.
  - destruct (String.eqb k k') eqn:E; cbn [map fst List.In].
    + apply String.eqb_eq in E. subst. firstorder congruence.
    + rewrite IH. firstorder congruence.
Qed.
Lemma keywords_assign k v d : keywords d -> keywords (assign k v d).
Proof.
  unfold keywords. induction d as [|(k', v') d IH]; cbn [assign map fst]; intros H.
  - repeat constructor. intros [].
  - inversion H as [|? ? Hn Hd]; subst. destruct (String.eqb k k') eqn:E; cbn [map fst]; [now constructor|].
    constructor; [|exact (IH Hd)]. rewrite assign_keys. intros [->|Hin]; [|now apply Hn].
    now rewrite String.eqb_refl in E.
Qed.
Lemma gives_assign k v d k' v' : keywords d -> gives (assign k v d) k' v' <-> (k' = k /\ v' = v) \/ (k' <> k /\ gives d k' v').
Proof.
  unfold keywords, gives. induction d as [|(x, u) d IH]; cbn [assign map fst]; intros H.
  - cbn [List.In]. split; [intros [E|[]]|intros [[-> ->]|[_ []]]]; [inversion E; subst; now left|now left].
  - inversion H as [|? ? Hn Hd]; subst. destruct (String.eqb k x) eqn:E; cbn [List.In].
    + apply String.eqb_eq in E. subst x. split.
      * intros [E|Hin]; [inversion E; subst; now left|]. right. split; [|now right].
        intros ->. apply Hn. apply in_map_iff. now exists (k, v').
      * intros [[-> ->]|[Hne [E|Hin]]]; [now left| |now right]. inversion E. congruence.
    + apply String.eqb_neq in E. rewrite (IH Hd). split.
      * intros [Ex|[Hl|Hr]]; [inversion Ex; subst; right; split; [congruence|now left]|now left|right; tauto].
      * tauto.
Qed.
End Dicts.

Lemma own_iff m k : List.In k (own m) <-> parameter m k.
Proof.
  split.
  - destruct m; cbn; intros H; repeat (destruct H as [<-|H]; [constructor|]); destruct H.
  - intros H. destruct H; try destruct m; cbn; tauto.
Qed.
Lemma reserved_iff m k : List.In k (reserved m) <-> injected m k.
Proof.
  split.
  - destruct m; cbn; intros H; repeat (destruct H as [<-|H]; [constructor|]); destruct H.
  - intros H. destruct H; try destruct m; cbn; tauto.
Qed.
Lemma dask_iff k : List.In k dask_reserved <-> dask_option k.
Proof. unfold dask_option, dask_reserved. cbn [List.In]. tauto. Qed.
Lemma refused_not_parameter m k : refused m k -> ~ parameter m k.
Proof.
  intros H P. apply own_iff in P. destruct H as [m k H|m k H| |].
  - apply reserved_iff in H. destruct m; cbn in H, P; repeat (destruct H as [<-|H]; [intuition discriminate|]); destruct H.
  - apply dask_iff in H. destruct m; cbn in H, P; repeat (destruct H as [<-|H]; [intuition discriminate|]); destruct H.
  - cbn in P. intuition discriminate.
  - cbn in P. intuition discriminate.
Qed.

Section Keywords.
Variables V Block Info Loc Geo Nv Dt : Type.
Variable location : Info -> Loc.
Variable chunk_dtype : Info -> Dt.
Variable geo_info : Info -> Geo.
Variable to_dataarray : option Geo -> Block -> Block.
Variable resolve : Dt -> Nv.
Variable placeholder : Nv.
Variable takes passes : mapper -> list string.
Notation call := (call V Block Info Loc Geo Nv Dt location chunk_dtype geo_info to_dataarray resolve placeholder takes passes).
Notation argument := (argument V Block Info Loc Geo Nv Dt location chunk_dtype geo_info to_dataarray resolve placeholder).
Notation block_of := (block_of Block Info Geo geo_info to_dataarray).

Lemma check_iff m (d : dict V) : check_keywords V m d = Err ValueError <-> exists k v, gives d k v /\ refused m k.
Proof.
  unfold check_keywords. split.
  - destruct (collision dask_reserved d) eqn:C1.
    + intros _. apply collision_iff in C1. destruct C1 as (k & v & H & Hk). exists k, v. split; [exact H|]. apply r_dask. now apply dask_iff.
    + destruct (is_overlap m && has (keys d) "out_bands") eqn:C2.
      * intros _. apply Bool.andb_true_iff in C2. destruct C2 as (Ho & Hb). apply has_in, in_keys in Hb. destruct Hb as (v & Hv).
        exists "out_bands"%string, v. split; [exact Hv|]. destruct m; try discriminate Ho; [exact r_bands|exact r_geo_bands].
      * destruct (collision (reserved m) d) eqn:C3; [|discriminate]. intros _.
        apply collision_iff in C3. destruct C3 as (k & v & H & Hk). exists k, v. split; [exact H|]. apply r_injected. now apply reserved_iff.
  - intros (k & v & Hv & Hr). destruct (collision dask_reserved d) eqn:C1; [reflexivity|].
    destruct (is_overlap m && has (keys d) "out_bands") eqn:C2; [reflexivity|].
    destruct (collision (reserved m) d) eqn:C3; [reflexivity|]. exfalso.
    destruct Hr as [m k Hi|m k Hd| |].
    + enough (collision (reserved m) d = true) by congruence. apply collision_iff. exists k, v. split; [exact Hv|now apply reserved_iff].
    + enough (collision dask_reserved d = true) by congruence. apply collision_iff. exists k, v. split; [exact Hv|now apply dask_iff].
    + cbn [is_overlap andb] in C2. apply has_not in C2. apply C2, in_keys. now exists v.
    + cbn [is_overlap andb] in C2. apply has_not in C2. apply C2, in_keys. now exists v.
Qed.
Lemma check_ok m (d : dict V) : check_keywords V m d = Ok tt \/ check_keywords V m d = Err ValueError.
Proof. unfold check_keywords. destruct (collision dask_reserved d), (is_overlap m && has (keys d) "out_bands"), (collision (reserved m) d); auto. Qed.

Lemma call_refused m params nvs hint given data masks i :
  call m params nvs hint given data masks i = Err ValueError <-> exists k v, gives given k v /\ refused m k.
Proof.
  assert (HE : (exists k v, gives given k v /\ refused m k) <-> check_keywords V m (without (own m) given) = Err ValueError).
  { rewrite check_iff. split; intros (k & v & Hv & Hr); exists k, v; split; try exact Hr.
    - apply gives_without. split; [exact Hv|]. rewrite own_iff. now apply refused_not_parameter.
    - now apply gives_without in Hv. }
  rewrite HE. unfold Keywords.call. cbv zeta. destruct (check_ok m (without (own m) given)) as [->| ->]; cbn [rbind].
  - destruct (collision (passes m) _); split; discriminate.
  - tauto.
Qed.

Lemma call_accepted m params nvs hint given data masks i :
  (forall k v, gives given k v -> ~ refused m k) -> (forall k v, gives given k v -> parameter m k \/ ~ List.In k (passes m)) ->
  exists out, call m params nvs hint given data masks i = Ok out.
Proof.
  intros H1 H2. pose proof (call_refused m params nvs hint given data masks i) as HR. unfold Keywords.call in *. cbv zeta in *.
  destruct (check_ok m (without (own m) given)) as [E|E]; rewrite E in *; cbn [rbind] in *.
  - destruct (collision (passes m) _) eqn:C; [|eexists; reflexivity]. exfalso.
    apply collision_iff in C. destruct C as (k & v & Hv & Hk). apply gives_without in Hv. destruct Hv as (Hv & Ho).
    rewrite own_iff in Ho. destruct (H2 k v Hv); tauto.
  - exfalso. destruct (proj1 HR eq_refl) as (k & v & Hv & Hr). exact (H1 k v Hv Hr).
Qed.

Lemma call_clash m params nvs hint given data masks i k v :
  (forall k v, gives given k v -> ~ refused m k) -> gives given k v -> ~ parameter m k -> List.In k (passes m) ->
  call m params nvs hint given data masks i = Err TypeError.
Proof.
  intros H1 Hv Hp Hk. pose proof (call_refused m params nvs hint given data masks i) as HR. unfold Keywords.call in *. cbv zeta in *.
  destruct (check_ok m (without (own m) given)) as [E|E]; rewrite E in *; cbn [rbind] in *.
  - replace (collision (passes m) (without (own m) given)) with true; [reflexivity|]. symmetry. apply collision_iff. exists k, v.
    split; [|exact Hk]. apply gives_without. rewrite own_iff. tauto.
  - exfalso. destruct (proj1 HR eq_refl) as (k' & v' & Hv' & Hr). exact (H1 k' v' Hv' Hr).
Qed.

Lemma halves {A} (a b : list A) : len a = len b ->
  slice (a ++ b) 0 (len (a ++ b) / 2) = a /\ slice (a ++ b) (len (a ++ b) / 2) (len (a ++ b)) = b.
Proof.
  intros H. rewrite len_app. replace ((len a + len b) / 2) with (len a) by (rewrite <- H, Z.add_diag, Z.mul_comm, Z.div_mul; lia).
  split; [|now apply slice_end]. unfold slice, len. change (Z.to_nat 0) with 0%nat. cbn [skipn].
  replace (Z.to_nat (Z.of_nat (length a) - 0)) with (length a + 0)%nat by lia. rewrite firstn_app_2. cbn [firstn]. apply app_nil_r.
Qed.

Lemma conv_blocks m i l : Forall2 (block_of m i) l ((if is_geo m then map (to_dataarray (option_map geo_info i)) else (fun l => l)) l).
Proof. destruct m; cbn [is_geo]; induction l; try constructor; auto; constructor. Qed.
Lemma conv_unique m i l l' : Forall2 (block_of m i) l l' -> l' = (if is_geo m then map (to_dataarray (option_map geo_info i)) else (fun l => l)) l.
Proof.
  intros H. destruct m; cbn [is_geo]; induction H as [|x y l l' Hxy _ IH]; try reflexivity; inversion Hxy; subst; cbn [map]; reflexivity.
Qed.

Lemma gives_put {W} params k (v : W) d k' v' : keywords d ->
  keywords (if has params k then assign k v d else d) /\
  (gives (if has params k then assign k v d else d) k' v' <->
   (List.In k params /\ k' = k /\ v' = v) \/ ((~ List.In k params \/ k' <> k) /\ gives d k' v')).
Proof.
  intros H. destruct (has params k) eqn:E.
  - apply has_in in E. split; [now apply keywords_assign|]. rewrite gives_assign by exact H. tauto.
  - apply has_not in E. split; [exact H|]. tauto.
Qed.

Lemma gives_given (d : dict V) k (u : value V Block Info Loc Geo Nv) : gives (map (fun p => (fst p, Given (snd p))) d) k u <-> exists v, u = Given v /\ gives d k v.
Proof.
  unfold gives. rewrite in_map_iff. split.
  - intros ((k', v) & E & H). cbn [fst snd] in E. inversion E; subst. now exists v.
  - intros (v & -> & H). now exists (k, v).
Qed.

Lemma call_arguments m params nvs hint given data masks i out :
  (forall k, List.In k (takes m) -> refused m k \/ parameter m k) ->
  keywords given -> len data = len masks ->
  call m params nvs hint given data masks i = Ok out ->
  Forall2 (block_of m i) data (fst out) /\ keywords (snd out) /\
  (forall k u, gives (snd out) k u <-> argument m params nvs hint given masks i k u).
Proof.
  intros HT HK HL H.
  assert (HR : forall k v, gives given k v -> ~ refused m k).
  { intros k v Hv Hr. enough (call m params nvs hint given data masks i = Err ValueError) by congruence. apply call_refused. now exists k, v. }
  unfold Keywords.call in H. cbv zeta in H. destruct (check_keywords V m _) as [[]|]; cbn [rbind] in H; [|discriminate].
  destruct (collision (passes m) _); [discriminate|]. injection H as <-. unfold wrapper. cbv zeta. cbn [fst snd].
  set (inputs := if has params "input_masks" then data ++ masks else data).
  assert (HD : (if has params "input_masks" then slice inputs 0 (len inputs / 2) else inputs) = data).
  { unfold inputs. destruct (has params "input_masks"); [|reflexivity]. now apply halves. }
  assert (HM : has params "input_masks" = true -> (if has params "input_masks" then slice inputs (len inputs / 2) (len inputs) else []) = masks).
  { unfold inputs. intros ->. now apply halves. }
  rewrite HD. split; [apply conv_blocks|].
  set (rest := map _ _).
  assert (K0 : keywords rest).
  { unfold rest, keywords. rewrite map_map. cbn [fst]. do 2 apply keywords_without. exact HK. }
  assert (G0 : forall k u, gives rest k u <-> exists v, u = Given v /\ gives given k v /\ ~ parameter m k).
  { intros k u. unfold rest. rewrite gives_given. split; intros (v & -> & Hv); exists v; (split; [reflexivity|]).
    - apply gives_without in Hv. destruct Hv as (Hv & _). apply gives_without in Hv. rewrite own_iff in Hv. exact Hv.
    - destruct Hv as (Hv & Hp). apply gives_without. split; [apply gives_without; rewrite own_iff; tauto|].
      intros Ht. destruct (HT k Ht) as [Hr|]; [|tauto]. exact (HR k v Hv Hr). }
  clearbody rest.
  set (conv := if is_geo m then map (to_dataarray (option_map geo_info i)) else (fun l => l)).
  set (mm := if has params "input_masks" then slice inputs (len inputs / 2) (len inputs) else []).
  set (out_nv := match i with None => placeholder | Some _ => _ end).
  set (d1 := if has params "input_masks" then assign _ _ rest else rest).
  assert (K1 : keywords d1) by exact (proj1 (gives_put params "input_masks" (Masks (conv mm)) rest ""%string (Nulls nvs) K0)).
  assert (G1 : forall k' v', gives d1 k' v' <-> (List.In "input_masks"%string params /\ k' = "input_masks"%string /\ v' = Masks (conv mm)) \/ ((~ List.In "input_masks"%string params \/ k' <> "input_masks"%string) /\ gives rest k' v'))
    by (intros k' v'; exact (proj2 (gives_put params "input_masks" (Masks (conv mm)) rest k' v' K0))).
  set (d2 := if has params "block_info" then assign _ _ d1 else d1).
  assert (K2 : keywords d2) by exact (proj1 (gives_put params "block_info" (BlockInfo i) d1 ""%string (Nulls nvs) K1)).
  assert (G2 : forall k' v', gives d2 k' v' <-> (List.In "block_info"%string params /\ k' = "block_info"%string /\ v' = BlockInfo i) \/ ((~ List.In "block_info"%string params \/ k' <> "block_info"%string) /\ gives d1 k' v'))
    by (intros k' v'; exact (proj2 (gives_put params "block_info" (BlockInfo i) d1 k' v' K1))).
  set (d3 := if has params "block_id" then assign _ _ d2 else d2).
  assert (K3 : keywords d3) by exact (proj1 (gives_put params "block_id" (BlockId (option_map location i)) d2 ""%string (Nulls nvs) K2)).
  assert (G3 : forall k' v', gives d3 k' v' <-> (List.In "block_id"%string params /\ k' = "block_id"%string /\ v' = BlockId (option_map location i)) \/ ((~ List.In "block_id"%string params \/ k' <> "block_id"%string) /\ gives d2 k' v'))
    by (intros k' v'; exact (proj2 (gives_put params "block_id" (BlockId (option_map location i)) d2 k' v' K2))).
  set (d4 := if has params "input_null_values" then assign _ _ d3 else d3).
  assert (K4 : keywords d4) by exact (proj1 (gives_put params "input_null_values" (Nulls nvs) d3 ""%string (Nulls nvs) K3)).
  assert (G4 : forall k' v', gives d4 k' v' <-> (List.In "input_null_values"%string params /\ k' = "input_null_values"%string /\ v' = Nulls nvs) \/ ((~ List.In "input_null_values"%string params \/ k' <> "input_null_values"%string) /\ gives d3 k' v'))
    by (intros k' v'; exact (proj2 (gives_put params "input_null_values" (Nulls nvs) d3 k' v' K3))).
  assert (G5 : forall k' v', keywords (if is_geo m then (if has params "geo_block_info" then assign "geo_block_info"%string (GeoInfo (option_map geo_info i)) d4 else d4) else d4) /\
    (gives (if is_geo m then (if has params "geo_block_info" then assign "geo_block_info"%string (GeoInfo (option_map geo_info i)) d4 else d4) else d4) k' v' <->
     (is_geo m = true /\ List.In "geo_block_info"%string params /\ k' = "geo_block_info"%string /\ v' = GeoInfo (option_map geo_info i))
     \/ ((is_geo m = false \/ ~ List.In "geo_block_info"%string params \/ k' <> "geo_block_info"%string) /\ gives d4 k' v'))).
  { intros k' v'. destruct (is_geo m).
    - pose proof (gives_put params "geo_block_info" (GeoInfo (option_map geo_info i)) d4 k' v' K4) as (Ha & Hb). split; [exact Ha|]. rewrite Hb.
      split; intuition congruence.
    - split; [exact K4|]. intuition congruence. }
  set (d5 := if is_geo m then (if has params "geo_block_info" then assign _ _ d4 else d4) else d4).
  assert (K5 : keywords d5) by exact (proj1 (G5 ""%string (Nulls nvs))).
  assert (G5' : forall k' v', gives d5 k' v' <->
     (is_geo m = true /\ List.In "geo_block_info"%string params /\ k' = "geo_block_info"%string /\ v' = GeoInfo (option_map geo_info i))
     \/ ((is_geo m = false \/ ~ List.In "geo_block_info"%string params \/ k' <> "geo_block_info"%string) /\ gives d4 k' v'))
    by (intros k' v'; exact (proj2 (G5 k' v'))).
  set (d6 := if has params "out_null_value" then assign _ _ d5 else d5).
  assert (K6 : keywords d6) by exact (proj1 (gives_put params "out_null_value" (OutNull out_nv) d5 ""%string (Nulls nvs) K5)).
  assert (G6 : forall k' v', gives d6 k' v' <-> (List.In "out_null_value"%string params /\ k' = "out_null_value"%string /\ v' = OutNull out_nv) \/ ((~ List.In "out_null_value"%string params \/ k' <> "out_null_value"%string) /\ gives d5 k' v'))
    by (intros k' v'; exact (proj2 (gives_put params "out_null_value" (OutNull out_nv) d5 k' v' K5))).
  split; [exact K6|]. intros k u.
  rewrite (G6 k u), (G5' k u), (G4 k u), (G3 k u), (G2 k u), (G1 k u), (G0 k u).
  assert (HMm : List.In "input_masks"%string params -> mm = masks) by (intros Hp; apply HM; now apply has_in).
  clearbody d1 d2 d3 d4 d5 d6 mm. clear G0 G1 G2 G3 G4 G5 G5' G6 HD HM inputs.
  split.
  - intros [(Hp & -> & ->)|(_ & [(Hg & Hp & -> & ->)|(_ & [(Hp & -> & ->)|(_ & [(Hp & -> & ->)|(_ & [(Hp & -> & ->)|(_ & [(Hp & -> & ->)|(_ & v & -> & Hv & Hq)])])])])])].
    + unfold out_nv. destruct i; [now apply a_out|now apply a_out_none].
    + assert (injected m "geo_block_info") by (destruct m; try discriminate Hg; constructor).
      destruct i; cbn [option_map]; [now apply a_geo|now apply a_geo_none].
    + now apply a_nulls.
    + destruct i; cbn [option_map]; [now apply a_id|now apply a_id_none].
    + now apply a_info.
    + apply a_masks; [exact Hp|]. rewrite (HMm Hp). apply conv_blocks.
    + now apply a_given.
  - assert (HG : forall k v, gives given k v -> ~ injected m k) by (intros k0 v0 H0 H1; exact (HR k0 v0 H0 (r_injected m k0 H1))).
    intros HA. destruct HA as [i k v Hv Hq|i l Hp HF|i Hp|i Hp|i Hp|Hp|i Hp|Hp|i Hg Hp|Hg Hp].
    + assert (Hno : forall k', injected m k' -> k <> k') by (intros k' Hi ->; exact (HG k' v Hv Hi)).
      pose proof (Hno _ (i_masks m)). pose proof (Hno _ (i_nulls m)). pose proof (Hno _ (i_info m)). pose proof (Hno _ (i_id m)). pose proof (Hno _ (i_out m)).
      assert (is_geo m = false \/ ~ List.In "geo_block_info"%string params \/ k <> "geo_block_info"%string).
      { destruct m; [now left|now left| |]; right; right; apply Hno; constructor. }
      right. split; [now right|]. right. split; [assumption|]. do 4 (right; split; [now right|]). now exists v.
    + rewrite (conv_unique _ _ _ _ HF), <- (HMm Hp). fold conv.
      right. split; [right; discriminate|]. right. split; [right; right; discriminate|]. do 3 (right; split; [right; discriminate|]). left. tauto.
    + right. split; [right; discriminate|]. right. split; [right; right; discriminate|]. left. tauto.
    + right. split; [right; discriminate|]. right. split; [right; right; discriminate|]. do 2 (right; split; [right; discriminate|]). left. tauto.
    + right. split; [right; discriminate|]. right. split; [right; right; discriminate|]. right; split; [right; discriminate|]. left. tauto.
    + right. split; [right; discriminate|]. right. split; [right; right; discriminate|]. right; split; [right; discriminate|]. left. tauto.
    + left. tauto.
    + left. tauto.
    + right. split; [right; discriminate|]. left. inversion Hg; subst; tauto.
    + right. split; [right; discriminate|]. left. inversion Hg; subst; tauto.
Qed.
End Keywords.
