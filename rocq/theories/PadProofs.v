From Coq Require Import QArith.
From Verif Require Import Base BaseFacts Scalars Chunks ChunksProofs CostPublicProofs Arr2 Arr2Facts Raster FocalSpec FocalValues RasterSpec RasterProofs RasterStack Pad.
Open Scope Z_scope.

(* inside the original raster? *)
Definition original (ny nx top lft i j : Z) : bool := (top <=? i) && (i <? top + ny) && (lft <=? j) && (j <? lft + nx).
Lemma full_app_tab {A} n m k (x : A) (f : Z -> A) : 0 <= n -> 0 <= m -> 0 <= k ->
  full n x ++ tab m f ++ full k x = tab (n + m + k) (fun i => if (n <=? i) && (i <? n + m) then f (i - n) else x).
Proof.
  intros Hn Hm Hk. rewrite <- (tab_app (n + m) k) by lia. rewrite <- (tab_app n m) by lia. rewrite <- app_assoc.
  rewrite !tab_full by lia. f_equal; [apply tab_ext; intros i Hi; now replace (n <=? i) with false by lia|].
  f_equal; apply tab_ext; intros i Hi.
  - replace ((n <=? n + i) && (n + i <? n + m)) with true by lia. f_equal. lia.
  - now replace ((n <=? n + m + i) && (n + m + i <? n + m)) with false by lia.
Qed.
Lemma pad_box_tab {A} top bottom lft rgt (x : A) ny nx a : 0 <= top -> 0 <= bottom -> 0 <= lft -> 0 <= rgt -> 0 <= ny -> 0 <= nx ->
  pad_box top bottom lft rgt x nx (tab2 ny nx a)
  = tab2 (top + ny + bottom) (lft + nx + rgt) (fun i j => if original ny nx top lft i j then a (i - top) (j - lft) else x).
Proof.
  intros. unfold pad_box, tab2. unfold tab at 1. rewrite map_map.
  rewrite (map_ext _ (fun i => tab (lft + nx + rgt) (fun j => if (lft <=? j) && (j <? lft + nx) then a i (j - lft) else x)))
    by (intros i; apply full_app_tab; lia).
  rewrite (tab_full (lft + nx + rgt)) by lia. fold (tab ny (fun i => tab (lft + nx + rgt) (fun j => if (lft <=? j) && (j <? lft + nx) then a i (j - lft) else x))).
  rewrite full_app_tab by lia. apply tab_ext. intros i Hi. destruct ((top <=? i) && (i <? top + ny)) eqn:E; apply tab_ext; intros j Hj; unfold original; rewrite E; reflexivity.
Qed.
Lemma pad_band_tab cast masked ny nx top bottom lft rgt D M v marked : 0 <= top -> 0 <= bottom -> 0 <= lft -> 0 <= rgt -> 0 <= ny -> 0 <= nx ->
  (masked = false -> forall i j, M i j = false) ->
  pad_band cast masked nx top bottom lft rgt (tab2 ny nx D) (tab2 ny nx M) v marked
  = (tab2 (top + ny + bottom) (lft + nx + rgt) (fun i j => if original ny nx top lft i j then D (i - top) (j - lft) else cast v),
     tab2 (top + ny + bottom) (lft + nx + rgt) (fun i j => if original ny nx top lft i j then M (i - top) (j - lft) else marked)).
Proof.
  intros. unfold pad_band. rewrite !map2_tab', !pad_box_tab, !zip2_tab, !map2_tab' by lia. f_equal.
  - apply tab2_ext. intros i j _ _. now destruct (original ny nx top lft i j).
  - destruct masked; rewrite zip2_tab; apply tab2_ext; intros i j _ _; destruct (original ny nx top lft i j); cbn; rewrite ?orb_false_r; try reflexivity.
    symmetry. auto.
Qed.
Definition band_ok ny nx (p : arr2 num * arr2 bool) : Prop := shaped2 ny nx (fst p) /\ shaped2 ny nx (snd p).
Lemma get_combine' {A B} (a : list A) (b : list B) k x y : get a k = Ok x -> get b k = Ok y -> get (combine a b) k = Ok (x, y).
Proof.
  intros Ha Hb. unfold get in *. destruct (k <? 0); [discriminate|]. destruct (nth_error a (Z.to_nat k)) eqn:E1; [|discriminate]. destruct (nth_error b (Z.to_nat k)) eqn:E2; [|discriminate].
  injection Ha as ->. injection Hb as ->. revert b E1 E2. revert a. generalize (Z.to_nat k). clear. induction n as [|n IH]; intros a b E1 E2; destruct a, b; cbn in *; try discriminate.
  - congruence.
  - now apply IH.
Qed.
Lemma len_combine' {A B} (a : list A) (b : list B) : len a = len b -> len (combine a b) = len a.
Proof. unfold len. intros. rewrite combine_length. lia. Qed.

Lemma validate_spec nbands nv d f per mark out : 0 <= nbands -> validate_fill_values nbands nv d f = Ok (per, mark, out) ->
  len per = nbands /\ len mark = nbands
  /\ out = match f with FNone => Some (match nv with Some v => v | None => default_null d end) | _ => nv end
  /\ forall k, 0 <= k < nbands -> exists v, get per k = Ok v
     /\ match f with
        | FNone => v = match nv with Some v => v | None => default_null d end
        | FScalar w => v = w
        | FList vs => get vs k = Ok v
        | FOther => False
        end
     /\ get mark k = Ok (match f with FNone => true | _ => match nv with Some n => same_value v n | None => false end end).
Proof.
  intros Hn H. destruct f as [|w|vs|]; cbn in H.
  - injection H as <- <- <-. rewrite !full_len by lia. split; [reflexivity|]. split; [reflexivity|]. split; [reflexivity|]. intros k Hk. rewrite !get_full by lia. eauto.
  - injection H as <- <- <-. rewrite !full_len by lia. split; [reflexivity|]. split; [reflexivity|]. split; [reflexivity|]. intros k Hk. rewrite !get_full by lia.
    exists w. split; [reflexivity|]. split; [reflexivity|]. f_equal. destruct nv; [cbn; symmetry; apply same_value_nan|reflexivity].
  - destruct (len vs =? nbands) eqn:E; [|discriminate]. cbn in H. injection H as <- <- <-. rewrite len_map. split; [lia|]. split; [lia|]. split; [reflexivity|].
    intros k Hk. destruct (get_range vs k) as [v Hv]; [lia|]. exists v. rewrite get_map_eq, Hv. split; [reflexivity|]. split; [reflexivity|]. cbn. f_equal.
    destruct nv; [cbn; symmetry; apply same_value_nan|reflexivity].
  - discriminate.
Qed.
Lemma pad_spec cast d nv ny nx bands top bottom lft rgt f bands' out : 0 <= top -> 0 <= bottom -> 0 <= lft -> 0 <= rgt -> 0 <= ny -> 0 <= nx ->
  Forall (band_ok ny nx) bands -> (nv = None -> Forall (fun p => forall i j, val2 false (snd p) i j = false) bands) ->
  pad cast d nv nx bands top bottom lft rgt f = Ok (bands', out) ->
  len bands' = len bands
  /\ out = match f with FNone => Some (match nv with Some v => v | None => default_null d end) | _ => nv end
  /\ forall k data mask, get bands k = Ok (data, mask) -> exists data' mask' v, get bands' k = Ok (data', mask')
     /\ match f with
        | FNone => v = match nv with Some v => v | None => default_null d end
        | FScalar w => v = w
        | FList vs => get vs k = Ok v
        | FOther => False
        end
     /\ shaped2 (top + ny + bottom) (lft + nx + rgt) data' /\ shaped2 (top + ny + bottom) (lft + nx + rgt) mask'
     /\ (forall i j, 0 <= i < ny -> 0 <= j < nx -> val2 NaN data' (top + i) (lft + j) = val2 NaN data i j
                                                   /\ val2 false mask' (top + i) (lft + j) = val2 false mask i j)
     /\ (forall i j, 0 <= i < top + ny + bottom -> 0 <= j < lft + nx + rgt ->
           ~ (top <= i < top + ny /\ lft <= j < lft + nx) ->
           val2 NaN data' i j = cast v
           /\ val2 false mask' i j = match f with FNone => true | _ => match nv with Some n => same_value v n | None => false end end).
Proof.
  intros Ht Hb Hl Hr Hny Hnx HB HN H. unfold pad in H. destruct (validate_fill_values (len bands) nv d f) as [[[per mark] out']|] eqn:EV; [|discriminate]. cbn [rbind] in H.
  injection H as <- <-. destruct (validate_spec _ _ _ _ _ _ _ (len_nonneg bands) EV) as (L1 & L2 & EO & HV).
  assert (LC : len (combine bands per) = len bands) by (apply len_combine'; lia).
  split; [rewrite len_map; rewrite len_combine' by (etransitivity; [exact LC|symmetry; exact L2]); exact LC|]. split; [exact EO|].
  intros k data mask G. pose proof (get_ok_range _ _ _ G) as HK. destruct (HV k HK) as (v & GV & EF & GM). rewrite get_map_eq.
  pose proof (get_combine' _ _ k ((data, mask), v) _ (get_combine' _ _ _ _ _ G GV) GM) as GC. unfold arr2 in GC |- *. rewrite GC. cbn [rbind].
  cbn [fst snd]. rewrite Forall_forall in HB. destruct (HB _ (get_in _ _ _ G)) as [SD SM]. cbn [fst snd] in SD, SM.
  rewrite (shaped_tab NaN ny nx data SD), (shaped_tab false ny nx mask SM) by lia.
  assert (HM : match nv with Some _ => true | None => false end = false -> forall i j, val2 false mask i j = false).
  { destruct nv; [discriminate|]. intros _. specialize (HN eq_refl). rewrite Forall_forall in HN. exact (HN _ (get_in _ _ _ G)). }
  rewrite pad_band_tab by (lia || exact HM). eexists _, _, v. split; [reflexivity|]. split; [exact EF|].
  split; [apply rect_tab2; lia|]. split; [apply rect_tab2; lia|]. split.
  - intros i j Hi Hj. rewrite !val2_tab by lia.
    replace (original ny nx top lft (top + i) (lft + j)) with true by (unfold original; lia).
    replace (top + i - top) with i by lia. replace (lft + j - lft) with j by lia. rewrite ?val2_tab by lia. auto.
  - intros i j Hi Hj HO. rewrite !val2_tab by lia. replace (original ny nx top lft i j) with false by (unfold original; lia). auto.
Qed.
Lemma pad_errors cast d nv nx bands top bottom lft rgt : 
  (forall vs, len vs <> len bands -> pad cast d nv nx bands top bottom lft rgt (FList vs) = Err ValueError)
  /\ pad cast d nv nx bands top bottom lft rgt FOther = Err TypeError
  /\ (forall f, f <> FOther -> (forall vs, f = FList vs -> len vs = len bands) -> exists x, pad cast d nv nx bands top bottom lft rgt f = Ok x).
Proof.
  split. { intros vs H. unfold pad, validate_fill_values. replace (len vs =? len bands) with false by lia. reflexivity. }
  split; [reflexivity|]. intros f NF HL. unfold pad. destruct f as [|w|vs|]; cbn; eauto; [|congruence]. rewrite (HL vs eq_refl), Z.eqb_refl. cbn. eauto.
Qed.
