(* Regions are the connected components of equal values. *)
From Coq Require Import QArith Sorted.
From Verif Require Import Base BaseFacts Scalars NumFacts PadProofs Chunks ChunksSpec ChunksProofs Arr2 Arr2Facts Focal FocalSpec FocalValues FocalResults Regions RegionsSpec.
Open Scope Z_scope.

(* ---- unique ---- *)
Definition precedes (a b : num) : Prop := before a b = true.
Lemma before_trans a b c : precedes a b -> precedes b c -> precedes a c.
Proof.
  unfold precedes, before. destruct (is_nan c) eqn:NC, (is_nan b) eqn:NB; cbn [negb]; intros H1 H2; try discriminate.
  - destruct a, b; cbn in *; congruence || reflexivity.
  - now destruct b.
  - eapply num_ltb_trans; eauto.
Qed.
Lemma before_neq a b : precedes a b -> num_eqb a b = false.
Proof.
  unfold precedes, before. destruct (is_nan b) eqn:NB; intros H.
  - rewrite num_eqb_sym. now apply num_nan_eqb.
  - now apply num_ltb_neq.
Qed.
Lemma before_total a b : same a b = false -> before a b = false -> precedes b a.
Proof.
  unfold same, before, precedes, before. destruct (is_nan a) eqn:NA, (is_nan b) eqn:NB; cbn [andb orb negb]; intros H1 H2; try congruence.
  destruct (num_total a b NA NB) as [H|[H|H]]; congruence.
Qed.
Lemma insert_in a l x : In x (insert_unique a l) -> x = a \/ In x l.
Proof.
  induction l as [|b t IH]; cbn [insert_unique]; [intros [<-|[]]; auto|]. destruct (same a b); [auto|].
  destruct (before a b); cbn; [intros [<-|[<-|H]]; auto|]. intros [<-|H]; [auto|]. apply IH in H. tauto.
Qed.
Lemma insert_sorted a l : StronglySorted precedes l -> StronglySorted precedes (insert_unique a l).
Proof.
  induction l as [|b t IH]; intros H; cbn [insert_unique]; [repeat constructor|].
  destruct (same a b) eqn:ES; [exact H|]. inversion_clear H as [|? ? Ht Hb]. destruct (before a b) eqn:EB.
  - constructor; [now constructor|]. constructor; [exact EB|]. eapply Forall_impl; [|exact Hb]. intros x. now apply before_trans.
  - constructor; [now apply IH|]. apply Forall_forall. intros x Hx. apply insert_in in Hx. destruct Hx as [->|Hx].
    + now apply before_total.
    + rewrite Forall_forall in Hb. now apply Hb.
Qed.
Lemma same_trans a b c : same a b = true -> same b c = true -> same a c = true.
Proof. destruct a, b, c; cbn; try congruence. rewrite !Qeq_bool_iff. intros -> ->. reflexivity. Qed.
Lemma insert_has a l x : (same x a = true \/ exists y, In y l /\ same x y = true) -> exists y, In y (insert_unique a l) /\ same x y = true.
Proof.
  induction l as [|b t IH]; cbn [insert_unique].
  - intros [H|(y & [] & _)]. exists a. split; [now left|exact H].
  - destruct (same a b) eqn:ES.
    + intros [H|H]; [|exact H]. exists b. split; [now left|]. eapply same_trans; eauto.
    + destruct (before a b).
      * intros [H|(y & Hy & H)]; [exists a; split; [now left|exact H]|exists y; split; [now right|exact H]].
      * intros [H|(y & [<-|Hy] & H)].
        -- destruct IH as (y & Hy & E); [now left|]. exists y. split; [now right|exact E].
        -- exists b. split; [now left|exact H].
        -- destruct IH as (y' & Hy' & E); [right; now exists y|]. exists y'. split; [now right|exact E].
Qed.
Lemma same_refl a : same a a = true.
Proof. unfold same. destruct (is_nan a) eqn:E; [reflexivity|]. cbn. now apply num_eqb_refl. Qed.
Lemma unique_fold xs l : StronglySorted precedes l ->
  StronglySorted precedes (fold_left (fun l a => insert_unique a l) xs l)
  /\ forall x, (In x xs \/ exists y, In y l /\ same x y = true) -> exists y, In y (fold_left (fun l a => insert_unique a l) xs l) /\ same x y = true.
Proof.
  revert l. induction xs as [|a xs IH]; intros l H; cbn [fold_left].
  - split; [exact H|]. intros x [[]|Hx]. exact Hx.
  - destruct (IH (insert_unique a l) (insert_sorted a l H)) as [S C]. split; [exact S|]. intros x [[<-|Hx]|Hx]; apply C.
    + right. apply insert_has. left. apply same_refl.
    + now left.
    + right. apply insert_has. now right.
Qed.
Definition distinct (l : list num) : Prop := ForallOrdPairs (fun u v => num_eqb u v = false) l.
Lemma sorted_distinct l : StronglySorted precedes l -> distinct l.
Proof.
  induction 1 as [|a l S IH H]; constructor; [|exact IH]. eapply Forall_impl; [|exact H]. intros b. apply before_neq.
Qed.
Lemma unique_spec x : distinct (unique x) /\ forall v, In v (concat x) -> is_nan v = false -> exists u, In u (unique x) /\ num_eqb v u = true.
Proof.
  destruct (unique_fold (concat x) [] (SSorted_nil _)) as [S C]. split; [now apply sorted_distinct|].
  intros v Hv N. destruct (C v (or_introl Hv)) as (y & Hy & E). exists y. split; [exact Hy|]. unfold same in E. now rewrite N in E.
Qed.
Lemma distinct_filter f l : distinct l -> distinct (filter f l).
Proof.
  induction 1 as [|a l H D IH]; cbn [filter]; [constructor|]. destruct (f a); [|exact IH]. constructor; [|exact IH].
  rewrite Forall_forall in *. intros b Hb. apply filter_In in Hb. now apply H.
Qed.

(* ---- joined ---- *)
Lemma joined_impl (s t : Z * Z -> Z * Z -> Prop) c d : (forall c d, s c d -> t c d) -> joined s c d -> joined t c d.
Proof. intros H J. induction J; [constructor|]. econstructor; eauto. Qed.
Lemma joined_trans (s : Z * Z -> Z * Z -> Prop) c d e : joined s c d -> joined s d e -> joined s c e.
Proof. intros H. induction H; intros; [assumption|]. econstructor; eauto. Qed.
Lemma joined_one (s : Z * Z -> Z * Z -> Prop) c d : s c d -> joined s c d.
Proof. intros. econstructor; [eassumption|constructor]. Qed.
Lemma joined_sym (s : Z * Z -> Z * Z -> Prop) c d : (forall c d, s c d -> s d c) -> joined s c d -> joined s d c.
Proof. intros S H. induction H; [constructor|]. eapply joined_trans; [eassumption|]. apply joined_one. now apply S. Qed.

Lemma add2_tab ny nx a b : add2 (tab2 ny nx a) (tab2 ny nx b) = tab2 ny nx (fun i j => a i j + b i j).
Proof.
  unfold add2, tab2, tab at 1 3. rewrite combine_map, map_map. apply map_ext. intros i.
  unfold tab. rewrite combine_map, map_map. apply map_ext. intros j. reflexivity.
Qed.

Section Create.
Variable label : arr2 Z -> arr2 bool -> arr2 Z * Z.
Hypothesis LC : labels_components label.
Variables (ny nx : Z) (wd : arr2 Z).
Hypotheses (Hy : 0 < ny) (Hx : 0 < nx) (HW : shaped2 3 3 wd) (SW : symmetric wd).
Variable a : Z -> Z -> num.
Let av (c : Z * Z) := a (fst c) (snd c).

Definition value_step (c d : Z * Z) : Prop :=
  inside ny nx c /\ inside ny nx d /\ val2 0 wd (fst d - fst c + 1) (snd d - snd c + 1) <> 0 /\ num_eqb (av c) (av d) = true.
Lemma value_joined v c d : inside ny nx c -> inside ny nx d -> num_eqb (av c) v = true -> num_eqb (av d) v = true ->
  (joined (structure_step wd ny nx (tab2 ny nx (fun i j => num_eqb (a i j) v))) c d <-> joined value_step c d).
Proof.
  intros Ic Id Ec Ed. split; intros H.
  - revert H. apply joined_impl. clear. intros c d (Ic & Id & W & B1 & B2). unfold inside in *. rewrite !val2_tab in B1, B2 by tauto.
    repeat (split; [assumption|]). unfold av. eapply num_eqb_trans; [exact B1|]. now rewrite num_eqb_sym.
  - clear Id Ed. induction H as [c|c d e (_ & Id & W & E) H IH]; [constructor|].
    assert (Ed : num_eqb (av d) v = true). { eapply num_eqb_trans; [|exact Ec]. now rewrite num_eqb_sym. }
    econstructor; [|now apply IH]. split; [exact Ic|]. split; [exact Id|]. split; [exact W|]. unfold inside in *.
    rewrite !val2_tab by tauto. split; assumption.
Qed.
Lemma value_joined_eq c d : joined value_step c d -> is_nan (av c) = false -> num_eqb (av c) (av d) = true.
Proof.
  induction 1 as [c|c d e (_ & _ & _ & E) H IH]; intros N; [now apply num_eqb_refl|].
  eapply num_eqb_trans; [exact E|]. apply IH. now apply num_eqb_not_nan in E.
Qed.

Definition listed (vs : list num) (c : Z * Z) : Prop := exists v, In v vs /\ num_eqb (av c) v = true.
Definition inv (vs : list num) (cum : Z) (r : Z -> Z -> Z) : Prop :=
  0 <= cum
  /\ (forall c, inside ny nx c -> ~ listed vs c -> r (fst c) (snd c) = 0)
  /\ (forall c, inside ny nx c -> listed vs c -> 0 < r (fst c) (snd c) <= cum)
  /\ (forall c d, inside ny nx c -> inside ny nx d -> listed vs c -> listed vs d ->
        (r (fst c) (snd c) = r (fst d) (snd d) <-> joined value_step c d)).
Lemma listed_dec vs c : listed vs c \/ ~ listed vs c.
Proof.
  unfold listed. induction vs as [|v vs IH]; [right; intros (v & [] & _)|].
  destruct (num_eqb (av c) v) eqn:E; [left; exists v; split; [now left|exact E]|].
  destruct IH as [(u & Hu & E')|N]; [left; exists u; split; [now right|exact E']|].
  right. intros (u & [->|Hu] & E'); [congruence|]. apply N. now exists u.
Qed.
Lemma listed_app vs v c : listed (vs ++ [v]) c <-> listed vs c \/ num_eqb (av c) v = true.
Proof.
  unfold listed. split.
  - intros (u & Hu & E). apply in_app_iff in Hu. destruct Hu as [Hu|[<-|[]]]; [left; now exists u|now right].
  - intros [(u & Hu & E)|E]; [exists u|exists v]; (split; [apply in_app_iff; cbn; tauto|exact E]).
Qed.
Definition step_labels : Z * arr2 Z -> num -> Z * arr2 Z := fun '(cum_num, result) v =>
  let '(labeled, num_features) := label wd (map (map (fun x => num_eqb x v)) (tab2 ny nx a)) in
  (cum_num + num_features, add2 result (map (map (fun l => if 0 <? l then l + cum_num else 0)) labeled)).
Lemma step_inv vs v cum r : inv vs cum r -> Forall (fun u => num_eqb u v = false) vs ->
  exists cum' r', step_labels (cum, tab2 ny nx r) v = (cum', tab2 ny nx r') /\ inv (vs ++ [v]) cum' r'.
Proof using LC Hy Hx HW SW.
  intros (I0 & I1 & I2 & I3) D. unfold step_labels. rewrite map2_tab.
  assert (SB : shaped2 ny nx (tab2 ny nx (fun i j => num_eqb (a i j) v))) by (apply rect_tab2; lia).
  pose proof (LC wd _ ny nx Hy Hx HW SW SB) as L. destruct (label wd _) as [lab n]. destruct L as (SL & L1 & L2).
  rewrite (shaped_tab 0 ny nx lab SL) by lia. rewrite map2_tab, add2_tab.
  eexists. eexists. split; [reflexivity|].
  set (l := fun c : Z * Z => val2 0 lab (fst c) (snd c)).
  assert (B : forall c, inside ny nx c -> val2 false (tab2 ny nx (fun i j => num_eqb (a i j) v)) (fst c) (snd c) = num_eqb (av c) v).
  { intros c []. now rewrite val2_tab by assumption. }
  assert (N0 : 0 <= n). { destruct (L1 (0, 0)) as [H _]; [unfold inside; cbn; lia|]. lia. }
  assert (EX : forall c, num_eqb (av c) v = true -> ~ listed vs c).
  { intros c E (u & Hu & E'). rewrite Forall_forall in D. specialize (D u Hu).
    rewrite (num_eqb_congr_l u (av c) v) in D; [congruence|]. now rewrite num_eqb_sym. }
  assert (NEW : forall c, inside ny nx c -> num_eqb (av c) v = true ->
     r (fst c) (snd c) + (if 0 <? l c then l c + cum else 0) = l c + cum /\ 0 < l c <= n).
  { intros c Ic E. rewrite I1 by auto. destruct (L1 c Ic) as [H1 H2]. rewrite B in H2 by assumption. fold (l c) in *.
    assert (0 < l c) by tauto. replace (0 <? l c) with true by lia. lia. }
  assert (OLD : forall c, inside ny nx c -> num_eqb (av c) v = false -> r (fst c) (snd c) + (if 0 <? l c then l c + cum else 0) = r (fst c) (snd c)).
  { intros c Ic E. destruct (L1 c Ic) as [H1 H2]. rewrite B in H2 by assumption. fold (l c) in *.
    destruct (0 <? l c) eqn:EL; [|lia]. assert (0 < l c) by lia. assert (num_eqb (av c) v = true) by tauto. congruence. }
  split; [lia|]. split; [|split].
  - intros c Ic NL. change (r (fst c) (snd c) + (if 0 <? l c then l c + cum else 0) = 0). rewrite listed_app in NL.
    destruct (num_eqb (av c) v) eqn:E; [tauto|]. rewrite OLD by assumption. apply I1; tauto.
  - intros c Ic Lc. change (0 < r (fst c) (snd c) + (if 0 <? l c then l c + cum else 0) <= cum + n).
    destruct (num_eqb (av c) v) eqn:E; [destruct (NEW c Ic E); lia|]. rewrite OLD by assumption. rewrite listed_app in Lc.
    destruct Lc as [Lc|]; [|congruence]. pose proof (I2 c Ic Lc). lia.
  - intros c d Ic Id Lc Ld.
    change (r (fst c) (snd c) + (if 0 <? l c then l c + cum else 0) = r (fst d) (snd d) + (if 0 <? l d then l d + cum else 0) <-> joined value_step c d).
    rewrite listed_app in Lc, Ld.
    destruct (num_eqb (av c) v) eqn:Ec, (num_eqb (av d) v) eqn:Ed.
    + destruct (NEW c Ic Ec) as [-> _]. destruct (NEW d Id Ed) as [-> _]. rewrite <- (value_joined v c d Ic Id Ec Ed).
      rewrite <- (L2 c d Ic Id) by now rewrite B. fold (l c) (l d). lia.
    + destruct (NEW c Ic Ec) as [-> ?]. rewrite OLD by assumption. destruct Ld as [Ld|]; [|congruence]. pose proof (I2 d Id Ld).
      split; [lia|]. intros J. apply value_joined_eq in J; [|now apply num_eqb_not_nan in Ec].
      rewrite (num_eqb_congr_l _ _ v J) in Ec. congruence.
    + destruct (NEW d Id Ed) as [-> ?]. rewrite OLD by assumption. destruct Lc as [Lc|]; [|congruence]. pose proof (I2 c Ic Lc).
      split; [lia|]. intros J. apply value_joined_eq in J; [|destruct Lc as (u & _ & E); now apply num_eqb_not_nan in E].
      rewrite <- (num_eqb_congr_l _ _ v J) in Ed. congruence.
    + rewrite !OLD by assumption. destruct Lc as [Lc|]; [|congruence]. destruct Ld as [Ld|]; [|congruence]. now apply I3.
Qed.
Lemma fold_inv rest : forall vs cum r, inv vs cum r -> distinct (vs ++ rest) ->
  exists cum' r', fold_left step_labels rest (cum, tab2 ny nx r) = (cum', tab2 ny nx r') /\ inv (vs ++ rest) cum' r'.
Proof using LC Hy Hx HW SW.
  induction rest as [|v rest IH]; intros vs cum r I D; cbn [fold_left].
  - exists cum, r. rewrite app_nil_r. auto.
  - assert (DV : Forall (fun u => num_eqb u v = false) vs).
    { clear - D. induction vs as [|u vs IH]; [constructor|]. cbn [app] in D. inversion_clear D as [|? ? H D']. constructor; [|now apply IH].
      rewrite Forall_forall in H. apply H. apply in_app_iff. cbn. tauto. }
    destruct (step_inv vs v cum r I DV) as (cum' & r' & -> & I'). destruct (IH _ _ _ I') as (cum2 & r2 & E & I2).
    { now rewrite <- app_assoc. }
    exists cum2, r2. rewrite <- app_assoc in I2. auto.
Qed.
Lemma create_labels_spec uarr : distinct (match uarr with None => unique (tab2 ny nx a) | Some u => u end) ->
  exists cum r, create_labels label (tab2 ny nx a) wd uarr = tab2 ny nx r
    /\ inv (filter (fun v => negb (num_eqb v (of_Z 0))) (match uarr with None => unique (tab2 ny nx a) | Some u => u end)) cum r.
Proof using LC Hy Hx HW SW.
  intros D. unfold create_labels. set (us := match uarr with None => _ | Some u => u end) in *. rewrite map2_tab.
  destruct (fold_inv (filter (fun v => negb (num_eqb v (of_Z 0))) us) [] 0 (fun _ _ => 0)) as (cum & r & E & I).
  - split; [lia|]. split; [reflexivity|]. split; [intros c _ (v & [] & _)|intros c d _ _ (v & [] & _)].
  - now apply distinct_filter.
  - exists cum, r. split; [|exact I].
    exact (f_equal snd E).
Qed.
End Create.

(* ---- a labelling that meets the contract ---- *)
Definition tabc {A} ny nx (l : Z * Z -> A) : arr2 A := tab2 ny nx (fun i j => l (i, j)).
Lemma get2_tabc {A} ny nx (l : Z * Z -> A) c : 0 < ny -> 0 < nx ->
  inside ny nx c /\ get2 (tabc ny nx l) (fst c) (snd c) = Ok (l c) \/ ~ inside ny nx c /\ exists e, get2 (tabc ny nx l) (fst c) (snd c) = Err e.
Proof.
  intros Hy Hx. unfold tabc, inside. destruct (get2 (tab2 ny nx (fun i j => l (i, j))) (fst c) (snd c)) as [x|e] eqn:E.
  - left. pose proof E as E'. unfold get2, tab2 in E'. apply rbind_ok in E'. destruct E' as (r & E1 & E2).
    pose proof (get_ok_range _ _ _ E1) as R1. rewrite len_tab in R1 by lia. rewrite get_tab in E1 by lia. injection E1 as <-.
    pose proof (get_ok_range _ _ _ E2) as R2. rewrite len_tab in R2 by lia. split; [lia|].
    rewrite get_tab in E2 by lia. rewrite <- E2. now destruct c.
  - right. split; [|now exists e]. intros []. rewrite get2_tab2 in E by lia. discriminate.
Qed.
Section Merging.
Variables (ny nx : Z) (wd : arr2 Z) (b : Z -> Z -> bool).
Hypotheses (Hy : 0 < ny) (Hx : 0 < nx) (HW : shaped2 3 3 wd) (SW : symmetric wd).
Let bv (c : Z * Z) := b (fst c) (snd c).
Let step := structure_step wd ny nx (tab2 ny nx b).
Definition labels_ok (l : Z * Z -> Z) : Prop :=
  (forall c, inside ny nx c -> 0 <= l c <= ny * nx /\ (0 < l c <-> bv c = true))
  /\ (forall c d, inside ny nx c -> inside ny nx d -> bv c = true -> l c = l d -> joined step c d).
Definition weight (c d : Z * Z) : Prop := val2 0 wd (fst d - fst c + 1) (snd d - snd c + 1) <> 0.

Lemma step_sym c d : step c d -> step d c.
Proof.
  intros (A & B & W & C & D). repeat (split; [assumption|]). split; [|split; assumption]. apply SW in W.
  replace (fst c - fst d + 1) with (2 - (fst d - fst c + 1)) by lia. replace (snd c - snd d + 1) with (2 - (snd d - snd c + 1)) by lia. exact W.
Qed.
Lemma merge_ok l c d : labels_ok l -> inside ny nx c -> weight c d ->
  exists l', merge (tabc ny nx l) c d = tabc ny nx l' /\ labels_ok l' /\ (forall e f, l e = l f -> l' e = l' f)
    /\ (inside ny nx d -> bv c = true -> bv d = true -> l' c = l' d).
Proof using Hy Hx HW SW.
  intros [I1 I2] Ic W. unfold merge. destruct (get2_tabc ny nx l c Hy Hx) as [[_ ->]|[? _]]; [|contradiction].
  destruct (get2_tabc ny nx l d Hy Hx) as [[Id ->]|[Nd (e & ->)]].
  2:{ exists l. split; [reflexivity|]. split; [split; assumption|]. split; [auto|]. contradiction. }
  destruct ((0 <? l c) && (0 <? l d)) eqn:E.
  2:{ exists l. split; [reflexivity|]. split; [split; assumption|]. split; [auto|]. intros _ Bc Bd.
      apply I1 in Bc; [|exact Ic]. apply I1 in Bd; [|exact Id]. lia. }
  assert (Bc : bv c = true) by (apply (proj2 (I1 c Ic)); lia). assert (Bd : bv d = true) by (apply (proj2 (I1 d Id)); lia).
  assert (SC : step c d). { unfold inside in *. repeat (split; [assumption|]). rewrite !val2_tab by tauto. split; assumption. }
  exists (fun e => if l e =? l c then l d else l e). split; [unfold tabc at 1; now rewrite map2_tab|]. split; [split|split].
  - intros e Ie. destruct (I1 e Ie) as [R B]. destruct (l e =? l c) eqn:EL; [|tauto]. destruct (I1 d Id). split; [assumption|].
    rewrite <- B. lia.
  - intros e f Ie If Be. destruct (l e =? l c) eqn:EE, (l f =? l c) eqn:EF; intros EQ.
    + apply I2; auto. lia.
    + eapply joined_trans; [apply (I2 e c); auto; lia|]. eapply joined_step; [exact SC|]. apply I2; auto.
    + eapply joined_trans; [apply (I2 e d); auto; lia|]. eapply joined_step; [apply step_sym; exact SC|]. apply I2; auto. lia.
    + now apply I2.
  - intros e f ->. reflexivity.
  - intros _ _ _. rewrite Z.eqb_refl. destruct (l d =? l c); reflexivity.
Qed.
Lemma merges_ok ps : forall l, labels_ok l -> (forall c d, In (c, d) ps -> inside ny nx c /\ weight c d) ->
  exists l', fold_left (fun lab p => merge lab (fst p) (snd p)) ps (tabc ny nx l) = tabc ny nx l' /\ labels_ok l' /\ (forall e f, l e = l f -> l' e = l' f)
    /\ (forall c d, In (c, d) ps -> inside ny nx d -> bv c = true -> bv d = true -> l' c = l' d).
Proof using Hy Hx HW SW.
  induction ps as [|[c d] ps IH]; intros l I P; cbn [fold_left fst snd].
  - exists l. repeat split; auto; try apply I; auto. intros c d [].
  - destruct (P c d (or_introl eq_refl)) as [Ic W]. destruct (merge_ok l c d I Ic W) as (l1 & -> & I1 & K1 & E1).
    destruct (IH l1 I1) as (l2 & -> & I2 & K2 & E2). { intros; apply P; now right. }
    exists l2. split; [reflexivity|]. split; [exact I2|]. split; [auto|]. intros c' d' [[= <- <-]|H]; [auto|]. now apply E2.
Qed.
End Merging.
Lemma fold_nested {A B C} (f : A -> B -> C -> A) os cs s :
  fold_left (fun l c => fold_left (fun l o => f l c o) os l) cs s = fold_left (fun l p => f l (fst p) (snd p)) (flat_map (fun c => map (pair c) os) cs) s.
Proof.
  revert s. induction cs as [|c cs IH]; intros s; cbn [fold_left flat_map]; [reflexivity|]. rewrite fold_left_app, IH. f_equal.
  clear. revert s. induction os as [|o os IH]; intros s; cbn [fold_left map]; [reflexivity|]. apply IH.
Qed.
Lemma fold_left_map {A B C} (f : A -> B -> A) (g : C -> B) l s : fold_left f (map g l) s = fold_left (fun s x => f s (g x)) l s.
Proof. revert s. induction l as [|x l IH]; intros s; cbn; [reflexivity|apply IH]. Qed.
Lemma offsets_in wd o : shaped2 3 3 wd -> In o (offsets wd) <-> o <> (0, 0) /\ val2 0 wd (fst o + 1) (snd o + 1) <> 0.
Proof.
  intros HW. unfold offsets. rewrite filter_In. destruct o as [di dj]. cbn [fst snd]. rewrite val2_default. unfold default2.
  split.
  - intros [H1 H2]. split; [intros [= -> ->]; cbn in H1; intuition congruence|]. destruct (get2 wd (di + 1) (dj + 1)); [lia|discriminate].
  - intros [H1 H2]. destruct (get2 wd (di + 1) (dj + 1)) as [w|e] eqn:E; [|congruence]. split; [|lia].
    unfold get2 in E. apply rbind_ok in E. destruct E as (r & E1 & E2). pose proof (get_ok_range _ _ _ E1). pose proof (get_ok_range _ _ _ E2).
    destruct HW as [L F]. rewrite Forall_forall in F. rewrite (F r) in * by (eapply get_in; eauto). rewrite L in *.
    assert (A : di = -1 \/ di = 0 \/ di = 1) by lia. assert (B : dj = -1 \/ dj = 0 \/ dj = 1) by lia.
    destruct A as [->|[-> | ->]], B as [->|[-> | ->]]; cbn; tauto || congruence.
Qed.
Lemma label_by_merging_ok : labels_components label_by_merging.
Proof.
  intros wd b0 ny nx Hy Hx HW SW SB. rewrite (shaped_tab false ny nx b0 SB) by lia. set (b := val2 false b0). clearbody b. clear b0 SB.
  unfold label_by_merging.
  assert (NX : match tab2 ny nx b with [] => 0 | r :: _ => len r end = nx).
  { assert (L : len (tab2 ny nx b) = ny) by (apply len_tab; lia). destruct (tab2 ny nx b) as [|r t] eqn:E; [cbn in L; lia|].
    destruct (rect_tab2 ny nx b) as [_ F]; try lia. rewrite E in F. now inversion F. }
  rewrite NX. replace (len (tab2 ny nx b)) with ny by (symmetry; apply len_tab; lia).
  match goal with |- context [map ?f (combine (zrange 0 ny) (tab2 ny nx b))] => assert (ST : map f (combine (zrange 0 ny) (tab2 ny nx b))
    = tabc ny nx (fun c => if b (fst c) (snd c) then fst c * nx + snd c + 1 else 0)) end.
  { unfold tabc, tab2, tab at 1 3. rewrite <- (map_id (zrange 0 ny)) at 1. rewrite combine_map, map_map. apply map_ext. intros i.
    unfold tab. rewrite <- (map_id (zrange 0 nx)) at 1. rewrite combine_map, map_map. apply map_ext. intros j. reflexivity. }
  rewrite ST. clear ST.
  rewrite (fold_nested (fun lab c o => merge lab c (fst c + fst o, snd c + snd o))).
  rewrite <- (fold_left_map (fun lab p => merge lab (fst p) (snd p)) (fun p : (Z * Z) * (Z * Z) => (fst p, (fst (fst p) + fst (snd p), snd (fst p) + snd (snd p))))).
  set (ps := map _ _).
  assert (PS : forall c d, In (c, d) ps <-> inside ny nx c /\ c <> d /\ weight wd c d).
  { intros c d. unfold ps. rewrite in_map_iff. split.
    - intros ([c' o] & EQ & H). cbn [fst snd] in EQ. injection EQ as <- <-. apply in_flat_map in H. destruct H as (c2 & H1 & H2). apply in_map_iff in H2.
      destruct H2 as (o' & EQ & H2). injection EQ as -> ->. apply offsets_in in H2; [|exact HW]. destruct H2 as [H2 H3].
      apply in_flat_map in H1. destruct H1 as (i & Hi & H1). apply in_map_iff in H1. destruct H1 as (j & <- & Hj).
      apply zrange_in in Hi, Hj. split; [unfold inside; cbn; lia|]. destruct o as [di dj]. cbn [fst snd] in *. split.
      + intros [= A B]. apply H2. f_equal; lia.
      + unfold weight. cbn [fst snd]. replace (i + di - i + 1) with (di + 1) by lia. now replace (j + dj - j + 1) with (dj + 1) by lia.
    - intros ([I1 I2] & N & W). destruct c as [i j], d as [i' j']. cbn [fst snd] in *. exists ((i, j), (i' - i, j' - j)).
      split; [cbn [fst snd]; repeat f_equal; lia|]. apply in_flat_map. exists (i, j). split.
      + apply in_flat_map. exists i. split; [apply zrange_in; lia|]. apply in_map. apply zrange_in. lia.
      + apply in_map. apply offsets_in; [exact HW|]. split; [intros [= A B]; apply N; f_equal; lia|exact W]. }
  destruct (merges_ok ny nx wd b Hy Hx HW SW ps (fun c => if b (fst c) (snd c) then fst c * nx + snd c + 1 else 0)) as (l & -> & [I1 I2] & _ & E).
  - split.
    + intros [i j] [Hi Hj]. cbn [fst snd] in *. destruct (b i j); [|split; [nia|split; [lia|discriminate]]]. split; [nia|]. split; [reflexivity|nia].
    + intros [i j] [i' j'] [Hi Hj] [Hi' Hj']. cbn [fst snd] in *. intros ->. destruct (b i' j'); [|nia]. intros EQ.
      assert (i = i') by nia. subst. assert (j = j') by lia. subst. constructor.
  - intros c d H. apply PS in H. tauto.
  - split; [apply rect_tab2; lia|].
    assert (V : forall c, inside ny nx c -> val2 0 (tabc ny nx l) (fst c) (snd c) = l c).
    { intros c [? ?]. unfold tabc. rewrite val2_tab by lia. now destruct c. }
    assert (B : forall c, inside ny nx c -> val2 false (tab2 ny nx b) (fst c) (snd c) = b (fst c) (snd c)).
    { intros c [? ?]. now rewrite val2_tab by lia. }
    split.
    + intros c Ic. rewrite V, B by exact Ic. apply I1. exact Ic.
    + intros c d Ic Id. rewrite !V, !B by assumption. intros Bc Bd. split; [apply I2; assumption|].
      clear Id Bd. induction 1 as [c|c d e (_ & Id & W & _ & Bd) H IH]; [reflexivity|]. rewrite B in Bd by exact Id. rewrite <- IH by assumption.
      destruct (Z.eq_dec (fst c) (fst d)) as [A1|A1]; [destruct (Z.eq_dec (snd c) (snd d)) as [A2|A2]|].
      * destruct c, d. cbn [fst snd] in *. now subst.
      * apply E; try assumption. apply PS. split; [exact Ic|]. split; [congruence|exact W].
      * apply E; try assumption. apply PS. split; [exact Ic|]. split; [congruence|exact W].
Qed.

(* ---- regions ---- *)
Lemma structure_ok neighbors wd : structure neighbors = Ok wd ->
  shaped2 3 3 wd /\ symmetric wd /\ forall c d, val2 0 wd (fst d - fst c + 1) (snd d - snd c + 1) <> 0 <-> c = d \/ adjacent neighbors c d.
Proof.
  unfold structure, adjacent. intros H.
  assert (SH : shaped2 3 3 wd).
  { destruct (neighbors =? 4); [injection H as <-|destruct (neighbors =? 8); [injection H as <-|discriminate]]; split; repeat constructor. }
  split; [exact SH|].
  assert (IN : forall i j, val2 0 wd i j <> 0 -> 0 <= i <= 2 /\ 0 <= j <= 2).
  { intros i j V. destruct (Z_le_dec 0 i), (Z_le_dec i 2), (Z_le_dec 0 j), (Z_le_dec j 2); try lia; exfalso; apply V; eapply val2_out; eauto; lia. }
  assert (V : forall i j, 0 <= i <= 2 -> 0 <= j <= 2 -> (val2 0 wd i j <> 0 <-> neighbors = 4 /\ Z.abs (i - 1) + Z.abs (j - 1) <= 1 \/ neighbors <> 4)).
  { intros i j Hi Hj. assert (A : i = 0 \/ i = 1 \/ i = 2) by lia. assert (B : j = 0 \/ j = 1 \/ j = 2) by lia.
    destruct (neighbors =? 4) eqn:E4; [injection H as <-|destruct (neighbors =? 8); [injection H as <-|discriminate]];
    destruct A as [->|[-> | ->]], B as [->|[-> | ->]]; match goal with |- context [val2 ?d ?w ?i ?j] => let v := eval vm_compute in (val2 d w i j) in change (val2 d w i j) with v end; lia. }
  split.
  - intros i j W. destruct (IN i j W). rewrite V in W by assumption. rewrite V by lia. lia.
  - intros [i j] [i' j']. cbn [fst snd]. split.
    + intros W. destruct (IN _ _ W). rewrite V in W by assumption.
      destruct (Z.eq_dec i i') as [A|A]; [destruct (Z.eq_dec j j') as [B|B]; [left; congruence|]|]; right; destruct (neighbors =? 4) eqn:E4; lia.
    + intros [[= -> ->]|A]; [apply V; lia|]. destruct (neighbors =? 4) eqn:E4; apply V; lia.
Qed.

Section Band.
Variable label : arr2 Z -> arr2 bool -> arr2 Z * Z.
Hypothesis LC : labels_components label.
Variables (neighbors ny nx : Z) (wd : arr2 Z).
Hypotheses (Hy : 0 < ny) (Hx : 0 < nx) (ST : structure neighbors = Ok wd).
Variables (x : Z -> Z -> num) (m : Z -> Z -> bool).
Variable uv : option (list num).
Hypothesis DU : match uv with None => True | Some us => no_duplicates us end.
Let a i j := if m i j then of_Z 0 else x i j.
Let null (c : Z * Z) := m (fst c) (snd c).
Let data := tab2 ny nx x.
Let us := match uv with None => unique (tab2 ny nx a) | Some u => u end.

Lemma part_iff c : inside ny nx c ->
  (takes_part uv data null c <-> listed a (filter (fun v => negb (num_eqb v (of_Z 0))) us) c).
Proof using Hy Hx DU.
  intros [I1 I2]. unfold takes_part, counted, listed, data. rewrite val2_tab by assumption. split.
  - intros [(N & v & (r & E1 & E2) & V0 & VN) L]. unfold tab2 in E1. rewrite get_tab in E1 by assumption. injection E1 as <-.
    rewrite get_tab in E2 by assumption. injection E2 as E2.
    assert (AV : a (fst c) (snd c) = v). { unfold a. unfold null in N. now rewrite N. }
    assert (X : exists u, In u us /\ num_eqb v u = true).
    { unfold us. destruct uv as [l|].
      - destruct L as (u & Hu & E). exists u. now rewrite <- E2.
      - apply unique_spec; [|exact VN]. rewrite <- AV. apply in_concat. exists (tab nx (a (fst c))). split.
        + apply in_map_iff. exists (fst c). split; [reflexivity|apply zrange_in; lia].
        + apply in_map_iff. exists (snd c). split; [reflexivity|apply zrange_in; lia]. }
    destruct X as (u & Hu & E). exists u. rewrite AV. split; [|exact E]. apply filter_In. split; [exact Hu|].
    rewrite <- (num_eqb_congr_l v u (of_Z 0) E), V0. reflexivity.
  - intros (u & Hu & E). apply filter_In in Hu. destruct Hu as [Hu U0]. unfold a in E. fold (null c) in E.
    destruct (null c) eqn:N.
    + rewrite num_eqb_sym in E. rewrite E in U0. discriminate.
    + split.
      * split; [reflexivity|]. exists (x (fst c) (snd c)). split; [now apply at2_tab|]. split; [|now apply num_eqb_not_nan in E].
        rewrite (num_eqb_congr_l _ _ _ E). now destruct (num_eqb u (of_Z 0)).
      * unfold us in Hu. destruct uv as [l|]; [|exact I]. now exists u.
Qed.
Lemma region_iff c d : inside ny nx c -> takes_part uv data null c -> inside ny nx d ->
  (joined (value_step ny nx wd a) c d <-> same_region neighbors ny nx data null c d).
Proof using Hy Hx ST.
  intros Ic [(N & v & Hv & V0 & VN) _] Id. destruct (structure_ok _ _ ST) as (_ & _ & W).
  assert (X : num_eqb (x (fst c) (snd c)) (of_Z 0) = false).
  { destruct Hv as (r & E1 & E2). unfold data, tab2 in E1. destruct Ic. rewrite get_tab in E1 by assumption. injection E1 as <-.
    rewrite get_tab in E2 by assumption. injection E2 as <-. exact V0. }
  clear v Hv V0 VN. split; intros J.
  - clear Id. induction J as [c|c d e (_ & Id & S & E) J IH]; [constructor|].
    unfold a in E. fold (null c) (null d) in E. rewrite N in E.
    assert (Nd : null d = false). { destruct (null d); [congruence|reflexivity]. } rewrite Nd in E.
    assert (JJ : joined (equal_step neighbors ny nx data null) d e).
    { apply IH; [exact Id|exact Nd|]. now rewrite <- (num_eqb_congr_l _ _ _ E). }
    apply W in S. destruct S as [->|S]; [exact JJ|]. econstructor; [|exact JJ]. unfold equal_step. repeat (split; [assumption|]).
    unfold data. destruct Ic, Id. now rewrite !val2_tab by assumption.
  - revert J. apply joined_impl. clear c d Ic N X Id. intros c d (Ic & Id & A & Nc & Nd & E). repeat (split; [assumption|]). split; [apply W; now right|].
    unfold data in E. pose proof Ic as []. pose proof Id as []. rewrite !val2_tab in E by assumption. unfold a. fold (null c) (null d). now rewrite Nc, Nd.
Qed.
Lemma band_regions nv : exists out, create_labels label (tab2 ny nx a) wd uv = tab2 ny nx out
  /\ regions_of neighbors ny nx uv nv data null (tab2 ny nx (fun i j => if m i j then nv else out i j)).
Proof using LC Hy Hx ST DU.
  destruct (structure_ok _ _ ST) as (HW & SW & _).
  destruct (create_labels_spec label LC ny nx wd Hy Hx HW SW a uv) as (cum & r & E & I0 & I1 & I2 & I3).
  { destruct uv; [exact DU|apply unique_spec]. }
  exists r. split; [exact E|]. fold us in I1, I2, I3. split; [apply rect_tab2; lia|]. intros c Ic.
  assert (V : forall c, inside ny nx c -> val2 0 (tab2 ny nx (fun i j => if m i j then nv else r i j)) (fst c) (snd c)
                = if null c then nv else r (fst c) (snd c)).
  { intros e []. now rewrite val2_tab by assumption. }
  rewrite V by exact Ic. split; [now intros ->|]. split.
  - intros ->. destruct (listed_dec a (filter (fun v => negb (num_eqb v (of_Z 0))) us) c) as [L|L].
    + pose proof (I2 c Ic L). rewrite part_iff by exact Ic. split; [lia|]. split; [auto|lia].
    + rewrite (I1 c Ic L). rewrite part_iff by exact Ic. split; [lia|]. split; [lia|contradiction].
  - intros d Id Pc Pd. rewrite V by exact Id. assert (Nc : null c = false) by apply Pc. assert (Nd : null d = false) by apply Pd.
    rewrite Nc, Nd. rewrite <- (region_iff c d Ic Pc Id). apply I3; auto; now apply part_iff.
Qed.
End Band.
Lemma regions_spec label neighbors ny nx uv nv bands mask :
  labels_components label -> 0 < ny -> 0 < nx -> neighbors = 4 \/ neighbors = 8 ->
  match uv with None => True | Some us => no_duplicates us end ->
  Forall (shaped2 ny nx) bands ->
  match mask with None => True | Some ms => len ms = len bands /\ Forall (shaped2 ny nx) ms end ->
  exists out, regions label neighbors uv nv bands mask = Ok out /\ len out = len bands
    /\ forall k data lab, get bands k = Ok data -> get out k = Ok lab -> regions_of neighbors ny nx uv nv data (band_nulls mask k) lab.
Proof.
  intros LC Hy Hx N DU FB FM. unfold regions, arr2 in *.
  assert (S : exists wd, structure neighbors = Ok wd). { unfold structure. destruct N as [-> | ->]; cbn; eauto. }
  destruct S as (wd & ST). rewrite ST. cbn [rbind]. eexists. split; [reflexivity|].
  destruct mask as [ms|].
  - destruct FM as [L FM]. split.
    { unfold len, arr2 in *. rewrite map_length, combine_length, map_length, map_length, combine_length. lia. }
    intros k data lab Hd. pose proof (get_ok_range _ _ _ Hd) as R.
    destruct (get_range ms k) as (mk & Hm); [lia|].
    rewrite get_map_eq, (get_combine' ms _ k mk (create_labels label (where2 mk (of_Z 0) data) wd uv) Hm).
    2:{ rewrite get_map_eq, get_map_eq, (get_combine' ms bands k mk data Hm Hd). reflexivity. }
    intros [= <-]. unfold band_nulls. rewrite Hm.
    assert (Sd : shaped2 ny nx data) by (rewrite Forall_forall in FB; apply FB; eapply get_in; eauto).
    assert (Sm : shaped2 ny nx mk) by (rewrite Forall_forall in FM; apply FM; eapply get_in; eauto).
    pose proof (band_regions label LC neighbors ny nx wd Hy Hx ST (val2 NaN data) (val2 false mk) uv DU nv) as (out & E & RO).
    rewrite <- (shaped_tab NaN ny nx data Sd) in RO by lia.
    assert (WE : where2 mk (of_Z 0) data = tab2 ny nx (fun i j => if val2 false mk i j then of_Z 0 else val2 NaN data i j)).
    { transitivity (where2 (tab2 ny nx (val2 false mk)) (of_Z 0) (tab2 ny nx (val2 NaN data))); [|apply where2_tab].
      f_equal; apply shaped_tab; assumption || lia. }
    assert (WO : where2 mk nv (tab2 ny nx out) = tab2 ny nx (fun i j => if val2 false mk i j then nv else out i j)).
    { transitivity (where2 (tab2 ny nx (val2 false mk)) nv (tab2 ny nx out)); [|apply where2_tab].
      f_equal. apply shaped_tab; assumption || lia. }
    unfold arr2 in *. rewrite WE, E, WO. exact RO.
  - split; [apply len_map|]. intros k data lab Hd. rewrite get_map_eq, Hd. intros [= <-].
    assert (Sd : shaped2 ny nx data) by (rewrite Forall_forall in FB; apply FB; eapply get_in; eauto).
    pose proof (band_regions label LC neighbors ny nx wd Hy Hx ST (val2 NaN data) (fun _ _ => false) uv DU nv) as (out & E & RO).
    cbv beta iota in E, RO. change (fun i j => val2 NaN data i j) with (val2 NaN data) in E. change (fun i j => out i j) with out in RO.
    rewrite <- (shaped_tab NaN ny nx data Sd) in E, RO by lia. rewrite E. exact RO.
Qed.
Lemma regions_rejects label neighbors uv nv bands mask :
  neighbors <> 4 -> neighbors <> 8 -> regions label neighbors uv nv bands mask = Err ValueError.
Proof. intros N4 N8. unfold regions, structure. replace (neighbors =? 4) with false by lia. now replace (neighbors =? 8) with false by lia. Qed.
