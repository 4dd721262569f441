From Coq Require Import QArith Reals Lra Permutation Sorted.
From Verif Require Import Base BaseFacts Scalars NumFacts Stats StatsSpec ChunksProofs.
Open Scope Z_scope.

(* ---------------- occurrences ---------------- *)

Lemma occ_cons v a l : occurrences v (a :: l) = (if num_eqb v a then 1 else 0) + occurrences v l.
Proof.
  unfold occurrences. cbn [filter]. destruct (num_eqb v a); [now rewrite len_cons|lia].
Qed.
Lemma occ_app v l l' : occurrences v (l ++ l') = occurrences v l + occurrences v l'.
Proof.
  induction l as [|a l IH]; [reflexivity|]. cbn [app]. rewrite !occ_cons, IH. lia.
Qed.
Lemma occ_nonneg v l : 0 <= occurrences v l.
Proof. apply len_nonneg. Qed.
Lemma occ_congr v v' l : num_eqb v v' = true -> occurrences v l = occurrences v' l.
Proof.
  intros E. induction l as [|a l IH]; [reflexivity|]. rewrite !occ_cons, IH, (num_eqb_congr_l v v') by exact E.
  reflexivity.
Qed.
Lemma occ_pos v l : 0 < occurrences v l <-> exists u, In u l /\ num_eqb v u = true.
Proof.
  induction l as [|a l IH]; [cbn; split; [discriminate|intros (u & [] & _)]|].
  rewrite occ_cons. pose proof (occ_nonneg v l). destruct (num_eqb v a) eqn:E.
  - split; [|lia]. intros _. exists a. split; [now left|exact E].
  - cbn [Z.add]. rewrite IH. split.
    + intros (u & Hu & Eu). exists u. split; [now right|exact Eu].
    + intros (u & [->|Hu] & Eu); [congruence|eauto].
Qed.
Lemma occ_in v l : In v l -> is_nan v = false -> 0 < occurrences v l.
Proof. intros. apply occ_pos. exists v. split; [assumption|now apply num_eqb_refl]. Qed.
Lemma occ_perm v l l' : Permutation l l' -> occurrences v l = occurrences v l'.
Proof. induction 1; try reflexivity; rewrite ?occ_cons; lia. Qed.
Lemma occ_valid v l : occurrences v (valid l) = occurrences v l.
Proof.
  induction l as [|a l IH]; [reflexivity|]. rewrite occ_cons. unfold valid in *. cbn [filter].
  destruct (is_nan a) eqn:E; cbn [negb].
  - rewrite IH, num_eqb_sym, (num_nan_eqb a v E). lia.
  - now rewrite occ_cons, IH.
Qed.
Lemma valid_app l l' : valid (l ++ l') = valid l ++ valid l'.
Proof. apply filter_app. Qed.
Lemma in_valid v l : In v (valid l) <-> In v l /\ is_nan v = false.
Proof. unfold valid. rewrite filter_In, negb_true_iff. tauto. Qed.

(* ---------------- the dict of counts ---------------- *)

Definition apart (a b : num) : Prop := num_eqb a b = false.
Definition dict_ok (c : list (num * Z)) (x : list num) : Prop :=
  ForallOrdPairs apart (map fst c)
  /\ (forall k m, In (k, m) c -> m = occurrences k x /\ In k x /\ is_nan k = false)
  /\ (forall v, In v x -> is_nan v = false -> exists k m, In (k, m) c /\ num_eqb k v = true).

Lemma bump_cases c v :
  (exists c1 k m c2, c = c1 ++ (k, m) :: c2 /\ num_eqb k v = true
     /\ bump c v = c1 ++ (k, m + 1) :: c2)
  \/ ((forall k m, In (k, m) c -> num_eqb k v = false) /\ bump c v = c ++ [(v, 1)]).
Proof.
  induction c as [|[k m] c IH].
  - right. split; [intros k m []|reflexivity].
  - cbn [bump]. destruct (num_eqb k v) eqn:E.
    + left. exists [], k, m, c. auto.
    + destruct IH as [(c1 & k' & m' & c2 & -> & E' & B)|[N B]].
      * left. exists ((k, m) :: c1), k', m', c2. split; [reflexivity|]. split; [exact E'|]. cbn [app]. now rewrite B.
      * right. split; [|now rewrite B]. intros k' m' [H|H]; [injection H as <- <-; exact E|eauto].
Qed.

Lemma fop_app {A} (R : A -> A -> Prop) l1 l2 : ForallOrdPairs R (l1 ++ l2) <->
  ForallOrdPairs R l1 /\ ForallOrdPairs R l2 /\ (forall a b, In a l1 -> In b l2 -> R a b).
Proof.
  induction l1 as [|a l1 IH]; cbn [app].
  - split; [|tauto]. intros H. split; [constructor|]. split; [exact H|]. intros a b [].
  - split.
    + intros H. inversion H as [|? ? F H']; subst. apply IH in H'. destruct H' as (H1 & H2 & H3).
      rewrite Forall_app in F. destruct F as [F1 F2]. split; [now constructor|]. split; [exact H2|].
      intros a' b [<-|Ha] Hb; [|now apply H3]. rewrite Forall_forall in F2. now apply F2.
    + intros (H1 & H2 & H3). inversion H1 as [|? ? F H']; subst. constructor.
      * apply Forall_app. split; [exact F|]. apply Forall_forall. intros b Hb. apply H3; [now left|exact Hb].
      * apply IH. split; [exact H'|]. split; [exact H2|]. intros a' b Ha Hb. apply H3; [now right|exact Hb].
Qed.

Lemma apart_congr a a' b : num_eqb a a' = true -> apart a b -> apart a' b.
Proof. unfold apart. intros E H. now rewrite <- (num_eqb_congr_l a a' b E). Qed.
Lemma apart_sym a b : apart a b -> apart b a.
Proof. unfold apart. now rewrite num_eqb_sym. Qed.

Lemma dict_keys_apart (c1 : list (num * Z)) k m c2 : ForallOrdPairs apart (map fst (c1 ++ (k, m) :: c2)) ->
  forall k' m', In (k', m') (c1 ++ c2) -> apart k' k.
Proof.
  rewrite map_app, fop_app. cbn [map fst]. intros (_ & H2 & H3) k' m' HI. apply in_app_or in HI. destruct HI as [HI|HI].
  - apply H3; [|now left]. apply (in_map fst) in HI. exact HI.
  - inversion H2 as [|? ? F _]; subst. rewrite Forall_forall in F. apply apart_sym. apply F. apply (in_map fst) in HI. exact HI.
Qed.

Lemma bump_ok c x v : dict_ok c x -> is_nan v = false -> dict_ok (bump c v) (x ++ [v]).
Proof.
  intros (P & M & C) Hv.
  assert (OV : forall k, occurrences k (x ++ [v]) = occurrences k x + if num_eqb k v then 1 else 0).
  { intros k. rewrite occ_app, occ_cons. cbn. lia. }
  destruct (bump_cases c v) as [(c1 & k & m & c2 & E & Ek & B)|[N B]]; rewrite B.
  - subst c. split; [|split].
    + rewrite map_app in *. exact P.
    + intros k' m' HI. assert (HI' : (k', m') = (k, m + 1) \/ In (k', m') (c1 ++ c2)).
      { apply in_app_or in HI. destruct HI as [HI|[HI|HI]]; [right; apply in_or_app; now left|left; congruence|right; apply in_or_app; now right]. }
      rewrite OV. destruct HI' as [HE|HI'].
      * injection HE as -> ->. destruct (M k m) as (-> & HK & NK); [apply in_or_app; right; now left|]. rewrite Ek.
        split; [reflexivity|]. split; [apply in_or_app; now left|exact NK].
      * pose proof (dict_keys_apart _ _ _ _ P _ _ HI') as A.
        destruct (M k' m') as (-> & HK & NK).
        { apply in_app_or in HI'. apply in_or_app. destruct HI'; [now left|right; now right]. }
        replace (num_eqb k' v) with false.
        -- split; [lia|]. split; [apply in_or_app; now left|exact NK].
        -- symmetry. rewrite num_eqb_sym, <- (num_eqb_congr_l k v k' Ek). now apply apart_sym in A.
    + intros u HU NU. apply in_app_or in HU. destruct HU as [HU|[<-|[]]].
      * destruct (C u HU NU) as (k' & m' & HI & EK). apply in_app_or in HI. destruct HI as [HI|[HI|HI]].
        -- exists k', m'. split; [apply in_or_app; now left|exact EK].
        -- injection HI as <- <-. exists k, (m + 1). split; [apply in_or_app; right; now left|exact EK].
        -- exists k', m'. split; [apply in_or_app; right; now right|exact EK].
      * exists k, (m + 1). split; [apply in_or_app; right; now left|exact Ek].
  - split; [|split].
    + rewrite map_app, fop_app. split; [exact P|]. split; [cbn; constructor; constructor|].
      intros a b Ha [<-|[]]. apply in_map_iff in Ha. destruct Ha as ([k m] & <- & HI). exact (N k m HI).
    + intros k m HI. apply in_app_or in HI. rewrite OV. destruct HI as [HI|[HI|[]]].
      * destruct (M k m HI) as (-> & HK & NK). rewrite (N _ _ HI). split; [lia|]. split; [apply in_or_app; now left|exact NK].
      * injection HI as <- <-. rewrite num_eqb_refl by exact Hv.
        assert (occurrences v x = 0).
        { destruct (Z.eq_dec (occurrences v x) 0) as [Z0|NZ]; [exact Z0|exfalso].
          assert (0 < occurrences v x) by (pose proof (occ_nonneg v x); lia).
          apply occ_pos in H. destruct H as (u & HU & EU). destruct (C u HU (proj2 (num_eqb_not_nan _ _ EU))) as (k & m & HI & EK).
          rewrite num_eqb_sym in EU. pose proof (num_eqb_trans _ _ _ EK EU). rewrite (N _ _ HI) in H. discriminate. }
        split; [lia|]. split; [apply in_or_app; right; now left|exact Hv].
    + intros u HU NU. apply in_app_or in HU. destruct HU as [HU|[<-|[]]].
      * destruct (C u HU NU) as (k & m & HI & EK). exists k, m. split; [apply in_or_app; now left|exact EK].
      * exists v, 1. split; [apply in_or_app; right; now left|now apply num_eqb_refl].
Qed.
Lemma nan_ok c x v : dict_ok c x -> is_nan v = true -> dict_ok c (x ++ [v]).
Proof.
  intros (P & M & C) Hv. split; [exact P|]. split.
  - intros k m HI. destruct (M k m HI) as (-> & HK & NK). rewrite occ_app, occ_cons. cbn.
    rewrite num_eqb_sym, (num_nan_eqb v k Hv). split; [lia|]. split; [apply in_or_app; now left|exact NK].
  - intros u HU NU. apply in_app_or in HU. destruct HU as [HU|[<-|[]]]; [now apply C|congruence].
Qed.

Lemma counts_snoc x v : counts (x ++ [v]) =
  let '(c, n) := counts x in if is_nan v then (c, n) else (bump c v, n + 1).
Proof. unfold counts. rewrite fold_left_app. cbn [fold_left]. now destruct (fold_left _ x _). Qed.

Lemma counts_ok x : dict_ok (fst (counts x)) x /\ snd (counts x) = len (valid x).
Proof.
  induction x as [|v x IH] using rev_ind.
  - split; [|reflexivity]. split; [constructor|]. split; [intros k m []|intros v []].
  - rewrite counts_snoc. destruct (counts x) as [c n]. cbn [fst snd] in IH. destruct IH as [D N].
    rewrite valid_app. unfold len at 1. rewrite app_length. cbn [valid filter].
    destruct (is_nan v) eqn:E; cbn [negb fst snd length].
    + split; [now apply nan_ok|]. rewrite N. unfold len. lia.
    + split; [now apply bump_ok|]. rewrite N. unfold len. lia.
Qed.

Lemma dict_distinct x : distinct_values x (map fst (fst (counts x))).
Proof.
  destruct (counts_ok x) as [(P & M & C) _]. split; [|split].
  - intros v HV. apply in_map_iff in HV. destruct HV as ([k m] & <- & HI). destruct (M k m HI) as (_ & HK & NK).
    cbn. now apply occ_in.
  - intros v HV NV. destruct (C v HV NV) as (k & m & HI & EK). exists k. split; [|exact EK].
    apply (in_map fst) in HI. exact HI.
  - exact P.
Qed.

(* lists of representatives of the same classes *)
Lemma reps_perm {B} (f : num -> B) (Hf : forall a b, num_eqb a b = true -> f a = f b) D : forall D',
  ForallOrdPairs apart D -> ForallOrdPairs apart D' ->
  (forall a, In a D -> exists b, In b D' /\ num_eqb a b = true) ->
  (forall b, In b D' -> exists a, In a D /\ num_eqb a b = true) ->
  Permutation (map f D) (map f D').
Proof.
  induction D as [|a D IH]; intros D' PD PD' H1 H2.
  - destruct D' as [|b D']; [constructor|]. destruct (H2 b) as (a & [] & _). now left.
  - destruct (H1 a) as (b & HB & E); [now left|]. apply in_split in HB. destruct HB as (l1 & l2 & ->).
    rewrite map_app. cbn [map]. rewrite (Hf a b E). apply Permutation_cons_app. rewrite <- map_app.
    inversion PD as [|? ? FA PD1]; subst. rewrite Forall_forall in FA.
    apply fop_app in PD'. destruct PD' as (Q1 & Q2 & Q3). inversion Q2 as [|? ? FB Q4]; subst. rewrite Forall_forall in FB.
    apply IH.
    + exact PD1.
    + apply fop_app. split; [exact Q1|]. split; [exact Q4|]. intros. apply Q3; [assumption|now right].
    + intros a' Ha'. destruct (H1 a') as (b' & HB & E'); [now right|].
      apply in_app_or in HB. destruct HB as [HB|[->|HB]].
      * exists b'. split; [apply in_or_app; now left|exact E'].
      * exfalso. pose proof (FA a' Ha') as A. unfold apart in A. rewrite num_eqb_sym in E'. rewrite (num_eqb_trans _ _ _ E E') in A. discriminate.
      * exists b'. split; [apply in_or_app; now right|exact E'].
    + intros b' Hb'. destruct (H2 b') as (a' & HA & E').
      { apply in_app_or in Hb'. apply in_or_app. destruct Hb'; [now left|right; now right]. }
      destruct HA as [->|HA]; [|eauto]. exfalso.
      rewrite num_eqb_sym in E. pose proof (num_eqb_trans _ _ _ E E') as EB.
      apply in_app_or in Hb'. destruct Hb' as [HB|HB].
      * pose proof (Q3 b' b HB (or_introl eq_refl)) as A. apply apart_sym in A. unfold apart in A. congruence.
      * pose proof (FB b' HB) as A. unfold apart in A. congruence.
Qed.

Lemma distinct_perm x D D' : distinct_values x D -> distinct_values x D' ->
  Permutation (map (fun v => occurrences v x) D) (map (fun v => occurrences v x) D').
Proof.
  intros (A1 & A2 & A3) (B1 & B2 & B3). apply reps_perm; [|exact A3|exact B3| |].
  - intros. now apply occ_congr.
  - intros a Ha. apply A1, occ_pos in Ha. destruct Ha as (u & HU & EU).
    destruct (B2 u HU (proj2 (num_eqb_not_nan _ _ EU))) as (k & HK & EK). exists k. split; [exact HK|].
    rewrite num_eqb_sym in EK. eapply num_eqb_trans; eauto.
  - intros a Ha. apply B1, occ_pos in Ha. destruct Ha as (u & HU & EU).
    destruct (A2 u HU (proj2 (num_eqb_not_nan _ _ EU))) as (k & HK & EK). exists k. split; [exact HK|].
    eapply num_eqb_trans; [exact EK|]. now rewrite num_eqb_sym.
Qed.

Lemma distinct_same x y D : same_values x y -> distinct_values x D -> distinct_values y D.
Proof.
  intros HS (A1 & A2 & A3). split; [|split; [|exact A3]].
  - intros v HV. rewrite <- HS. now apply A1.
  - intros v HV NV. pose proof (occ_in v y HV NV) as P. rewrite <- HS in P. apply occ_pos in P.
    destruct P as (u & HU & EU). destruct (A2 u HU (proj2 (num_eqb_not_nan _ _ EU))) as (k & HK & EK).
    exists k. split; [exact HK|]. eapply num_eqb_trans; [exact EK|]. now rewrite num_eqb_sym.
Qed.

(* the counts stored in the dict *)
Lemma dict_counts x : map snd (fst (counts x)) = map (fun v => occurrences v x) (map fst (fst (counts x))).
Proof.
  destruct (counts_ok x) as [(_ & M & _) _]. rewrite map_map. apply map_ext_in. intros [k m] HI. cbn [fst snd].
  now destruct (M k m HI).
Qed.

(* number of valid values *)
Lemma sum_perm l l' : Permutation l l' -> ChunksSpec.sum l = ChunksSpec.sum l'.
Proof. induction 1; rewrite ?sum_cons; try lia; reflexivity. Qed.

Lemma bump_total c v : ChunksSpec.sum (map snd (bump c v)) = ChunksSpec.sum (map snd c) + 1.
Proof.
  induction c as [|[k m] c IH]; [reflexivity|]. cbn [bump]. destruct (num_eqb k v); cbn [map snd]; rewrite !sum_cons; lia.
Qed.
Lemma counts_total x : ChunksSpec.sum (map snd (fst (counts x))) = len (valid x).
Proof.
  rewrite <- (proj2 (counts_ok x)). induction x as [|v x IH] using rev_ind; [reflexivity|].
  rewrite counts_snoc. destruct (counts x) as [c n]. cbn [fst snd] in IH. destruct (is_nan v); cbn [fst snd]; [exact IH|].
  rewrite bump_total. lia.
Qed.
Lemma distinct_total x D : distinct_values x D ->
  ChunksSpec.sum (map (fun v => occurrences v x) D) = len (valid x).
Proof.
  intros HD. rewrite <- counts_total, dict_counts. apply sum_perm. apply distinct_perm; [exact HD|apply dict_distinct].
Qed.
Lemma same_total x y : same_values x y -> len (valid x) = len (valid y).
Proof.
  intros H. rewrite <- (distinct_total x _ (dict_distinct x)).
  rewrite <- (distinct_total y _ (distinct_same _ _ _ H (dict_distinct x))). f_equal. apply map_ext. intros. apply H.
Qed.

(* ---------------- unique ---------------- *)

Lemma bump_keys c v : map fst (bump c v) = set_add (map fst c) v.
Proof.
  unfold set_add. induction c as [|[k m] c IH]; [reflexivity|]. cbn [bump map fst existsb].
  destruct (num_eqb k v); cbn [orb]; [reflexivity|]. cbn [map fst]. rewrite IH.
  destruct (existsb (fun k0 => num_eqb k0 v) (map fst c)); reflexivity.
Qed.
Lemma unique_keys x : fold_left (fun s v => if is_nan v then s else set_add s v) x [] = map fst (fst (counts x)).
Proof.
  induction x as [|v x IH] using rev_ind; [reflexivity|]. rewrite fold_left_app, IH, counts_snoc. cbn [fold_left].
  destruct (counts x) as [c n]. cbn [fst]. destruct (is_nan v); [reflexivity|]. cbn [fst]. now rewrite bump_keys.
Qed.
Lemma unique_spec x D : distinct_values x D -> nan_unique_count x = len D.
Proof.
  intros HD. unfold nan_unique_count. rewrite unique_keys.
  pose proof (distinct_perm x _ _ (dict_distinct x) HD) as P. apply Permutation_length in P. rewrite !map_length in P.
  unfold len. rewrite map_length. lia.
Qed.
Lemma unique_same x y : same_values x y -> nan_unique_count x = nan_unique_count y.
Proof.
  intros H. rewrite (unique_spec x _ (dict_distinct x)).
  symmetry. apply unique_spec. eapply distinct_same; [exact H|apply dict_distinct].
Qed.

(* ---------------- sums over the counts ---------------- *)

Section Sums.
Context {S : Type}.
Variables (zero : S) (frac : Z -> S) (term : S -> S -> Z -> S).
Hypothesis comm : forall f a c d, term f (term f a c) d = term f (term f a d) c.
Lemma fold_perm f l l' : Permutation l l' -> forall a, fold_left (term f) l a = fold_left (term f) l' a.
Proof.
  induction 1 as [|c l l' P IH|c d l|l1 l2 l3 P1 IH1 P2 IH2]; intros a; cbn [fold_left].
  - reflexivity.
  - apply IH.
  - now rewrite comm.
  - now rewrite IH1.
Qed.
Lemma fold_snd f (c : list (num * Z)) : forall a,
  fold_left (fun acc kc => term f acc (snd kc)) c a = fold_left (term f) (map snd c) a.
Proof. induction c as [|[k m] c IH]; intros a; [reflexivity|]. cbn [fold_left map snd]. apply IH. Qed.
Lemma sum_counts_spec x D : distinct_values x D ->
  sum_counts zero frac term x =
  if 0 <? len (valid x) then fold_left (term (frac (len (valid x)))) (map (fun v => occurrences v x) D) zero else zero.
Proof.
  intros HD. unfold sum_counts. destruct (counts_ok x) as [_ N]. pose proof (dict_counts x) as DC.
  pose proof (dict_distinct x) as DD. destruct (counts x) as [c n]. cbn [fst snd] in *. rewrite N.
  destruct (0 <? len (valid x)); [|reflexivity].
  rewrite <- (fold_perm _ _ _ (distinct_perm x _ _ DD HD)), <- DC.
  apply fold_snd.
Qed.
End Sums.

Definition asmR : list num -> R :=
  sum_counts 0%R (fun n => (1 / IZR n)%R) (fun f acc cnt => let p := (IZR cnt * f)%R in (acc + p * p)%R).
Definition entropyR : list num -> R :=
  sum_counts 0%R (fun n => (1 / IZR n)%R) (fun f acc cnt => let p := (IZR cnt * f)%R in (acc - p * ln p)%R).
(* the sum of f v over v in l *)
Definition Rsum (f : num -> R) (l : list num) : R := fold_right Rplus 0%R (map f l).

Lemma fold_Rsum (g : Z -> R) (h : num -> Z) l : forall a,
  (fold_left (fun acc c => acc + g c) (map h l) a = a + Rsum (fun v => g (h v)) l)%R.
Proof.
  induction l as [|v l IH]; intros a; cbn [map fold_left].
  - unfold Rsum. cbn. lra.
  - rewrite IH. unfold Rsum. cbn [map fold_right]. lra.
Qed.
Lemma fold_left_ext {A B} (f g : A -> B -> A) l : (forall a b, f a b = g a b) -> forall a, fold_left f l a = fold_left g l a.
Proof. intros H. induction l; intros a0; cbn; [reflexivity|]. now rewrite H. Qed.
Lemma distinct_nil x D : distinct_values x D -> (0 <? len (valid x)) = false -> D = [].
Proof.
  intros (A1 & _ & _) E. destruct D as [|v D]; [reflexivity|exfalso].
  pose proof (A1 v (or_introl eq_refl)) as P. rewrite <- occ_valid in P. apply occ_pos in P. destruct P as (u & HU & _).
  destruct (valid x); [destruct HU|]. rewrite len_cons in E. pose proof (len_nonneg l). lia.
Qed.

Lemma asm_spec x D : distinct_values x D ->
  asmR x = Rsum (fun v => (IZR (occurrences v x) / IZR (len (valid x))) ^ 2)%R D.
Proof.
  intros HD. unfold asmR. rewrite (sum_counts_spec _ _ _) with (D := D); [| |exact HD].
  2:{ intros f a c d. cbn zeta. ring. }
  destruct (0 <? len (valid x)) eqn:E; [|now rewrite (distinct_nil x D HD E)].
  etransitivity; [apply (fold_Rsum (fun c => (IZR c * (1 / IZR (len (valid x)))) * (IZR c * (1 / IZR (len (valid x)))))%R)|].
  rewrite Rplus_0_l. unfold Rsum. f_equal. apply map_ext. intros v. unfold Rdiv. ring.
Qed.
Lemma entropy_spec x D : distinct_values x D ->
  entropyR x = (- Rsum (fun v => let p := IZR (occurrences v x) / IZR (len (valid x)) in p * ln p) D)%R.
Proof.
  intros HD. unfold entropyR. rewrite (sum_counts_spec _ _ _) with (D := D); [| |exact HD].
  2:{ intros f a c d. cbn zeta. ring. }
  destruct (0 <? len (valid x)) eqn:E.
  2:{ rewrite (distinct_nil x D HD E). unfold Rsum. cbn. ring. }
  etransitivity; [apply (fold_Rsum (fun c => - ((IZR c * (1 / IZR (len (valid x)))) * ln (IZR c * (1 / IZR (len (valid x))))))%R)|].
  rewrite Rplus_0_l. unfold Rsum. clear HD.
  induction D as [|v D IH]; cbn [map fold_right]; [ring|]. rewrite IH. cbn zeta.
  replace (IZR (occurrences v x) * (1 / IZR (len (valid x))))%R with (IZR (occurrences v x) / IZR (len (valid x)))%R by (unfold Rdiv; ring).
  ring.
Qed.

(* ---------------- mode ---------------- *)

Lemma insert_perm v l : Permutation (insert v l) (v :: l).
Proof.
  induction l as [|h t IH]; [reflexivity|]. cbn [insert]. destruct (num_leb v h); [reflexivity|].
  rewrite IH. apply perm_swap.
Qed.
Lemma sort_perm l : Permutation (sort l) l.
Proof. induction l as [|v l IH]; [reflexivity|]. cbn. rewrite insert_perm. now constructor. Qed.
Lemma insert_sorted v l : is_nan v = false -> Forall (fun u => is_nan u = false) l ->
  StronglySorted (fun a b => num_leb a b = true) l -> StronglySorted (fun a b => num_leb a b = true) (insert v l).
Proof.
  intros NV F HS. induction HS as [|h t HS IH FH]; [repeat constructor|]. inversion F as [|? ? Nh F']; subst.
  cbn [insert]. destruct (num_leb v h) eqn:E.
  - constructor; [now constructor|]. constructor; [exact E|]. eapply Forall_impl; [|exact FH]. intros u Hu. eapply num_leb_trans; eauto.
  - constructor; [now apply IH|]. rewrite insert_perm. constructor; [|exact FH].
    unfold num_leb. now rewrite (num_leb_total v h NV Nh E).
Qed.
Lemma sort_sorted l : Forall (fun u => is_nan u = false) l -> StronglySorted (fun a b => num_leb a b = true) (sort l).
Proof.
  induction l as [|v l IH]; intros F; [constructor|]. inversion F; subst. cbn. apply insert_sorted; auto.
  eapply Permutation_Forall; [symmetry; apply sort_perm|assumption].
Qed.

Lemma argmax_from_spec l : forall (pre : list Z) j m, get pre j = Ok m ->
  (forall i v, get pre i = Ok v -> v <= m) -> (forall i v, get pre i = Ok v -> i < j -> v < m) ->
  exists k, argmax_from j m (len pre) l = k /\ exists m', get (pre ++ l) k = Ok m'
    /\ (forall i v, get (pre ++ l) i = Ok v -> v <= m') /\ (forall i v, get (pre ++ l) i = Ok v -> i < k -> v < m').
Proof.
  induction l as [|a l IH]; intros pre j m G L E; cbn [argmax_from].
  - exists j. split; [reflexivity|]. rewrite app_nil_r. eauto.
  - assert (GP : forall i v, get (pre ++ [a]) i = Ok v -> get pre i = Ok v \/ (i = len pre /\ v = a)).
    { intros i v H. pose proof (get_ok_range _ _ _ H) as R. unfold get in H |- *. destruct (i <? 0) eqn:Ei; [discriminate|].
      unfold len in *. rewrite app_length in R. cbn in R.
      destruct (Z_lt_ge_dec i (Z.of_nat (length pre))) as [Lt|Ge].
      - left. rewrite nth_error_app1 in H by lia. exact H.
      - right. rewrite nth_error_app2 in H by lia. replace (Z.to_nat i - length pre)%nat with 0%nat in H by lia. cbn in H.
        split; [lia|congruence]. }
    assert (GA : get (pre ++ [a]) (len pre) = Ok a).
    { unfold get, len. destruct (Z.of_nat (length pre) <? 0) eqn:Ei; [lia|]. rewrite Nat2Z.id, nth_error_app2, Nat.sub_diag by lia. reflexivity. }
    assert (LP : len (pre ++ [a]) = len pre + 1) by (unfold len; rewrite app_length; cbn; lia).
    assert (GJ : get (pre ++ [a]) j = Ok m).
    { pose proof (get_ok_range _ _ _ G) as R. unfold get in *. destruct (j <? 0); [discriminate|]. unfold len in R. rewrite nth_error_app1 by lia. exact G. }
    replace (pre ++ a :: l) with ((pre ++ [a]) ++ l) by (rewrite <- app_assoc; reflexivity). rewrite <- LP.
    destruct (m <? a) eqn:M.
    + apply IH.
      * exact GA.
      * intros i v H. destruct (GP i v H) as [H'|[_ ->]]; [specialize (L i v H'); lia|lia].
      * intros i v H Hi. destruct (GP i v H) as [H'|[-> _]]; [specialize (L i v H'); lia|lia].
    + apply IH.
      * exact GJ.
      * intros i v H. destruct (GP i v H) as [H'|[_ ->]]; [now apply (L i v)|lia].
      * intros i v H Hi. destruct (GP i v H) as [H'|[-> _]]; [now apply (E i v)|].
        pose proof (get_ok_range _ _ _ G). lia.
Qed.
Lemma argmax_spec l : l <> [] -> exists k m, argmax l = Ok k /\ get l k = Ok m
  /\ (forall i v, get l i = Ok v -> v <= m) /\ (forall i v, get l i = Ok v -> i < k -> v < m).
Proof.
  destruct l as [|a l]; [contradiction|]. intros _. cbn [argmax].
  destruct (argmax_from_spec l [a] 0 a) as (k & E & m & H).
  - reflexivity.
  - intros i v G. pose proof (get_ok_range _ _ _ G) as R. cbn in R. assert (i = 0) by lia. subst i. cbn in G. injection G as <-. lia.
  - intros i v G Hi. pose proof (get_ok_range _ _ _ G). lia.
  - exists k, m. change (len [a]) with 1 in E. rewrite E. split; [reflexivity|exact H].
Qed.

Lemma mapE_ok {A B} (f : A -> res B) (g : A -> B) l : (forall x, In x l -> f x = Ok (g x)) -> mapE f l = Ok (map g l).
Proof.
  induction l as [|x l IH]; intros H; [reflexivity|]. cbn [mapE map]. rewrite H by now left. cbn [rbind].
  rewrite IH; [reflexivity|]. intros. apply H. now right.
Qed.

Lemma lookup_spec c x v : dict_ok c x -> In v x -> is_nan v = false -> lookup_count c v = Ok (occurrences v x).
Proof.
  intros (_ & M & C) HV NV. destruct (C v HV NV) as (k & m & HI & EK).
  assert (G : forall c', (forall k m, In (k, m) c' -> m = occurrences k x) ->
    (exists k m, In (k, m) c' /\ num_eqb k v = true) -> lookup_count c' v = Ok (occurrences v x)).
  { induction c' as [|[k' m'] c' IH]; intros HM (k0 & m0 & H0 & E0); [destruct H0|]. cbn [lookup_count].
    destruct (num_eqb k' v) eqn:E.
    - f_equal. rewrite (HM k' m') by now left. now apply occ_congr.
    - apply IH; [intros; apply HM; now right|]. destruct H0 as [H0|H0]; [congruence|eauto]. }
  apply G; [|eauto]. intros k' m' H'. now destruct (M k' m' H').
Qed.

Lemma slice_snoc {A} (l : list A) i v : get l i = Ok v -> slice l 0 (i + 1) = slice l 0 i ++ [v].
Proof.
  intros G. pose proof (get_ok_range _ _ _ G) as R. rewrite <- (slice_app l 0 i (i + 1)) by lia. f_equal.
  apply list_ext. { rewrite slice_len by lia. cbn. lia. }
  intros k u GK. pose proof (get_ok_range _ _ _ GK) as RK. rewrite slice_len in RK by lia. assert (k = 0) by lia. subst k.
  rewrite get_slice in GK by lia. replace (i + 0) with i in GK by lia. rewrite G in GK. injection GK as <-. reflexivity.
Qed.

Lemma mode_loop x : exists c xs j, foldM mode_step (zrange 0 (len x)) ([], x, 0) = Ok (c, xs, j)
  /\ dict_ok c x /\ slice xs 0 j = valid x.
Proof.
  destruct (foldM_zrange mode_step (fun i s => let '(c, xs, j) := s in
      0 <= j <= i /\ len xs = len x /\ slice xs 0 j = valid (slice x 0 i)
      /\ (forall k, i <= k -> get xs k = get x k) /\ dict_ok c (slice x 0 i)) (len x) ([], x, 0))
    as ([[c xs] j] & E & H).
  - apply len_nonneg.
  - split; [lia|]. split; [reflexivity|]. split; [reflexivity|]. split; [reflexivity|].
    split; [constructor|]. split; [intros k m []|intros v []].
  - intros i [[c xs] j] Hi (Hj & L & SV & T & D). unfold mode_step.
    destruct (get_range x i Hi) as [v Gv]. rewrite (T i) by lia. rewrite Gv. cbn [rbind].
    pose proof (slice_snoc x i v Gv) as SS.
    destruct (is_nan v) eqn:N.
    + exists (c, xs, j). split; [reflexivity|]. split; [lia|]. split; [exact L|]. split.
      { rewrite SS, valid_app, <- SV. unfold valid. cbn [filter]. rewrite N. cbn. now rewrite app_nil_r. }
      split; [intros; apply T; lia|]. rewrite SS. now apply nan_ok.
    + destruct (set_range xs j v) as [xs' ES]; [lia|]. rewrite ES. cbn [rbind].
      exists (bump c v, xs', j + 1). split; [reflexivity|]. split; [lia|]. split; [now rewrite (set_len _ _ _ _ ES)|].
      split.
      { rewrite SS, valid_app, <- SV. unfold valid. cbn [filter]. rewrite N. cbn [negb].
        rewrite (slice_snoc xs' j v) by apply (get_set_same _ _ _ _ ES). f_equal.
        apply list_ext. { rewrite !slice_len; try lia. rewrite (set_len _ _ _ _ ES). lia. }
        intros k u G. pose proof (get_ok_range _ _ _ G) as RK. rewrite slice_len in RK; [|lia|rewrite (set_len _ _ _ _ ES); lia].
        rewrite get_slice in G |- * by lia. rewrite (get_set_other _ _ _ _ _ ES) in G by lia. exact G. }
      split. { intros k Hk. rewrite (get_set_other _ _ _ _ _ ES) by lia. apply T. lia. }
      rewrite SS. now apply bump_ok.
  - destruct H as (Hj & L & SV & T & D). exists c, xs, j. rewrite (slice_all x) in SV, D by reflexivity. auto.
Qed.

Lemma mode_spec x : (Forall (fun v => is_nan v = true) x /\ nanmode x = Ok NaN)
  \/ exists m, nanmode x = Ok m /\ is_mode x m.
Proof.
  unfold nanmode. destruct (mode_loop x) as (c & xs & j & E & D & SV). rewrite E. cbn [rbind]. rewrite SV.
  destruct (len (valid x) =? 0) eqn:Z0.
  - left. split; [|reflexivity]. apply Forall_forall. intros v HV. destruct (is_nan v) eqn:N; [reflexivity|exfalso].
    assert (In v (valid x)) by (apply in_valid; auto). destruct (valid x); [destruct H|]. rewrite len_cons in Z0. pose proof (len_nonneg l). lia.
  - right. set (vals := sort (valid x)).
    assert (PV : Permutation vals (valid x)) by apply sort_perm.
    assert (IV : forall v, In v vals <-> In v x /\ is_nan v = false).
    { intros v. rewrite <- in_valid. split; apply Permutation_in; [exact PV|now symmetry]. }
    rewrite (mapE_ok _ (fun v => occurrences v x)).
    2:{ intros v HV. apply IV in HV. apply lookup_spec; tauto. }
    cbn [rbind].
    assert (NE : vals <> []).
    { intros EN. rewrite EN in PV. apply Permutation_nil in PV. rewrite PV in Z0. discriminate. }
    destruct (argmax_spec (map (fun v => occurrences v x) vals)) as (k & mx & EK & GK & MK & FK).
    { intros EN. apply NE. destruct vals; [reflexivity|discriminate]. }
    rewrite EK. cbn [rbind].
    assert (R : 0 <= k < len vals) by (pose proof (get_ok_range _ _ _ GK); rewrite len_map in *; lia).
    destruct (get_range vals k R) as [m GM]. rewrite GM. exists m. split; [reflexivity|].
    rewrite get_map_eq, GM in GK. cbn in GK. injection GK as <-.
    assert (HM : In m vals) by (eapply get_in; eauto). apply IV in HM. destruct HM as [HM NM].
    assert (IG : forall v, In v x -> is_nan v = false -> exists i, get vals i = Ok v /\ get (map (fun v => occurrences v x) vals) i = Ok (occurrences v x)).
    { intros v HV NV. assert (HI : In v vals) by (apply IV; auto). apply In_nth_error in HI. destruct HI as [n Hn].
      exists (Z.of_nat n). rewrite get_map_eq. unfold get. destruct (Z.of_nat n <? 0) eqn:En; [lia|]. rewrite Nat2Z.id, Hn. cbn. auto. }
    split; [exact HM|]. split; [exact NM|]. split.
    + intros v HV NV. destruct (IG v HV NV) as (i & _ & G). exact (MK i _ G).
    + intros v HV NV EO. destruct (IG v HV NV) as (i & Gv & G).
      destruct (Z_lt_ge_dec i k) as [Lt|Ge]. { pose proof (FK i _ G Lt). lia. }
      assert (SO : StronglySorted (fun a b => num_leb a b = true) vals).
      { apply sort_sorted. apply Forall_forall. intros u HU. now apply in_valid in HU. }
      clear - SO GM Gv Ge NM. revert k i GM Gv Ge. induction SO as [|h t SO IH F]; intros k i GM Gv Ge; [now apply get_nil in GM|].
      pose proof (get_ok_range _ _ _ GM). pose proof (get_ok_range _ _ _ Gv).
      destruct (Z.eq_dec k 0) as [E0|N0].
      * subst k. rewrite get_cons0 in GM. injection GM as <-. destruct (Z.eq_dec i 0) as [E1|N1].
        -- subst i. rewrite get_cons0 in Gv. injection Gv as <-. now apply num_leb_refl.
        -- rewrite get_cons in Gv by lia. rewrite Forall_forall in F. apply F. eapply get_in; eauto.
      * rewrite get_cons in GM by lia. rewrite get_cons in Gv by lia. eapply IH; eauto. lia.
Qed.

Lemma mode_unique x y m m' : same_values x y -> is_mode x m -> is_mode y m' -> num_eqb m m' = true.
Proof.
  intros HS (M1 & M2 & M3 & M4) (N1 & N2 & N3 & N4).
  (* a representative of m' in x and of m in y *)
  pose proof (occ_in m' y N1 N2) as P'. rewrite <- HS in P'. apply occ_pos in P'. destruct P' as (u & HU & EU).
  pose proof (occ_in m x M1 M2) as P. rewrite HS in P. apply occ_pos in P. destruct P as (w & HW & EW).
  destruct (num_eqb_not_nan _ _ EU) as [_ NU]. destruct (num_eqb_not_nan _ _ EW) as [_ NW].
  pose proof (M3 u HU NU) as A1. pose proof (N3 w HW NW) as A2.
  rewrite <- (occ_congr m' u x EU) in A1. rewrite <- (occ_congr m w y EW) in A2.
  pose proof (HS m). pose proof (HS m').
  assert (EQ : occurrences m' x = occurrences m x) by lia.
  assert (B1 : num_leb m u = true) by (apply M4; auto; rewrite <- (occ_congr m' u x EU); exact EQ).
  assert (B2 : num_leb m' w = true) by (apply N4; auto; rewrite <- (occ_congr m w y EW); lia).
  apply num_leb_antisym.
  - unfold num_leb in *. rewrite num_eqb_sym in EU. rewrite <- (num_ltb_eqb_r m u m' EU).
    rewrite num_eqb_sym in B1 |- *. now rewrite <- (num_eqb_congr_l u m' m EU).
  - unfold num_leb in *. rewrite num_eqb_sym in EW. rewrite <- (num_ltb_eqb_r m' w m EW).
    rewrite num_eqb_sym in B2 |- *. now rewrite <- (num_eqb_congr_l w m m' EW).
Qed.

Lemma all_nan_same x y : same_values x y -> Forall (fun v => is_nan v = true) x -> Forall (fun v => is_nan v = true) y.
Proof.
  intros HS F. apply Forall_forall. intros v HV. destruct (is_nan v) eqn:N; [reflexivity|exfalso].
  pose proof (occ_in v y HV N) as P. rewrite <- HS in P. apply occ_pos in P. destruct P as (u & HU & EU).
  rewrite Forall_forall in F. destruct (num_eqb_not_nan _ _ EU) as [_ NU]. rewrite (F u HU) in NU. discriminate.
Qed.
Lemma mode_same x y : same_values x y -> exists m m', nanmode x = Ok m /\ nanmode y = Ok m' /\ nan_equal m m' = true.
Proof.
  intros HS. destruct (mode_spec x) as [[F E]|(m & E & M)], (mode_spec y) as [[F' E']|(m' & E' & M')].
  - exists NaN, NaN. auto.
  - exfalso. destruct M' as (I & N & _). pose proof (all_nan_same _ _ HS F) as G. rewrite Forall_forall in G. rewrite (G _ I) in N. discriminate.
  - exfalso. destruct M as (I & N & _). assert (HS' : same_values y x) by (intros v; symmetry; apply HS).
    pose proof (all_nan_same _ _ HS' F') as G. rewrite Forall_forall in G. rewrite (G _ I) in N. discriminate.
  - exists m, m'. split; [exact E|]. split; [exact E'|]. unfold nan_equal.
    rewrite (proj1 (proj2 M)). eapply mode_unique; eauto.
Qed.

(* ---------------- argmin, argmax ---------------- *)

Lemma argopt_spec (better : num -> num -> bool) (wk : num -> num -> Prop)
  (Tr : forall a b c, better a b = true -> better b c = true -> better a c = true)
  (Wk : forall a b, is_nan a = false -> is_nan b = false -> better a b = false -> wk b a)
  (Bw : forall a b, better a b = true -> wk a b)
  (Wt : forall a b c, better a b = true -> wk b c -> wk a c)
  (Bt : forall a b c, better a b = true -> wk b c -> better a c = true)
  l : forall (pre : list num) j best,
  (get pre j = Ok best /\ is_nan best = false
   /\ (forall i v, get pre i = Ok v -> is_nan v = false -> wk best v)
   /\ (forall i v, get pre i = Ok v -> i < j -> is_nan v = false -> better best v = true)) ->
  let k := argopt better l (len pre) j best in
  exists m, get (pre ++ l) k = Ok m /\ is_nan m = false
   /\ (forall i v, get (pre ++ l) i = Ok v -> is_nan v = false -> wk m v)
   /\ (forall i v, get (pre ++ l) i = Ok v -> i < k -> is_nan v = false -> better m v = true).
Proof.
  assert (Rf : forall b, is_nan b = false -> wk b b).
  { intros b Nb. destruct (better b b) eqn:E; [now apply Bw|now apply Wk]. }
  induction l as [|a l IH]; intros pre j best H; cbn [argopt].
  - cbn zeta. rewrite app_nil_r. eauto.
  - assert (GP : forall i v, get (pre ++ [a]) i = Ok v -> get pre i = Ok v \/ (i = len pre /\ v = a)).
    { intros i v H'. pose proof (get_ok_range _ _ _ H') as R. unfold get in H' |- *. destruct (i <? 0) eqn:Ei; [discriminate|].
      unfold len in *. rewrite app_length in R. cbn in R.
      destruct (Z_lt_ge_dec i (Z.of_nat (length pre))) as [Lt|Ge].
      - left. rewrite nth_error_app1 in H' by lia. exact H'.
      - right. rewrite nth_error_app2 in H' by lia. replace (Z.to_nat i - length pre)%nat with 0%nat in H' by lia. cbn in H'.
        split; [lia|congruence]. }
    assert (GA : get (pre ++ [a]) (len pre) = Ok a).
    { unfold get, len. destruct (Z.of_nat (length pre) <? 0) eqn:Ei; [lia|]. rewrite Nat2Z.id, nth_error_app2, Nat.sub_diag by lia. reflexivity. }
    assert (LP : len (pre ++ [a]) = len pre + 1) by (unfold len; rewrite app_length; cbn; lia).
    destruct H as (G & N & H1 & H2). pose proof (get_ok_range _ _ _ G) as RJ.
    assert (GJ : get (pre ++ [a]) j = Ok best).
    { unfold get in *. destruct (j <? 0); [discriminate|]. unfold len in RJ. rewrite nth_error_app1 by lia. exact G. }
    replace (pre ++ a :: l) with ((pre ++ [a]) ++ l) by (rewrite <- app_assoc; reflexivity). rewrite <- LP.
    destruct (is_nan a) eqn:NA; [|destruct (better a best) eqn:BA].
    + apply IH. split; [exact GJ|]. split; [exact N|]. split.
      * intros i v Hi Nv. destruct (GP i v Hi) as [Hi'|[-> ->]]; [now apply (H1 i v)|congruence].
      * intros i v Hi Lt Nv. destruct (GP i v Hi) as [Hi'|[-> ->]]; [now apply (H2 i v)|congruence].
    + apply IH. split; [exact GA|]. split; [exact NA|]. split.
      * intros i v Hi Nv. destruct (GP i v Hi) as [Hi'|[-> ->]]; [|now apply Rf]. eapply Wt; [exact BA|]. now apply (H1 i v).
      * intros i v Hi Lt Nv. destruct (GP i v Hi) as [Hi'|[-> ->]]; [|lia]. eapply Bt; [exact BA|]. now apply (H1 i v).
    + apply IH. split; [exact GJ|]. split; [exact N|]. split.
      * intros i v Hi Nv. destruct (GP i v Hi) as [Hi'|[-> ->]]; [now apply (H1 i v)|]. now apply Wk.
      * intros i v Hi Lt Nv. destruct (GP i v Hi) as [Hi'|[-> ->]]; [now apply (H2 i v)|lia].
Qed.

(* before the first value that beats the initial best, the loop does nothing *)
Lemma argopt_skip (better : num -> num -> bool) best l : forall pre j,
  (exists v, In v l /\ is_nan v = false /\ better v best = true) ->
  (forall i v, get pre i = Ok v -> is_nan v = false -> better v best = false) ->
  exists l1 v l2, l = l1 ++ v :: l2 /\ is_nan v = false /\ better v best = true
    /\ (forall u, In u l1 -> is_nan u = false -> better u best = false)
    /\ argopt better l (len pre) j best = argopt better l2 (len (pre ++ l1 ++ [v])) (len (pre ++ l1)) v.
Proof.
  induction l as [|a l IH]; intros pre j (v & HV & NV & BV) HP; [destruct HV|]. cbn [argopt].
  assert (LP : len (pre ++ [a]) = len pre + 1) by (unfold len; rewrite app_length; cbn; lia).
  destruct (is_nan a) eqn:NA; [|destruct (better a best) eqn:BA].
  - destruct HV as [->|HV]; [congruence|].
    destruct (IH (pre ++ [a]) j) as (l1 & w & l2 & -> & NW & BW & H1 & E).
    + eauto.
    + intros i u G NU. apply get_in in G. apply in_app_or in G. destruct G as [G|[<-|[]]]; [|congruence].
      apply In_nth_error in G. destruct G as [n Hn]. apply (HP (Z.of_nat n)); [|exact NU].
      unfold get. destruct (Z.of_nat n <? 0) eqn:En; [lia|]. now rewrite Nat2Z.id, Hn.
    + exists (a :: l1), w, l2. split; [reflexivity|]. split; [exact NW|]. split; [exact BW|]. split.
      * intros u [<-|HU] NU; [congruence|now apply H1].
      * rewrite <- LP, E. now rewrite <- !app_assoc.
  - exists [], a, l. split; [reflexivity|]. split; [exact NA|]. split; [exact BA|]. split; [intros u []|].
    cbn [app]. now rewrite LP, app_nil_r.
  - destruct HV as [->|HV]; [congruence|].
    destruct (IH (pre ++ [a]) j) as (l1 & w & l2 & -> & NW & BW & H1 & E).
    + eauto.
    + intros i u G NU. apply get_in in G. apply in_app_or in G. destruct G as [G|[<-|[]]]; [|exact BA].
      apply In_nth_error in G. destruct G as [n Hn]. apply (HP (Z.of_nat n)); [|exact NU].
      unfold get. destruct (Z.of_nat n <? 0) eqn:En; [lia|]. now rewrite Nat2Z.id, Hn.
    + exists (a :: l1), w, l2. split; [reflexivity|]. split; [exact NW|]. split; [exact BW|]. split.
      * intros u [<-|HU] NU; [exact BA|now apply H1].
      * rewrite <- LP, E. now rewrite <- !app_assoc.
Qed.

Lemma argopt_main (better : num -> num -> bool) (wk : num -> num -> Prop) init
  (Tr : forall a b c, better a b = true -> better b c = true -> better a c = true)
  (Wk : forall a b, is_nan a = false -> is_nan b = false -> better a b = false -> wk b a)
  (Bw : forall a b, better a b = true -> wk a b)
  (Wt : forall a b c, better a b = true -> wk b c -> wk a c)
  (Bt : forall a b c, better a b = true -> wk b c -> better a c = true)
  (Ni : is_nan init = false) x :
  (exists v, In v x /\ is_nan v = false /\ better v init = true) ->
  exists m, get x (argopt better x 0 0 init) = Ok m /\ is_nan m = false
   /\ (forall i v, get x i = Ok v -> is_nan v = false -> wk m v)
   /\ (forall i v, get x i = Ok v -> i < argopt better x 0 0 init -> is_nan v = false -> better m v = true).
Proof.
  intros HE. destruct (argopt_skip better init x [] 0 HE) as (l1 & v & l2 & EX & NV & BV & H1 & E).
  { intros i u G. now apply get_nil in G. }
  change (len (@nil num)) with 0 in E. cbn [app] in E. rewrite E, EX.
  replace (l1 ++ v :: l2) with ((l1 ++ [v]) ++ l2) by (rewrite <- app_assoc; reflexivity).
  assert (GL : forall i u, get (l1 ++ [v]) i = Ok u -> In u l1 \/ (i = len l1 /\ u = v)).
  { intros i u H. pose proof (get_ok_range _ _ _ H) as R. unfold get in H. destruct (i <? 0) eqn:Ei; [discriminate|].
    unfold len in *. rewrite app_length in R. cbn in R.
    destruct (Z_lt_ge_dec i (Z.of_nat (length l1))) as [Lt|Ge].
    - left. rewrite nth_error_app1 in H by lia. destruct (nth_error l1 (Z.to_nat i)) eqn:En; [|discriminate]. injection H as <-. eapply nth_error_In; eauto.
    - right. rewrite nth_error_app2 in H by lia. replace (Z.to_nat i - length l1)%nat with 0%nat in H by lia. cbn in H. split; [lia|congruence]. }
  apply (argopt_spec better wk Tr Wk Bw Wt Bt).
  split.
  { unfold get, len. destruct (Z.of_nat (length l1) <? 0) eqn:Ei; [lia|]. rewrite Nat2Z.id, nth_error_app2, Nat.sub_diag by lia. reflexivity. }
  split; [exact NV|]. split.
  - intros i u G NU. destruct (GL i u G) as [HI|[_ ->]].
    + eapply Wt; [exact BV|]. apply Wk; auto.
    + destruct (better v v) eqn:B; [now apply Bw|now apply Wk].
  - intros i u G Lt NU. destruct (GL i u G) as [HI|[-> _]]; [|lia].
    eapply Bt; [exact BV|]. apply Wk; auto.
Qed.

Lemma not_all_nan x v : In v x -> is_nan v = false -> (len x =? 0) = false /\ forallb is_nan x = false.
Proof.
  intros HV NV. split.
  - destruct x; [destruct HV|]. rewrite len_cons. pose proof (len_nonneg x). lia.
  - apply not_true_iff_false. rewrite forallb_forall. intros H. rewrite (H v HV) in NV. discriminate.
Qed.

Lemma argmin_spec x v : In v x -> is_nan v = false -> num_ltb v PInf = true -> is_argmin x (nanargmin x).
Proof.
  intros HV NV LV. unfold nanargmin. destruct (not_all_nan x v HV NV) as [-> ->].
  destruct (argopt_main num_ltb (fun a b => num_leb a b = true) PInf) with (x := x) as (m & H).
  - exact num_ltb_trans.
  - intros a b Na Nb L. destruct (num_leb b a) eqn:E; [reflexivity|].
    pose proof (num_leb_total b a Nb Na E). congruence.
  - intros a b L. unfold num_leb. now rewrite L.
  - intros a b c L W. eapply num_leb_trans; [|exact W]. unfold num_leb. now rewrite L.
  - intros a b c L W. unfold num_leb in W. apply orb_true_iff in W. destruct W as [W|W].
    + eapply num_ltb_trans; eauto.
    + now rewrite <- (num_ltb_eqb_r a b c W).
  - reflexivity.
  - eauto.
  - exists m. exact H.
Qed.
Lemma argmax_nan_spec x v : In v x -> is_nan v = false -> num_ltb MInf v = true -> is_argmax x (nanargmax x).
Proof.
  intros HV NV LV. unfold nanargmax. destruct (not_all_nan x v HV NV) as [-> ->].
  destruct (argopt_main (fun v m => num_ltb m v) (fun a b => num_leb b a = true) MInf) with (x := x) as (m & H).
  - intros a b c L1 L2. eapply num_ltb_trans; eauto.
  - intros a b Na Nb L. destruct (num_leb a b) eqn:E; [reflexivity|].
    pose proof (num_leb_total a b Na Nb E). congruence.
  - intros a b L. unfold num_leb. now rewrite L.
  - intros a b c L W. eapply num_leb_trans; [exact W|]. unfold num_leb. now rewrite L.
  - intros a b c L W. unfold num_leb in W. apply orb_true_iff in W. destruct W as [W|W].
    + eapply num_ltb_trans; eauto.
    + now rewrite (num_ltb_eqb_l c b a W).
  - reflexivity.
  - eauto.
  - exists m. exact H.
Qed.
Lemma argopt_none x : Forall (fun v => is_nan v = true) x -> nanargmin x = (if len x =? 0 then -1 else -2)
  /\ nanargmax x = (if len x =? 0 then -1 else -2).
Proof.
  intros F. unfold nanargmin, nanargmax. replace (forallb is_nan x) with true; [now destruct (len x =? 0)|].
  symmetry. apply forallb_forall. now rewrite Forall_forall in F.
Qed.

Lemma asm_entropy_same x y : same_values x y -> asmR x = asmR y /\ entropyR x = entropyR y.
Proof.
  intros H. pose proof (dict_distinct x) as D. pose proof (distinct_same _ _ _ H D) as D'.
  rewrite (asm_spec x _ D), (asm_spec y _ D'), (entropy_spec x _ D), (entropy_spec y _ D').
  rewrite <- (same_total x y H). unfold Rsum. split.
  - f_equal. apply map_ext. intros v. now rewrite H.
  - do 2 f_equal. apply map_ext. intros v. now rewrite H.
Qed.
Lemma same_values_perm x y : Permutation (valid x) (valid y) -> same_values x y.
Proof. intros P v. rewrite <- (occ_valid v x), <- (occ_valid v y). now apply occ_perm. Qed.
