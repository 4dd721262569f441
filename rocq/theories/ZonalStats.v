(* Each zonal statistic, for every tree of partitions. *)
From Coq Require Import QArith Reals Lra Sorted Permutation.
From Verif Require Import Base BaseFacts Scalars NumFacts ChunksProofs RasterStack Stats StatsSpec StatsProofs Zonal ZonalSpec ZonalProofs.
Open Scope Z_scope.

(* ---- counts ---- *)
(* how often v is counted in c *)
Fixpoint counted (v : num) (c : list (num * Z)) : Z :=
  match c with
  | [] => 0
  | (w, n) :: c => (if num_eqb v w then n else 0) + counted v c
  end.
Definition ascending (c : list (num * Z)) : Prop := StronglySorted (fun a b => before a b = true) (map fst c).
Definition counts_of (vs : list num) (c : list (num * Z)) : Prop :=
  ascending c /\ Forall (fun e => 0 < snd e /\ In (fst e) vs) c /\ forall v, counted v c = occurrences v vs.
Definition exact_counts (vs : list num) (c : list (num * Z)) : Prop :=
  counts_of vs c /\ Forall (fun e => is_nan (fst e) = false) c.

Lemma before_trans a b c : before a b = true -> before b c = true -> before a c = true.
Proof.
  unfold before. rewrite !orb_true_iff, !andb_true_iff, !negb_true_iff. intros [H|[H1 H2]] [K|[K1 K2]].
  - left. eapply num_ltb_trans; eassumption.
  - right. split; [exact K1|]. now apply num_ltb_not_nan in H.
  - apply num_ltb_not_nan in K as [K _]. congruence.
  - congruence.
Qed.
Lemma before_total v w : nan_equal v w = false -> before v w = false -> before w v = true.
Proof.
  unfold nan_equal, before. destruct (is_nan v) eqn:V, (is_nan w) eqn:W; cbn; intros E H; try discriminate.
  - now rewrite orb_true_r.
  - rewrite orb_true_r in H. discriminate.
  - rewrite orb_false_r in *. destruct (num_total v w V W) as [T|[T|T]]; congruence.
Qed.
Lemma before_nan_equal_r v w w' : nan_equal w w' = true -> before v w = before v w'.
Proof.
  unfold nan_equal, before. destruct (is_nan w) eqn:W.
  - intros W'. destruct w, w'; try discriminate. reflexivity.
  - intros E. rewrite (num_ltb_eqb_r v w w' E). apply num_eqb_not_nan in E as [_ ->]. reflexivity.
Qed.
Lemma before_eqb v w : before v w = true -> num_eqb v w = false.
Proof.
  unfold before. rewrite orb_true_iff, andb_true_iff. intros [H|[H _]]; [now apply num_ltb_neq|]. destruct w; try discriminate. now destruct v.
Qed.
Lemma num_eqb_before a b c : num_eqb a b = true -> before b c = true -> num_eqb a c = false.
Proof. intros E B. apply before_eqb in B. rewrite (num_eqb_congr_l a b c E). exact B. Qed.
Lemma add_count_in v n c e : In e (add_count v n c) -> e = (v, n) \/ In e c \/ exists m, In (fst e, m) c /\ snd e = m + n.
Proof.
  induction c as [|[w m] c IH]; cbn; [intros [<-|[]]; auto|]. destruct (nan_equal v w).
  - intros [<-|H]; [right; right; exists m; cbn; auto|right; left; now right].
  - destruct (before v w); cbn.
    + intros [<-|[<-|H]]; auto.
    + intros [<-|H]; [right; left; now left|]. destruct (IH H) as [->|[K|(k & K & E)]]; [auto|auto|]. right. right. exists k. auto.
Qed.
Lemma add_count_sorted v n c : ascending c -> ascending (add_count v n c).
Proof.
  unfold ascending. induction c as [|[w m] c IH]; cbn; intros A; [now repeat constructor|]. inversion A as [|? ? A1 A2]; subst.
  destruct (nan_equal v w) eqn:E; [exact A|]. destruct (before v w) eqn:B; cbn.
  - constructor; [exact A|]. constructor; [exact B|]. eapply Forall_impl; [|exact A2]. intros x Hx. eapply before_trans; eassumption.
  - constructor; [now apply IH|]. apply Forall_forall. intros x Hx. apply in_map_iff in Hx as (e & <- & He). rewrite Forall_forall in A2.
    destruct (add_count_in v n c e He) as [->|[K|(k & K & _)]]; [now apply before_total|apply A2, in_map_iff; eauto|].
    apply A2, in_map_iff. exists (fst e, k). auto.
Qed.
Lemma counted_add u v n c : counted u (add_count v n c) = counted u c + (if num_eqb u v then n else 0).
Proof.
  induction c as [|[w m] c IH]; cbn; [lia|]. destruct (nan_equal v w) eqn:E.
  - cbn. assert (K : num_eqb u w = num_eqb u v).
    { unfold nan_equal in E. destruct (is_nan v) eqn:V; [destruct v, w; try discriminate; reflexivity|].
      rewrite (num_eqb_sym u w), (num_eqb_sym u v). symmetry. now apply num_eqb_congr_l. }
    rewrite K. destruct (num_eqb u v); lia.
  - destruct (before v w); cbn; [lia|]. rewrite IH. lia.
Qed.
Lemma occ_repeat u v n : occurrences u (repeat v n) = if num_eqb u v then Z.of_nat n else 0.
Proof. induction n as [|n IH]; [now destruct (num_eqb u v)|]. cbn [repeat]. rewrite occ_cons, IH. destruct (num_eqb u v); lia. Qed.
Lemma add_count_ok vs v n c : counts_of vs c -> 0 < n ->
  counts_of (vs ++ repeat v (Z.to_nat n)) (add_count v n c).
Proof.
  intros (A & P & K) H. split; [now apply add_count_sorted|]. split.
  - rewrite Forall_forall in *. intros e He. destruct (add_count_in v n c e He) as [->|[I|(m & I & E)]]; cbn.
    + split; [assumption|]. rewrite in_app_iff. right. destruct (Z.to_nat n) eqn:En; [lia|]. now left.
    + destruct (P e I). rewrite in_app_iff. auto.
    + destruct (P _ I). cbn in *. rewrite in_app_iff. split; [lia|auto].
  - intros u. rewrite counted_add, occ_app, K, occ_repeat, Z2Nat.id by lia. lia.
Qed.
Lemma counts_congr vs vs' c : counts_of vs c -> (forall u, occurrences u vs = occurrences u vs') -> (forall u, In u vs -> In u vs') -> counts_of vs' c.
Proof.
  intros (A & P & K) E I. split; [exact A|]. split; [|intros v; now rewrite K]. eapply Forall_impl; [|exact P]. cbn. intros e [H1 H2]. auto.
Qed.
Lemma unique_ok vs : counts_of vs (unique_with_counts vs).
Proof.
  unfold unique_with_counts. induction vs as [|v vs IH] using rev_ind.
  - split; [constructor|]. split; [constructor|]. reflexivity.
  - rewrite fold_left_app. cbn [fold_left]. apply (add_count_ok vs v 1) in IH; [exact IH|lia].
Qed.
Lemma counted_app v c c' : counted v (c ++ c') = counted v c + counted v c'.
Proof. induction c as [|[w n] c IH]; cbn; [lia|]. rewrite IH. lia. Qed.
(* folding add_count over entries *)
Lemma combine_fold l : forall c, ascending c -> Forall (fun e => 0 < snd e /\ is_nan (fst e) = false) c -> Forall (fun e : num * Z => 0 < snd e) l ->
  let c' := fold_left (fun c '(v, n) => if is_nan v then c else add_count v n c) l c in
  ascending c' /\ Forall (fun e => 0 < snd e /\ is_nan (fst e) = false) c' /\ (forall v, counted v c' = counted v c + counted v l)
  /\ (forall e, In e c' -> exists m, In (fst e, m) (c ++ l)).
Proof.
  induction l as [|[v n] l IH]; intros c A P L c'.
  - cbn in c'. subst c'. split; [exact A|]. split; [exact P|]. split; [intros; cbn; lia|]. intros [w m] H. exists m. cbn. rewrite app_nil_r. exact H.
  - inversion L as [|? ? L1 L2]; subst. cbn in L1. cbn [fold_left] in c'. destruct (is_nan v) eqn:V.
    + destruct (IH c A P L2) as (B1 & B2 & B3 & B4). split; [exact B1|]. split; [exact B2|]. split.
      * intros u. unfold c'. rewrite B3. cbn. destruct v; try discriminate. destruct u; cbn; lia.
      * intros e He. destruct (B4 e He) as (m & Hm). exists m. rewrite in_app_iff in *. cbn. tauto.
    + destruct (IH (add_count v n c)) as (B1 & B2 & B3 & B4).
      * now apply add_count_sorted.
      * rewrite Forall_forall in *. intros e He. destruct (add_count_in v n c e He) as [->|[I|(m & I & E)]]; [cbn; auto|auto|]. destruct (P _ I). cbn in *. split; [lia|assumption].
      * exact L2.
      * split; [exact B1|]. split; [exact B2|]. split.
        -- intros u. unfold c'. rewrite B3, counted_add. cbn. lia.
        -- intros e He. destruct (B4 e He) as (m & Hm). rewrite in_app_iff in Hm. destruct Hm as [Hm|Hm].
           ++ destruct (add_count_in v n c _ Hm) as [E|[I|(k & I & E)]].
              ** injection E as E1 E2. exists n. rewrite E1, in_app_iff. right. now left.
              ** exists m. rewrite in_app_iff. now left.
              ** exists k. rewrite in_app_iff. left. exact I.
           ++ exists m. rewrite in_app_iff. right. now right.
Qed.
Lemma combine_ok vss cs : Forall2 counts_of vss cs -> exact_counts (concat vss) (combine_values_and_counts cs).
Proof.
  intros F. unfold combine_values_and_counts.
  assert (E : Forall (fun e => 0 < snd e /\ In (fst e) (concat vss)) (concat cs) /\ forall v, counted v (concat cs) = occurrences v (concat vss)).
  { induction F as [|vs c vss cs (A & P & K) F [IH1 IH2]]; [split; [constructor|reflexivity]|]. cbn. split.
    - apply Forall_app. split; (eapply Forall_impl; [|eassumption]); cbn; intros e [H1 H2]; rewrite in_app_iff; auto.
    - intros v. rewrite counted_app, occ_app, K, IH2. reflexivity. }
  destruct E as [E1 E2]. destruct (combine_fold (concat cs) []) as (B1 & B2 & B3 & B4); [constructor|constructor|eapply Forall_impl; [|exact E1]; cbn; tauto|].
  split; [|eapply Forall_impl; [|exact B2]; cbn; tauto]. split; [exact B1|]. split; [|intros v; rewrite B3, E2; reflexivity].
  rewrite Forall_forall in *. intros e He. destruct (B4 e He) as (m & Hm). destruct (E1 _ Hm). split; [apply B2, He|assumption].
Qed.
Lemma exact_to_counts vs c : exact_counts vs c -> counts_of vs c. Proof. now intros [H _]. Qed.

(* two exact counts of equal collections agree *)
Lemma counted_zero v c : Forall (fun e => before v (fst e) = true) c -> counted v c = 0.
Proof. induction 1 as [|[w n] c H _ IH]; [reflexivity|]. cbn in *. rewrite (before_eqb _ _ H). lia. Qed.
Lemma ascending_cons w n c : ascending ((w, n) :: c) -> ascending c /\ Forall (fun e => before w (fst e) = true) c.
Proof. intros A. inversion A; subst. split; [assumption|]. apply Forall_forall. intros e He. rewrite Forall_forall in *. apply H2, in_map, He. Qed.
Lemma counts_unique c : forall c', ascending c -> ascending c' -> Forall (fun e => 0 < snd e /\ is_nan (fst e) = false) c ->
  Forall (fun e => 0 < snd e /\ is_nan (fst e) = false) c' -> (forall v, counted v c = counted v c') ->
  Forall2 (fun e e' => num_eqb (fst e) (fst e') = true /\ snd e = snd e') c c'.
Proof.
  induction c as [|[w n] c IH]; intros c' A A' P P' K.
  - destruct c' as [|[w' n'] c']; [constructor|exfalso]. specialize (K w'). cbn in K. inversion P' as [|? ? [P1 P2] _]; subst. cbn in *. rewrite num_eqb_refl in K by exact P2.
    apply ascending_cons in A' as [_ A']. rewrite (counted_zero _ _ A') in K. lia.
  - inversion P as [|? ? [P1 P2] P3]; subst. cbn in P1, P2. pose proof (ascending_cons _ _ _ A) as [A1 A2].
    destruct c' as [|[w' n'] c'].
    { exfalso. specialize (K w). cbn in K. rewrite num_eqb_refl in K by exact P2. rewrite (counted_zero _ _ A2) in K. lia. }
    inversion P' as [|? ? [P1' P2'] P3']; subst. cbn in P1', P2'. pose proof (ascending_cons _ _ _ A') as [A1' A2'].
    assert (E : num_eqb w w' = true).
    { destruct (num_total w w' P2 P2') as [L|[L|L]]; [exfalso|exact L|exfalso].
      - specialize (K w). cbn in K. rewrite num_eqb_refl, (num_ltb_neq _ _ L) in K by exact P2. rewrite (counted_zero _ _ A2), (counted_zero w c') in K; [lia|].
        eapply Forall_impl; [|exact A2']. intros e. apply before_trans. unfold before. now rewrite L.
      - specialize (K w'). cbn in K. rewrite num_eqb_refl, (num_ltb_neq _ _ L) in K by exact P2'. rewrite (counted_zero _ _ A2'), (counted_zero w' c) in K; [lia|].
        eapply Forall_impl; [|exact A2]. intros e. apply before_trans. unfold before. now rewrite L. }
    assert (N : n = n').
    { specialize (K w). cbn in K. rewrite num_eqb_refl, E in K by exact P2. rewrite (counted_zero _ _ A2), (counted_zero w c') in K; [lia|].
      eapply Forall_impl; [|exact A2']. intros e He. unfold before in *. rewrite (num_ltb_eqb_l w w' (fst e) E). rewrite P2. rewrite P2' in He. exact He. }
    constructor; [cbn; auto|]. apply IH; [assumption..|]. intros v. specialize (K v). cbn in K.
    assert (E2 : num_eqb v w = num_eqb v w') by (rewrite (num_eqb_sym v w), (num_eqb_sym v w'); now apply num_eqb_congr_l). rewrite E2, N in K. lia.
Qed.
Lemma exact_in vs c v : exact_counts vs c -> 0 < occurrences v vs -> exists w, In (w, occurrences v vs) c /\ num_eqb v w = true.
Proof.
  intros [(A & P & K) NN] O. rewrite <- K in O. rewrite <- (K v). clear K. induction c as [|[w n] c IH]; cbn in *; [lia|].
  apply ascending_cons in A as [A1 A2]. inversion P; subst. inversion NN; subst. destruct (num_eqb v w) eqn:E.
  - exists w. rewrite (counted_zero v c), Z.add_0_r; [auto|]. eapply Forall_impl; [|exact A2]. intros e He. unfold before in *. rewrite (num_ltb_eqb_l v w (fst e) E).
    apply num_eqb_not_nan in E as [Ev Ew]. now rewrite Ev, Ew in *.
  - rewrite Z.add_0_l in *. destruct IH as (u & I & E'); [assumption..|]. exists u. auto.
Qed.
Lemma exact_entry vs c w n : exact_counts vs c -> In (w, n) c -> n = occurrences w vs.
Proof.
  intros [(A & P & K) NN] I. rewrite <- K. clear K. induction c as [|[u m] c IH]; [destruct I|]. apply ascending_cons in A as [A1 A2]. inversion P; subst. inversion NN; subst. cbn in *.
  destruct I as [E|I].
  - injection E as -> ->. rewrite num_eqb_refl by assumption. rewrite (counted_zero _ _ A2). lia.
  - rewrite Forall_forall in A2. specialize (A2 _ I). cbn in A2. apply before_eqb in A2. rewrite num_eqb_sym, A2. cbn. now apply IH.
Qed.
Lemma exact_distinct vs c : exact_counts vs c -> distinct_values vs (map fst c).
Proof.
  intros E. pose proof E as [(A & P & K) NN]. split; [|split].
  - intros v H. apply in_map_iff in H as ([w n] & <- & I). cbn. rewrite <- (exact_entry _ _ _ _ E I). rewrite Forall_forall in P. apply (P _ I).
  - intros v I N. destruct (exact_in vs c v E) as (w & H & E'); [now apply occ_in|]. exists w. rewrite num_eqb_sym. split; [|exact E']. apply in_map_iff. now exists (w, occurrences v vs).
  - unfold ascending in A. clear - A. induction (map fst c) as [|a l IH]; [constructor|]. inversion A; subst. constructor; [|auto]. eapply Forall_impl; [|eassumption]. intros b. apply before_eqb.
Qed.
Lemma exact_counts_map vs c : exact_counts vs c -> map snd c = map (fun v => occurrences v vs) (map fst c).
Proof.
  intros E. rewrite map_map. apply map_ext_in. intros [w n] I. exact (exact_entry vs c w n E I).
Qed.
Lemma exact_nil vs c : exact_counts vs c -> c = [] <-> valid vs = [].
Proof.
  intros E. split.
  - intros ->. destruct (valid vs) as [|v l] eqn:V; [reflexivity|exfalso]. assert (I : In v (valid vs)) by (rewrite V; now left). apply in_valid in I as [I N].
    destruct (exact_in vs [] v E) as (w & [] & _). now apply occ_in.
  - intros V. destruct c as [|[w n] c]; [reflexivity|exfalso]. destruct E as [(_ & P & _) NN]. inversion P as [|? ? [_ I] _]; subst. inversion NN as [|? ? N _]; subst. cbn in *.
    assert (K : In w (valid vs)) by now apply in_valid. rewrite V in K. destruct K.
Qed.
(* ---- mode ---- *)
Lemma better_irrefl e : better e e = false.
Proof. destruct e as [v n]. unfold better. cbn. rewrite num_ltb_irrefl, andb_false_r, orb_false_r. lia. Qed.
Lemma better_trans a b d : better a b = true -> better b d = true -> better a d = true.
Proof.
  destruct a as [a m], b as [b n], d as [d k]. unfold better. cbn. rewrite !orb_true_iff, !andb_true_iff. intros [H|[H1 H2]] [K|[K1 K2]]; try (left; lia).
  right. split; [lia|]. eapply num_ltb_trans; eassumption.
Qed.
Lemma better_false_trans a b d : is_nan (fst a) = false -> is_nan (fst b) = false -> is_nan (fst d) = false ->
  better a b = false -> better b d = false -> better a d = false.
Proof.
  destruct a as [a m], b as [b n], d as [d k]. unfold better. cbn. intros Na Nb Nd. rewrite !orb_false_iff, !andb_false_iff. intros [H1 H2] [K1 K2]. split; [lia|].
  destruct (Z.eq_dec m k) as [->|]; [|left; lia]. right. assert (n = k) by lia. subst. destruct H2 as [H2|H2]; [lia|]. destruct K2 as [K2|K2]; [lia|].
  destruct (num_ltb a d) eqn:E; [|reflexivity]. destruct (num_total b d Nb Nd) as [L|[L|L]]; [congruence| |].
  - rewrite (num_ltb_eqb_r a b d L) in H2. congruence.
  - rewrite (num_ltb_trans _ _ _ E L) in H2. discriminate.
Qed.
Lemma better_best c : forall e, Forall (fun e => is_nan (fst e) = false) (e :: c) -> let r := fold_left (fun best e => if better e best then e else best) c e in
  In r (e :: c) /\ forall x, In x (e :: c) -> better x r = false.
Proof.
  induction c as [|a c IH]; intros e F r.
  - cbn in r. subst r. split; [now left|]. intros x [<-|[]]. apply better_irrefl.
  - cbn [fold_left] in r. inversion F as [|? ? Fe F']; subst. inversion F' as [|? ? Fa F'']; subst.
    destruct (IH (if better a e then a else e)) as [I M]; [constructor; [now destruct (better a e)|assumption]|]. fold r in I, M.
    assert (Nr : is_nan (fst r) = false).
    { rewrite Forall_forall in F. apply F. destruct I as [I|I]; [|now right; right]. destruct (better a e); rewrite <- I; [right; now left|now left]. }
    split.
    + destruct I as [I|I]; [destruct (better a e); rewrite <- I; [right; now left|now left]|right; now right].
    + pose proof (M _ (or_introl eq_refl)) as M0. intros x [<-|[<-|H]]; [| |apply M; now right].
      * destruct (better a e) eqn:B; [|exact M0]. destruct (better e r) eqn:B'; [|reflexivity]. rewrite (better_trans _ _ _ B B') in M0. discriminate.
      * destruct (better a e) eqn:B; [exact M0|]. eapply (better_false_trans a e r); assumption.
Qed.
Lemma mode_fin_spec vs c : exact_counts vs c -> valid vs = [] /\ mode_fin c = NaN \/ is_mode vs (mode_fin c).
Proof.
  intros E. destruct c as [|e c]; [left; split; [now apply (exact_nil vs [])|reflexivity]|right]. pose proof E as [(A & P & K) NN].
  destruct (better_best c e NN) as [I M]. cbn [mode_fin]. set (r := fold_left (fun best e => if better e best then e else best) c e) in *. clearbody r.
  destruct r as [m n]. cbn [fst]. rewrite Forall_forall in P, NN. destruct (P _ I) as [P1 P2]. pose proof (NN _ I) as Nm. cbn in P1, P2, Nm.
  pose proof (exact_entry _ _ _ _ E I) as En. split; [exact P2|]. split; [exact Nm|]. split.
  - intros v Hv Nv. destruct (exact_in vs (e :: c) v E) as (w & Hw & Ev); [now apply occ_in|]. specialize (M _ Hw). unfold better in M. cbn in M. apply orb_false_iff in M as [M _]. lia.
  - intros v Hv Nv Eo. destruct (exact_in vs (e :: c) v E) as (w & Hw & Ev); [now apply occ_in|]. specialize (M _ Hw). unfold better in M. cbn in M. apply orb_false_iff in M as [_ M].
    rewrite Eo, <- En, Z.eqb_refl in M. cbn in M. rewrite <- (num_ltb_eqb_l v w m Ev) in M. now apply nlt_leb.
Qed.
Lemma mode_zonal zn dn ts z : let rows := flat_map leaves ts in
  zonal_mode zn dn ts z = None /\ zone_cells zn rows z = [] \/
  exists m, zonal_mode zn dn ts z = Some m /\ zone_cells zn rows z <> [] /\
    (zone_valid zn dn rows z = [] /\ m = NaN \/ is_mode (zone_valid zn dn rows z) m).
Proof.
  intros rows. destruct (zonal_spec unique_with_counts combine_values_and_counts mode_fin counts_of exact_counts zn dn ts z) as [[E V]|(c & E & V & Q)].
  - intros vs _. apply unique_ok.
  - intros vss cs _ F. now apply exact_to_counts, combine_ok.
  - intros vss cs _ F. now apply combine_ok.
  - left. split; [exact E|]. now apply (series_nil zn dn).
  - right. exists (mode_fin c). split; [exact E|]. split; [intros H; apply V, series_nil, H|]. rewrite <- series_valid. destruct (mode_fin_spec _ _ Q) as [H|(M1 & M2 & M3 & M4)]; [now left|right].
    split; [now apply in_valid|]. split; [exact M2|]. split; intros v Hv; apply in_valid in Hv as [Hv Nv]; rewrite !occ_valid; auto.
Qed.
(* ---- asm and entropy ---- *)
Lemma fold_counts {S} (term : S -> Z -> S) c : forall a, fold_left (fun acc e => term acc (snd e)) c a = fold_left term (map (@snd num Z) c) a.
Proof. induction c as [|e c IH]; intros a; cbn; [reflexivity|apply IH]. Qed.
Lemma counts_fin_counts {S} zero frac (term : S -> S -> Z -> S) c : counts_fin zero frac term c =
  match map snd c with [] => None | l => Some (fold_left (term (frac (fold_left Z.add l 0))) l zero) end.
Proof.
  unfold counts_fin. destruct c as [|e c]; [reflexivity|]. rewrite (fold_counts (fun a n => term _ a n)), (fold_counts Z.add). reflexivity.
Qed.
(* the counts of the distinct values in ascending order are all that matters *)
Lemma counts_zonal {S} (zero : S) frac term zn dn ts z : let rows := flat_map leaves ts in
  zonal_counts zero frac term zn dn ts z = None /\ zone_cells zn rows z = [] \/
  exists c, exact_counts (series zn dn rows z) c /\ zone_cells zn rows z <> [] /\ zonal_counts zero frac term zn dn ts z = Some (counts_fin zero frac term c).
Proof.
  intros rows. destruct (zonal_spec unique_with_counts combine_values_and_counts (counts_fin zero frac term) counts_of exact_counts zn dn ts z) as [[E V]|(c & E & V & Q)].
  - intros vs _. apply unique_ok.
  - intros vss cs _ F. now apply exact_to_counts, combine_ok.
  - intros vss cs _ F. now apply combine_ok.
  - left. split; [exact E|]. now apply (series_nil zn dn).
  - right. exists c. split; [exact Q|]. split; [intros H; apply V, series_nil, H|exact E].
Qed.
Lemma valid_same vs vs' : valid vs = valid vs' -> forall v, occurrences v vs = occurrences v vs'.
Proof. intros E v. rewrite <- (occ_valid v vs), E, occ_valid. reflexivity. Qed.
Lemma exact_pos vs c : exact_counts vs c -> Forall (fun e => 0 < snd e /\ is_nan (fst e) = false) c.
Proof. intros [(_ & P & _) N]. rewrite Forall_forall in *. intros e He. split; [now apply P|now apply N]. Qed.
Lemma exact_same vs vs' c c' : exact_counts vs c -> exact_counts vs' c' -> (forall v, occurrences v vs = occurrences v vs') -> map snd c = map snd c'.
Proof.
  intros E E' O. pose proof (exact_pos _ _ E). pose proof (exact_pos _ _ E'). destruct E as [(A & _ & K) _], E' as [(A' & _ & K') _].
  assert (F : Forall2 (fun e e' => num_eqb (fst e) (fst e') = true /\ snd e = snd e') c c') by (apply counts_unique; [assumption..|]; intros v; rewrite K, K'; apply O).
  clear - F. induction F as [|e e' l l' [_ F] _ IH]; [reflexivity|]. cbn. now rewrite F, IH.
Qed.
Lemma counts_zonal_same {S} (zero : S) frac term zn dn ts zn' dn' ts' z z' :
  zone_cells zn (flat_map leaves ts) z <> [] -> zone_cells zn' (flat_map leaves ts') z' <> [] ->
  same_values (zone_valid zn dn (flat_map leaves ts) z) (zone_valid zn' dn' (flat_map leaves ts') z') ->
  zonal_counts zero frac term zn dn ts z = zonal_counts zero frac term zn' dn' ts' z'.
Proof.
  intros N N' O. destruct (counts_zonal zero frac term zn dn ts z) as [[_ E]|(c & E & _ & ->)]; [contradiction|].
  destruct (counts_zonal zero frac term zn' dn' ts' z') as [[_ E']|(c' & E' & _ & ->)]; [contradiction|]. f_equal. rewrite !counts_fin_counts.
  rewrite (exact_same _ _ _ _ E E'); [reflexivity|]. intros v. specialize (O v). rewrite <- !series_valid in O. rewrite !occ_valid in O. exact O.
Qed.
Lemma occ_total vs c : exact_counts vs c -> fold_left Z.add (map snd c) 0 = len (valid vs).
Proof.
  intros E. pose proof (distinct_total vs _ (exact_distinct vs c E)) as T. rewrite <- (exact_counts_map vs c E) in T. rewrite <- T. clear.
  assert (G : forall l a, fold_left Z.add l a = a + ChunksSpec.sum l). { induction l as [|x l IH]; intros a; cbn [fold_left]; [cbn; lia|]. rewrite IH, sum_cons. lia. }
  rewrite G. lia.
Qed.
Definition asm_term (f acc : R) (cnt : Z) : R := (let p := IZR cnt * f in acc + p * p)%R.
Definition entropy_term (f acc : R) (cnt : Z) : R := (let p := IZR cnt * f in acc - p * ln p)%R.
Definition frac_R (n : Z) : R := (1 / IZR n)%R.
Lemma fin_sum_counts term vs c : exact_counts vs c -> valid vs <> [] ->
  (forall f a m n, term f (term f a m) n = term f (term f a n) m) ->
  counts_fin 0%R frac_R term c = Some (sum_counts 0%R frac_R term vs).
Proof.
  intros E N T. rewrite counts_fin_counts. rewrite (sum_counts_spec 0%R frac_R term) with (D := map fst c); [|exact T|now apply exact_distinct].
  replace (0 <? len (valid vs)) with true by (destruct (valid vs); [contradiction|rewrite len_cons; pose proof (len_nonneg l); lia]).
  rewrite <- (exact_counts_map vs c E), <- (occ_total vs c E). destruct (map snd c) eqn:M; [|reflexivity]. exfalso. apply N, (exact_nil vs c E). now destruct c.
Qed.
Lemma asm_zonal zn dn ts z : let rows := flat_map leaves ts in let x := zone_valid zn dn rows z in
  zone_cells zn rows z <> [] -> (x = [] /\ zonal_counts 0%R frac_R asm_term zn dn ts z = Some None) \/
  (x <> [] /\ zonal_counts 0%R frac_R asm_term zn dn ts z = Some (Some (asmR x))).
Proof.
  intros rows x N. destruct (counts_zonal 0%R frac_R asm_term zn dn ts z) as [[_ E]|(c & E & _ & ->)]; [contradiction|]. subst x. rewrite <- series_valid. fold rows in E.
  destruct (valid (series zn dn rows z)) as [|v l] eqn:V; [left|right].
  - split; [reflexivity|]. apply (exact_nil _ _ E) in V. now rewrite V.
  - split; [discriminate|]. rewrite <- V. rewrite (fin_sum_counts asm_term _ _ E).
    + do 2 f_equal. change (asmR (series zn dn rows z) = asmR (valid (series zn dn rows z))). apply asm_entropy_same. intros u. now rewrite occ_valid.
    + congruence.
    + intros. unfold asm_term. lra.
Qed.
Lemma entropy_zonal zn dn ts z : let rows := flat_map leaves ts in let x := zone_valid zn dn rows z in
  zone_cells zn rows z <> [] -> (x = [] /\ zonal_counts 0%R frac_R entropy_term zn dn ts z = Some None) \/
  (x <> [] /\ zonal_counts 0%R frac_R entropy_term zn dn ts z = Some (Some (entropyR x))).
Proof.
  intros rows x N. destruct (counts_zonal 0%R frac_R entropy_term zn dn ts z) as [[_ E]|(c & E & _ & ->)]; [contradiction|]. subst x. rewrite <- series_valid. fold rows in E.
  destruct (valid (series zn dn rows z)) as [|v l] eqn:V; [left|right].
  - split; [reflexivity|]. apply (exact_nil _ _ E) in V. now rewrite V.
  - split; [discriminate|]. rewrite <- V. rewrite (fin_sum_counts entropy_term _ _ E).
    + do 2 f_equal. change (entropyR (series zn dn rows z) = entropyR (valid (series zn dn rows z))). apply asm_entropy_same. intros u. now rewrite occ_valid.
    + congruence.
    + intros. unfold entropy_term. lra.
Qed.
(* ---- nunique ---- *)
Lemma filter_valid vs : filter not_nan vs = valid vs. Proof. reflexivity. Qed.
Lemma to_set_fold l : forall s, Forall (fun v => is_nan v = false) l -> fold_left set_add l s = fold_left (fun s v => if is_nan v then s else set_add s v) l s.
Proof. induction l as [|v l IH]; intros s F; [reflexivity|]. inversion F; subst. cbn. rewrite H1. now apply IH. Qed.
Lemma valid_forall vs : Forall (fun v => is_nan v = false) (valid vs).
Proof. apply Forall_forall. intros v H. now apply in_valid in H. Qed.
Lemma to_set_len l : Forall (fun v => is_nan v = false) l -> len (to_set l) = nan_unique_count l.
Proof. intros F. unfold to_set, nan_unique_count. now rewrite to_set_fold. Qed.
Lemma to_set_distinct l : Forall (fun v => is_nan v = false) l -> distinct_values l (to_set l).
Proof. intros F. unfold to_set. rewrite to_set_fold, unique_keys by exact F. apply dict_distinct. Qed.
Lemma set_add_in s v k : In k (set_add s v) -> In k s \/ k = v.
Proof. unfold set_add. destruct (existsb _ s); [auto|]. rewrite in_app_iff. cbn. intros [H|[H|[]]]; auto. Qed.
Lemma to_set_in l : forall s k, In k (fold_left set_add l s) -> In k s \/ In k l.
Proof. induction l as [|v l IH]; intros s k H; cbn in *; [auto|]. apply IH in H as [H|H]; [|auto]. apply set_add_in in H as [H|H]; auto. Qed.
(* s holds exactly the values of vs *)
Definition set_of (vs s : list num) : Prop := (forall k, In k s -> In k (valid vs)) /\ forall v, In v (valid vs) -> exists k, In k s /\ num_eqb k v = true.
Lemma set_chunk vs : set_of vs (to_set (filter not_nan vs)).
Proof.
  rewrite filter_valid. split.
  - intros k H. apply to_set_in in H as [[]|H]. exact H.
  - intros v H. destruct (to_set_distinct _ (valid_forall vs)) as (_ & D & _). apply D; [exact H|]. now apply in_valid in H.
Qed.
Lemma set_concat vss cs : Forall2 set_of vss cs -> set_of (concat vss) (concat cs).
Proof.
  induction 1 as [|vs c vss cs [A B] _ [IH1 IH2]]; [split; [intros ? []|intros ? []]|]. cbn. split.
  - intros k. rewrite valid_app, !in_app_iff. intros [H|H]; auto.
  - intros v. rewrite valid_app, in_app_iff. intros [H|H]; [destruct (B v H) as (k & K1 & K2)|destruct (IH2 v H) as (k & K1 & K2)]; exists k; rewrite in_app_iff; auto.
Qed.
Lemma set_len vs s : set_of vs s -> len (to_set s) = nan_unique_count (valid vs).
Proof.
  intros [A B]. assert (F : Forall (fun v => is_nan v = false) s) by (apply Forall_forall; intros k Hk; apply A, in_valid in Hk; tauto).
  symmetry. apply unique_spec. destruct (to_set_distinct s F) as (D1 & D2 & D3). split; [|split; [|exact D3]].
  - intros v H. apply to_set_in in H as [[]|H]. apply occ_in; [now apply A|]. rewrite Forall_forall in F. now apply F.
  - intros v H N. destruct (B v H) as (k & K1 & K2). rewrite Forall_forall in F. destruct (D2 k K1 (F k K1)) as (u & U1 & U2). exists u. split; [exact U1|]. eapply num_eqb_trans; eassumption.
Qed.
Lemma nunique_zonal zn dn ts z : let rows := flat_map leaves ts in
  zonal_nunique zn dn ts z = if len (zone_cells zn rows z) =? 0 then None else Some (nan_unique_count (zone_valid zn dn rows z)).
Proof.
  intros rows. destruct (zonal_spec (fun vs => to_set (filter not_nan vs)) (@concat num) (fun s => len (to_set s)) set_of set_of zn dn ts z) as [[E V]|(c & E & V & Q)].
  - intros vs _. apply set_chunk.
  - intros vss cs _. apply set_concat.
  - intros vss cs _. apply set_concat.
  - apply series_nil in V. fold rows in V. rewrite V. exact E.
  - unfold zonal_nunique. rewrite E. rewrite <- series_valid. fold rows in Q, V. rewrite (set_len _ _ Q). rewrite series_nil in V.
    destruct (zone_cells zn rows z); [contradiction|]. rewrite len_cons. pose proof (len_nonneg l). replace (1 + len l =? 0) with false by lia. reflexivity.
Qed.
(* ---- count, size ---- *)
Lemma Zsum_acc l : forall a, fold_left Z.add l a = a + Zsum l.
Proof. unfold Zsum. induction l as [|x l IH]; intros a; cbn; [lia|]. rewrite IH, (IH x). lia. Qed.
Lemma Zsum_cons x l : Zsum (x :: l) = x + Zsum l.
Proof. unfold Zsum at 1. cbn. apply Zsum_acc. Qed.
Lemma not_nil {A} (l : list A) : l <> [] -> (len l =? 0) = false.
Proof. destruct l; [contradiction|]. intros _. rewrite len_cons. pose proof (len_nonneg l). lia. Qed.
Lemma measure_zonal (h : list num -> Z) zn dn ts z : (forall l l', h (l ++ l') = h l + h l') -> h [] = 0 -> let rows := flat_map leaves ts in
  zonal_agg h Zsum (fun n => n) zn dn ts z = if len (zone_cells zn rows z) =? 0 then None else Some (h (series zn dn rows z)).
Proof.
  intros H H0 rows. destruct (zonal_spec h Zsum (fun n => n) (fun vs n => n = h vs) (fun vs n => n = h vs) zn dn ts z) as [[E V]|(c & E & V & Q)].
  - reflexivity.
  - intros vss cs _ F. induction F as [|vs c vss cs E _ IH]; [cbn [concat]; now rewrite H0|]. cbn [concat]. now rewrite Zsum_cons, H, IH, E.
  - intros vss cs _ F. induction F as [|vs c vss cs E _ IH]; [cbn [concat]; now rewrite H0|]. cbn [concat]. now rewrite Zsum_cons, H, IH, E.
  - apply series_nil in V. fold rows in V. rewrite V. exact E.
  - rewrite E, Q. rewrite not_nil; [reflexivity|]. now rewrite <- (series_nil zn dn).
Qed.
Lemma count_zonal zn dn ts z : let rows := flat_map leaves ts in
  zonal_count zn dn ts z = if len (zone_cells zn rows z) =? 0 then None else Some (len (zone_valid zn dn rows z)).
Proof.
  intros rows. unfold zonal_count. rewrite measure_zonal; [|intros; now rewrite filter_app, len_app|reflexivity]. fold rows. now rewrite filter_valid, series_valid.
Qed.
Lemma size_zonal zn dn ts z : let rows := flat_map leaves ts in
  zonal_size zn dn ts z = if len (zone_cells zn rows z) =? 0 then None else Some (len (zone_cells zn rows z)).
Proof.
  intros rows. unfold zonal_size. rewrite measure_zonal; [|intros; apply len_app|reflexivity]. fold rows. now rewrite series_cells, len_map.
Qed.
(* ---- min, max ---- *)
Section Extremes.
Variables (f : num -> num -> num) (le : num -> num -> bool).
Hypothesis f_nan_l : forall a b, is_nan a = true -> f a b = b.
Hypothesis f_nan_r : forall a b, is_nan b = true -> f a b = a.
Hypothesis f_sel : forall a b, is_nan a = false -> is_nan b = false -> (f a b = a \/ f a b = b) /\ le (f a b) a = true /\ le (f a b) b = true.
Hypothesis le_refl : forall a, is_nan a = false -> le a a = true.
Hypothesis le_trans : forall a b c, le a b = true -> le b c = true -> le a c = true.
Lemma extreme_handle v l : [extreme f (v :: l)] = handle_empty f (v :: l).
Proof. unfold extreme. cbn. now rewrite f_nan_l. Qed.
Lemma extreme_ext vs : vs <> [] -> ext_of le vs [extreme f vs].
Proof. destruct vs as [|v l]; [contradiction|]. intros _. rewrite extreme_handle. now apply handle_ext. Qed.
Lemma ext_agg vss cs : cs <> [] -> Forall2 (fun vs c => ext_of le vs [c]) vss cs -> ext_of le (concat vss) [extreme f cs].
Proof.
  intros N F. apply (ext_concat le le_refl le_trans vss (map (fun c => [c]) cs)).
  - clear N. induction F; constructor; assumption.
  - replace (concat (map (fun c => [c]) cs)) with cs by (clear; induction cs as [|c cs IH]; [reflexivity|cbn; now rewrite <- IH]). now apply extreme_ext.
Qed.
Lemma extreme_zonal zn dn ts z : let rows := flat_map leaves ts in let x := zone_valid zn dn rows z in
  zonal_agg (extreme f) (extreme f) (fun v => v) zn dn ts z = None /\ zone_cells zn rows z = [] \/
  exists m, zonal_agg (extreme f) (extreme f) (fun v => v) zn dn ts z = Some m /\ zone_cells zn rows z <> [] /\
  (x = [] /\ m = NaN \/ In m x /\ forall v, In v x -> le m v = true).
Proof.
  intros rows x. destruct (zonal_spec (extreme f) (extreme f) (fun v => v) (fun vs c => ext_of le vs [c]) (fun vs c => ext_of le vs [c]) zn dn ts z) as [[E V]|(c & E & V & Q)].
  - apply extreme_ext.
  - intros vss cs. apply ext_agg.
  - intros vss cs. apply ext_agg.
  - left. split; [exact E|]. now apply (series_nil zn dn).
  - right. exists c. split; [exact E|]. fold rows in V, Q. split; [now rewrite <- (series_nil zn dn)|]. subst x. rewrite <- series_valid.
    destruct Q as [[_ Q]|[(_ & A & Q)|(m & Q & I & N & L)]]; [discriminate| |]; injection Q as ->.
    + left. split; [|reflexivity]. unfold valid. clear - A. induction A as [|v l H _ IH]; [reflexivity|]. cbn. now rewrite H.
    + right. split; [now apply in_valid|]. intros v Hv. apply in_valid in Hv as [Hv Nv]. auto.
Qed.
End Extremes.
Definition min_zonal := extreme_zonal fmin num_leb fmin_nan_l fmin_nan_r fmin_sel num_leb_refl num_leb_trans.
Definition max_zonal := extreme_zonal fmax (fun a b => num_leb b a) fmax_nan_l fmax_nan_r fmax_sel num_leb_refl (fun a b c H1 H2 => num_leb_trans c b a H2 H1).
(* ---- sums ---- *)
Section Monoid.
Context {S : Type}.
Variables (inj : num -> S) (zero : S) (add : S -> S -> S).
Hypothesis add_assoc : forall a b c, add (add a b) c = add a (add b c).
Hypothesis add_zero_l : forall a, add zero a = a.
Hypothesis add_zero_r : forall a, add a zero = a.
Lemma fold_add l : forall a, fold_left add l a = add a (fold_left add l zero).
Proof.
  induction l as [|x l IH]; intros a; cbn; [now rewrite add_zero_r|]. rewrite IH, (IH (add zero x)), add_zero_l. apply add_assoc.
Qed.
Lemma fold_add_app l l' : fold_left add (l ++ l') zero = add (fold_left add l zero) (fold_left add l' zero).
Proof. rewrite fold_left_app. apply fold_add. Qed.
Lemma total_zonal zn dn ts z : let rows := flat_map leaves ts in
  zonal_total inj zero add zn dn ts z = if len (zone_cells zn rows z) =? 0 then None else Some (fold_left add (map inj (zone_valid zn dn rows z)) zero).
Proof.
  intros rows.
  assert (A : forall vss cs, cs <> [] -> Forall2 (fun vs c => c = total inj zero add vs) vss cs -> fold_left add cs zero = total inj zero add (concat vss)).
  { intros vss cs _ F. unfold total. induction F as [|vs c vss cs E _ IH]; [reflexivity|]. cbn [concat fold_left]. rewrite fold_add, add_zero_l, filter_app, map_app, fold_add_app, IH. now rewrite E. }
  destruct (zonal_spec (total inj zero add) (fun l => fold_left add l zero) (fun s => s) (fun vs c => c = total inj zero add vs) (fun vs c => c = total inj zero add vs) zn dn ts z) as [[E V]|(c & E & V & Q)].
  - reflexivity.
  - exact A.
  - exact A.
  - apply series_nil in V. fold rows in V. rewrite V. exact E.
  - unfold zonal_total. rewrite E, Q. rewrite not_nil by now rewrite <- (series_nil zn dn). unfold total. now rewrite filter_valid, series_valid.
Qed.
End Monoid.
Lemma fold_Rplus l : fold_left Rplus l 0%R = fold_right Rplus 0%R l.
Proof.
  assert (G : forall l a, fold_left Rplus l a = (a + fold_right Rplus 0 l)%R). { clear l. induction l as [|x l IH]; intros a; cbn; [lra|]. rewrite IH. lra. }
  rewrite G. lra.
Qed.
Lemma sum_zonal inj zn dn ts z : let rows := flat_map leaves ts in
  zonal_total inj 0%R Rplus zn dn ts z = if len (zone_cells zn rows z) =? 0 then None else Some (Rsum inj (zone_valid zn dn rows z)).
Proof. intros rows. rewrite (total_zonal inj 0%R Rplus); [|intros; lra..]. fold rows. now rewrite fold_Rplus. Qed.
Definition Rprod (f : num -> R) (l : list num) : R := fold_right Rmult 1%R (map f l).
Lemma prod_zonal inj zn dn ts z : let rows := flat_map leaves ts in
  zonal_total inj 1%R Rmult zn dn ts z = if len (zone_cells zn rows z) =? 0 then None else Some (Rprod inj (zone_valid zn dn rows z)).
Proof.
  intros rows. rewrite (total_zonal inj 1%R Rmult); [|intros; lra..]. fold rows. destruct (_ =? 0); [reflexivity|]. f_equal. unfold Rprod. generalize (map inj (zone_valid zn dn rows z)). intros l.
  assert (G : forall l a, fold_left Rmult l a = (a * fold_right Rmult 1 l)%R). { clear l. induction l as [|x l IH]; intros a; cbn; [lra|]. rewrite IH. lra. }
  rewrite G. lra.
Qed.
Lemma Rsum_app f l l' : Rsum f (l ++ l') = (Rsum f l + Rsum f l')%R.
Proof. unfold Rsum. induction l as [|x l IH]; cbn; [lra|]. rewrite IH. lra. Qed.
Lemma total_R inj vs : total inj 0%R Rplus vs = Rsum inj (valid vs).
Proof. unfold total. now rewrite fold_Rplus. Qed.
Lemma total2_R inj vs : total2 inj 0%R Rplus Rmult vs = Rsum (fun v => inj v * inj v)%R (valid vs).
Proof. unfold total2. now rewrite fold_Rplus. Qed.
Lemma Rsum_sum {C} (g : C -> R) (h : num -> R) vss cs : Forall2 (fun vs c => g c = Rsum h (valid vs)) vss cs -> fold_left Rplus (map g cs) 0%R = Rsum h (valid (concat vss)).
Proof. rewrite fold_Rplus. induction 1 as [|vs c vss cs E _ IH]; [reflexivity|]. cbn [concat map fold_right]. now rewrite valid_app, Rsum_app, E, IH. Qed.
Lemma Zsum_sum {C} (g : C -> Z) vss cs : Forall2 (fun vs c => g c = len (valid vs)) vss cs -> Zsum (map g cs) = len (valid (concat vss)).
Proof. induction 1 as [|vs c vss cs E _ IH]; [reflexivity|]. cbn [concat map]. now rewrite Zsum_cons, valid_app, len_app, E, IH. Qed.
Lemma forall2_weaken {A B} (P Q : A -> B -> Prop) l l' : (forall a b, P a b -> Q a b) -> Forall2 P l l' -> Forall2 Q l l'.
Proof. intros H. induction 1; constructor; auto. Qed.
Lemma mean_zonal inj zn dn ts z : let rows := flat_map leaves ts in let x := zone_valid zn dn rows z in
  zonal_mean inj 0%R Rplus Rdiv IZR zn dn ts z =
  if len (zone_cells zn rows z) =? 0 then None else Some (if len x =? 0 then None else Some (Rsum inj x / IZR (len x))%R).
Proof.
  intros rows x. set (P := fun (vs : list num) (c : R * Z) => c = (Rsum inj (valid vs), len (valid vs))).
  assert (A : forall vss cs, cs <> [] -> Forall2 P vss cs -> P (concat vss) (fold_left Rplus (map fst cs) 0%R, Zsum (map snd cs))).
  { intros vss cs _ F. unfold P. f_equal.
    - apply Rsum_sum. eapply forall2_weaken; [|exact F]. now intros vs c ->.
    - apply Zsum_sum. eapply forall2_weaken; [|exact F]. now intros vs c ->. }
  assert (A0 : forall vs, vs <> [] -> P vs (total inj 0%R Rplus vs, len (filter not_nan vs))).
  { intros vs _. unfold P. now rewrite total_R. }
  unfold zonal_mean. set (fin := fun '(s, n) => _). destruct (zonal_spec _ (fun l => (fold_left Rplus (map fst l) 0%R, Zsum (map snd l))) fin P P zn dn ts z A0 A A) as [[E V]|(c & E & V & Q)].
  - rewrite E. apply series_nil in V. fold rows in V. now rewrite V.
  - rewrite E. fold rows in V, Q. rewrite not_nil by now rewrite <- (series_nil zn dn). rewrite Q. unfold fin. now rewrite series_valid.
Qed.
Lemma var_identity inj x : (0 < len x) -> let n := IZR (len x) in let m := (Rsum inj x / n)%R in
  (Rsum (fun v => inj v * inj v) x - Rsum inj x * Rsum inj x / n)%R = Rsum (fun v => (inj v - m) ^ 2)%R x.
Proof.
  intros L n m. assert (Hn : (n <> 0)%R) by (apply not_0_IZR; lia).
  assert (G : forall a l, Rsum (fun v => (inj v - a) ^ 2)%R l = (Rsum (fun v => inj v * inj v) l - 2 * a * Rsum inj l + IZR (len l) * a * a)%R).
  { clear. intros a l. unfold Rsum. induction l as [|v l IH]; [cbn; ring|]. cbn [map fold_right]. rewrite IH, len_cons, plus_IZR. ring. }
  rewrite G. fold n. unfold m. field. exact Hn.
Qed.
Lemma var_zonal inj zn dn ts z : let rows := flat_map leaves ts in let x := zone_valid zn dn rows z in
  zonal_var inj 0%R Rplus Rdiv IZR Rmult Rminus zn dn ts z =
  if len (zone_cells zn rows z) =? 0 then None
  else Some (if len x <=? 1 then None else Some (Rsum (fun v => (inj v - Rsum inj x / IZR (len x)) ^ 2) x / IZR (len x - 1))%R).
Proof.
  intros rows x. set (P := fun (vs : list num) (c : Z * R * R) => c = (len (valid vs), Rsum inj (valid vs), Rsum (fun v => inj v * inj v)%R (valid vs))).
  assert (A : forall vss cs, cs <> [] -> Forall2 P vss cs ->
    P (concat vss) (Zsum (map (fun e => fst (fst e)) cs), fold_left Rplus (map (fun e => snd (fst e)) cs) 0%R, fold_left Rplus (map snd cs) 0%R)).
  { intros vss cs _ F. unfold P. f_equal; [f_equal|].
    - apply Zsum_sum. eapply forall2_weaken; [|exact F]. now intros vs c ->.
    - apply (Rsum_sum (fun e : Z * R * R => snd (fst e))). eapply forall2_weaken; [|exact F]. now intros vs c ->.
    - apply (Rsum_sum (@snd (Z * R) R)). eapply forall2_weaken; [|exact F]. now intros vs c ->. }
  assert (A0 : forall vs, vs <> [] -> P vs (len (filter not_nan vs), total inj 0%R Rplus vs, total2 inj 0%R Rplus Rmult vs)).
  { intros vs _. unfold P. now rewrite total_R, total2_R. }
  unfold zonal_var. set (fin := fun '(n, x, x2) => _).
  destruct (zonal_spec _ (fun l => (Zsum (map (fun e => fst (fst e)) l), fold_left Rplus (map (fun e => snd (fst e)) l) 0%R, fold_left Rplus (map snd l) 0%R)) fin P P zn dn ts z A0 A A) as [[E V]|(c & E & V & Q)].
  - rewrite E. apply series_nil in V. fold rows in V. now rewrite V.
  - rewrite E. fold rows in V, Q. rewrite not_nil by now rewrite <- (series_nil zn dn). rewrite Q. unfold fin. rewrite series_valid. fold x.
    destruct (len x <=? 1) eqn:L; [reflexivity|]. now rewrite var_identity by lia.
Qed.
