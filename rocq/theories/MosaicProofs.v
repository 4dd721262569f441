From Verif Require Import BaseFacts F64 F64Facts Mosaic MosaicSpec.
From Coq Require Import ZifyBool ZifyNat Permutation.
From Flocq Require Import Core BinarySingleNaN.
Open Scope Z_scope.

Section Recursive.
Context {V : Type}.
Variable paint : list V -> res V.
Variable P : list V -> V -> Prop.
Hypothesis paint_ok : forall l, l <> [] -> exists v, paint l = Ok v /\ P l v.
Hypothesis paint_join : forall l1 l2 a b v,
  P l1 a -> P l2 b -> P [a; b] v -> P (l1 ++ l2) v.

Lemma paint_recursive_ok fuel : forall l, l <> [] -> (length l <= fuel)%nat ->
  exists v, paint_recursive fuel paint l = Ok v /\ P l v.
Proof.
  induction fuel as [|f IH]; intros l Hl Hf.
  - destruct l; [congruence|cbn in Hf; lia].
  - cbn [paint_recursive]. destruct (len l <? 8) eqn:E; [now apply paint_ok|].
    set (h := Z.to_nat (len l / 2)).
    assert (Hh : (1 <= h < length l)%nat).
    { unfold len in *. subst h.
      pose proof (Z.div_lt_upper_bound (Z.of_nat (length l)) 2 (Z.of_nat (length l))) as Q.
      pose proof (Z.div_le_lower_bound (Z.of_nat (length l)) 2 1) as Q2. lia. }
    destruct (IH (firstn h l)) as (a & Ea & Pa).
    { intros C. apply (f_equal (@length V)) in C. rewrite firstn_length in C. cbn in C. lia. }
    { rewrite firstn_length. lia. }
    destruct (IH (skipn h l)) as (b & Eb & Pb).
    { intros C. apply (f_equal (@length V)) in C. rewrite skipn_length in C. cbn in C. lia. }
    { rewrite skipn_length. lia. }
    rewrite Ea. cbn [rbind]. rewrite Eb. cbn [rbind].
    destruct (IH [a; b]) as (v & Ev & Pv).
    { discriminate. }
    { unfold len in E. cbn [length]. lia. }
    exists v. split; [exact Ev|]. rewrite <- (firstn_skipn h l). eapply paint_join; eauto.
Qed.

Lemma single_band_ok nodata srcs :
  exists v, single_band nodata paint srcs = Ok v /\ P (rev srcs ++ [nodata]) v.
Proof.
  unfold single_band. apply paint_recursive_ok; [|lia].
  intros C. apply (f_equal (@length V)) in C. rewrite app_length in C. cbn in C. lia.
Qed.

(* Short stacks are painted directly. *)
Lemma single_band_short nodata srcs : (length srcs <= 6)%nat ->
  single_band nodata paint srcs = paint (rev srcs ++ [nodata]).
Proof using.
  clear paint_join paint_ok P. intros H. unfold single_band. rewrite app_length, rev_length. cbn [length].
  replace (length srcs + 1)%nat with (S (length srcs)) by lia. cbn [paint_recursive].
  destruct (len (rev srcs ++ [nodata]) <? 8) eqn:E; [reflexivity|].
  unfold len in E. rewrite app_length, rev_length in E. cbn [length] in E. lia.
Qed.
End Recursive.

(* ---------------- first / last ---------------- *)

Section First.
Context {V : Type} (missing : V -> bool).
Notation valid := (valid missing).
Notation push_from := (push_from missing).

(* the last valid value of a stack *)
Definition top (l : list V) (v : V) : Prop := is_last missing l v.

Lemma valid_app l1 l2 : valid (l1 ++ l2) = valid l1 ++ valid l2.
Proof. apply filter_app. Qed.

Lemma valid_nil l : valid l = [] <-> forall v, In v l -> missing v = true.
Proof.
  induction l as [|x l IH]; cbn.
  - split; [intros _ v []|reflexivity].
  - destruct (missing x) eqn:E; cbn [negb].
    + rewrite IH. split; [intros H v [<-|Hv]; auto|auto].
    + split; [discriminate|]. intros H. specialize (H x (or_introl eq_refl)). congruence.
Qed.

Lemma valid_in l v : In v (valid l) <-> In v l /\ missing v = false.
Proof. unfold MosaicSpec.valid. rewrite filter_In, negb_true_iff. tauto. Qed.

Lemma top_app l1 l2 v1 v2 : top l1 v1 -> top l2 v2 ->
  top (l1 ++ l2) (push_binop_last missing v1 v2).
Proof.
  unfold top, is_last, push_binop_last. rewrite valid_app, rev_app_distr.
  intros H1 H2. destruct (rev (valid l2)) as [|x t] eqn:E2; cbn [app].
  - rewrite H2. exact H1.
  - subst v2. assert (M : missing x = false).
    { apply (valid_in l2). apply in_rev. rewrite E2. now left. }
    now rewrite M.
Qed.

Lemma top_single x : top [x] x.
Proof. unfold top, is_last. cbn. destruct (missing x) eqn:E; cbn; auto. Qed.

Lemma push_from_last l : forall prev pre d, top pre prev ->
  top (pre ++ l) (last (push_from prev l) prev)
  /\ (l <> [] -> last (push_from prev l) d = last (push_from prev l) prev).
Proof.
  induction l as [|x l IH]; intros prev pre d H.
  - cbn. rewrite app_nil_r. split; [exact H|congruence].
  - cbn [Mosaic.push_from]. set (y := if missing x then prev else x).
    assert (Hy : top (pre ++ [x]) y).
    { change y with (push_binop_last missing prev x). apply top_app; auto. apply top_single. }
    destruct (IH y (pre ++ [x]) y Hy) as [I1 _].
    rewrite <- app_assoc in I1. cbn [app] in I1.
    assert (EL : forall e, last (y :: push_from y l) e = last (push_from y l) y).
    { intros e. destruct l as [|z l]; [reflexivity|].
      destruct (IH y (pre ++ [x]) e Hy) as [_ I2].
      cbn [Mosaic.push_from] in I2 |- *. cbn [last].
      change (last ((if missing z then y else z) :: push_from (if missing z then y else z) l) e
              = last ((if missing z then y else z) :: push_from (if missing z then y else z) l) y).
      apply I2. discriminate. }
    cbv zeta. rewrite !EL. auto.
Qed.

Lemma push_take_last_top x l : top (x :: l) (push_take_last missing x l).
Proof.
  unfold push_take_last, push.
  assert (EL : last (x :: push_from x l) x = last (push_from x l) x).
  { destruct (push_from x l); reflexivity. }
  rewrite EL. apply (push_from_last l x [x] x (top_single x)).
Qed.

Lemma tree_value_top t : top (tree_layers t) (tree_value missing t).
Proof.
  induction t as [x l|a IHa b IHb]; cbn.
  - apply push_take_last_top.
  - now apply top_app.
Qed.

Lemma last_irrel {A} (l : list A) : forall x d e, last (x :: l) d = last (x :: l) e.
Proof.
  induction l as [|y l IH]; intros x d e; [reflexivity|]. exact (IH y d e).
Qed.

Lemma last_map_ne {A B} (f : A -> B) l : forall x d, last (map f (x :: l)) d = f (last (x :: l) x).
Proof.
  induction l as [|y l IH]; intros x d; [reflexivity|].
  change (last (map f (y :: l)) d = f (last (y :: l) x)). rewrite IH. f_equal. apply last_irrel.
Qed.

Lemma dask_push_top k : top (ck_layers k) (dask_push_take_last missing k).
Proof.
  unfold dask_push_take_last, ck_layers. destruct (ck_prefix k) as [t|].
  - cbn [push]. rewrite last_map_ne.
    apply top_app; [apply tree_value_top|]. apply push_take_last_top.
  - apply push_take_last_top.
Qed.

Variable chunk : list V -> option (chunked V).
Hypothesis chunkable : chunk_ok chunk.

Lemma paint_first_ok l : l <> [] ->
  exists v, paint_first missing chunk l = Ok v /\ top l v.
Proof.
  intros Hl. unfold paint_first. destruct (chunkable l Hl) as (k & -> & <-).
  eexists. split; [reflexivity|]. apply dask_push_top.
Qed.

Lemma top_two l1 l2 a b v : top l1 a -> top l2 b -> top [a; b] v -> top (l1 ++ l2) v.
Proof.
  intros Ha Hb Hv. pose proof (top_app _ _ _ _ Ha Hb) as T.
  revert Hv. unfold top, is_last, push_binop_last in *. cbn.
  destruct (missing b) eqn:Eb; destruct (missing a) eqn:Ea; cbn; intros Hv.
  - destruct (rev (valid (l1 ++ l2))) as [|x t] eqn:E; [exact Hv|]. exfalso.
    subst x. assert (Q : In a (valid (l1 ++ l2))) by (apply in_rev; rewrite E; now left).
    apply valid_in in Q. destruct Q. congruence.
  - destruct (rev (valid (l1 ++ l2))) as [|x t] eqn:E; congruence.
  - destruct (rev (valid (l1 ++ l2))) as [|x t] eqn:E; congruence.
  - destruct (rev (valid (l1 ++ l2))) as [|x t] eqn:E; congruence.
Qed.

Lemma first_last_rev l v : is_last missing (rev l) v <-> is_first missing l v.
Proof.
  unfold is_last, is_first.
  assert (E : forall l, rev (valid (rev l)) = valid l).
  { clear. induction l as [|x l IH]; [reflexivity|].
    cbn [rev]. rewrite valid_app, rev_app_distr, IH. cbn. destruct (missing x); reflexivity. }
  now rewrite E.
Qed.

Variable nodata : V.
Hypothesis nodata_missing : missing nodata = true.

Lemma valid_snoc_nodata l : valid (l ++ [nodata]) = valid l.
Proof. rewrite valid_app. cbn. rewrite nodata_missing. cbn. apply app_nil_r. Qed.

Theorem mosaic_first srcs :
  exists v, single_band nodata (paint_first missing chunk) srcs = Ok v
    /\ is_first missing srcs v.
Proof.
  destruct (single_band_ok (paint_first missing chunk) top paint_first_ok top_two nodata srcs)
    as (v & E & T).
  exists v. split; [exact E|]. apply first_last_rev.
  unfold top, is_last in *. now rewrite valid_snoc_nodata in T.
Qed.

Definition bottom (l : list V) (v : V) : Prop := is_first missing l v.

Lemma paint_last_ok l : l <> [] ->
  exists v, paint_last missing chunk l = Ok v /\ bottom l v.
Proof.
  intros Hl. destruct (paint_first_ok (rev l)) as (v & E & T).
  { intros C. apply (f_equal (@rev V)) in C. rewrite rev_involutive in C. auto. }
  exists v. split; [exact E|]. now apply first_last_rev.
Qed.

Lemma bottom_two l1 l2 a b v : bottom l1 a -> bottom l2 b -> bottom [a; b] v ->
  bottom (l1 ++ l2) v.
Proof.
  unfold bottom. intros Ha Hb Hv.
  apply first_last_rev. rewrite rev_app_distr.
  apply (top_two _ _ b a); try (now apply first_last_rev).
  apply first_last_rev in Hv. exact Hv.
Qed.

Theorem mosaic_last srcs :
  exists v, single_band nodata (paint_last missing chunk) srcs = Ok v
    /\ is_last missing srcs v.
Proof.
  destruct (single_band_ok (paint_last missing chunk) bottom paint_last_ok bottom_two nodata srcs)
    as (v & E & T).
  exists v. split; [exact E|]. rewrite <- (rev_involutive srcs). apply first_last_rev.
  unfold bottom, is_first in *. now rewrite valid_snoc_nodata in T.
Qed.

End First.

(* ---------------- min / max ---------------- *)

Section Extremum.
Context {V : Type} (missing nan : V -> bool) (le : V -> V -> bool).
Hypothesis le_trans : forall a b c, le a b = true -> le b c = true -> le a c = true.
Notation valid := (valid missing).
Notation ext := (is_extremum missing nan le).
Notation numbers l := (filter (fun v => negb (nan v)) (valid l)).

Lemma numbers_in l v : In v (numbers l) <-> In v l /\ missing v = false /\ nan v = false.
Proof. rewrite filter_In, negb_true_iff, valid_in. tauto. Qed.

(* The three cases in one form that is easy to combine. *)
Definition ext' (l : list V) (v : V) : Prop :=
  (missing v = true /\ forall u, In u l -> missing u = true)
  \/ (missing v = false /\ nan v = true /\ (exists u, In u l /\ missing u = false)
      /\ forall u, In u l -> missing u = false -> nan u = true)
  \/ (In v l /\ missing v = false /\ nan v = false
      /\ forall u, In u l -> missing u = false -> nan u = false -> le v u = true).

Lemma ext_ext' l v : ext' l v -> ext l v.
Proof.
  unfold is_extremum. intros H. destruct (numbers l) as [|x t] eqn:E.
  - destruct H as [[M A]|[(M & N & (u & Hu & Mu) & A)|(I & M & N & A)]].
    + split; [auto|]. intros C. elim C. now apply valid_nil.
    + split; [|auto]. intros C. rewrite (valid_nil missing l) in C. rewrite C in Mu; congruence.
    + exfalso. assert (Q : In v (numbers l)) by (apply numbers_in; auto).
      rewrite E in Q. destruct Q.
  - assert (Q : In x (numbers l)) by (rewrite E; now left).
    apply numbers_in in Q. destruct Q as (Q1 & Q2 & Q3). rewrite <- E.
    destruct H as [[M A]|[(M & N & _ & A)|(I & M & N & A)]].
    + rewrite A in Q2 by assumption. discriminate.
    + rewrite A in Q3 by assumption. discriminate.
    + split; [now apply numbers_in|]. intros u Hu. apply numbers_in in Hu. apply A; tauto.
Qed.

Lemma ext'_two l1 l2 a b v : ext' l1 a -> ext' l2 b -> ext' [a; b] v -> ext' (l1 ++ l2) v.
Proof.
  intros Ha Hb Hv. unfold ext' in *. cbn [In] in Hv.
  destruct Hv as [[Mv Av]|[(Mv & Nv & (u & Hu & Mu) & Av)|(Iv & Mv & Nv & Av)]].
  - left. split; [exact Mv|].
    pose proof (Av a (or_introl eq_refl)) as Ma.
    pose proof (Av b (or_intror (or_introl eq_refl))) as Mb.
    intros u Hu. apply in_app_or in Hu.
    destruct Ha as [[_ A]|[(C & _)|(_ & C & _)]]; try congruence.
    destruct Hb as [[_ B]|[(C & _)|(_ & C & _)]]; try congruence.
    destruct Hu; auto.
  - right; left. split; [exact Mv|]. split; [exact Nv|].
    assert (NA : forall u, In u l1 -> missing u = false -> nan u = true).
    { intros w Hw Mw. destruct Ha as [[_ A]|[(_ & _ & _ & A)|(_ & C & D & _)]].
      - rewrite A in Mw by assumption. discriminate.
      - auto.
      - rewrite (Av a) in D; auto; discriminate. }
    assert (NB : forall u, In u l2 -> missing u = false -> nan u = true).
    { intros w Hw Mw. destruct Hb as [[_ A]|[(_ & _ & _ & A)|(_ & C & D & _)]].
      - rewrite A in Mw by assumption. discriminate.
      - auto.
      - rewrite (Av b) in D; auto; discriminate. }
    split.
    + destruct Hu as [<-|[<-|[]]].
      * destruct Ha as [[C _]|[(_ & _ & (w & Hw & Mw) & _)|(C & D & _)]]; [congruence| |].
        -- exists w. split; [apply in_or_app; auto|exact Mw].
        -- exists a. split; [apply in_or_app; auto|exact D].
      * destruct Hb as [[C _]|[(_ & _ & (w & Hw & Mw) & _)|(C & D & _)]]; [congruence| |].
        -- exists w. split; [apply in_or_app; auto|exact Mw].
        -- exists b. split; [apply in_or_app; auto|exact D].
    + intros w Hw Mw. apply in_app_or in Hw. destruct Hw; auto.
  - right; right.
    assert (LA : forall u, In u l1 -> missing u = false -> nan u = false -> le v u = true).
    { intros w Hw Mw Nw. destruct Ha as [[_ A]|[(_ & _ & _ & A)|(_ & C & D & A)]].
      - rewrite A in Mw by assumption. discriminate.
      - rewrite A in Nw by assumption. discriminate.
      - apply le_trans with a; [apply Av; auto|apply A; auto]. }
    assert (LB : forall u, In u l2 -> missing u = false -> nan u = false -> le v u = true).
    { intros w Hw Mw Nw. destruct Hb as [[_ A]|[(_ & _ & _ & A)|(_ & C & D & A)]].
      - rewrite A in Mw by assumption. discriminate.
      - rewrite A in Nw by assumption. discriminate.
      - apply le_trans with b; [apply Av; auto|apply A; auto]. }
    split.
    + apply in_or_app. destruct Iv as [<-|[<-|[]]].
      * left. destruct Ha as [[C _]|[(_ & C & _)|(C & _)]]; congruence || assumption.
      * right. destruct Hb as [[C _]|[(_ & C & _)|(C & _)]]; congruence || assumption.
    + split; [exact Mv|]. split; [exact Nv|].
      intros w Hw Mw Nw. apply in_app_or in Hw. destruct Hw; auto.
Qed.

Lemma ext'_stack srcs nodata v : missing nodata = true ->
  ext' (rev srcs ++ [nodata]) v -> ext srcs v.
Proof.
  intros M H. apply ext_ext'. unfold ext' in *.
  assert (IFF : forall u, missing u = false -> (In u (rev srcs ++ [nodata]) <-> In u srcs)).
  { intros u Mu. rewrite in_app_iff, <- in_rev. cbn. split; [|auto].
    intros [H1|[<-|[]]]; [auto|congruence]. }
  destruct H as [[Mv A]|[(Mv & N & (u & Hu & Mu) & A)|(I & Mv & N & A)]].
  - left. split; [exact Mv|]. intros u Hu. apply A. apply in_or_app. left. now apply in_rev in Hu.
  - right; left. split; [exact Mv|]. split; [exact N|]. split.
    + exists u. split; [now apply IFF|exact Mu].
    + intros w Hw Mw. apply A; [now apply IFF|exact Mw].
  - right; right. split; [now apply IFF|]. split; [exact Mv|]. split; [exact N|].
    intros w Hw Mw. apply A; [now apply IFF|exact Mw].
Qed.

End Extremum.

(* integers *)
Section IntExt.
Variables lo hi nodata : Z.
Notation imissing := (imissing nodata).
Definition never (_ : Z) : bool := false.

Lemma fold_min_spec t : forall x, In (fold_left Z.min t x) (x :: t)
  /\ forall u, In u (x :: t) -> fold_left Z.min t x <= u.
Proof.
  induction t as [|y t IH]; intros x; cbn [fold_left].
  - split; [now left|]. intros u [<-|[]]; lia.
  - destruct (IH (Z.min x y)) as [I1 I2]. split.
    + destruct I1 as [I1|I1]; [|right; now right].
      rewrite <- I1. destruct (Z.min_spec x y) as [[_ ->]|[_ ->]]; [now left|right; now left].
    + intros u [<-|[<-|Hu]].
      * specialize (I2 (Z.min x y) (or_introl eq_refl)). lia.
      * specialize (I2 (Z.min x y) (or_introl eq_refl)). lia.
      * apply I2. now right.
Qed.

Lemma fold_max_spec t : forall x, In (fold_left Z.max t x) (x :: t)
  /\ forall u, In u (x :: t) -> u <= fold_left Z.max t x.
Proof.
  induction t as [|y t IH]; intros x; cbn [fold_left].
  - split; [now left|]. intros u [<-|[]]; lia.
  - destruct (IH (Z.max x y)) as [I1 I2]. split.
    + destruct I1 as [I1|I1]; [|right; now right].
      rewrite <- I1. destruct (Z.max_spec x y) as [[_ ->]|[_ ->]]; [right; now left|now left].
    + intros u [<-|[<-|Hu]].
      * specialize (I2 (Z.max x y) (or_introl eq_refl)). lia.
      * specialize (I2 (Z.max x y) (or_introl eq_refl)). lia.
      * apply I2. now right.
Qed.

Lemma forallb_missing l : forallb imissing l = false ->
  exists u, In u l /\ imissing u = false.
Proof.
  induction l as [|x l IH]; cbn; [discriminate|].
  destruct (imissing x) eqn:E; cbn.
  - intros H. destruct (IH H) as (u & Hu & Mu). eauto.
  - intros _. eauto.
Qed.

(* The dtype bounds every value that takes part. *)
Definition bounded (l : list Z) : Prop := forall v, In v l -> lo <= v <= hi.

Definition minP (l : list Z) (v : Z) : Prop :=
  bounded l -> ext' imissing never Z.leb l v /\ (lo <= nodata <= hi -> lo <= v <= hi).
Definition maxP (l : list Z) (v : Z) : Prop :=
  bounded l -> ext' imissing never Z.geb l v /\ (lo <= nodata <= hi -> lo <= v <= hi).

Lemma paint_imin_ok l : l <> [] -> exists v, paint_imin (mkIinfo lo hi) nodata l = Ok v /\ minP l v.
Proof.
  intros Hl. unfold paint_imin. cbn [i_min i_max].
  destruct (map (fun v => if imissing v then hi else v) l) as [|x t] eqn:EM.
  { destruct l; [congruence|discriminate]. }
  eexists. split; [reflexivity|]. intros B.
  destruct (forallb imissing l) eqn:EA.
  - split; [|auto]. left. split; [unfold Mosaic.imissing; lia|]. now apply forallb_forall.
  - destruct (fold_min_spec t x) as [I1 I2]. rewrite <- EM in I1, I2.
    set (m := fold_left Z.min t x) in *.
    destruct (forallb_missing l EA) as (u & Hu & Mu).
    assert (LE : forall w, In w l -> imissing w = false -> m <= w).
    { intros w Hw Mw. apply I2. apply in_map_iff. exists w. now rewrite Mw. }
    apply in_map_iff in I1. destruct I1 as (w & Ew & Hw).
    destruct (imissing w) eqn:Mw.
    + (* the sentinel is minimal: every valid value equals it *)
      assert (u = hi).
      { specialize (LE u Hu Mu). specialize (B u Hu). lia. }
      subst u. split; [|rewrite <- Ew; specialize (B hi Hu); lia].
      right; right. rewrite <- Ew. split; [exact Hu|]. split; [exact Mu|].
      split; [reflexivity|]. intros z Hz Mz _. specialize (LE z Hz Mz). lia.
    + split; [|rewrite <- Ew; specialize (B w Hw); lia].
      right; right. rewrite <- Ew. split; [exact Hw|]. split; [exact Mw|].
      split; [reflexivity|]. intros z Hz Mz _. specialize (LE z Hz Mz). lia.
Qed.

Lemma paint_imax_ok l : l <> [] -> exists v, paint_imax (mkIinfo lo hi) nodata l = Ok v /\ maxP l v.
Proof.
  intros Hl. unfold paint_imax. cbn [i_min i_max].
  destruct (map (fun v => if imissing v then lo else v) l) as [|x t] eqn:EM.
  { destruct l; [congruence|discriminate]. }
  eexists. split; [reflexivity|]. intros B.
  destruct (forallb imissing l) eqn:EA.
  - split; [|auto]. left. split; [unfold Mosaic.imissing; lia|]. now apply forallb_forall.
  - destruct (fold_max_spec t x) as [I1 I2]. rewrite <- EM in I1, I2.
    set (m := fold_left Z.max t x) in *.
    destruct (forallb_missing l EA) as (u & Hu & Mu).
    assert (LE : forall w, In w l -> imissing w = false -> w <= m).
    { intros w Hw Mw. apply I2. apply in_map_iff. exists w. now rewrite Mw. }
    apply in_map_iff in I1. destruct I1 as (w & Ew & Hw).
    destruct (imissing w) eqn:Mw.
    + assert (u = lo).
      { specialize (LE u Hu Mu). specialize (B u Hu). lia. }
      subst u. split; [|rewrite <- Ew; specialize (B lo Hu); lia].
      right; right. rewrite <- Ew. split; [exact Hu|]. split; [exact Mu|].
      split; [reflexivity|]. intros z Hz Mz _. specialize (LE z Hz Mz). lia.
    + split; [|rewrite <- Ew; specialize (B w Hw); lia].
      right; right. rewrite <- Ew. split; [exact Hw|]. split; [exact Mw|].
      split; [reflexivity|]. intros z Hz Mz _. specialize (LE z Hz Mz). lia.
Qed.

Hypothesis nodata_in : lo <= nodata <= hi.

Lemma bounded_app l1 l2 : bounded (l1 ++ l2) <-> bounded l1 /\ bounded l2.
Proof.
  unfold bounded. split.
  - intros H. split; intros v Hv; apply H; apply in_or_app; auto.
  - intros [H1 H2] v Hv. apply in_app_or in Hv. destruct Hv; auto.
Qed.

Lemma minP_two l1 l2 a b v : minP l1 a -> minP l2 b -> minP [a; b] v -> minP (l1 ++ l2) v.
Proof.
  unfold minP. intros Ha Hb Hv B. apply bounded_app in B. destruct B as [B1 B2].
  destruct (Ha B1) as [E1 R1]. destruct (Hb B2) as [E2 R2].
  specialize (R1 nodata_in). specialize (R2 nodata_in).
  destruct Hv as [E3 R3].
  { intros w [<-|[<-|[]]]; assumption. }
  split; [|exact R3]. eapply ext'_two; eauto. intros x y z; lia.
Qed.

Lemma maxP_two l1 l2 a b v : maxP l1 a -> maxP l2 b -> maxP [a; b] v -> maxP (l1 ++ l2) v.
Proof.
  unfold maxP. intros Ha Hb Hv B. apply bounded_app in B. destruct B as [B1 B2].
  destruct (Ha B1) as [E1 R1]. destruct (Hb B2) as [E2 R2].
  specialize (R1 nodata_in). specialize (R2 nodata_in).
  destruct Hv as [E3 R3].
  { intros w [<-|[<-|[]]]; assumption. }
  split; [|exact R3]. eapply ext'_two; eauto. intros x y z; lia.
Qed.

Theorem mosaic_imin srcs : bounded srcs ->
  exists v, single_band nodata (paint_imin (mkIinfo lo hi) nodata) srcs = Ok v
    /\ is_extremum imissing never Z.leb srcs v.
Proof.
  intros B.
  destruct (single_band_ok (paint_imin (mkIinfo lo hi) nodata) minP paint_imin_ok minP_two nodata srcs)
    as (v & E & H).
  exists v. split; [exact E|]. destruct H as [H _].
  - apply bounded_app. split; [intros w Hw; apply B; now apply in_rev|].
    intros w [<-|[]]; exact nodata_in.
  - eapply ext'_stack; [|exact H]. unfold Mosaic.imissing. lia.
Qed.

Theorem mosaic_imax srcs : bounded srcs ->
  exists v, single_band nodata (paint_imax (mkIinfo lo hi) nodata) srcs = Ok v
    /\ is_extremum imissing never Z.geb srcs v.
Proof.
  intros B.
  destruct (single_band_ok (paint_imax (mkIinfo lo hi) nodata) maxP paint_imax_ok maxP_two nodata srcs)
    as (v & E & H).
  exists v. split; [exact E|]. destruct H as [H _].
  - apply bounded_app. split; [intros w Hw; apply B; now apply in_rev|].
    intros w [<-|[]]; exact nodata_in.
  - eapply ext'_stack; [|exact H]. unfold Mosaic.imissing. lia.
Qed.

(* ---------------- sum ---------------- *)

Notation wrap := (wrap (mkIinfo lo hi)).

Lemma wrap_range z : lo <= wrap z <= hi.
Proof.
  unfold Mosaic.wrap. cbn [i_min i_max]. pose proof (Z.mod_pos_bound (z - lo) (hi - lo + 1)). lia.
Qed.

Lemma wrap_idem_l a b : wrap (wrap a + b) = wrap (a + b).
Proof.
  unfold Mosaic.wrap. cbn [i_min i_max]. f_equal.
  replace ((a - lo) mod (hi - lo + 1) + lo + b - lo)
    with ((a - lo) mod (hi - lo + 1) + b) by lia.
  rewrite Zplus_mod_idemp_l. f_equal. lia.
Qed.

Lemma wrap_small z : lo <= z <= hi -> wrap z = z.
Proof. intros H. unfold Mosaic.wrap. cbn [i_min i_max]. rewrite Z.mod_small by lia. lia. Qed.

Lemma fold_wrap l : forall a, fold_left (fun a b => wrap (a + b)) l (wrap a) = wrap (a + zsum l).
Proof.
  induction l as [|x l IH]; intros a; cbn [fold_left zsum fold_right].
  - now rewrite Z.add_0_r.
  - rewrite wrap_idem_l, IH. f_equal. unfold zsum. lia.
Qed.

(* the sum of the values that are not null, in the dtype's arithmetic *)
Definition isum (l : list Z) : Z :=
  match valid imissing l with
  | [] => nodata
  | v => wrap (zsum v)
  end.

Lemma zsum_zeroed l : zsum (map (fun v => if imissing v then 0 else v) l)
  = zsum (valid imissing l).
Proof.
  unfold zsum, MosaicSpec.valid. induction l as [|x l IH]; [reflexivity|].
  cbn [map filter fold_right]. destruct (imissing x); cbn [negb fold_right]; lia.
Qed.

Lemma paint_isum_eq l : paint_isum (mkIinfo lo hi) nodata l = Ok (isum l).
Proof.
  unfold paint_isum, isum. f_equal. rewrite fold_wrap, zsum_zeroed. rewrite Z.add_0_l.
  destruct (forallb imissing l) eqn:E.
  - assert (V : valid imissing l = []).
    { apply valid_nil. now apply forallb_forall. }
    now rewrite V.
  - destruct (forallb_missing l E) as (u & Hu & Mu).
    destruct (valid imissing l) eqn:V; [|reflexivity].
    rewrite (valid_nil imissing l) in V. rewrite V in Mu; congruence.
Qed.

(* No run of neighbouring rasters sums to the null value. *)
Definition no_collision (l : list Z) : Prop :=
  forall pre mid post, l = pre ++ mid ++ post -> valid imissing mid <> [] ->
    wrap (zsum (valid imissing mid)) <> nodata.

Definition sumP (l : list Z) (v : Z) : Prop := no_collision l -> v = isum l.

Lemma zsum_app a b : zsum (a ++ b) = zsum a + zsum b.
Proof.
  induction a as [|x a IH]; [reflexivity|].
  unfold zsum in *. cbn. rewrite IH. lia.
Qed.

Lemma isum_missing l : no_collision l ->
  (valid imissing l = [] /\ isum l = nodata /\ imissing (isum l) = true)
  \/ (valid imissing l <> [] /\ isum l = wrap (zsum (valid imissing l))
      /\ imissing (isum l) = false).
Proof.
  intros NC. unfold isum. destruct (valid imissing l) as [|x t] eqn:E.
  - left. split; [reflexivity|]. split; [reflexivity|]. unfold Mosaic.imissing. lia.
  - right. split; [discriminate|]. split; [reflexivity|].
    specialize (NC [] l []). rewrite app_nil_r in NC.
    specialize (NC eq_refl). rewrite E in NC. specialize (NC ltac:(discriminate)).
    unfold Mosaic.imissing. lia.
Qed.

Lemma no_collision_app l1 l2 : no_collision (l1 ++ l2) -> no_collision l1 /\ no_collision l2.
Proof.
  intros H. split; intros pre mid post E.
  - apply (H pre mid (post ++ l2)). rewrite E. now rewrite <- !app_assoc.
  - apply (H (l1 ++ pre) mid post). rewrite E. now rewrite <- !app_assoc.
Qed.

Lemma isum_two l1 l2 : no_collision (l1 ++ l2) ->
  isum [isum l1; isum l2] = isum (l1 ++ l2).
Proof.
  intros NC. destruct (no_collision_app _ _ NC) as [N1 N2].
  unfold isum at 1 4. rewrite valid_app.
  unfold MosaicSpec.valid at 1. cbn [filter].
  destruct (isum_missing l1 N1) as [(V1 & E1 & M1)|(V1 & E1 & M1)];
  destruct (isum_missing l2 N2) as [(V2 & E2 & M2)|(V2 & E2 & M2)];
    rewrite M1, M2; cbn [negb].
  - rewrite V1, V2. reflexivity.
  - rewrite V1. cbn [app]. destruct (valid imissing l2) as [|x t] eqn:E; [congruence|].
    rewrite E2. cbn [zsum fold_right]. rewrite Z.add_0_r.
    apply wrap_small. apply wrap_range.
  - rewrite V2, app_nil_r. destruct (valid imissing l1) as [|x t] eqn:E; [congruence|].
    rewrite E1. cbn [zsum fold_right]. rewrite Z.add_0_r.
    apply wrap_small. apply wrap_range.
  - assert (EA : match valid imissing l1 ++ valid imissing l2 with
                 | [] => nodata | v => wrap (zsum v) end
                 = wrap (zsum (valid imissing l1 ++ valid imissing l2))).
    { destruct (valid imissing l1); [congruence|reflexivity]. }
    rewrite EA, zsum_app, E1, E2. unfold zsum at 1. cbn [fold_right]. rewrite Z.add_0_r.
    rewrite wrap_idem_l. rewrite Z.add_comm, wrap_idem_l. f_equal. lia.
Qed.

Lemma sumP_two l1 l2 a b v : sumP l1 a -> sumP l2 b -> sumP [a; b] v -> sumP (l1 ++ l2) v.
Proof.
  intros Ha Hb Hv NC. destruct (no_collision_app _ _ NC) as [N1 N2].
  rewrite (Ha N1), (Hb N2) in Hv. rewrite Hv; [now apply isum_two|].
  (* the pair of partial sums has no collision either *)
  intros pre mid post E Vm.
  assert (CS : mid = [isum l1] \/ mid = [isum l2] \/ mid = [isum l1; isum l2]).
  { destruct mid as [|x [|y [|z mid]]].
    - cbn in Vm. congruence.
    - destruct pre as [|p0 [|p1 pre]]; cbn in E.
      + left. congruence.
      + right; left. congruence.
      + exfalso. injection E as E1 E2 E3. destruct pre; discriminate.
    - right; right. destruct pre as [|p0 pre]; cbn in E.
      + congruence.
      + exfalso. injection E as E1 E2. destruct pre as [|p1 pre]; cbn in E2; [discriminate|].
        injection E2 as E2 E3. destruct pre; discriminate.
    - exfalso. apply (f_equal (@length Z)) in E. rewrite !app_length in E. cbn in E. lia. }
  assert (ONE : forall l, no_collision l -> valid imissing [isum l] <> [] ->
            wrap (zsum (valid imissing [isum l])) <> nodata).
  { intros l N Vl. cbn in Vl |- *.
    destruct (isum_missing l N) as [(V1 & E1 & M1)|(V1 & E1 & M1)];
      rewrite M1 in Vl |- *; cbn [negb] in *; [congruence|].
    cbn [zsum fold_right]. rewrite Z.add_0_r, E1.
    rewrite wrap_small by apply wrap_range.
    specialize (N [] l []). rewrite app_nil_r in N. now apply N. }
  destruct CS as [->|[->| ->]].
  - now apply ONE.
  - now apply ONE.
  - pose proof (isum_two l1 l2 NC) as T. unfold isum at 1 in T.
    destruct (valid imissing [isum l1; isum l2]) as [|x t] eqn:EV; [congruence|].
    rewrite T. destruct (isum_missing _ NC) as [(V1 & E1 & M1)|(V1 & E1 & M1)].
    + exfalso. rewrite valid_app in V1. apply app_eq_nil in V1. destruct V1 as [V1 V2].
      revert EV. cbn.
      destruct (isum_missing l1 N1) as [(_ & _ & Q1)|(Q & _)]; [|congruence].
      destruct (isum_missing l2 N2) as [(_ & _ & Q2)|(Q & _)]; [|congruence].
      rewrite Q1, Q2. discriminate.
    + unfold Mosaic.imissing in M1. lia.
Qed.

Lemma paint_isum_ok l : l <> [] -> exists v, paint_isum (mkIinfo lo hi) nodata l = Ok v /\ sumP l v.
Proof. intros _. exists (isum l). split; [apply paint_isum_eq|intros _; reflexivity]. Qed.

Lemma isum_stack srcs : isum (rev srcs ++ [nodata]) = isum srcs.
Proof.
  unfold isum. rewrite valid_app. cbn [MosaicSpec.valid filter].
  replace (imissing nodata) with true by (unfold Mosaic.imissing; lia). cbn [negb].
  rewrite app_nil_r.
  assert (ER : forall l, valid imissing (rev l) = rev (valid imissing l)).
  { clear. induction l as [|x l IH]; [reflexivity|]. cbn [rev]. rewrite valid_app, IH. cbn.
    destruct (imissing x); cbn; [now rewrite app_nil_r|reflexivity]. }
  rewrite ER. 
  assert (ES : zsum (rev (valid imissing srcs)) = zsum (valid imissing srcs)).
  { generalize (valid imissing srcs) as l. induction l as [|x l IH]; [reflexivity|].
    cbn [rev]. rewrite zsum_app, IH. unfold zsum. cbn. lia. }
  destruct (valid imissing srcs) as [|x t] eqn:EV; [reflexivity|].
  destruct (rev (x :: t)) as [|y t'] eqn:ER2.
  - apply (f_equal (@rev Z)) in ER2. rewrite rev_involutive in ER2. discriminate.
  - now rewrite ES.
Qed.

Theorem mosaic_isum_short srcs : (length srcs <= 6)%nat ->
  single_band nodata (paint_isum (mkIinfo lo hi) nodata) srcs = Ok (isum srcs).
Proof.
  intros H. rewrite single_band_short by exact H. rewrite paint_isum_eq. now rewrite isum_stack.
Qed.

Theorem mosaic_isum srcs : no_collision srcs ->
  single_band nodata (paint_isum (mkIinfo lo hi) nodata) srcs = Ok (isum srcs).
Proof.
  intros NC.
  destruct (single_band_ok (paint_isum (mkIinfo lo hi) nodata) sumP paint_isum_ok sumP_two nodata srcs)
    as (v & E & H).
  rewrite E. f_equal. rewrite <- isum_stack. apply H.
  intros pre mid post EQ Vm.
  assert (MN : imissing nodata = true) by (unfold Mosaic.imissing; lia).
  (* remove the destination layer, then reverse *)
  assert (CS : exists post' mid', rev srcs = pre ++ mid' ++ post'
            /\ valid imissing mid' = valid imissing mid).
  { destruct (rev post) as [|z rp] eqn:RP.
    - assert (post = []).
      { apply (f_equal (@rev Z)) in RP. now rewrite rev_involutive in RP. }
      subst post. rewrite app_nil_r in EQ.
      destruct (rev mid) as [|z rm] eqn:RM.
      + apply (f_equal (@rev Z)) in RM. rewrite rev_involutive in RM. subst mid.
        cbn in Vm. congruence.
      + apply (f_equal (@rev Z)) in RM. rewrite rev_involutive in RM. cbn in RM. subst mid.
        rewrite app_assoc in EQ. apply app_inj_tail in EQ. destruct EQ as [EQ Ez]. subst z.
        exists [], (rev rm). rewrite app_nil_r. split; [exact EQ|].
        rewrite valid_app. cbn. rewrite MN. cbn. now rewrite app_nil_r.
    - apply (f_equal (@rev Z)) in RP. rewrite rev_involutive in RP. cbn in RP. subst post.
      rewrite !app_assoc in EQ. apply app_inj_tail in EQ. destruct EQ as [EQ Ez].
      exists (rev rp), mid. split; [now rewrite <- app_assoc in EQ|reflexivity]. }
  destruct CS as (post' & mid' & EQ' & EV').
  assert (ER : forall l, valid imissing (rev l) = rev (valid imissing l)).
  { clear. induction l as [|x l IH]; [reflexivity|]. cbn [rev]. rewrite valid_app, IH. cbn.
    destruct (imissing x); cbn; [now rewrite app_nil_r|reflexivity]. }
  assert (ES : forall l, zsum (rev l) = zsum l).
  { induction l as [|x l IH]; [reflexivity|].
    cbn [rev]. rewrite zsum_app, IH. unfold zsum. cbn. lia. }
  apply (f_equal (@rev Z)) in EQ'. rewrite rev_involutive, !rev_app_distr in EQ'.
  rewrite <- app_assoc in EQ'.
  rewrite <- EV'. rewrite <- (ES (valid imissing mid')), <- ER.
  apply (NC _ _ _ EQ'). rewrite ER, EV'. intros C.
  apply (f_equal (@rev Z)) in C. rewrite rev_involutive in C. exact (Vm C).
Qed.

End IntExt.

(* ---------------- floats ---------------- *)

Section FloatExt.
Variable nodata : f64.
Notation fmissing := (fmissing nodata).

Definition fge (a b : f64) : bool := fleb b a.

Lemma fmissing_nodata : fmissing nodata = true.
Proof.
  unfold Mosaic.fmissing. destruct (fisnan nodata) eqn:E; [reflexivity|].
  destruct nodata as [s|[]| |[] m e H]; try discriminate E; try reflexivity; cbn;
    rewrite Z.compare_refl, Pos.compare_cont_refl; reflexivity.
Qed.

(* one step of nanmin / nanmax *)
Lemma nanfold_spec (better : f64 -> f64 -> bool) (le : f64 -> f64 -> bool) :
  (forall a, fok a = true -> le a a = true) ->
  (forall a b c, le a b = true -> le b c = true -> le a c = true) ->
  (forall a b, fok a = true -> fok b = true -> better a b = true -> le a b = true) ->
  (forall a b, fok a = true -> fok b = true -> better a b = false -> le b a = true) ->
  forall l acc done,
    (fisnan acc = true /\ (forall u, In u done -> fisnan u = true)
     \/ fisnan acc = false /\ In acc done
        /\ forall u, In u done -> fisnan u = false -> le acc u = true) ->
    let r := fold_left (fun a v => if fisnan v then a else if fisnan a then v
                                   else if better v a then v else a) l acc in
    (fisnan r = true /\ (forall u, In u (done ++ l) -> fisnan u = true)
     \/ fisnan r = false /\ In r (done ++ l)
        /\ forall u, In u (done ++ l) -> fisnan u = false -> le r u = true).
Proof.
  intros R T B1 B2. induction l as [|x l IH]; intros acc done H; cbn [fold_left].
  - rewrite app_nil_r. exact H.
  - replace (done ++ x :: l) with ((done ++ [x]) ++ l) by (now rewrite <- app_assoc).
    apply IH. destruct (fisnan x) eqn:Ex.
    + destruct H as [[A1 A2]|(A1 & A2 & A3)].
      * left. split; [exact A1|]. intros u Hu. apply in_app_or in Hu.
        destruct Hu as [Hu|[<-|[]]]; auto.
      * right. split; [exact A1|]. split; [apply in_or_app; auto|].
        intros u Hu Nu. apply in_app_or in Hu. destruct Hu as [Hu|[<-|[]]]; [auto|congruence].
    + assert (Ox : fok x = true) by (unfold fok; now rewrite Ex).
      destruct H as [[A1 A2]|(A1 & A2 & A3)]; rewrite A1.
      * right. split; [exact Ex|]. split; [apply in_or_app; right; now left|].
        intros u Hu Nu. apply in_app_or in Hu. destruct Hu as [Hu|[<-|[]]].
        -- rewrite A2 in Nu by assumption. discriminate.
        -- now apply R.
      * assert (Oa : fok acc = true) by (unfold fok; now rewrite A1).
        right. destruct (better x acc) eqn:Eb.
        -- split; [exact Ex|]. split; [apply in_or_app; right; now left|].
           intros u Hu Nu. apply in_app_or in Hu. destruct Hu as [Hu|[<-|[]]]; [|now apply R].
           apply T with acc; auto.
        -- split; [exact A1|]. split; [apply in_or_app; now left|].
           intros u Hu Nu. apply in_app_or in Hu. destruct Hu as [Hu|[<-|[]]]; [auto|].
           now apply B2.
Qed.

Lemma nanmin_le a b : fok a = true -> fok b = true -> fltb a b = true -> fleb a b = true.
Proof.
  intros Ha Hb H. rewrite fleb_fltb in H by assumption.
  destruct (fleb_total a b Ha Hb) as [T|T]; [exact T|]. rewrite T in H. discriminate.
Qed.

Lemma nanmin_nle a b : fok a = true -> fok b = true -> fltb a b = false -> fleb b a = true.
Proof.
  intros Ha Hb H. rewrite fleb_fltb in H by assumption. now apply negb_false_iff in H.
Qed.

Lemma paint_f_ok (fold : list f64 -> f64) (le : f64 -> f64 -> bool) :
  (forall l, let r := fold l in
     fisnan r = true /\ (forall u, In u l -> fisnan u = true)
     \/ fisnan r = false /\ In r l /\ forall u, In u l -> fisnan u = false -> le r u = true) ->
  forall l, ext' fmissing fisnan le l
    (if forallb fmissing l then nodata
     else fold (map (fun v => if fmissing v then fnan else v) l)).
Proof.
  intros FS l. destruct (forallb fmissing l) eqn:EA.
  - left. split; [apply fmissing_nodata|]. now apply forallb_forall.
  - assert (EX : exists u, In u l /\ fmissing u = false).
    { clear - EA. induction l as [|x l IH]; cbn in EA; [discriminate|].
      destruct (fmissing x) eqn:E; cbn in EA; [destruct (IH EA) as (u & A & B)|]; eauto.
      - exists u. split; [now right|exact B].
      - exists x. split; [now left|exact E]. }
    set (m := map (fun v => if fmissing v then fnan else v) l).
    assert (IM : forall v, In v m -> v = fnan \/ In v l /\ fmissing v = false).
    { intros v Hv. apply in_map_iff in Hv. destruct Hv as (w & Ew & Hw).
      destruct (fmissing w) eqn:E; [left; congruence|right]. subst w. auto. }
    assert (MI : forall v, In v l -> fmissing v = false -> In v m).
    { intros v Hv Mv. apply in_map_iff. exists v. now rewrite Mv. }
    destruct (FS m) as [[N A]|(N & I & A)].
    + right; left.
      (* only NaNs that are not null are left *)
      destruct EX as (u & Hu & Mu).
      assert (Nu : fisnan u = true) by (apply A; now apply MI).
      assert (EN : fisnan nodata = false).
      { destruct (fisnan nodata) eqn:E; [|reflexivity].
        unfold Mosaic.fmissing in Mu. rewrite E in Mu. congruence. }
      split.
      { unfold Mosaic.fmissing. rewrite EN. destruct (fold m); try discriminate N. reflexivity. }
      split; [exact N|]. split; [eauto|].
      intros w Hw Mw. apply A. now apply MI.
    + right; right. destruct (IM _ I) as [E|[Iv Mv]].
      { rewrite E in N. discriminate. }
      split; [exact Iv|]. split; [exact Mv|]. split; [exact N|].
      intros u Hu Mu Nu. apply A; [now apply MI|exact Nu].
Qed.

Lemma nanmin_spec l : let r := nanmin l in
  fisnan r = true /\ (forall u, In u l -> fisnan u = true)
  \/ fisnan r = false /\ In r l /\ forall u, In u l -> fisnan u = false -> fleb r u = true.
Proof.
  apply (nanfold_spec fltb fleb fleb_refl fleb_trans nanmin_le nanmin_nle l fnan []).
  left. split; [reflexivity|intros u []].
Qed.

Lemma nanmax_spec l : let r := nanmax l in
  fisnan r = true /\ (forall u, In u l -> fisnan u = true)
  \/ fisnan r = false /\ In r l /\ forall u, In u l -> fisnan u = false -> fge r u = true.
Proof.
  apply (nanfold_spec (fun v a => fltb a v) fge) with (done := []).
  - exact fleb_refl.
  - unfold fge. intros a b c H1 H2. now apply fleb_trans with b.
  - unfold fge. intros a b Ha Hb. now apply nanmin_le.
  - unfold fge. intros a b Ha Hb. now apply nanmin_nle.
  - left. split; [reflexivity|intros u []].
Qed.

Theorem mosaic_fmin srcs :
  exists v, single_band nodata (paint_fmin nodata) srcs = Ok v
    /\ is_extremum fmissing fisnan fleb srcs v.
Proof.
  destruct (single_band_ok (paint_fmin nodata) (ext' fmissing fisnan fleb)) with
    (nodata := nodata) (srcs := srcs) as (v & E & H).
  - intros l _. eexists. split; [reflexivity|]. apply paint_f_ok. exact nanmin_spec.
  - intros. eapply ext'_two; eauto. exact fleb_trans.
  - exists v. split; [exact E|]. eapply ext'_stack; [|exact H]. apply fmissing_nodata.
Qed.

Theorem mosaic_fmax srcs :
  exists v, single_band nodata (paint_fmax nodata) srcs = Ok v
    /\ is_extremum fmissing fisnan fge srcs v.
Proof.
  destruct (single_band_ok (paint_fmax nodata) (ext' fmissing fisnan fge)) with
    (nodata := nodata) (srcs := srcs) as (v & E & H).
  - intros l _. eexists. split; [reflexivity|]. apply paint_f_ok. exact nanmax_spec.
  - intros. eapply ext'_two; eauto. intros x y z Q1 Q2. unfold fge in *. now apply fleb_trans with y.
  - exists v. split; [exact E|]. eapply ext'_stack; [|exact H]. apply fmissing_nodata.
Qed.

End FloatExt.

(* ---------------- bands ---------------- *)

Lemma mapM_ok {A B} (f : A -> res B) (Q : A -> B -> Prop) l :
  (forall a, In a l -> exists b, f a = Ok b /\ Q a b) ->
  exists bs, mapM f l = Ok bs /\ Forall2 Q l bs.
Proof.
  induction l as [|a l IH]; intros H.
  - exists []. split; [reflexivity|constructor].
  - destruct (H a (or_introl eq_refl)) as (b & Eb & Qb).
    destruct IH as (bs & Ebs & Qbs); [intros x Hx; apply H; now right|].
    exists (b :: bs). cbn. rewrite Eb. cbn [rbind]. rewrite Ebs. split; [reflexivity|].
    now constructor.
Qed.

Lemma group_spec {V} (d : V) srcs i : group srcs i = band_values d srcs i.
Proof.
  unfold group, band_values. induction srcs as [|b srcs IH]; [reflexivity|].
  cbn [flat_map filter]. rewrite IH. destruct (nth_error b i) as [v|] eqn:E.
  - assert (H : (i < length b)%nat) by (apply nth_error_Some; congruence).
    apply Nat.ltb_lt in H. rewrite H. cbn. f_equal. symmetry. now apply nth_error_nth.
  - apply nth_error_None in E. apply Nat.ltb_ge in E. now rewrite E.
Qed.

Lemma nbands_spec {V} (srcs : list (list V)) : srcs <> [] -> is_nbands srcs (nbands srcs).
Proof.
  unfold is_nbands, nbands. induction srcs as [|b srcs IH]; [congruence|]. intros _.
  cbn [map fold_right]. destruct srcs as [|b' srcs].
  - cbn. split; [intros x [<-|[]]; lia|]. exists b. split; [now left|lia].
  - destruct (IH ltac:(discriminate)) as [A (x & Hx & Ex)]. split.
    + intros y [<-|Hy]; [lia|]. specialize (A y Hy). lia.
    + set (m := fold_right _ _ _) in *.
      destruct (Nat.max_spec (length b) m) as [[_ ->]|[_ ->]].
      * exists x. split; [now right|exact Ex].
      * exists b. split; [now left|reflexivity].
Qed.

Lemma mapM_nth {A B} (f : A -> res B) l : forall bs i a b, mapM f l = Ok bs ->
  nth_error bs i = Some b -> nth_error l i = Some a -> f a = Ok b.
Proof.
  induction l as [|x l IH]; intros bs i a b E Hb Ha; [destruct i; discriminate|].
  cbn in E. destruct (f x) as [y|] eqn:Ey; [|discriminate]. cbn [rbind] in E.
  destruct (mapM f l) as [ys|] eqn:Eys; [|discriminate]. cbn [rbind] in E.
  injection E as <-. destruct i; cbn in Hb, Ha; [congruence|eauto].
Qed.

Lemma mapM_length {A B} (f : A -> res B) l : forall bs, mapM f l = Ok bs ->
  length bs = length l.
Proof.
  induction l as [|x l IH]; intros bs E; cbn in E; [injection E as <-; reflexivity|].
  destruct (f x); [|discriminate]. cbn [rbind] in E.
  destruct (mapM f l) as [ys|] eqn:Eys; [|discriminate]. cbn [rbind] in E.
  injection E as <-. cbn. f_equal. now apply IH.
Qed.

(* Every band of the result comes from [single_band] on the rasters that have
   that band. *)
Theorem mosaic_bands {V} (nodata : V) paint (spec : list V -> V -> Prop) (ok : V -> Prop) srcs :
  (forall l, (forall v, In v l -> ok v) ->
     exists v, single_band nodata paint l = Ok v /\ spec l v) ->
  srcs <> [] -> (forall bands v, In bands srcs -> In v bands -> ok v) ->
  exists out, mosaic nodata paint srcs = Ok out
    /\ is_nbands srcs (length out)
    /\ forall i v, nth_error out i = Some v -> spec (band_values nodata srcs i) v.
Proof.
  intros H Hne Hok.
  assert (HG : forall i v, In v (group srcs i) -> ok v).
  { intros i v Hv. unfold group in Hv. apply in_flat_map in Hv. destruct Hv as (b & Hb & Hv).
    destruct (nth_error b i) as [w|] eqn:E; [|destruct Hv]. destruct Hv as [<-|[]].
    eapply Hok; [exact Hb|]. now apply nth_error_In in E. }
  destruct (mapM_ok (fun i => single_band nodata paint (group srcs i))
    (fun i v => True) (seq 0 (nbands srcs))) as (out & E & _).
  { intros i _. destruct (H (group srcs i) (HG i)) as (v & Ev & _). eauto. }
  exists out. split; [exact E|].
  assert (LN : length out = nbands srcs).
  { rewrite (mapM_length _ _ _ E). apply seq_length. }
  split; [rewrite LN; now apply nbands_spec|].
  intros i v Hi.
  assert (Hlt : (i < nbands srcs)%nat) by (rewrite <- LN; apply nth_error_Some; congruence).
  assert (HS : nth_error (seq 0 (nbands srcs)) i = Some i).
  { rewrite (nth_error_nth' _ O) by (rewrite seq_length; lia). now rewrite seq_nth by lia. }
  pose proof (mapM_nth _ _ _ _ _ _ E Hi HS) as EV. cbn beta in EV.
  destruct (H (group srcs i) (HG i)) as (w & Ew & Sw).
  rewrite <- group_spec. congruence.
Qed.

Section Public.
Context {V : Type} (missing : V -> bool) (chunk : list V -> option (chunked V)) (nodata : V).
Hypothesis chunkable : chunk_ok chunk.
Hypothesis nodata_missing : missing nodata = true.
Variable srcs : list (list V).
Hypothesis some : srcs <> [].

Theorem public_first : exists out, mosaic nodata (paint_first missing chunk) srcs = Ok out
  /\ is_nbands srcs (length out)
  /\ forall i v, nth_error out i = Some v -> is_first missing (band_values nodata srcs i) v.
Proof.
  apply (mosaic_bands _ _ _ (fun _ => True)); auto.
  intros l _. now apply mosaic_first.
Qed.

Theorem public_last : exists out, mosaic nodata (paint_last missing chunk) srcs = Ok out
  /\ is_nbands srcs (length out)
  /\ forall i v, nth_error out i = Some v -> is_last missing (band_values nodata srcs i) v.
Proof.
  apply (mosaic_bands _ _ _ (fun _ => True)); auto.
  intros l _. now apply mosaic_last.
Qed.
End Public.

Section PublicInt.
Variables lo hi nodata : Z.
Hypothesis nodata_in : lo <= nodata <= hi.
Variable srcs : list (list Z).
Hypothesis some : srcs <> [].
Hypothesis typed : forall bands v, In bands srcs -> In v bands -> lo <= v <= hi.

Theorem public_imin : exists out, mosaic nodata (paint_imin (mkIinfo lo hi) nodata) srcs = Ok out
  /\ is_nbands srcs (length out)
  /\ forall i v, nth_error out i = Some v ->
       is_extremum (Z.eqb nodata) (fun _ => false) Z.leb (band_values nodata srcs i) v.
Proof.
  apply (mosaic_bands _ _ _ (fun v => lo <= v <= hi)); auto.
  intros l B. destruct (mosaic_imin lo hi nodata nodata_in l B) as (v & E & H).
  exists v. split; [exact E|].
  unfold is_extremum, valid, Mosaic.imissing, never in *.
  rewrite (filter_ext (fun v => negb (nodata =? v)) (fun v => negb (v =? nodata)))
    by (intros; now rewrite Z.eqb_sym).
  now rewrite (Z.eqb_sym nodata v).
Qed.

Theorem public_imax : exists out, mosaic nodata (paint_imax (mkIinfo lo hi) nodata) srcs = Ok out
  /\ is_nbands srcs (length out)
  /\ forall i v, nth_error out i = Some v ->
       is_extremum (Z.eqb nodata) (fun _ => false) Z.geb (band_values nodata srcs i) v.
Proof.
  apply (mosaic_bands _ _ _ (fun v => lo <= v <= hi)); auto.
  intros l B. destruct (mosaic_imax lo hi nodata nodata_in l B) as (v & E & H).
  exists v. split; [exact E|].
  unfold is_extremum, valid, Mosaic.imissing, never in *.
  rewrite (filter_ext (fun v => negb (nodata =? v)) (fun v => negb (v =? nodata)))
    by (intros; now rewrite Z.eqb_sym).
  now rewrite (Z.eqb_sym nodata v).
Qed.
End PublicInt.

Section PublicFloat.
Variable nodata : f64.
Variable srcs : list (list f64).
Hypothesis some : srcs <> [].

Theorem public_fmin : exists out, mosaic nodata (paint_fmin nodata) srcs = Ok out
  /\ is_nbands srcs (length out)
  /\ forall i v, nth_error out i = Some v ->
       is_extremum (fmissing nodata) fisnan fleb (band_values nodata srcs i) v.
Proof.
  apply (mosaic_bands _ _ _ (fun _ => True)); auto. intros l _. apply mosaic_fmin.
Qed.

Theorem public_fmax : exists out, mosaic nodata (paint_fmax nodata) srcs = Ok out
  /\ is_nbands srcs (length out)
  /\ forall i v, nth_error out i = Some v ->
       is_extremum (fmissing nodata) fisnan (fun a b => fleb b a) (band_values nodata srcs i) v.
Proof.
  apply (mosaic_bands _ _ _ (fun _ => True)); auto. intros l _. apply mosaic_fmax.
Qed.
End PublicFloat.

Section PublicSum.
Variables lo hi nodata : Z.
Hypothesis nodata_in : lo <= nodata <= hi.
Notation imissing := (Z.eqb nodata).

Lemma valid_sym l : valid (Mosaic.imissing nodata) l = valid imissing l.
Proof. apply filter_ext. intros a. unfold Mosaic.imissing. now rewrite Z.eqb_sym. Qed.

Lemma isum_is l : is_sum lo hi nodata l (isum lo hi nodata l).
Proof.
  unfold is_sum, isum. rewrite valid_sym. destruct (valid imissing l) as [|x t]; [reflexivity|].
  split; [now apply (wrap_range lo hi nodata)|]. unfold Mosaic.wrap. cbn [i_min i_max].
  set (s := zsum (x :: t)). set (m := hi - lo + 1).
  exists (- ((s - lo) / m)). pose proof (Z.div_mod (s - lo) m). lia.
Qed.

Lemma public_sum_exact srcs : (length srcs <= 6)%nat \/ sum_free lo hi nodata srcs ->
  exists v, single_band nodata (paint_isum (mkIinfo lo hi) nodata) srcs = Ok v
    /\ is_sum lo hi nodata srcs v.
Proof.
  intros H. exists (isum lo hi nodata srcs). split; [|apply isum_is].
  destruct H as [H|H]; [now apply mosaic_isum_short|].
  apply mosaic_isum; [exact nodata_in|].
  intros pre mid post E V W. rewrite valid_sym in V, W.
  apply (H pre mid post E V nodata); [|reflexivity].
  pose proof (isum_is mid) as I. unfold is_sum, isum in *. rewrite valid_sym in I.
  destruct (valid imissing mid); [congruence|]. rewrite W in I. exact I.
Qed.
End PublicSum.
