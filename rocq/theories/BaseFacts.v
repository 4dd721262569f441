From Verif Require Export Base.
From Coq Require Import ZifyBool ZifyNat.

Lemma rbind_ok {A B} (r : res A) (f : A -> res B) b :
  rbind r f = Ok b -> exists a, r = Ok a /\ f a = Ok b.
Proof. destruct r as [a|e]; cbn; [eauto|discriminate]. Qed.

Lemma len_nonneg {A} (l : list A) : 0 <= len l.
Proof. unfold len; lia. Qed.

Lemma get_range {A} (l : list A) i : 0 <= i < len l -> exists x, get l i = Ok x.
Proof.
  unfold get, len; intros H.
  destruct (i <? 0) eqn:E; [lia|].
  destruct (nth_error l (Z.to_nat i)) as [x|] eqn:N; [eauto|].
  apply nth_error_None in N; lia.
Qed.

Lemma get_ok_range {A} (l : list A) i x : get l i = Ok x -> 0 <= i < len l.
Proof.
  unfold get, len; intros H.
  destruct (i <? 0) eqn:E; [discriminate|].
  destruct (nth_error l (Z.to_nat i)) as [y|] eqn:N; [|discriminate].
  assert (Z.to_nat i < length l)%nat by (apply nth_error_Some; congruence). lia.
Qed.

Lemma upd_length {A} (l : list A) n x : length (upd l n x) = length l.
Proof. revert n; induction l as [|h t IH]; intros [|n]; cbn; auto. Qed.

Lemma nth_error_upd_same {A} (l : list A) n x :
  (n < length l)%nat -> nth_error (upd l n x) n = Some x.
Proof.
  revert n; induction l as [|h t IH]; intros [|n]; cbn; intros H; try lia;
    try reflexivity. apply IH; lia.
Qed.

Lemma nth_error_upd_other {A} (l : list A) n m x :
  n <> m -> nth_error (upd l n x) m = nth_error l m.
Proof.
  revert n m; induction l as [|h t IH]; intros [|n] [|m]; cbn; intros H;
    try lia; try reflexivity. apply IH; lia.
Qed.

Lemma set_range {A} (l : list A) i x :
  0 <= i < len l -> exists l', set l i x = Ok l'.
Proof.
  intros H; unfold set. destruct ((0 <=? i) && (i <? len l)) eqn:E; [eauto|lia].
Qed.

Lemma set_ok_range {A} (l l' : list A) i x : set l i x = Ok l' -> 0 <= i < len l.
Proof.
  unfold set; intros H.
  destruct ((0 <=? i) && (i <? len l)) eqn:E; [lia|discriminate].
Qed.

Lemma set_len {A} (l l' : list A) i x : set l i x = Ok l' -> len l' = len l.
Proof.
  unfold set; intros H.
  destruct ((0 <=? i) && (i <? len l)) eqn:E; [|discriminate].
  injection H as <-. unfold len. now rewrite upd_length.
Qed.

Lemma get_set_same {A} (l l' : list A) i x : set l i x = Ok l' -> get l' i = Ok x.
Proof.
  intros H; pose proof (set_ok_range _ _ _ _ H) as R. unfold set in H.
  destruct ((0 <=? i) && (i <? len l)) eqn:E; [|discriminate].
  injection H as <-. unfold get, len in *.
  destruct (i <? 0) eqn:E2; [lia|].
  rewrite nth_error_upd_same; [reflexivity|lia].
Qed.

Lemma get_set_other {A} (l l' : list A) i j x :
  set l i x = Ok l' -> i <> j -> get l' j = get l j.
Proof.
  intros H D; pose proof (set_ok_range _ _ _ _ H) as R. unfold set in H.
  destruct ((0 <=? i) && (i <? len l)) eqn:E; [|discriminate].
  injection H as <-. unfold get.
  destruct (j <? 0) eqn:E2; [reflexivity|].
  rewrite nth_error_upd_other; [reflexivity|lia].
Qed.

Lemma full_len {A} n (x : A) : 0 <= n -> len (full n x) = n.
Proof. intros; unfold len, full; rewrite repeat_length; lia. Qed.

Lemma get_full {A} n (x : A) i : 0 <= i < n -> get (full n x) i = Ok x.
Proof.
  intros H; unfold get, full. destruct (i <? 0) eqn:E; [lia|].
  rewrite nth_error_repeat; [reflexivity|lia].
Qed.

Lemma slice_len {A} (l : list A) lo hi :
  0 <= lo <= hi -> hi <= len l -> len (slice l lo hi) = hi - lo.
Proof.
  unfold len, slice; intros H1 H2. rewrite firstn_length, skipn_length. lia.
Qed.

Lemma nth_error_skipn {A} (l : list A) n m :
  nth_error (skipn n l) m = nth_error l (n + m).
Proof.
  revert l; induction n as [|n IH]; intros [|h t]; cbn; auto.
  destruct m; reflexivity.
Qed.

Lemma nth_error_firstn {A} (l : list A) n m :
  (m < n)%nat -> nth_error (firstn n l) m = nth_error l m.
Proof.
  revert l m; induction n as [|n IH]; intros [|h t] [|m] H; cbn; try lia;
    try reflexivity. apply IH; lia.
Qed.

Lemma get_slice {A} (l : list A) lo hi i :
  0 <= lo -> 0 <= i < hi - lo -> get (slice l lo hi) i = get l (lo + i).
Proof.
  intros H1 H2; unfold get, slice.
  destruct (i <? 0) eqn:E; [lia|]. destruct (lo + i <? 0) eqn:E2; [lia|].
  rewrite nth_error_firstn by lia. rewrite nth_error_skipn.
  now replace (Z.to_nat lo + Z.to_nat i)%nat with (Z.to_nat (lo + i)) by lia.
Qed.

Lemma set_slice_range {A} (dst src : list A) lo hi :
  0 <= lo <= hi -> hi <= len dst -> len src = hi - lo ->
  exists d, set_slice dst lo hi src = Ok d.
Proof.
  intros; unfold set_slice.
  destruct ((0 <=? lo) && (lo <=? hi) && (hi <=? len dst)
            && (len src =? hi - lo)) eqn:E; [eauto|lia].
Qed.

Lemma set_slice_len {A} (dst src d : list A) lo hi :
  set_slice dst lo hi src = Ok d -> len d = len dst.
Proof.
  unfold set_slice.
  destruct ((0 <=? lo) && (lo <=? hi) && (hi <=? len dst)
            && (len src =? hi - lo)) eqn:E; [|discriminate].
  intros [= <-]. unfold len in *.
  rewrite !app_length, firstn_length, skipn_length. lia.
Qed.

Lemma get_set_slice {A} (dst src d : list A) lo hi i :
  set_slice dst lo hi src = Ok d ->
  get d i = if (lo <=? i) && (i <? hi) then get src (i - lo) else get dst i.
Proof.
  unfold set_slice.
  destruct ((0 <=? lo) && (lo <=? hi) && (hi <=? len dst)
            && (len src =? hi - lo)) eqn:E; [|discriminate].
  intros [= <-]. unfold get, len in *.
  destruct (i <? 0) eqn:E1.
  { destruct ((lo <=? i) && (i <? hi)) eqn:E2; [lia|reflexivity]. }
  destruct ((lo <=? i) && (i <? hi)) eqn:E2.
  - destruct (i - lo <? 0) eqn:E3; [lia|].
    rewrite nth_error_app2; rewrite firstn_length; [|lia].
    rewrite nth_error_app1 by lia.
    now replace (Z.to_nat i - Nat.min (Z.to_nat lo) (length dst))%nat
      with (Z.to_nat (i - lo)) by lia.
  - destruct (i <? lo) eqn:E3.
    + rewrite nth_error_app1 by (rewrite firstn_length; lia).
      now rewrite nth_error_firstn by lia.
    + rewrite nth_error_app2; rewrite firstn_length; [|lia].
      rewrite nth_error_app2 by lia.
      rewrite nth_error_skipn.
      now replace (Z.to_nat hi + (Z.to_nat i - Nat.min (Z.to_nat lo) (length dst)
                  - length src))%nat with (Z.to_nat i) by lia.
Qed.

Lemma len_map {A B} (f : A -> B) l : len (map f l) = len l.
Proof. unfold len. now rewrite map_length. Qed.

Lemma get_map_eq {A B} (f : A -> B) l i :
  get (map f l) i = match get l i with Ok x => Ok (f x) | Err e => Err e end.
Proof.
  unfold get. destruct (i <? 0); [reflexivity|]. rewrite nth_error_map.
  destruct (nth_error l (Z.to_nat i)); reflexivity.
Qed.

Lemma list_ext {A} (l l' : list A) : len l = len l' ->
  (forall i x, get l i = Ok x -> get l' i = Ok x) -> l = l'.
Proof.
  unfold len. revert l'. induction l as [|a l IH]; intros [|a' l'] HL H; cbn in HL; try lia; auto.
  assert (E : get (a' :: l') 0 = Ok a) by (apply H; reflexivity). cbn in E. injection E as ->.
  f_equal. apply IH; [lia|]. intros i x G.
  pose proof (get_ok_range _ _ _ G) as R. unfold get in *.
  specialize (H (i + 1) x). replace (Z.to_nat (i + 1)) with (S (Z.to_nat i)) in H by lia.
  replace (i + 1 <? 0) with false in H by lia. cbn [nth_error] in H.
  replace (i <? 0) with false in * by lia. auto.
Qed.

(* ---------------- loops over ranges ---------------- *)

Lemma zrange_cons n : 0 < n -> zrange 0 n = 0 :: map Z.succ (zrange 0 (n - 1)).
Proof.
  intros H. unfold zrange. replace (Z.to_nat (n - 0)) with (S (Z.to_nat (n - 1 - 0))) by lia.
  cbn [seq map]. f_equal. rewrite <- seq_shift, !map_map. apply map_ext. intros a. lia.
Qed.

Lemma zrange_snoc n : 0 <= n -> zrange 0 (n + 1) = zrange 0 n ++ [n].
Proof.
  intros H. unfold zrange. replace (Z.to_nat (n + 1 - 0)) with (S (Z.to_nat (n - 0))) by lia.
  rewrite seq_S, map_app. cbn. f_equal. f_equal. lia.
Qed.

Lemma zrange_rev n : 0 <= n -> rev (zrange 0 n) = map (fun k => n - 1 - k) (zrange 0 n).
Proof.
  intros H. pattern n. apply natlike_ind; [reflexivity| |exact H].
  clear n H. intros n H IH. unfold Z.succ.
  rewrite zrange_snoc by lia. rewrite rev_app_distr, IH. cbn [rev app].
  rewrite <- zrange_snoc by lia. rewrite (zrange_cons (n + 1)) by lia. cbn [map].
  f_equal; [lia|]. rewrite map_map. replace (n + 1 - 1) with n by lia.
  apply map_ext. intros a. lia.
Qed.

Lemma zrange_in n i : In i (zrange 0 n) <-> 0 <= i < n.
Proof.
  unfold zrange. rewrite in_map_iff. split.
  - intros (k & <- & Hk). apply in_seq in Hk. lia.
  - intros H. exists (Z.to_nat i). split; [lia|]. apply in_seq. lia.
Qed.

Lemma foldM_app {S A} (f : S -> A -> res S) l1 l2 s :
  foldM f (l1 ++ l2) s = let* s' := foldM f l1 s in foldM f l2 s'.
Proof.
  revert s. induction l1 as [|x l1 IH]; intros s; [reflexivity|].
  cbn. destruct (f s x); cbn; auto.
Qed.

(* Hoare rule for `for k in range(n)`, the k-th iteration working on idx k *)
Lemma foldM_range {S} (f : S -> Z -> res S) (idx : Z -> Z) (I : Z -> S -> Prop) n s :
  0 <= n -> I 0 s ->
  (forall k s, 0 <= k < n -> I k s -> exists s', f s (idx k) = Ok s' /\ I (k + 1) s') ->
  exists s', foldM f (map idx (zrange 0 n)) s = Ok s' /\ I n s'.
Proof.
  intros Hn H0 HS.
  assert (G : forall m, 0 <= m -> m <= n ->
    exists s', foldM f (map idx (zrange 0 m)) s = Ok s' /\ I m s').
  { apply (natlike_ind (fun m => m <= n -> exists s',
      foldM f (map idx (zrange 0 m)) s = Ok s' /\ I m s')).
    - intros _. exists s. split; [reflexivity|exact H0].
    - intros m Hm IH L. destruct IH as (s1 & E1 & I1); [lia|].
      destruct (HS m s1) as (s2 & E2 & I2); [lia|exact I1|].
      exists s2. split; [|exact I2]. unfold Z.succ.
      rewrite zrange_snoc, map_app, foldM_app by lia. rewrite E1. cbn. now rewrite E2. }
  apply G; lia.
Qed.

Lemma foldM_zrange {S} (f : S -> Z -> res S) (I : Z -> S -> Prop) n s :
  0 <= n -> I 0 s ->
  (forall k s, 0 <= k < n -> I k s -> exists s', f s k = Ok s' /\ I (k + 1) s') ->
  exists s', foldM f (zrange 0 n) s = Ok s' /\ I n s'.
Proof.
  intros. rewrite <- (map_id (zrange 0 n)). now apply (foldM_range f (fun k => k)).
Qed.
