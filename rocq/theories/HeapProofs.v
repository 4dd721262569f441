(* Proofs about Heap.v: the queue refines a finite map from values to keys. *)
From Verif Require Import BaseFacts Heap.
From Coq Require Import ZifyBool ZifyNat.
Ltac Zify.zify_post_hook ::= Z.div_mod_to_equations.

(* What is needed of the keys: on the keys that satisfy [ok] (for floats: not
   NaN) the comparisons are a total preorder with greatest element [inf]. *)
Record KeyOrder {K} (leb ltb : K -> K -> bool) (inf : K) (ok : K -> bool)
  : Prop := mkKeyOrder {
  ko_refl : forall a, ok a = true -> leb a a = true;
  ko_trans : forall a b c, ok a = true -> ok b = true -> ok c = true ->
      leb a b = true -> leb b c = true -> leb a c = true;
  ko_total : forall a b, ok a = true -> ok b = true ->
      leb a b = true \/ leb b a = true;
  ko_ltb : forall a b, ok a = true -> ok b = true ->
      ltb a b = negb (leb b a);
  ko_inf_ok : ok inf = true;
  ko_inf_max : forall a, ok a = true -> leb a inf = true
}.

Lemma pow2_S n : pow2 (S n) = 2 * pow2 n.
Proof. unfold pow2. rewrite Nat2Z.inj_succ, Z.pow_succ_r; lia. Qed.
Lemma pow2_0 : pow2 0 = 1. Proof. reflexivity. Qed.
Lemma pow2_pos n : 1 <= pow2 n.
Proof. induction n as [|n IH]; [rewrite pow2_0|rewrite pow2_S]; lia. Qed.
Lemma pow2_mono m n : (m <= n)%nat -> pow2 m <= pow2 n.
Proof.
  intros H; induction H as [|n H IH]; [lia|]. rewrite pow2_S.
  pose proof (pow2_pos n); lia.
Qed.
Lemma pow2_pred n : (1 <= n)%nat -> pow2 n = 2 * pow2 (n - 1).
Proof. intros H. replace n with (S (n - 1)) at 1 by lia. apply pow2_S. Qed.

Section HeapProofs.
Context {K : Type} {leb ltb : K -> K -> bool} {inf : K} {ok : K -> bool}.
Context (KO : KeyOrder leb ltb inf ok).

Notation heap := (@heap K).
Notation kmin := (kmin ltb).
Notation sift_loop := (sift_loop ltb).
Notation sift := (sift ltb).
Notation sift_all_loop := (sift_all_loop ltb).
Notation sift_all := (sift_all ltb).
Notation resize_levels := (resize_levels ltb inf).
Notation remove := (remove ltb inf).
Notation simple_push := (simple_push ltb inf).
Notation push := (push ltb inf).
Notation push_if_lower := (push_if_lower ltb inf).
Notation trace := (trace leb).
Notation pop := (pop leb ltb inf).

Definition all_ok (keys : list K) : Prop :=
  forall x k, get keys x = Ok k -> ok k = true.

(* Node x of the tree stores the smaller of its children's keys. *)
Definition node_ok (keys : list K) (x : Z) : Prop :=
  exists a b c, get keys x = Ok a /\ get keys (2 * x + 1) = Ok b
    /\ get keys (2 * x + 2) = Ok c
    /\ (a = b \/ a = c) /\ leb a b = true /\ leb a c = true.

(* x is a proper ancestor of i (k levels above), in 0-based heap numbering *)
Definition anc (x i : Z) : Prop :=
  exists k : nat, (1 <= k)%nat /\ x + 1 = (i + 1) / pow2 k.

Lemma anc_parent i : anc ((i - 1) / 2) i.
Proof. exists 1%nat. split; [lia|]. replace (pow2 1) with 2 by reflexivity. lia. Qed.

Lemma anc_step x i : anc x ((i - 1) / 2) -> anc x i.
Proof.
  intros (k & H1 & H2). exists (S k). split; [lia|].
  rewrite H2, pow2_S. replace ((i-1)/2 + 1) with ((i+1)/2) by lia.
  rewrite Z.div_div; [reflexivity|lia|]. pose proof (pow2_pos k); lia.
Qed.

Lemma anc_inv x i : anc x i -> x = (i - 1) / 2 \/ anc x ((i - 1) / 2).
Proof.
  intros (k & H1 & H2). destruct k as [|k]; [lia|].
  destruct k as [|k].
  - left. replace (pow2 1) with 2 in H2 by reflexivity. lia.
  - right. exists (S k). split; [lia|]. rewrite H2, (pow2_S (S k)).
    replace ((i-1)/2 + 1) with ((i+1)/2) by lia.
    rewrite Z.div_div; [reflexivity|lia|]. pose proof (pow2_pos (S k)); lia.
Qed.

Lemma anc_dec x i : 0 <= i -> 0 <= x -> anc x i \/ ~ anc x i.
Proof.
  intros Hi Hx.
  assert (D : forall m : nat,
    (exists k : nat, (1 <= k <= m)%nat /\ x + 1 = (i + 1) / pow2 k)
    \/ ~ (exists k : nat, (1 <= k <= m)%nat /\ x + 1 = (i + 1) / pow2 k)).
  { induction m as [|m IHm]; [right; intros (k & ? & ?); lia|].
    destruct IHm as [(k & H1 & H2)|IHm]; [left; exists k; lia|].
    destruct (Z.eq_dec (x + 1) ((i+1) / pow2 (S m))) as [E|E].
    - left; exists (S m); lia.
    - right; intros (k & H1 & H2). destruct (Nat.eq_dec k (S m)) as [->|]; [lia|].
      apply IHm. exists k; lia. }
  destruct (D (Z.to_nat (i + 1))) as [(k & H1 & H2)|D2].
  - left; exists k; lia.
  - right; intros (k & H1 & H2). apply D2. exists k. split; [|exact H2].
    split; [exact H1|].
    assert (B : forall n : nat, Z.of_nat n < pow2 n).
    { induction n as [|n IHn]; [rewrite pow2_0; lia|]. rewrite pow2_S; lia. }
    specialize (B k). destruct (le_lt_dec k (Z.to_nat (i + 1))) as [|G]; [lia|].
    rewrite Z.div_small in H2; lia.
Qed.

Lemma even01_odd i : 1 <= i -> (i - even01 i) mod 2 = 1.
Proof. intros; unfold even01. destruct (i mod 2 =? 0) eqn:E; lia. Qed.

Lemma anc_even01 x i : anc x (i - even01 i) <-> anc x i.
Proof.
  assert (E : forall k : nat, (1 <= k)%nat ->
            (i - even01 i + 1) / pow2 k = (i + 1) / pow2 k).
  { intros k Hk. rewrite (pow2_pred k Hk).
    pose proof (pow2_pos (k-1)).
    rewrite <- !Z.div_div by lia.
    f_equal. unfold even01. destruct (i mod 2 =? 0) eqn:E; lia. }
  split; intros (k & H1 & H2); exists k; (split; [exact H1|]);
    [rewrite <- E by exact H1|rewrite E by exact H1]; exact H2.
Qed.

(* The children of x are x' only if x is the parent of x'. *)
Lemma child_parent x y : y = 2 * x + 1 \/ y = 2 * x + 2 -> x = (y - 1) / 2.
Proof. lia. Qed.

Lemma node_ok_set keys keys' y k x :
  set keys y k = Ok keys' -> x <> y -> x <> (y - 1) / 2 ->
  node_ok keys x -> node_ok keys' x.
Proof.
  intros S Hxy Hp (a & b & c & H1 & H2 & H3 & H4).
  exists a, b, c. rewrite !(get_set_other _ _ _ _ _ S); auto; lia.
Qed.

Lemma all_ok_set keys keys' y k :
  set keys y k = Ok keys' -> all_ok keys -> ok k = true -> all_ok keys'.
Proof.
  intros S A Hk x k' G. destruct (Z.eq_dec y x) as [->|D].
  - rewrite (get_set_same _ _ _ _ S) in G. congruence.
  - rewrite (get_set_other _ _ _ _ _ S D) in G. eauto.
Qed.

Lemma kmin_spec a b : ok a = true -> ok b = true ->
  (kmin a b = a \/ kmin a b = b) /\ leb (kmin a b) a = true
  /\ leb (kmin a b) b = true /\ ok (kmin a b) = true.
Proof.
  intros Ha Hb. unfold Heap.kmin. rewrite (ko_ltb _ _ _ _ KO) by assumption.
  destruct (leb a b) eqn:E; cbn.
  - repeat split; auto. now apply (ko_refl _ _ _ _ KO).
  - destruct (ko_total _ _ _ _ KO a b Ha Hb) as [T|T]; [congruence|].
    repeat split; auto. now apply (ko_refl _ _ _ _ KO).
Qed.

(* An upward sift repairs exactly the ancestors of i and keeps the rest. *)
Lemma sift_loop_spec n : forall keys i L,
  i mod 2 = 1 -> pow2 (S n) - 1 <= i < pow2 (S (S n)) - 1 -> (S n <= L)%nat ->
  len keys = 2 * pow2 L -> all_ok keys ->
  exists keys', sift_loop n keys i = Ok keys' /\ len keys' = len keys
    /\ all_ok keys'
    /\ (forall x, 1 <= x -> anc x i -> node_ok keys' x)
    /\ (forall x, ~ anc x i -> node_ok keys x -> node_ok keys' x)
    /\ (forall x, ~ anc x i -> get keys' x = get keys x).
Proof.
  induction n as [|n IH]; intros keys i L Hodd Hi HL Hlen Hok.
  - exists keys. cbn. replace (pow2 1) with 2 in Hi by reflexivity.
    replace (pow2 2) with 4 in Hi by reflexivity.
    assert (i = 1) by lia. subst i.
    repeat split; auto.
    intros x Hx (k & Hk1 & Hk2).
    assert ((1 + 1) / pow2 k <= 1).
    { rewrite (pow2_pred k Hk1). pose proof (pow2_pos (k-1)).
      rewrite <- Z.div_div by lia. replace ((1+1)/2) with 1 by reflexivity.
      apply Z.div_le_upper_bound; lia. }
    lia.
  - rewrite !pow2_S in Hi. pose proof (pow2_pos n) as Hp.
    pose proof (pow2_mono _ _ HL) as Hm. rewrite !pow2_S in Hm.
    cbn [Heap.sift_loop].
    set (p := (i - 1) / 2) in *.
    assert (Hp1 : pow2 n * 2 - 1 <= p < 4 * pow2 n - 1) by (subst p; lia).
    destruct (get_range keys i) as [a Ga]; [lia|].
    destruct (get_range keys (i + 1)) as [b Gb]; [lia|].
    rewrite Ga, Gb. cbn [rbind].
    destruct (set_range keys p (kmin a b)) as [keys1 S1]; [lia|].
    rewrite S1. cbn [rbind].
    assert (Oa := Hok _ _ Ga). assert (Ob := Hok _ _ Gb).
    destruct (kmin_spec a b Oa Ob) as (M1 & M2 & M3 & M4).
    set (q := p - even01 p).
    assert (Hq : q = p \/ q = p - 1)
      by (subst q; unfold even01; destruct (p mod 2 =? 0); lia).
    assert (Hqodd : q mod 2 = 1) by (subst q; apply even01_odd; lia).
    destruct (IH keys1 q L) as (keys2 & E2 & L2 & O2 & A2 & N2 & U2).
    + exact Hqodd.
    + rewrite !pow2_S. lia.
    + lia.
    + rewrite (set_len _ _ _ _ S1). exact Hlen.
    + eapply all_ok_set; eauto.
    + assert (AQ : forall x, anc x q <-> anc x p)
        by (intros x; subst q; apply anc_even01).
      assert (NPP : ~ anc p p).
      { intros (k & Hk1 & Hk2). rewrite (pow2_pred k Hk1) in Hk2.
        pose proof (pow2_pos (k-1)). rewrite <- Z.div_div in Hk2 by lia.
        assert ((p+1)/2/pow2 (k-1) <= (p+1)/2) by (apply Z.div_le_upper_bound; nia).
        lia. }
      assert (NPI : forall j, p < j -> ~ anc j p).
      { intros j Hj (k & Hk1 & Hk2). rewrite (pow2_pred k Hk1) in Hk2.
        pose proof (pow2_pos (k-1)). rewrite <- Z.div_div in Hk2 by lia.
        assert ((p+1)/2/pow2 (k-1) <= (p+1)/2) by (apply Z.div_le_upper_bound; nia).
        lia. }
      assert (NP1 : node_ok keys1 p).
      { exists (kmin a b), a, b.
        replace (2 * p + 1) with i by (subst p; lia).
        replace (2 * p + 2) with (i + 1) by (subst p; lia).
        rewrite (get_set_same _ _ _ _ S1).
        rewrite !(get_set_other _ _ _ _ _ S1) by (subst p; lia).
        auto 10. }
      exists keys2. split; [exact E2|].
      split; [rewrite L2; eapply set_len; eauto|].
      split; [exact O2|].
      split; [|split].
      * intros x Hx Hanc. apply anc_inv in Hanc. fold p in Hanc.
        destruct Hanc as [->|Hanc].
        -- apply N2; [rewrite AQ; exact NPP|exact NP1].
        -- apply A2; [exact Hx|]. rewrite AQ. exact Hanc.
      * intros x Hn Hno. apply N2.
        -- rewrite AQ. intros H. apply Hn. now apply anc_step.
        -- eapply node_ok_set; eauto.
           ++ intros ->. apply Hn. apply anc_parent.
           ++ intros ->. apply Hn. apply anc_step. apply anc_parent.
      * intros x Hn. rewrite U2.
        -- apply (get_set_other _ _ _ _ _ S1). intros <-. apply Hn. apply anc_parent.
        -- rewrite AQ. intros H. apply Hn. now apply anc_step.
Qed.

Lemma anc_lt x i : 0 <= i -> anc x i -> 2 * x + 1 <= i /\ x < i.
Proof.
  intros Hi (k & Hk1 & Hk2). rewrite (pow2_pred k Hk1) in Hk2.
  pose proof (pow2_pos (k-1)). rewrite <- Z.div_div in Hk2 by lia.
  assert ((i+1)/2/pow2 (k-1) <= (i+1)/2) by (apply Z.div_le_upper_bound; nia).
  lia.
Qed.

Lemma sift_spec keys levels i :
  (1 <= levels)%nat -> pow2 levels - 1 <= i < pow2 (S levels) - 1 ->
  len keys = 2 * pow2 levels -> all_ok keys ->
  exists keys', sift keys levels i = Ok keys' /\ len keys' = len keys
    /\ all_ok keys'
    /\ (forall x, 1 <= x -> anc x i -> node_ok keys' x)
    /\ (forall x, ~ anc x i -> node_ok keys x -> node_ok keys' x)
    /\ (forall x, ~ anc x i -> get keys' x = get keys x).
Proof.
  intros HL Hi Hlen Hok. unfold Heap.sift.
  pose proof (pow2_pred levels HL) as P. pose proof (pow2_pos (levels - 1)).
  rewrite pow2_S in Hi.
  assert (Hq : i - even01 i = i \/ (i - even01 i = i - 1 /\ i mod 2 = 0))
    by (unfold even01; destruct (i mod 2 =? 0) eqn:E; lia).
  destruct (sift_loop_spec (levels - 1) keys (i - even01 i) levels)
    as (k' & E & L & O & A & N & U).
  - apply even01_odd. lia.
  - replace (S (levels - 1)) with levels by lia. rewrite pow2_S. lia.
  - lia.
  - exact Hlen.
  - exact Hok.
  - exists k'. split; [exact E|]. split; [exact L|]. split; [exact O|].
    setoid_rewrite <- (anc_even01 _ i). auto.
Qed.

(* Same, for sift_all. *)
Lemma sift_all_loop_spec levels : (1 <= levels)%nat -> forall n keys i,
  i mod 2 = 1 -> i + 2 * Z.of_nat n = pow2 (S levels) - 1 ->
  pow2 levels - 1 <= i -> len keys = 2 * pow2 levels -> all_ok keys ->
  (forall x, 1 <= x < pow2 levels - 1 ->
     (forall y, i <= y < pow2 (S levels) - 1 -> ~ anc x y) -> node_ok keys x) ->
  exists keys', sift_all_loop n keys levels i = Ok keys' /\ len keys' = len keys
    /\ all_ok keys'
    /\ (forall x, 1 <= x < pow2 levels - 1 -> node_ok keys' x)
    /\ (forall x, pow2 levels - 1 <= x -> get keys' x = get keys x).
Proof.
  intros HL. induction n as [|n IH]; intros keys i Hodd Hn Hi Hlen Hok Hinv.
  - exists keys. cbn. repeat split; auto.
    intros x Hx. apply Hinv; [exact Hx|]. intros y Hy. lia.
  - cbn [Heap.sift_all_loop].
    destruct (sift_spec keys levels i HL) as (k1 & E1 & L1 & O1 & A1 & N1 & U1);
      [lia|exact Hlen|exact Hok|].
    rewrite E1. cbn [rbind].
    destruct (IH k1 (i + 2)) as (k2 & E2 & L2 & O2 & A2 & U2); try lia; auto.
    + intros x Hx Hy.
      assert (D : anc x i \/ ~ anc x i) by (apply anc_dec; lia).
      destruct D as [D|D].
      * apply A1; [lia|exact D].
      * apply N1; [exact D|]. apply Hinv; [exact Hx|].
        intros y Hy2 Hanc.
        destruct (Z.eq_dec y i) as [->|]; [auto|].
        destruct (Z.eq_dec y (i + 1)) as [->|].
        -- apply D. apply anc_even01 in Hanc. unfold even01 in Hanc.
           destruct ((i + 1) mod 2 =? 0) eqn:E; [|lia].
           now replace (i + 1 - 1) with i in Hanc by lia.
        -- eapply Hy; [|exact Hanc]. lia.
    + exists k2. split; [exact E2|]. split; [lia|]. split; [exact O2|].
      split; [exact A2|].
      intros x Hx. rewrite U2 by exact Hx. apply U1.
      intros Hanc. pose proof (pow2_pos levels). rewrite pow2_S in *.
      apply anc_lt in Hanc; lia.
Qed.

Lemma internal_has_leaf levels x : 1 <= x < pow2 levels - 1 ->
  exists y, pow2 levels - 1 <= y < pow2 (S levels) - 1 /\ anc x y.
Proof.
  intros Hx.
  assert (G : forall n, x + 1 < pow2 n ->
    exists k, (1 <= k)%nat /\ pow2 n <= (x + 1) * pow2 k < 2 * pow2 n).
  { induction n as [|n IH]; intros Hn.
    - rewrite pow2_0 in Hn; lia.
    - rewrite pow2_S in *. destruct (Z_lt_le_dec (x + 1) (pow2 n)) as [Hlt|Hge].
      + destruct (IH Hlt) as (k & H1 & H2). exists (S k). rewrite pow2_S. split; [lia|].
        nia.
      + exists 1%nat. replace (pow2 1) with 2 by reflexivity. lia. }
  destruct (G levels) as (k & Hk & Hr); [lia|].
  exists ((x + 1) * pow2 k - 1). rewrite pow2_S. split; [lia|].
  exists k. split; [exact Hk|].
  replace ((x + 1) * pow2 k - 1 + 1) with ((x+1) * pow2 k) by lia.
  rewrite Z.div_mul; [reflexivity|]. pose proof (pow2_pos k); lia.
Qed.

Lemma sift_all_spec keys levels :
  (1 <= levels)%nat -> len keys = 2 * pow2 levels -> all_ok keys ->
  exists keys', sift_all keys levels = Ok keys' /\ len keys' = len keys
    /\ all_ok keys'
    /\ (forall x, 1 <= x < pow2 levels - 1 -> node_ok keys' x)
    /\ (forall x, pow2 levels - 1 <= x -> get keys' x = get keys x).
Proof.
  intros HL Hlen Hok. unfold Heap.sift_all.
  pose proof (pow2_pred levels HL) as P. pose proof (pow2_pos (levels - 1)).
  apply sift_all_loop_spec; auto; try rewrite pow2_S; try lia.
  intros x Hx Hy. destruct (internal_has_leaf levels x Hx) as (y & H1 & H2).
  exfalso. eapply Hy; [|exact H2]. rewrite pow2_S in H1. exact H1.
Qed.

(* ------------------------------------------------------------------ *)
(* The state invariant. *)

Record Inv (h : heap) : Prop := mkInv {
  inv_lmin : (1 <= hmin h <= hlevels h)%nat;
  inv_max : 1 <= hmax h;
  inv_lenk : len (hkeys h) = 2 * pow2 (hlevels h);
  inv_lenv : len (hvals h) = pow2 (hlevels h);
  inv_lenx : len (hxrefs h) = hmax h + 1;
  inv_cnt : 0 <= hcount h <= pow2 (hlevels h);
  inv_ok : all_ok (hkeys h);
  inv_tree : forall x, 1 <= x < pow2 (hlevels h) - 1 -> node_ok (hkeys h) x;
  inv_pad : forall c, hcount h <= c < pow2 (hlevels h) ->
      get (hkeys h) (pow2 (hlevels h) - 1 + c) = Ok inf;
  inv_vals : forall c, 0 <= c < hcount h ->
      exists v, get (hvals h) c = Ok v /\ 0 <= v <= hmax h
        /\ get (hxrefs h) v = Ok c;
  inv_xrefs : forall v, 0 <= v <= hmax h ->
      get (hxrefs h) v = Ok (-1)
      \/ exists c, get (hxrefs h) v = Ok c /\ 0 <= c < hcount h
           /\ get (hvals h) c = Ok v
}.

(* The finite map a heap stands for. *)
Definition abs (h : heap) (v : Z) : option K :=
  match get (hxrefs h) v with
  | Ok c => if c =? -1 then None
            else match get (hkeys h) (pow2 (hlevels h) - 1 + c) with
                 | Ok k => Some k
                 | Err _ => None
                 end
  | Err _ => None
  end.

Lemma abs_leaf h c v k : Inv h -> 0 <= c < hcount h -> get (hvals h) c = Ok v ->
  get (hkeys h) (pow2 (hlevels h) - 1 + c) = Ok k -> abs h v = Some k.
Proof.
  intros I Hc Hv Hk. destruct (inv_vals _ I c Hc) as (v' & V1 & V2 & V3).
  assert (v' = v) by congruence; subst v'. unfold abs. rewrite V3.
  destruct (c =? -1) eqn:E; [lia|]. now rewrite Hk.
Qed.

Lemma abs_some h v k : Inv h -> abs h v = Some k ->
  0 <= v <= hmax h /\ ok k = true /\
  exists c, 0 <= c < hcount h /\ get (hvals h) c = Ok v
    /\ get (hxrefs h) v = Ok c
    /\ get (hkeys h) (pow2 (hlevels h) - 1 + c) = Ok k.
Proof.
  unfold abs; intros I H.
  destruct (get (hxrefs h) v) as [c|] eqn:G; [|discriminate].
  pose proof (get_ok_range _ _ _ G) as R. rewrite (inv_lenx _ I) in R.
  destruct (c =? -1) eqn:E; [discriminate|].
  destruct (inv_xrefs _ I v ltac:(lia)) as [X|(c' & X1 & X2 & X3)];
    [rewrite G in X; injection X as ->; lia|].
  assert (c' = c) by congruence; subst c'.
  destruct (get (hkeys h) (pow2 (hlevels h) - 1 + c)) as [k'|] eqn:GK;
    [|discriminate]. injection H as ->.
  split; [lia|]. split; [eapply (inv_ok _ I); eauto|]. exists c. auto.
Qed.

Lemma abs_none_xref h v : Inv h -> 0 <= v <= hmax h ->
  abs h v = None -> get (hxrefs h) v = Ok (-1).
Proof.
  unfold abs; intros I Hv H.
  destruct (inv_xrefs _ I v Hv) as [X|(c & X1 & X2 & X3)]; [exact X|].
  rewrite X1 in H. destruct (c =? -1) eqn:E; [lia|].
  destruct (get_range (hkeys h) (pow2 (hlevels h) - 1 + c)) as [k Gk].
  { rewrite (inv_lenk _ I). pose proof (inv_cnt _ I). lia. }
  rewrite Gk in H. discriminate.
Qed.

Lemma abs_xref_none h v : get (hxrefs h) v = Ok (-1) -> abs h v = None.
Proof. unfold abs; intros ->. reflexivity. Qed.

Lemma abs_out h v : Inv h -> ~ (0 <= v <= hmax h) -> abs h v = None.
Proof.
  intros I Hv. destruct (abs h v) as [k|] eqn:E; [|reflexivity].
  apply abs_some in E; [|exact I]. tauto.
Qed.

Lemma count_zero_iff h : Inv h -> (hcount h = 0 <-> forall v, abs h v = None).
Proof.
  intros I. split.
  - intros H v. destruct (abs h v) as [k|] eqn:E; [|reflexivity].
    apply abs_some in E; [|exact I]. destruct E as (_ & _ & c & Hc & _). lia.
  - intros H. pose proof (inv_cnt _ I) as Hc.
    destruct (Z.eq_dec (hcount h) 0) as [E|N]; [exact E|].
    destruct (inv_vals _ I 0 ltac:(lia)) as (v & V1 & V2 & V3).
    destruct (get_range (hkeys h) (pow2 (hlevels h) - 1 + 0)) as [k Gk].
    { rewrite (inv_lenk _ I). pose proof (pow2_pos (hlevels h)). lia. }
    pose proof (abs_leaf h 0 v k I ltac:(lia) V1 Gk) as A. rewrite H in A.
    discriminate.
Qed.

(* ---------------- init ---------------- *)

Lemma init_levels_spec fuel : forall levels capacity,
  (1 <= levels)%nat -> capacity <= pow2 (levels + fuel) ->
  exists l, init_levels (S fuel) levels capacity = Ok l /\ (1 <= l)%nat
    /\ capacity <= pow2 l.
Proof.
  induction fuel as [|fuel IH]; intros levels capacity HL HC.
  - cbn [init_levels]. rewrite Nat.add_0_r in HC.
    destruct (pow2 levels <? capacity) eqn:E; [lia|]. eauto with zarith.
  - cbn [init_levels]. destruct (pow2 levels <? capacity) eqn:E.
    + apply (IH (S levels)); [lia|].
      now replace (S levels + fuel)%nat with (levels + S fuel)%nat by lia.
    + exists levels. repeat split; auto; lia.
Qed.

Lemma init_ok capacity mx :
  1 <= capacity -> 1 <= mx ->
  exists h, init_heap inf capacity mx = Ok h /\ Inv h /\ hmax h = mx
    /\ hcount h = 0 /\ (forall v, abs h v = None).
Proof.
  intros HC HM. unfold init_heap.
  destruct (capacity <? 1) eqn:E1; [lia|]. destruct (mx <? 1) eqn:E2; [lia|].
  destruct (init_levels_spec (Z.to_nat (Z.log2_up capacity)) 1 capacity)
    as (l & EL & HL & HP).
  { lia. }
  { destruct (Z.eq_dec capacity 1) as [->|N].
    - pose proof (pow2_pos (1 + Z.to_nat (Z.log2_up 1))). lia.
    - pose proof (Z.log2_up_spec capacity ltac:(lia)) as [_ S].
      pose proof (Z.log2_up_nonneg capacity).
      cbn [Nat.add]. rewrite pow2_S. unfold pow2.
      rewrite Z2Nat.id by lia. pose proof (Z.pow_pos_nonneg 2 (Z.log2_up capacity)). lia. }
  rewrite EL. cbn [rbind]. pose proof (pow2_pos l) as PL.
  eexists. split; [reflexivity|].
  assert (X : forall v, 0 <= v <= mx -> get (full (mx + 1) (-1)) v = Ok (-1))
    by (intros; apply get_full; lia).
  split.
  - constructor; cbn [hmin hlevels hmax hkeys hvals hxrefs hcount];
      rewrite ?full_len by lia; try lia.
    + intros x k G. pose proof (get_ok_range _ _ _ G) as R.
      rewrite full_len in R by lia. rewrite get_full in G by lia.
      injection G as <-. apply (ko_inf_ok _ _ _ _ KO).
    + intros x Hx. exists inf, inf, inf. rewrite !get_full by lia.
      pose proof (ko_refl _ _ _ _ KO inf (ko_inf_ok _ _ _ _ KO)). auto 10.
    + intros c Hc. apply get_full. lia.
    + intros v Hv. left. auto.
  - cbn. repeat split. intros v. unfold abs; cbn [hxrefs].
    destruct (get (full (mx + 1) (-1)) v) as [c|] eqn:G; [|reflexivity].
    pose proof (get_ok_range _ _ _ G) as R. rewrite full_len in R by lia.
    rewrite X in G by lia. injection G as <-. reflexivity.
Qed.

(* ---------------- updating one leaf ---------------- *)

(* Changing the key in leaf c and sifting gives a valid tree again and leaves
   the other leaves alone. *)
Lemma update_leaf keys levels c k :
  (1 <= levels)%nat -> len keys = 2 * pow2 levels -> all_ok keys ->
  (forall x, 1 <= x < pow2 levels - 1 -> node_ok keys x) ->
  0 <= c < pow2 levels -> ok k = true ->
  exists k1 k2, set keys (pow2 levels - 1 + c) k = Ok k1
    /\ sift k1 levels (pow2 levels - 1 + c) = Ok k2
    /\ len k2 = 2 * pow2 levels /\ all_ok k2
    /\ (forall x, 1 <= x < pow2 levels - 1 -> node_ok k2 x)
    /\ get k2 (pow2 levels - 1 + c) = Ok k
    /\ (forall x, pow2 levels - 1 <= x -> x <> pow2 levels - 1 + c ->
          get k2 x = get keys x).
Proof.
  intros HL Hlen Hok Htree Hc Hk.
  destruct (set_range keys (pow2 levels - 1 + c) k) as [k1 S1]; [lia|].
  destruct (sift_spec k1 levels (pow2 levels - 1 + c) HL)
    as (k2 & E2 & L2 & O2 & A2 & N2 & U2).
  - rewrite pow2_S. lia.
  - rewrite (set_len _ _ _ _ S1). exact Hlen.
  - eapply all_ok_set; eauto.
  - exists k1, k2. rewrite (set_len _ _ _ _ S1) in L2.
    assert (NA : forall x, pow2 levels - 1 <= x -> ~ anc x (pow2 levels - 1 + c)).
    { intros x Hx Hanc. apply anc_lt in Hanc; lia. }
    repeat split; auto; try lia.
    + intros x Hx.
      assert (D := anc_dec x (pow2 levels - 1 + c) ltac:(lia) ltac:(lia)).
      destruct D as [D|D]; [apply A2; [lia|exact D]|].
      apply N2; [exact D|]. eapply node_ok_set; eauto; [lia|].
      intros ->. apply D. apply anc_parent.
    + rewrite U2 by (apply NA; lia). eapply get_set_same; eauto.
    + intros x Hx Hne. rewrite U2 by (apply NA; lia).
      eapply get_set_other; eauto.
Qed.

(* ---------------- resizing ---------------- *)

Lemma resize_spec keys vals levels count nl :
  (1 <= levels)%nat -> (1 <= nl)%nat ->
  len keys = 2 * pow2 levels -> len vals = pow2 levels -> all_ok keys ->
  0 <= count <= pow2 levels -> count <= pow2 nl ->
  (forall c, count <= c < pow2 levels -> get keys (pow2 levels - 1 + c) = Ok inf) ->
  exists nk nv, resize_levels keys vals levels count nl = Ok (nk, nv)
    /\ len nk = 2 * pow2 nl /\ len nv = pow2 nl /\ all_ok nk
    /\ (forall x, 1 <= x < pow2 nl - 1 -> node_ok nk x)
    /\ (forall c, 0 <= c < count ->
          get nk (pow2 nl - 1 + c) = get keys (pow2 levels - 1 + c)
          /\ get nv c = get vals c)
    /\ (forall c, count <= c < pow2 nl -> get nk (pow2 nl - 1 + c) = Ok inf).
Proof.
  intros HL HN Hlk Hlv Hok Hc Hc2 Hpad. unfold Heap.resize_levels.
  pose proof (pow2_pos levels) as P1. pose proof (pow2_pos nl) as P2.
  assert (OKF : forall n, all_ok (full n inf)).
  { intros n x k G. pose proof (get_ok_range _ _ _ G) as R.
    unfold full, len in R. rewrite repeat_length in R.
    rewrite get_full in G by lia. injection G as <-. apply (ko_inf_ok _ _ _ _ KO). }
  destruct (count =? 0) eqn:E; cbn [negb rbind].
  - destruct (sift_all_spec (full (2 * pow2 nl) inf) nl HN)
      as (nk & E1 & L1 & O1 & T1 & U1); [apply full_len; lia|apply OKF|].
    rewrite E1. cbn [rbind]. exists nk, (full (pow2 nl) (-1)).
    split; [reflexivity|]. rewrite L1, !full_len by lia.
    repeat split; auto; try lia.
    intros c Hcc. rewrite U1 by lia. apply get_full. lia.
  - set (n := Z.min (pow2 nl - 1) (pow2 levels - 1) + 1).
    assert (Hn : n = Z.min (pow2 nl) (pow2 levels)) by (subst n; lia).
    clearbody n.
    destruct (set_slice_range (full (2 * pow2 nl) inf)
       (slice keys (pow2 levels - 1) (pow2 levels - 1 + n))
       (pow2 nl - 1) (pow2 nl - 1 + n)) as [sk SK].
    { lia. } { rewrite full_len; lia. } { rewrite slice_len; lia. }
    destruct (set_slice_range (full (pow2 nl) (-1)) (slice vals 0 n) 0 n) as [sv SV].
    { lia. } { rewrite full_len; lia. } { rewrite slice_len; lia. }
    rewrite SK, SV. cbn [rbind].
    pose proof (set_slice_len _ _ _ _ _ SK) as LK.
    pose proof (set_slice_len _ _ _ _ _ SV) as LV.
    rewrite full_len in LK by lia. rewrite full_len in LV by lia.
    assert (GK : forall c, 0 <= c < n ->
              get sk (pow2 nl - 1 + c) = get keys (pow2 levels - 1 + c)).
    { intros c Hcc. rewrite (get_set_slice _ _ _ _ _ _ SK).
      destruct ((pow2 nl - 1 <=? pow2 nl - 1 + c)
                && (pow2 nl - 1 + c <? pow2 nl - 1 + n)) eqn:E2; [|lia].
      rewrite get_slice by lia. f_equal. lia. }
    assert (GK2 : forall x, 0 <= x < 2 * pow2 nl ->
               ~ (pow2 nl - 1 <= x < pow2 nl - 1 + n) -> get sk x = Ok inf).
    { intros x Hx Hno. rewrite (get_set_slice _ _ _ _ _ _ SK).
      destruct ((pow2 nl - 1 <=? x) && (x <? pow2 nl - 1 + n)) eqn:E2; [lia|].
      apply get_full. lia. }
    assert (OK1 : all_ok sk).
    { intros x k G. pose proof (get_ok_range _ _ _ G) as R. rewrite LK in R.
      destruct (Z_le_dec (pow2 nl - 1) x) as [H1|H1];
        [destruct (Z_lt_dec x (pow2 nl - 1 + n)) as [H2|H2]|].
      - replace x with (pow2 nl - 1 + (x - (pow2 nl - 1))) in G by lia.
        rewrite GK in G by lia. eapply Hok; eauto.
      - rewrite GK2 in G by lia. injection G as <-. apply (ko_inf_ok _ _ _ _ KO).
      - rewrite GK2 in G by lia. injection G as <-. apply (ko_inf_ok _ _ _ _ KO). }
    destruct (sift_all_spec sk nl HN LK OK1) as (nk & E1 & L1 & O1 & T1 & U1).
    rewrite E1. cbn [rbind]. exists nk, sv. split; [reflexivity|].
    repeat split; auto; try lia.
    + rewrite U1 by lia. apply GK. lia.
    + rewrite (get_set_slice _ _ _ _ _ _ SV).
      destruct ((0 <=? c) && (c <? n)) eqn:E2; [|lia].
      rewrite get_slice by lia. f_equal; lia.
    + intros c Hcc. rewrite U1 by lia.
      destruct (Z_lt_dec c n) as [H2|H2].
      * rewrite GK by lia. apply Hpad. lia.
      * apply GK2; lia.
Qed.

(* ---------------- pushing ---------------- *)

(* Storing key k in the leaf of a value that is already queued. *)
Lemma store_existing h v c k :
  Inv h -> 0 <= v <= hmax h -> get (hxrefs h) v = Ok c -> c <> -1 -> ok k = true ->
  exists k1 k2, set (hkeys h) (pow2 (hlevels h) - 1 + c) k = Ok k1
    /\ sift k1 (hlevels h) (pow2 (hlevels h) - 1 + c) = Ok k2
    /\ let h' := mkHeap k2 (hvals h) (hxrefs h) (hmax h) (hlevels h) (hmin h)
                        (hcount h) in
       Inv h' /\ forall w, abs h' w = if w =? v then Some k else abs h w.
Proof.
  intros I Hv Hc Hne Hk.
  destruct (inv_xrefs _ I v Hv) as [X|(c' & X1 & X2 & X3)]; [congruence|].
  assert (c' = c) by congruence; subst c'.
  pose proof (inv_cnt _ I) as Hcnt.
  destruct (update_leaf (hkeys h) (hlevels h) c k) as
    (k1 & k2 & E1 & E2 & L2 & O2 & T2 & G2 & U2); try apply I; auto; try lia.
  { pose proof (inv_lmin _ I). lia. }
  exists k1, k2. split; [exact E1|]. split; [exact E2|].
  cbv zeta. split.
  - constructor; cbn [hmin hlevels hmax hkeys hvals hxrefs hcount];
      try apply I; auto.
    intros d Hd. rewrite U2 by lia. apply (inv_pad _ I). exact Hd.
  - intros w. unfold abs; cbn [hmin hlevels hmax hkeys hvals hxrefs hcount].
    destruct (w =? v) eqn:E.
    + assert (w = v) by lia; subst w. rewrite Hc.
      destruct (c =? -1) eqn:E3; [lia|]. now rewrite G2.
    + destruct (get (hxrefs h) w) as [d|] eqn:Gw; [|reflexivity].
      destruct (d =? -1) eqn:E3; [reflexivity|].
      pose proof (get_ok_range _ _ _ Gw) as Rw. rewrite (inv_lenx _ I) in Rw.
      destruct (inv_xrefs _ I w ltac:(lia)) as [Y|(d' & Y1 & Y2 & Y3)].
      { rewrite Gw in Y; injection Y as ->; lia. }
      assert (d' = d) by congruence; subst d'.
      assert (d <> c) by (intros ->; assert (w = v) by congruence; lia).
      rewrite U2 by lia. reflexivity.
Qed.

Lemma simple_push_spec h k v :
  Inv h -> 0 <= v <= hmax h -> get (hxrefs h) v = Ok (-1) -> ok k = true ->
  exists h', simple_push h k v = Ok h' /\ Inv h' /\ hmax h' = hmax h
    /\ hcount h' = hcount h + 1
    /\ forall w, abs h' w = if w =? v then Some k else abs h w.
Proof.
  intros I Hv Hx Hk. unfold Heap.simple_push.
  pose proof (inv_cnt _ I) as Hcnt. pose proof (inv_lmin _ I) as HLm.
  (* the arrays after the possible resize *)
  assert (R : exists keys vals levels,
    (if pow2 (hlevels h) <=? hcount h
     then let* '(keys, vals) := resize_levels (hkeys h) (hvals h) (hlevels h)
                                  (hcount h) (S (hlevels h)) in
          Ok (keys, vals, S (hlevels h), 2 * pow2 (hlevels h))
     else Ok (hkeys h, hvals h, hlevels h, pow2 (hlevels h)))
    = Ok (keys, vals, levels, pow2 levels)
    /\ (hlevels h <= levels)%nat
    /\ hcount h < pow2 levels
    /\ len keys = 2 * pow2 levels /\ len vals = pow2 levels /\ all_ok keys
    /\ (forall x, 1 <= x < pow2 levels - 1 -> node_ok keys x)
    /\ (forall c, 0 <= c < hcount h ->
          get keys (pow2 levels - 1 + c)
          = get (hkeys h) (pow2 (hlevels h) - 1 + c)
          /\ get vals c = get (hvals h) c)
    /\ (forall c, hcount h <= c < pow2 levels ->
          get keys (pow2 levels - 1 + c) = Ok inf)).
  { destruct (pow2 (hlevels h) <=? hcount h) eqn:E.
    - destruct (resize_spec (hkeys h) (hvals h) (hlevels h) (hcount h)
                  (S (hlevels h))) as (nk & nv & E1 & R1); try apply I; try lia.
      { rewrite pow2_S. lia. }
      rewrite E1. cbn [rbind]. exists nk, nv, (S (hlevels h)).
      rewrite <- pow2_S. split; [reflexivity|]. split; [lia|].
      split; [|exact R1]. rewrite pow2_S. pose proof (pow2_pos (hlevels h)). lia.
    - exists (hkeys h), (hvals h), (hlevels h). split; [reflexivity|].
      split; [lia|]. split; [lia|].
      repeat split; try apply I. }
  destruct R as (keys & vals & levels & ER & HLe & Hroom & Lk & Lv & Ok1 & T1 & Old & Pad).
  rewrite ER. cbn [rbind]. clear ER.
  destruct (update_leaf keys levels (hcount h) k) as
    (k1 & k2 & E1 & E2 & L2 & O2 & T2 & G2 & U2); auto; try lia.
  rewrite E1. cbn [rbind].
  destruct (set_range vals (hcount h) v) as [vals' SV]; [lia|].
  rewrite SV. cbn [rbind].
  destruct (set_range (hxrefs h) v (hcount h)) as [xr SX];
    [rewrite (inv_lenx _ I); lia|].
  rewrite SX. cbn [rbind]. rewrite E2. cbn [rbind].
  eexists. split; [reflexivity|].
  assert (XV : get xr v = Ok (hcount h)) by (eapply get_set_same; eauto).
  assert (XO : forall w, w <> v -> get xr w = get (hxrefs h) w)
    by (intros; eapply get_set_other; eauto).
  assert (VV : get vals' (hcount h) = Ok v) by (eapply get_set_same; eauto).
  assert (VO : forall c, 0 <= c < hcount h -> get vals' c = get (hvals h) c).
  { intros c Hc. rewrite (get_set_other _ _ _ c _ SV) by lia. apply Old. lia. }
  split; [|split; [reflexivity|split; [reflexivity|]]].
  - constructor; cbn [hmin hlevels hmax hkeys hvals hxrefs hcount]; auto; try lia;
      try apply I.
    + rewrite (set_len _ _ _ _ SV). exact Lv.
    + rewrite (set_len _ _ _ _ SX). apply I.
    + intros c Hc. rewrite U2 by lia. apply Pad. lia.
    + intros c Hc. destruct (Z.eq_dec c (hcount h)) as [->|D].
      * exists v. auto.
      * destruct (inv_vals _ I c ltac:(lia)) as (w & W1 & W2 & W3).
        exists w. rewrite VO by lia. split; [exact W1|]. split; [exact W2|].
        rewrite XO; [exact W3|]. intros ->. rewrite Hx in W3. injection W3; lia.
    + intros w Hw. destruct (Z.eq_dec w v) as [->|D].
      * right. exists (hcount h). split; [exact XV|]. split; [lia|exact VV].
      * rewrite XO by exact D.
        destruct (inv_xrefs _ I w Hw) as [X|(c & X1 & X2 & X3)]; [auto|].
        right. exists c. rewrite VO by lia. split; [exact X1|]. split; [lia|exact X3].
  - intros w. unfold abs; cbn [hmin hlevels hmax hkeys hvals hxrefs hcount].
    destruct (w =? v) eqn:E.
    + assert (w = v) by lia; subst w. rewrite XV.
      destruct (hcount h =? -1) eqn:E3; [lia|]. now rewrite G2.
    + rewrite XO by lia.
      destruct (get (hxrefs h) w) as [d|] eqn:Gw; [|reflexivity].
      destruct (d =? -1) eqn:E3; [reflexivity|].
      pose proof (get_ok_range _ _ _ Gw) as Rw. rewrite (inv_lenx _ I) in Rw.
      destruct (inv_xrefs _ I w ltac:(lia)) as [Y|(d' & Y1 & Y2 & Y3)].
      { rewrite Gw in Y; injection Y as ->; lia. }
      assert (d' = d) by congruence; subst d'.
      rewrite U2 by lia. now rewrite (proj1 (Old d Y2)).
Qed.

Lemma push_spec h k v : Inv h -> ok k = true ->
  exists h' c, push h k v = Ok (h', c) /\ Inv h' /\ hmax h' = hmax h /\
    if (0 <=? v) && (v <=? hmax h) then
      (c = match abs h v with Some _ => 0 | None => 1 end)
      /\ forall w, abs h' w = if w =? v then Some k else abs h w
    else c = -1 /\ h' = h.
Proof.
  intros I Hk. unfold Heap.push.
  destruct ((0 <=? v) && (v <=? hmax h)) eqn:E; cbn [negb].
  2:{ exists h, (-1). auto. }
  destruct (get_range (hxrefs h) v) as [c Gc]; [rewrite (inv_lenx _ I); lia|].
  rewrite Gc. cbn [rbind].
  destruct (c =? -1) eqn:E2; cbn [negb].
  - assert (c = -1) by lia; subst c.
    destruct (simple_push_spec h k v I ltac:(lia) Gc Hk) as (h' & E1 & I1 & M1 & C1 & A1).
    rewrite E1. cbn [rbind]. exists h', 1.
    rewrite (abs_xref_none h v Gc). auto.
  - destruct (store_existing h v c k I ltac:(lia) Gc ltac:(lia) Hk)
      as (k1 & k2 & E3 & E4 & I1 & A1).
    rewrite E3. cbn [rbind]. rewrite E4. cbn [rbind].
    eexists _, 0. split; [reflexivity|]. split; [exact I1|]. split; [reflexivity|].
    split; [|exact A1].
    destruct (abs h v) eqn:EA; [reflexivity|].
    apply abs_none_xref in EA; [|exact I|lia]. rewrite Gc in EA. injection EA; lia.
Qed.

Lemma push_if_lower_spec h k v : Inv h -> ok k = true ->
  exists h' c, push_if_lower h k v = Ok (h', c) /\ Inv h' /\ hmax h' = hmax h /\
    if (0 <=? v) && (v <=? hmax h) then
      let lower := match abs h v with Some k0 => ltb k k0 | None => true end in
      c = (if lower then 1 else 0)
      /\ forall w, abs h' w = if (w =? v) && lower then Some k else abs h w
    else c = -1 /\ h' = h.
Proof.
  intros I Hk. unfold Heap.push_if_lower.
  destruct ((0 <=? v) && (v <=? hmax h)) eqn:E; cbn [negb].
  2:{ exists h, (-1). auto. }
  destruct (get_range (hxrefs h) v) as [c Gc]; [rewrite (inv_lenx _ I); lia|].
  rewrite Gc. cbn [rbind].
  destruct (c =? -1) eqn:E2; cbn [negb].
  - assert (c = -1) by lia; subst c.
    destruct (simple_push_spec h k v I ltac:(lia) Gc Hk) as (h' & E1 & I1 & M1 & C1 & A1).
    rewrite E1. cbn [rbind]. exists h', 1.
    rewrite (abs_xref_none h v Gc). cbv zeta.
    split; [reflexivity|]. split; [exact I1|]. split; [exact M1|].
    split; [reflexivity|]. intros w. rewrite A1. destruct (w =? v); reflexivity.
  - destruct (inv_xrefs _ I v ltac:(lia)) as [X|(c' & X1 & X2 & X3)];
      [rewrite Gc in X; injection X; lia|].
    assert (c' = c) by congruence; subst c'.
    pose proof (inv_cnt _ I) as Hcnt.
    destruct (get_range (hkeys h) (pow2 (hlevels h) - 1 + c)) as [k0 G0];
      [rewrite (inv_lenk _ I); lia|].
    rewrite G0. cbn [rbind].
    assert (EA : abs h v = Some k0) by (eapply abs_leaf; eauto).
    rewrite EA. destruct (ltb k k0) eqn:EL.
    + destruct (store_existing h v c k I ltac:(lia) Gc ltac:(lia) Hk)
        as (k1 & k2 & E3 & E4 & I1 & A1).
      rewrite E3. cbn [rbind]. rewrite E4. cbn [rbind].
      eexists _, 1. split; [reflexivity|]. split; [exact I1|]. split; [reflexivity|].
      cbv zeta. split; [reflexivity|]. intros w. rewrite A1.
      destruct (w =? v); reflexivity.
    + exists h, 0. cbv zeta. split; [reflexivity|]. split; [exact I|].
      split; [reflexivity|]. split; [reflexivity|]. intros w.
      now rewrite andb_false_r.
Qed.

(* ---------------- removing and popping ---------------- *)

Lemma remove_spec h c v :
  Inv h -> 0 <= c < hcount h -> get (hvals h) c = Ok v ->
  exists h', remove h (pow2 (hlevels h) - 1 + c) = Ok h' /\ Inv h'
    /\ hmax h' = hmax h /\ hcount h' = hcount h - 1
    /\ forall w, abs h' w = if w =? v then None else abs h w.
Proof.
  intros I Hc Hv. unfold Heap.remove.
  pose proof (inv_cnt _ I) as Hcnt. pose proof (inv_lmin _ I) as HLm.
  pose proof (inv_lenk _ I) as Lk. pose proof (inv_lenv _ I) as Lv.
  pose proof (inv_lenx _ I) as Lx.
  set (P := pow2 (hlevels h)) in *.
  set (last := hcount h - 1) in *.
  destruct (inv_vals _ I last ltac:(lia)) as (vl & VL1 & VL2 & VL3).
  destruct (inv_vals _ I c Hc) as (v' & V1 & V2 & V3).
  assert (v' = v) by congruence; subst v'. clear V1.
  rewrite VL1. cbn [rbind].
  replace (P - 1 + c - (P - 1)) with c by lia.
  replace (P - 1 + hcount h - 1) with (P - 1 + last) by lia.
  destruct (set_range (hxrefs h) vl c) as [x1 SX1]; [lia|]. rewrite SX1. cbn [rbind].
  rewrite Hv. cbn [rbind].
  destruct (set_range x1 v (-1)) as [x2 SX2]; [rewrite (set_len _ _ _ _ SX1); lia|].
  rewrite SX2. cbn [rbind].
  destruct (get_range (hkeys h) (P - 1 + last)) as [kl GKL]; [lia|].
  rewrite GKL. cbn [rbind].
  destruct (set_range (hkeys h) (P - 1 + c) kl) as [k1 SK1]; [lia|].
  rewrite SK1. cbn [rbind].
  destruct (set_range (hvals h) c vl) as [vs SV]; [lia|]. rewrite SV. cbn [rbind].
  destruct (set_range k1 (P - 1 + last) inf) as [k2 SK2];
    [rewrite (set_len _ _ _ _ SK1); lia|].
  rewrite SK2. cbn [rbind].
  assert (XV : get x2 v = Ok (-1)) by (eapply get_set_same; eauto).
  assert (XL : vl <> v -> get x2 vl = Ok c).
  { intros D. rewrite (get_set_other _ _ _ _ _ SX2) by lia. eapply get_set_same; eauto. }
  assert (XO : forall w, w <> v -> w <> vl -> get x2 w = get (hxrefs h) w).
  { intros w D1 D2. rewrite (get_set_other _ _ _ _ _ SX2) by lia.
    eapply get_set_other; eauto. }
  assert (LX2 : len x2 = hmax h + 1)
    by (rewrite (set_len _ _ _ _ SX2), (set_len _ _ _ _ SX1); exact Lx).
  assert (LK2 : len k2 = 2 * P)
    by (rewrite (set_len _ _ _ _ SK2), (set_len _ _ _ _ SK1); exact Lk).
  assert (LVS : len vs = P) by (rewrite (set_len _ _ _ _ SV); exact Lv).
  assert (OKL : ok kl = true) by (eapply (inv_ok _ I); eauto).
  assert (OK2 : all_ok k2).
  { eapply all_ok_set; [exact SK2| |apply (ko_inf_ok _ _ _ _ KO)].
    eapply all_ok_set; [exact SK1|apply I|exact OKL]. }
  assert (KC : c <> last -> get k2 (P - 1 + c) = Ok kl).
  { intros D. rewrite (get_set_other _ _ _ _ _ SK2) by lia. eapply get_set_same; eauto. }
  assert (KO2 : forall d, d <> c -> d <> last ->
            get k2 (P - 1 + d) = get (hkeys h) (P - 1 + d)).
  { intros d D1 D2. rewrite (get_set_other _ _ _ _ _ SK2) by lia.
    eapply get_set_other; eauto. lia. }
  assert (KPad : forall d, last <= d < P -> get k2 (P - 1 + d) = Ok inf).
  { intros d Hd. destruct (Z.eq_dec d last) as [->|D].
    - eapply get_set_same; eauto.
    - rewrite KO2 by lia. apply (inv_pad _ I). fold P. lia. }
  assert (VC : get vs c = Ok vl) by (eapply get_set_same; eauto).
  assert (VO : forall d, d <> c -> get vs d = get (hvals h) d)
    by (intros; eapply get_set_other; eauto).
  (* distinct slots hold distinct values *)
  assert (INJ : c <> last -> vl <> v) by (intros D ->; rewrite V3 in VL3; congruence).
  (* whichever branch is taken, these facts about the final arrays suffice *)
  assert (FIN : forall fk fv levels,
    (hmin h <= levels)%nat -> (1 <= levels)%nat -> last <= pow2 levels ->
    len fk = 2 * pow2 levels -> len fv = pow2 levels -> all_ok fk ->
    (forall x, 1 <= x < pow2 levels - 1 -> node_ok fk x) ->
    (forall d, 0 <= d < last ->
       get fk (pow2 levels - 1 + d) = get k2 (P - 1 + d) /\ get fv d = get vs d) ->
    (forall d, last <= d < pow2 levels -> get fk (pow2 levels - 1 + d) = Ok inf) ->
    let h' := mkHeap fk fv x2 (hmax h) levels (hmin h) last in
    Inv h' /\ forall w, abs h' w = if w =? v then None else abs h w).
  { intros fk fv levels F1 F2 F3 F4 F5 F6 F7 F8 F9 h'.
    assert (XR : forall w d, 0 <= w <= hmax h -> w <> v -> w <> vl ->
       get (hxrefs h) w = Ok d -> d <> -1 ->
       0 <= d < last /\ d <> c /\ get (hvals h) d = Ok w).
    { intros w d Hw D1 D2 Gw Dd.
      destruct (inv_xrefs _ I w Hw) as [Y|(d' & Y1 & Y2 & Y3)]; [congruence|].
      assert (d' = d) by congruence; subst d'.
      assert (d <> c) by (intros ->; congruence).
      assert (d <> last) by (intros ->; congruence).
      split; [lia|]. auto. }
    split.
    - subst h'. constructor; cbn [hmin hlevels hmax hkeys hvals hxrefs hcount];
        auto; try lia; try apply I.
      + intros d Hd. destruct (F8 d Hd) as [_ ->].
        destruct (Z.eq_dec d c) as [->|D].
        * exists vl. split; [exact VC|]. split; [lia|]. apply XL. apply INJ. lia.
        * destruct (inv_vals _ I d ltac:(lia)) as (w & W1 & W2 & W3).
          exists w. rewrite VO by exact D. split; [exact W1|]. split; [lia|].
          rewrite XO; [exact W3| |].
          -- intros ->. congruence.
          -- intros ->. rewrite VL3 in W3. injection W3. lia.
      + intros w Hw. destruct (Z.eq_dec w v) as [->|D1]; [left; exact XV|].
        destruct (Z.eq_dec w vl) as [->|D2].
        * right. exists c. split; [apply XL; exact D1|].
          assert (c <> last) by (intros ->; congruence).
          split; [lia|]. rewrite (proj2 (F8 c ltac:(lia))). exact VC.
        * rewrite XO by assumption.
          destruct (inv_xrefs _ I w Hw) as [Y|(d & Y1 & Y2 & Y3)]; [auto|].
          destruct (XR w d Hw D1 D2 Y1 ltac:(lia)) as (R1 & R2 & R3).
          right. exists d. split; [exact Y1|]. split; [lia|].
          rewrite (proj2 (F8 d R1)). rewrite VO by exact R2. exact R3.
    - intros w. subst h'. unfold abs;
        cbn [hmin hlevels hmax hkeys hvals hxrefs hcount].
      destruct (w =? v) eqn:Ew.
      { assert (w = v) by lia; subst w. rewrite XV. reflexivity. }
      destruct (Z.eq_dec w vl) as [->|D2].
      + rewrite XL by lia. rewrite VL3.
        destruct (c =? -1) eqn:E1; [lia|]. destruct (last =? -1) eqn:E2; [lia|].
        assert (c <> last).
        { intros Ecl. rewrite Ecl in Hv. assert (vl = v) by congruence. lia. }
        rewrite (proj1 (F8 c ltac:(lia))), KC by assumption. fold P. now rewrite GKL.
      + rewrite XO by lia.
        destruct (get (hxrefs h) w) as [d|] eqn:Gw; [|reflexivity].
        destruct (d =? -1) eqn:E3; [reflexivity|].
        pose proof (get_ok_range _ _ _ Gw) as Rw. rewrite Lx in Rw.
        destruct (XR w d ltac:(lia) ltac:(lia) D2 Gw ltac:(lia)) as (R1 & R2 & R3).
        rewrite (proj1 (F8 d R1)), KO2 by lia. reflexivity. }
  fold last.
  destruct ((hmin h <? hlevels h)%nat && (last <? pow2 (hlevels h - 2))) eqn:EB.
  - assert (HL2 : (2 <= hlevels h)%nat) by lia.
    pose proof (pow2_pred (hlevels h) ltac:(lia)) as P1.
    pose proof (pow2_pred (hlevels h - 1) ltac:(lia)) as P2.
    replace (hlevels h - 1 - 1)%nat with (hlevels h - 2)%nat in P2 by lia.
    pose proof (pow2_pos (hlevels h - 2)) as P3. fold P in P1.
    destruct (resize_spec k2 vs (hlevels h) last (hlevels h - 1))
      as (nk & nv & E1 & L1 & L2 & O1 & T1 & C1 & D1); auto; fold P; try lia.
    rewrite E1. cbn [rbind]. eexists. split; [reflexivity|].
    fold P in C1, D1.
    destruct (FIN nk nv (hlevels h - 1)%nat) as [F1 F2]; auto; try lia.
  - destruct (sift_spec k2 (hlevels h) (P - 1 + c)) as (k3 & E3 & L3 & O3 & A3 & N3 & U3);
      auto; try (rewrite ?pow2_S; fold P; lia).
    rewrite E3. cbn [rbind].
    destruct (sift_spec k3 (hlevels h) (P - 1 + last)) as (k4 & E4 & L4 & O4 & A4 & N4 & U4);
      auto; try (rewrite ?pow2_S; fold P; lia).
    rewrite E4. cbn [rbind]. eexists. split; [reflexivity|].
    assert (UL : forall x, P - 1 <= x -> get k4 x = get k2 x).
    { intros x Hx. rewrite U4, U3; [reflexivity| |];
        intros HA; apply anc_lt in HA; lia. }
    destruct (FIN k4 vs (hlevels h)) as [F1 F2]; fold P; auto; try lia.
    + fold P. intros x Hx.
      destruct (anc_dec x (P - 1 + last) ltac:(lia) ltac:(lia)) as [B1|B1];
        [apply A4; [lia|exact B1]|]. apply N4; [exact B1|].
      destruct (anc_dec x (P - 1 + c) ltac:(lia) ltac:(lia)) as [B2|B2];
        [apply A3; [lia|exact B2]|]. apply N3; [exact B2|].
      eapply node_ok_set; [exact SK2|lia| |].
      { intros ->. apply B1. apply anc_parent. }
      eapply node_ok_set; [exact SK1|lia| |].
      { intros ->. apply B2. apply anc_parent. }
      apply (inv_tree _ I). fold P. lia.
    + intros d Hd. split; [|reflexivity]. apply UL. lia.
    + intros d Hd. rewrite UL by lia. apply KPad. lia.
Qed.

(* Every node is at most every leaf below it. *)
Lemma tree_le keys levels :
  len keys = 2 * pow2 levels -> all_ok keys ->
  (forall x, 1 <= x < pow2 levels - 1 -> node_ok keys x) ->
  forall (k : nat) y ky kx, 0 <= y < 2 * pow2 levels - 1 -> 2 <= (y + 1) / pow2 k ->
  get keys y = Ok ky -> get keys ((y + 1) / pow2 k - 1) = Ok kx ->
  leb kx ky = true.
Proof.
  intros Hlen Hok Htree. induction k as [|k IH]; intros y ky kx Hy H2 Gy Gx.
  - rewrite pow2_0, Z.div_1_r in Gx. replace (y + 1 - 1) with y in Gx by lia.
    assert (kx = ky) by congruence; subst. apply (ko_refl _ _ _ _ KO). eauto.
  - pose proof (pow2_pos k) as Pk. rewrite pow2_S in *.
    assert (E : (y + 1) / (2 * pow2 k) = (y + 1) / pow2 k / 2)
      by (rewrite Z.div_div by lia; f_equal; lia).
    rewrite E in *. set (m := (y + 1) / pow2 k) in *.
    assert (Hm : m <= y + 1) by (subst m; apply Z.div_le_upper_bound; nia).
    destruct (get_range keys (m - 1)) as [km Gm]; [lia|].
    assert (L1 : leb km ky = true).
    { apply (IH y); fold m; try assumption; lia. }
    destruct (Htree (m / 2 - 1)) as (a & b & c & H3 & H4 & H5 & _ & H6 & H7); [lia|].
    assert (kx = a) by congruence; subst a.
    apply (ko_trans _ _ _ _ KO) with km; eauto.
    destruct (Z.eq_dec (m mod 2) 0) as [Ev|Od].
    + replace (2 * (m / 2 - 1) + 1) with (m - 1) in H4 by lia. congruence.
    + replace (2 * (m / 2 - 1) + 2) with (m - 1) in H5 by lia. congruence.
Qed.

(* Following the smaller key downwards. *)
Lemma trace_spec keys levels :
  (1 <= levels)%nat -> len keys = 2 * pow2 levels -> all_ok keys ->
  (forall x, 1 <= x < pow2 levels - 1 -> node_ok keys x) ->
  forall n lv i, (lv + n = levels)%nat -> (1 <= lv)%nat -> i mod 2 = 1 ->
  pow2 lv - 1 <= i < pow2 (S lv) - 1 ->
  (forall y ky, pow2 levels - 1 <= y < 2 * pow2 levels - 1 -> get keys y = Ok ky ->
     exists a, (get keys i = Ok a \/ get keys (i + 1) = Ok a) /\ leb a ky = true) ->
  exists j, trace n keys i = Ok j /\ j mod 2 = 1
    /\ pow2 levels - 1 <= j < 2 * pow2 levels - 1
    /\ (forall y ky, pow2 levels - 1 <= y < 2 * pow2 levels - 1 -> get keys y = Ok ky ->
         exists a, (get keys j = Ok a \/ get keys (j + 1) = Ok a) /\ leb a ky = true)
    /\ ((forall y ky, 1 <= y < 2 * pow2 levels - 1 -> get keys y = Ok ky -> leb inf ky = true) ->
        i = pow2 lv - 1 -> j = pow2 levels - 1).
Proof.
  intros HL Hlen Hok Htree. induction n as [|n IH]; intros lv i Hlv Hlv1 Hodd Hi Hmin.
  - assert (lv = levels) by lia; subst lv. exists i. cbn [Heap.trace].
    rewrite pow2_S in Hi. repeat split; auto; lia.
  - cbn [Heap.trace]. rewrite pow2_S in Hi.
    pose proof (pow2_mono (S lv) levels ltac:(lia)) as PM. rewrite pow2_S in PM.
    pose proof (pow2_pred lv Hlv1) as Pl.
    destruct (get_range keys i) as [a Ga]; [lia|].
    destruct (get_range keys (i + 1)) as [b Gb]; [lia|].
    rewrite Ga, Gb. cbn [rbind].
    assert (Oa := Hok _ _ Ga). assert (Ob := Hok _ _ Gb).
    set (i' := if leb a b then i * 2 + 1 else (i + 1) * 2 + 1).
    assert (NX : exists x kx, (x = i \/ x = i + 1) /\ i' = 2 * x + 1 /\ get keys x = Ok kx
              /\ leb kx a = true /\ leb kx b = true /\ (leb a b = true -> x = i)).
    { subst i'. destruct (leb a b) eqn:E.
      - exists i, a. repeat split; auto; try lia. now apply (ko_refl _ _ _ _ KO).
      - exists (i + 1), b. repeat split; auto; try lia; try discriminate.
        + destruct (ko_total _ _ _ _ KO a b Oa Ob); congruence.
        + now apply (ko_refl _ _ _ _ KO). }
    destruct NX as (x & kx & Hx & Hi' & Gx & Lxa & Lxb & Hxi).
    destruct (IH (S lv) i') as (j & Ej & J1 & J2 & J3 & J4).
    + lia.
    + lia.
    + lia.
    + rewrite !pow2_S. lia.
    + intros y ky Hy Gy. destruct (Hmin y ky Hy Gy) as (m & Hm & Lm).
      destruct (Htree x) as (p & q & r & N1 & N2 & N3 & N4 & _); [lia|].
      assert (p = kx) by congruence; subst p.
      exists kx. split.
      * rewrite Hi'. replace (2 * x + 1 + 1) with (2 * x + 2) by lia.
        destruct N4 as [->| ->]; auto.
      * assert (Om : ok m = true) by (destruct Hm; eauto).
        apply (ko_trans _ _ _ _ KO) with m; eauto.
        destruct Hm as [Hm|Hm]; congruence.
    + exists j. rewrite Ej. repeat split; auto; try lia.
      intros Hinf Hii. apply J4; [exact Hinf|].
      assert (leb a b = true).
      { apply (ko_trans _ _ _ _ KO) with inf; auto.
        - apply (ko_inf_ok _ _ _ _ KO).
        - now apply (ko_inf_max _ _ _ _ KO).
        - apply (Hinf (i + 1)); auto. lia. }
      rewrite pow2_S. rewrite Hi', Hxi by assumption. lia.
Qed.

Lemma leaf_root levels y : (1 <= levels)%nat ->
  pow2 levels - 1 <= y < 2 * pow2 levels - 1 ->
  (y + 1) / pow2 (levels - 1) = 2 \/ (y + 1) / pow2 (levels - 1) = 3.
Proof.
  intros HL Hy. pose proof (pow2_pred levels HL) as P.
  pose proof (pow2_pos (levels - 1)) as P1.
  assert (2 <= (y + 1) / pow2 (levels - 1)) by (apply Z.div_le_lower_bound; lia).
  assert ((y + 1) / pow2 (levels - 1) < 4) by (apply Z.div_lt_upper_bound; lia).
  lia.
Qed.

Lemma pop_spec h : Inv h ->
  exists h' k v, pop h = Ok (h', k, v) /\ Inv h' /\ hmax h' = hmax h /\
    ((hcount h = 0 /\ h' = h /\ k = inf)
     \/ (0 < hcount h /\ hcount h' = hcount h - 1 /\ abs h v = Some k
         /\ (forall w kw, abs h w = Some kw -> leb k kw = true)
         /\ forall w, abs h' w = if w =? v then None else abs h w)).
Proof.
  intros I. unfold Heap.pop.
  pose proof (inv_cnt _ I) as Hcnt. pose proof (inv_lmin _ I) as HLm.
  pose proof (inv_lenk _ I) as Lk. pose proof (inv_lenv _ I) as Lv.
  pose proof (inv_ok _ I) as Hok. pose proof (inv_tree _ I) as Htree.
  set (L := hlevels h) in *. set (P := pow2 L) in *.
  assert (HP : 2 <= P).
  { subst P. rewrite (pow2_pred L) by lia. pose proof (pow2_pos (L - 1)). lia. }
  destruct (trace_spec (hkeys h) L ltac:(lia) Lk Hok Htree (L - 1) 1 1)
    as (i & Ei & I1 & I2 & I3 & I4).
  - lia.
  - lia.
  - reflexivity.
  - split; [reflexivity|]. reflexivity.
  - fold P. intros y ky Hy Gy.
    pose proof (leaf_root L y ltac:(lia) Hy) as Root.
    destruct (get_range (hkeys h) ((y + 1) / pow2 (L - 1) - 1)) as [a Ga];
      [fold P in Lk; lia|].
    exists a. split.
    + destruct Root as [E|E]; rewrite E in Ga; [left|right]; exact Ga.
    + eapply (tree_le (hkeys h) L Lk Hok Htree (L - 1) y); eauto; [fold P; lia|lia].
  - fold P in I2, I3, I4. rewrite Ei. cbn [rbind].
    destruct (get_range (hkeys h) i) as [a Ga]; [fold P in Lk; lia|].
    destruct (get_range (hkeys h) (i + 1)) as [b Gb]; [fold P in Lk; lia|].
    rewrite Ga, Gb. cbn [rbind].
    assert (Oa := Hok _ _ Ga). assert (Ob := Hok _ _ Gb).
    set (j := if ltb b a then i + 1 else i).
    assert (NX : exists k, get (hkeys h) j = Ok k /\ ok k = true
                 /\ leb k a = true /\ leb k b = true
                 /\ (leb a b = true -> j = i) /\ (j = i \/ j = i + 1)).
    { subst j. rewrite (ko_ltb _ _ _ _ KO) by assumption.
      destruct (leb a b) eqn:E; cbn [negb].
      - exists a. repeat split; auto. now apply (ko_refl _ _ _ _ KO).
      - exists b. repeat split; auto; try discriminate.
        + destruct (ko_total _ _ _ _ KO a b Oa Ob); congruence.
        + now apply (ko_refl _ _ _ _ KO). }
    destruct NX as (k & Gk & Hk & Lka & Lkb & Hji & Hj).
    assert (MIN : forall y ky, P - 1 <= y < 2 * P - 1 -> get (hkeys h) y = Ok ky ->
               leb k ky = true).
    { intros y ky Hy Gy. destruct (I3 y ky Hy Gy) as (m & Hm & Lm).
      assert (Om : ok m = true) by (destruct Hm; eauto).
      apply (ko_trans _ _ _ _ KO) with m; eauto.
      destruct Hm; congruence. }
    rewrite Gk. cbn [rbind].
    assert (Hj2 : P - 1 <= j < 2 * P - 1) by lia.
    destruct (get_range (hvals h) (j - (P - 1))) as [v Gv]; [fold P in Lv; lia|].
    rewrite Gv. cbn [rbind].
    destruct (0 <? hcount h) eqn:EC.
    + (* the popped slot is in use *)
      assert (Hslot : j - (P - 1) < hcount h).
      { destruct (Z_lt_le_dec (j - (P - 1)) (hcount h)) as [|Hge]; [assumption|].
        pose proof (inv_pad _ I (j - (P - 1))) as Hp. fold L P in Hp.
        replace (P - 1 + (j - (P - 1))) with j in Hp by lia.
        rewrite Hp in Gk by lia. injection Gk as <-.
        assert (ALL : forall y ky, 1 <= y < 2 * P - 1 -> get (hkeys h) y = Ok ky ->
                   leb inf ky = true).
        { (* all leaves are >= inf, hence so are all nodes *)
          assert (G : forall n y ky, 1 <= y < 2 * P - 1 -> 2 * P - 1 - y <= Z.of_nat n ->
                       get (hkeys h) y = Ok ky -> leb inf ky = true).
          { induction n as [|n IHn]; intros y ky Hy Hn Gy; [lia|].
            destruct (Z_lt_le_dec y (P - 1)) as [Hlt|Hge2].
            - destruct (Htree y) as (p & q & r & N1 & N2 & N3 & N4 & _); [fold P; lia|].
              assert (p = ky) by congruence; subst p.
              destruct N4 as [->| ->]; [eapply (IHn (2 * y + 1))|eapply (IHn (2 * y + 2))];
                eauto; lia.
            - apply (MIN y); [lia|exact Gy]. }
          intros y ky Hy. apply (G (Z.to_nat (2 * P))); lia. }
        assert (i = P - 1) by (apply I4; auto).
        assert (leb a b = true).
        { apply (ko_trans _ _ _ _ KO) with inf; auto.
          now apply (ko_inf_max _ _ _ _ KO). }
        assert (j = i) by (apply Hji; assumption). lia. }
      destruct (remove_spec h (j - (P - 1)) v I ltac:(lia) Gv)
        as (h' & E1 & Inv1 & M1 & C1 & A1).
      fold L P in E1. replace (P - 1 + (j - (P - 1))) with j in E1 by lia.
      rewrite E1. cbn [rbind]. exists h', k, v.
      split; [reflexivity|]. split; [exact Inv1|]. split; [exact M1|].
      right. split; [lia|]. split; [exact C1|]. split; [|split; [|exact A1]].
      * apply (abs_leaf h (j - (P - 1))); auto; [lia|].
        fold L P. now replace (P - 1 + (j - (P - 1))) with j by lia.
      * intros w kw Aw. apply abs_some in Aw; [|exact I].
        destruct Aw as (_ & _ & c & C1' & _ & _ & C2). fold L P in C2.
        apply (MIN (P - 1 + c)); [lia|exact C2].
    + exists h, k, v. split; [reflexivity|]. split; [exact I|]. split; [reflexivity|].
      left. split; [lia|]. split; [reflexivity|].
      pose proof (inv_pad _ I (j - (P - 1))) as Hp. fold L P in Hp.
      replace (P - 1 + (j - (P - 1))) with j in Hp by lia.
      rewrite Hp in Gk by lia. now injection Gk.
Qed.

End HeapProofs.
