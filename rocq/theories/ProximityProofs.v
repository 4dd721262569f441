From Verif Require Import BaseFacts Proximity.
From Coq Require Import ZifyBool ZifyNat.
Open Scope Z_scope.

(* What the proofs need to know about the arithmetic: < is a strict order, and
   square roots of distances in range are not negative. *)
Record arith_ok {X N P} (ar : arith X N P) : Prop := {
  nlt_irrefl : forall a, nlt ar a a = false;
  nlt_trans : forall a b c, nlt ar a b = true -> nlt ar b c = true -> nlt ar a c = true;
  neg_minus1 : pneg ar (pminus1 ar) = true;
  nonneg_minus1 : pnonneg ar (pminus1 ar) = false;
  neg_zero : pneg ar (pzero ar) = false;
  nonneg_zero : pnonneg ar (pzero ar) = true;
  neg_sqrt : forall x1 y1 x2 y2, let d := dist_sqr ar x1 y1 x2 y2 in
    nlt ar d (max2_2 ar) = true -> pneg ar (psqrt ar d) = false;
  nonneg_sqrt : forall x1 y1 x2 y2, let d := dist_sqr ar x1 y1 x2 y2 in
    nlt ar d (max2_2 ar) = true -> pnonneg ar (psqrt ar d) = true
}.

(* ---------------- one run, in terms of the reported target ---------------- *)

Section Run.
Context {A X N P S : Type}.
Variable ar : arith X N P.
Variable target : A -> bool.
Variable second : Z -> Z -> Z -> Z -> res S.
Variables (xc yc : list X).
Variable src : list (list A).
Variables ny nx : Z.
Hypothesis AR : arith_ok ar.
Hypothesis ny_src : len src = ny.
Hypothesis nx_src : forall i row, get src i = Ok row -> len row = nx.
Hypothesis nx_xc : len xc = nx.
Hypothesis ny_yc : len yc = ny.

Notation none := Proximity.none.
Notation cand := Proximity.cand.
Notation line := (@Proximity.line P).

(* The cell (row i, column j) holds a target. *)
Definition tgt (i j : Z) : Prop :=
  exists row v, get src i = Ok row /\ get row j = Ok v /\ target v = true.
Definition ctgt (c : cand) : Prop := tgt (snd c) (fst c).

Lemma tgt_range i j : tgt i j -> 0 <= i < ny /\ 0 <= j < nx.
Proof.
  intros (row & v & H1 & H2 & _). pose proof (nx_src _ _ H1).
  apply get_ok_range in H1. apply get_ok_range in H2. lia.
Qed.

(* The distance from candidate c to column j of row i. *)
Definition D (c : cand) (i j : Z) : N :=
  match cand_dist ar xc yc c j i with Ok d => d | Err _ => max2 ar end.

Lemma cand_dist_ok c i j : ctgt c -> 0 <= i < ny -> 0 <= j < nx ->
  cand_dist ar xc yc c j i = Ok (D c i j).
Proof.
  intros HC Hi Hj. apply tgt_range in HC. unfold D.
  destruct (cand_dist ar xc yc c j i) eqn:E; [reflexivity|]. unfold cand_dist in E.
  destruct (get_range xc (fst c)) as (x1 & E1); [lia|].
  destruct (get_range yc (snd c)) as (y1 & E2); [lia|].
  destruct (get_range xc j) as (x2 & E3); [lia|].
  destruct (get_range yc i) as (y2 & E4); [lia|].
  rewrite E1, E2, E3, E4 in E. discriminate.
Qed.

Lemma D_dist c i j : ctgt c -> 0 <= i < ny -> 0 <= j < nx ->
  exists x1 y1 x2 y2, get xc (fst c) = Ok x1 /\ get yc (snd c) = Ok y1
    /\ get xc j = Ok x2 /\ get yc i = Ok y2 /\ D c i j = dist_sqr ar x1 y1 x2 y2.
Proof.
  intros HC Hi Hj. pose proof (cand_dist_ok c i j HC Hi Hj) as E.
  unfold cand_dist in E. apply rbind_ok in E. destruct E as (x1 & E1 & E).
  apply rbind_ok in E. destruct E as (y1 & E2 & E).
  apply rbind_ok in E. destruct E as (x2 & E3 & E).
  apply rbind_ok in E. destruct E as (y2 & E4 & E). injection E as E.
  exists x1, y1, x2, y2. auto 6.
Qed.

Definition near_ok (c : cand) : Prop := fst c < 0 \/ ctgt c.

(* One pixel: [p n q] before, [p' n' q'] after; [pv] and [nx'] are the
   candidates of the neighbours that are consulted, if any. *)
Definition considered (n : cand) (pv nxt : option cand) (c : cand) : Prop :=
  c = n \/ pv = Some c \/ nxt = Some c.

Definition pixel (i j : Z) (p : P) (n q : cand) (pv nxt : option cand)
  (p' : P) (n' q' : cand) : Prop :=
  (tgt i j /\ p' = pzero ar /\ n' = (j, i) /\ q' = (j, i))
  \/ (~ tgt i j
      /\ (fst n' < 0 \/ considered n pv nxt n' /\ 0 <= fst n'
                       /\ nlt ar (D n' i j) (max2_2 ar) = true)
      /\ ((forall c, considered n pv nxt c -> 0 <= fst c ->
            nlt ar (D c i j) (max2_2 ar) = true ->
            0 <= fst n' /\ nlt ar (D c i j) (D n' i j) = false)
          (* the cell's own candidate gives way to a nearer one only *)
          /\ (0 <= fst n -> nlt ar (D n i j) (max2_2 ar) = true ->
                n' = n \/ nlt ar (D n' i j) (D n i j) = true))
      /\ (if (0 <=? fst n') && nle ar (D n' i j) (max2 ar)
             && (pneg ar p || lt_sqr ar (D n' i j) p)
          then p' = psqrt ar (D n' i j) /\ q' = n'
          else p' = p /\ q' = q)).

Notation try_neighbour := (try_neighbour ar xc yc).

(* invariant of the choice of a candidate at (i, j): [cs] have been seen *)
Definition choice (own : cand) (near0 : list cand) (i j : Z) (cs : cand -> Prop) (st : N * list cand) : Prop :=
  let '(d, near) := st in
  len near = nx
  /\ (forall k, k <> j -> get near k = get near0 k)
  /\ exists n, get near j = Ok n
     /\ (fst n < 0 /\ d = max2_2 ar
         \/ cs n /\ 0 <= fst n /\ d = D n i j /\ nlt ar d (max2_2 ar) = true)
     /\ (forall c, cs c -> 0 <= fst c -> nlt ar (D c i j) (max2_2 ar) = true ->
           0 <= fst n /\ nlt ar (D c i j) d = false)
     /\ (0 <= fst own -> nlt ar (D own i j) (max2_2 ar) = true ->
           0 <= fst n /\ (n = own \/ nlt ar (D n i j) (D own i j) = true)).

Lemma try_neighbour_ok own near0 i j k ok cs st :
  0 <= i < ny -> 0 <= j < nx -> k <> j ->
  (ok = true -> 0 <= k < nx) ->
  (forall c, get near0 k = Ok c -> near_ok c) ->
  choice own near0 i j cs st ->
  exists st', try_neighbour ok k j i st = Ok st'
    /\ choice own near0 i j
         (fun c => cs c \/ ok = true /\ get near0 k = Ok c) st'.
Proof.
  intros Hi Hj Hkj Hk HN HC. destruct st as [d near]. cbn [Proximity.try_neighbour].
  destruct ok.
  2:{ exists (d, near). split; [reflexivity|]. unfold choice in *.
      destruct HC as (L & F & n & G & C1 & C2 & C3). split; [exact L|]. split; [exact F|].
      exists n. split; [exact G|]. split; [|split; [|exact C3]].
      - destruct C1 as [C1|(C & C1)]; [left; exact C1|right; split; [left; exact C|exact C1]].
      - intros c [Hc|[Hc _]]; [auto|discriminate]. }
  destruct HC as (L & F & n & G & C1 & C2 & C3).
  destruct (get_range near k) as (c & Gc); [rewrite L; apply Hk; reflexivity|].
  assert (Gc0 : get near0 k = Ok c) by (rewrite <- F by assumption; exact Gc).
  rewrite Gc. cbn [rbind].
  destruct (0 <=? fst c) eqn:Ec.
  2:{ exists (d, near). split; [reflexivity|]. unfold choice.
      split; [exact L|]. split; [exact F|]. exists n. split; [exact G|]. split; [|split; [|exact C3]].
      - destruct C1 as [C1|(C & C1)]; [left; exact C1|right; split; [left; exact C|exact C1]].
      - intros c' [Hc|[_ Hc]] Hf; [auto|]. rewrite Gc0 in Hc. injection Hc as <-. lia. }
  assert (TC : ctgt c) by (destruct (HN c Gc0); [lia|assumption]).
  rewrite (cand_dist_ok c i j TC Hi Hj). cbn [rbind].
  destruct (nlt ar (D c i j) d) eqn:LT.
  - destruct (set_range near j c) as (near' & ES); [lia|]. rewrite ES. cbn [rbind].
    exists (D c i j, near'). split; [reflexivity|]. unfold choice.
    split; [rewrite (set_len _ _ _ _ ES); exact L|].
    split.
    { intros k' Hk'. rewrite (get_set_other _ _ _ _ _ ES) by auto. now apply F. }
    exists c. split; [apply (get_set_same _ _ _ _ ES)|].
    assert (LM : nlt ar (D c i j) (max2_2 ar) = true).
    { destruct C1 as [[_ ->]|(_ & _ & _ & C1)]; [exact LT|].
      exact (nlt_trans ar AR _ _ _ LT C1). }
    split; [|split].
    + right. split; [right; auto|]. split; [lia|]. auto.
    + intros c' [Hc|[_ Hc]] Hf LT'; (split; [lia|]).
      * destruct (nlt ar (D c' i j) (D c i j)) eqn:E; [|reflexivity].
        pose proof (nlt_trans ar AR _ _ _ E LT) as T.
        destruct (C2 c' Hc Hf LT'). congruence.
      * rewrite Gc0 in Hc. injection Hc as <-. apply (nlt_irrefl ar AR).
    + intros FO LO. destruct (C3 FO LO) as [Fn C4]. split; [lia|]. right.
      assert (ED : d = D n i j) by (destruct C1 as [[C1 _]|(_ & _ & C1 & _)]; [lia|exact C1]).
      rewrite ED in LT. destruct C4 as [<-|C4]; [exact LT|exact (nlt_trans ar AR _ _ _ LT C4)].
  - exists (d, near). split; [reflexivity|]. unfold choice.
    split; [exact L|]. split; [exact F|]. exists n. split; [exact G|]. split; [|split; [|exact C3]].
    + destruct C1 as [C1|(C & C1)]; [left; exact C1|right; split; [left; exact C|exact C1]].
    + intros c' [Hc|[_ Hc]] Hf LT'; [auto|]. rewrite Gc0 in Hc. injection Hc as <-.
      split; [|exact LT]. destruct C1 as [[C1 ->]|(_ & C1 & _)]; [congruence|exact C1].
Qed.

Notation process_pixel := (process_pixel ar target true xc yc).

Definition line_ok (s : line) : Prop :=
  len (l_prox s) = nx /\ len (l_near s) = nx /\ len (l_nearest s) = nx
  /\ forall j c, get (l_near s) j = Ok c -> near_ok c.

(* all entries but the j-th are unchanged *)
Definition same_but (j : Z) (s t : line) : Prop := forall k, k <> j ->
  get (l_prox t) k = get (l_prox s) k /\ get (l_near t) k = get (l_near s) k
  /\ get (l_nearest t) k = get (l_nearest s) k.

Lemma process_pixel_ok row start end_ step i s j :
  get src i = Ok row -> 0 <= i < ny -> 0 <= j < nx -> line_ok s ->
  step = 1 \/ step = -1 ->
  (j <> start -> 0 <= j - step < nx) -> (j + step <> end_ -> 0 <= j + step < nx) ->
  exists t p n q p' n' q', process_pixel row start end_ step i s j = Ok t
    /\ line_ok t /\ same_but j s t
    /\ get (l_prox s) j = Ok p /\ get (l_near s) j = Ok n /\ get (l_nearest s) j = Ok q
    /\ get (l_prox t) j = Ok p' /\ get (l_near t) j = Ok n' /\ get (l_nearest t) j = Ok q'
    /\ pixel i j p n q
         (if j =? start then None else match get (l_near s) (j - step) with Ok c => Some c | Err _ => None end)
         (if j + step =? end_ then None else match get (l_near s) (j + step) with Ok c => Some c | Err _ => None end)
         p' n' q'.
Proof.
  intros Hrow Hi Hj (LP & LN & LQ & HN) Hstep Hprev Hnext.
  pose proof (nx_src _ _ Hrow) as LR.
  destruct (get_range row j) as (v & Gv); [lia|].
  destruct (get_range (l_prox s) j) as (p & Gp); [lia|].
  destruct (get_range (l_near s) j) as (n & Gn); [lia|].
  destruct (get_range (l_nearest s) j) as (q & Gq); [lia|].
  unfold Proximity.process_pixel. rewrite Gv. cbn [rbind].
  destruct (target v) eqn:TV.
  - destruct (set_range (l_prox s) j (pzero ar)) as (prox & E1); [lia|].
    destruct (set_range (l_near s) j (j, i)) as (near & E2); [lia|].
    destruct (set_range (l_nearest s) j (j, i)) as (nearest & E3); [lia|].
    rewrite E1. cbn [rbind]. rewrite E2. cbn [rbind]. unfold track_nearest. rewrite E3. cbn [rbind].
    exists (mkLine prox near nearest), p, n, q, (pzero ar), (j, i), (j, i).
    assert (TT : tgt i j) by (exists row, v; auto).
    split; [reflexivity|]. split; [|split; [|split; [exact Gp|split; [exact Gn|split; [exact Gq|
      split; [exact (get_set_same _ _ _ _ E1)|split; [exact (get_set_same _ _ _ _ E2)|
      split; [exact (get_set_same _ _ _ _ E3)|left; auto]]]]]]]].
    + unfold line_ok. cbn. rewrite (set_len _ _ _ _ E1), (set_len _ _ _ _ E2), (set_len _ _ _ _ E3).
      repeat (split; [assumption|]). intros k c Gk. destruct (Z.eq_dec k j) as [->|Hk].
      * rewrite (get_set_same _ _ _ _ E2) in Gk. injection Gk as <-. right. exact TT.
      * rewrite (get_set_other _ _ _ _ _ E2) in Gk by auto. now apply HN in Gk.
    + intros k Hk. cbn. rewrite (get_set_other _ _ _ _ _ E1), (get_set_other _ _ _ _ _ E2),
        (get_set_other _ _ _ _ _ E3) by auto. auto.
  - rewrite Gn. cbn [rbind].
    assert (NT : ~ tgt i j).
    { intros (row' & v' & H1 & H2 & H3). rewrite Hrow in H1. injection H1 as <-.
      rewrite Gv in H2. injection H2 as <-. congruence. }
    (* own candidate *)
    assert (HC : exists st,
      (if 0 <=? fst n then
         let* d := cand_dist ar xc yc n j i in
         if nlt ar d (max2_2 ar) then Ok (d, l_near s)
         else let* near := set (l_near s) j none in Ok (max2_2 ar, near)
       else Ok (max2_2 ar, l_near s)) = Ok st
      /\ choice n (l_near s) i j (fun c => c = n) st).
    { destruct (0 <=? fst n) eqn:En.
      - assert (TC : ctgt n) by (destruct (HN j n Gn); [lia|assumption]).
        rewrite (cand_dist_ok n i j TC Hi Hj). cbn [rbind].
        destruct (nlt ar (D n i j) (max2_2 ar)) eqn:LT.
        + eexists. split; [reflexivity|]. unfold choice. split; [exact LN|]. split; [auto|].
          exists n. split; [exact Gn|]. split; [|split].
          * right. split; [reflexivity|]. split; [lia|]. auto.
          * intros c -> _ _. split; [lia|]. apply (nlt_irrefl ar AR).
          * intros _ _. split; [lia|now left].
        + destruct (set_range (l_near s) j none) as (near & ES); [lia|]. rewrite ES. cbn [rbind].
          eexists. split; [reflexivity|]. unfold choice.
          split; [rewrite (set_len _ _ _ _ ES); exact LN|].
          split; [intros k Hk; apply (get_set_other _ _ _ _ _ ES); auto|].
          exists none. split; [apply (get_set_same _ _ _ _ ES)|]. split; [|split].
          * left. split; [cbn; lia|reflexivity].
          * intros c -> _ C. congruence.
          * intros _ C. congruence.
      - eexists. split; [reflexivity|]. unfold choice. split; [exact LN|]. split; [auto|].
        exists n. split; [exact Gn|]. split; [|split].
        + left. split; [lia|reflexivity].
        + intros c ->. lia.
        + intros. lia. }
    destruct HC as (st1 & E1 & C1). rewrite E1. cbn [rbind].
    destruct (try_neighbour_ok n (l_near s) i j (j - step) (negb (j =? start)) (fun c => c = n) st1 Hi Hj)
      as (st2 & E2 & C2); [lia|intros; apply Hprev; lia|intros; eapply HN; eauto|exact C1|].
    rewrite E2. cbn [rbind].
    destruct (try_neighbour_ok n (l_near s) i j (j + step) (negb (j + step =? end_))
      (fun c => c = n \/ negb (j =? start) = true /\ get (l_near s) (j - step) = Ok c) st2 Hi Hj)
      as (st3 & E3 & C3); [lia|intros; apply Hnext; lia|intros; eapply HN; eauto|exact C2|].
    rewrite E3. cbn [rbind]. clear E1 E2 E3 C1 C2 st1 st2.
    destruct st3 as [d near]. destruct C3 as (L3 & F3 & n' & G3 & D1 & D2 & D3).
    rewrite G3. cbn [rbind]. rewrite Gp. cbn [rbind].
    set (pv := if j =? start then None else
                 match get (l_near s) (j - step) with Ok c => Some c | Err _ => None end).
    set (nxt := if j + step =? end_ then None else
                 match get (l_near s) (j + step) with Ok c => Some c | Err _ => None end).
    assert (CIFF : forall c, considered n pv nxt c <->
      ((c = n \/ negb (j =? start) = true /\ get (l_near s) (j - step) = Ok c)
       \/ negb (j + step =? end_) = true /\ get (l_near s) (j + step) = Ok c)).
    { intros c. unfold considered. subst pv nxt.
      assert (Q1 : (if j =? start then None else
                 match get (l_near s) (j - step) with Ok c => Some c | Err _ => None end) = Some c
              <-> negb (j =? start) = true /\ get (l_near s) (j - step) = Ok c).
      { destruct (j =? start); cbn; [split; [discriminate|intros [? _]; discriminate]|].
        destruct (get (l_near s) (j - step)); split;
          [intros [= ->]; auto|intros [_ [= ->]]; auto|discriminate|intros [_ ?]; discriminate]. }
      assert (Q2 : (if j + step =? end_ then None else
                 match get (l_near s) (j + step) with Ok c => Some c | Err _ => None end) = Some c
              <-> negb (j + step =? end_) = true /\ get (l_near s) (j + step) = Ok c).
      { destruct (j + step =? end_); cbn; [split; [discriminate|intros [? _]; discriminate]|].
        destruct (get (l_near s) (j + step)); split;
          [intros [= ->]; auto|intros [_ [= ->]]; auto|discriminate|intros [_ ?]; discriminate]. }
      rewrite Q1, Q2. clear. tauto. }
    assert (DD : 0 <= fst n' -> d = D n' i j).
    { intros H. destruct D1 as [[D1 _]|(_ & _ & D1 & _)]; [lia|exact D1]. }
    assert (CN : fst n' < 0 \/ considered n pv nxt n' /\ 0 <= fst n'
                       /\ nlt ar (D n' i j) (max2_2 ar) = true).
    { destruct D1 as [[D1 _]|(D0 & D1 & D4 & D5)]; [left; exact D1|right].
      split; [now apply CIFF|]. split; [exact D1|]. now rewrite <- D4. }
    assert (CB : forall c, considered n pv nxt c -> 0 <= fst c ->
            nlt ar (D c i j) (max2_2 ar) = true ->
            0 <= fst n' /\ nlt ar (D c i j) (D n' i j) = false).
    { intros c Hc Hf LT. apply CIFF in Hc. destruct (D2 c Hc Hf LT) as [R1 R2].
      split; [exact R1|]. now rewrite <- (DD R1). }
    assert (NOK : forall k c, get near k = Ok c -> near_ok c).
    { intros k c Gk. destruct (Z.eq_dec k j) as [->|Hk].
      - rewrite G3 in Gk. injection Gk as <-.
        destruct CN as [CN|(CN & _)]; [left; exact CN|].
        apply CIFF in CN. destruct CN as [[->|[_ CN]]|[_ CN]]; eauto.
      - rewrite F3 in Gk by exact Hk. eauto. }
    assert (CE : (0 <=? fst n') && nle ar d (max2 ar) && (pneg ar p || lt_sqr ar d p)
               = (0 <=? fst n') && nle ar (D n' i j) (max2 ar) && (pneg ar p || lt_sqr ar (D n' i j) p)).
    { destruct (0 <=? fst n') eqn:E; [|reflexivity]. rewrite (DD ltac:(lia)). reflexivity. }
    rewrite CE.
    destruct ((0 <=? fst n') && nle ar (D n' i j) (max2 ar)
              && (pneg ar p || lt_sqr ar (D n' i j) p)) eqn:EU.
    + destruct (set_range (l_prox s) j (psqrt ar d)) as (prox & E1); [lia|].
      destruct (set_range (l_nearest s) j n') as (nearest & E2); [lia|].
      rewrite E1. cbn [rbind]. unfold track_nearest. rewrite E2. cbn [rbind].
      assert (F0 : 0 <= fst n').
      { apply andb_true_iff in EU. destruct EU as [EU _]. apply andb_true_iff in EU.
        destruct EU as [EU _]. lia. }
      exists (mkLine prox near nearest), p, n, q, (psqrt ar d), n', n'.
      split; [reflexivity|]. split; [|split; [|split; [first [exact Gp|reflexivity]|split; [reflexivity|split; [exact Gq|
        split; [exact (get_set_same _ _ _ _ E1)|split; [exact G3|
        split; [exact (get_set_same _ _ _ _ E2)|]]]]]]]].
      * unfold line_ok. cbn. rewrite (set_len _ _ _ _ E1), (set_len _ _ _ _ E2). auto.
      * intros k Hk. cbn. rewrite (get_set_other _ _ _ _ _ E1), (get_set_other _ _ _ _ _ E2), F3 by auto. auto.
      * right. split; [exact NT|]. split; [exact CN|]. split; [split; [exact CB|intros FO LO; exact (proj2 (D3 FO LO))]|]. rewrite EU.
        split; [now rewrite (DD F0)|reflexivity].
    + exists (mkLine (l_prox s) near (l_nearest s)), p, n, q, p, n', q.
      split; [reflexivity|]. split; [|split; [|split; [first [exact Gp|reflexivity]|split; [reflexivity|split; [exact Gq|
        split; [first [exact Gp|reflexivity]|split; [exact G3|split; [exact Gq|]]]]]]]].
      * unfold line_ok. cbn. auto.
      * intros k Hk. cbn. rewrite F3 by auto. auto.
      * right. split; [exact NT|]. split; [exact CN|]. split; [split; [exact CB|intros FO LO; exact (proj2 (D3 FO LO))]|]. rewrite EU. auto.
Qed.

(* ---------------- one line ---------------- *)

Notation process_line := (process_line ar target true xc yc).

Definition oget {B} (l : list B) (k : Z) : option B :=
  match get l k with Ok c => Some c | Err _ => None end.

(* The neighbour consulted first has been processed already, the other one not. *)
Definition line_rel (fwd : bool) (i : Z) (s t : line) (j : Z) : Prop :=
  let step := if fwd then 1 else -1 in
  exists p n q p' n' q',
    get (l_prox s) j = Ok p /\ get (l_near s) j = Ok n /\ get (l_nearest s) j = Ok q
    /\ get (l_prox t) j = Ok p' /\ get (l_near t) j = Ok n' /\ get (l_nearest t) j = Ok q'
    /\ pixel i j p n q
         (if j =? (if fwd then 0 else nx - 1) then None else oget (l_near t) (j - step))
         (if j + step =? (if fwd then nx else -1) then None else oget (l_near s) (j + step))
         p' n' q'.

Lemma process_line_ok row fwd i s :
  get src i = Ok row -> 0 <= i < ny -> line_ok s ->
  exists t, process_line row fwd i s = Ok t /\ line_ok t
    /\ forall j, 0 <= j < nx -> line_rel fwd i s t j.
Proof.
  intros Hrow Hi HL. pose proof (nx_src _ _ Hrow) as LR.
  unfold Proximity.process_line. rewrite LR.
  set (start := if fwd then 0 else nx - 1). set (end_ := if fwd then nx else -1).
  set (step := if fwd then 1 else -1).
  assert (Hnx : 0 <= nx) by (rewrite <- LR; apply len_nonneg).
  set (idx := fun k => if fwd then k else nx - 1 - k).
  assert (EO : (if fwd then zrange 0 nx else rev (zrange 0 nx)) = map idx (zrange 0 nx)).
  { unfold idx. destruct fwd; [now rewrite map_id|now apply zrange_rev]. }
  rewrite EO.
  (* [idx] is its own inverse *)
  assert (II : forall k, idx (idx k) = k) by (intros; unfold idx; destruct fwd; lia).
  assert (IR : forall k, 0 <= k < nx -> 0 <= idx k < nx) by (intros; unfold idx; destruct fwd; lia).
  destruct (foldM_range (process_pixel row start end_ step i) idx
    (fun k t => line_ok t
       /\ (forall j, 0 <= j < nx -> k <= idx j -> get (l_prox t) j = get (l_prox s) j
             /\ get (l_near t) j = get (l_near s) j /\ get (l_nearest t) j = get (l_nearest s) j)
       /\ forall j, 0 <= j < nx -> idx j < k -> line_rel fwd i s t j)
    nx s Hnx) as (t & E & Lt & _ & Rt).
  - split; [exact HL|]. split; [auto|]. intros j Hj. specialize (IR j Hj). lia.
  - intros k t Hk (Lt & Ut & Rt).
    set (j := idx k). assert (Hj : 0 <= j < nx) by (apply IR; exact Hk).
    assert (HP : j <> start -> 0 <= j - step < nx /\ idx (j - step) = k - 1).
    { unfold j, start, step, idx in *. destruct fwd; lia. }
    assert (HX : j + step <> end_ -> 0 <= j + step < nx /\ idx (j + step) = k + 1).
    { unfold j, end_, step, idx in *. destruct fwd; lia. }
    destruct (process_pixel_ok row start end_ step i t j Hrow Hi Hj Lt)
      as (u & p & n & q & p' & n' & q' & Eu & Lu & Su & Gp & Gn & Gq & Gp' & Gn' & Gq' & PX).
    { unfold step. destruct fwd; auto. }
    { intros H. apply HP; exact H. } { intros H. apply HX; exact H. }
    exists u. split; [exact Eu|]. split; [exact Lu|].
    assert (Hjk : idx j = k) by apply II.
    split.
    + intros j' Hj' Hk'. assert (NE : j' <> j) by (intros ->; lia).
      destruct (Su j' NE) as (-> & -> & ->). apply Ut; lia.
    + intros j' Hj' Hk'. destruct (Z.eq_dec j' j) as [->|NE].
      * destruct (Ut j Hj ltac:(lia)) as (U1 & U2 & U3).
        exists p, n, q, p', n', q'. rewrite <- U1, <- U2, <- U3.
        split; [exact Gp|]. split; [exact Gn|]. split; [exact Gq|].
        split; [exact Gp'|]. split; [exact Gn'|]. split; [exact Gq'|].
        fold start end_ step.
        assert (Q1 : (if j =? start then None else oget (l_near u) (j - step))
          = (if j =? start then None else match get (l_near t) (j - step) with Ok c => Some c | Err _ => None end)).
        { destruct (j =? start) eqn:E1; [reflexivity|]. unfold oget.
          destruct (Su (j - step)) as (_ & -> & _); [unfold step; destruct fwd; lia|reflexivity]. }
        assert (Q2 : (if j + step =? end_ then None else oget (l_near s) (j + step))
          = (if j + step =? end_ then None else match get (l_near t) (j + step) with Ok c => Some c | Err _ => None end)).
        { destruct (j + step =? end_) eqn:E1; [reflexivity|]. unfold oget.
          destruct (HX ltac:(lia)) as [HX1 HX2].
          destruct (Ut (j + step) HX1 ltac:(lia)) as (_ & -> & _). reflexivity. }
        rewrite Q1, Q2. exact PX.
      * assert (LT : idx j' < k).
        { assert (idx j' <> k) by (intros C; apply NE; unfold j; rewrite <- C; now rewrite II). lia. }
        destruct (Rt j' Hj' LT) as (p1 & n1 & q1 & p2 & n2 & q2 & R1 & R2 & R3 & R4 & R5 & R6 & R7).
        destruct (Su j' NE) as (S1 & S2 & S3).
        exists p1, n1, q1, p2, n2, q2. rewrite S1, S2, S3.
        split; [exact R1|]. split; [exact R2|]. split; [exact R3|].
        split; [exact R4|]. split; [exact R5|]. split; [exact R6|].
        fold start end_ step. fold start end_ step in R7.
        assert (Q1 : (if j' =? start then None else oget (l_near u) (j' - step))
                   = (if j' =? start then None else oget (l_near t) (j' - step))).
        { destruct (j' =? start) eqn:E1; [reflexivity|]. unfold oget.
          destruct (Su (j' - step)) as (_ & -> & _); [|reflexivity].
          intros C. assert (idx (j' - step) = idx j' - 1) by (unfold idx, step in *; destruct fwd; lia).
          rewrite C in H. lia. }
        rewrite Q1. exact R7.
  - exists t. split; [exact E|]. split; [exact Lt|].
    intros j Hj. apply Rt; [exact Hj|]. specialize (IR j Hj). lia.
Qed.

(* ---------------- the secondary array ---------------- *)

Variable sec : Z -> Z -> Z -> Z -> S.
Hypothesis second_ok : forall i j ti tj, 0 <= i < ny -> 0 <= j < nx -> tgt ti tj ->
  second i j ti tj = Ok (sec i j ti tj).

Notation write_secondary := (write_secondary ar true second).

Definition written (i j : Z) (p : P) (q : cand) (w : S) : S :=
  if (0 <=? fst q) && pnonneg ar p then sec i j (snd q) (fst q) else w.

Lemma write_secondary_ok i s row :
  0 <= i < ny -> len (l_prox s) = nx -> len (l_nearest s) = nx -> len row = nx ->
  (forall j q, get (l_nearest s) j = Ok q -> near_ok q) ->
  exists row', write_secondary i s row = Ok row' /\ len row' = nx
    /\ forall j p q w, get (l_prox s) j = Ok p -> get (l_nearest s) j = Ok q ->
         get row j = Ok w -> get row' j = Ok (written i j p q w).
Proof.
  intros Hi LP LQ LR HQ. unfold Proximity.write_secondary. rewrite LP.
  assert (Hnx : 0 <= nx) by (rewrite <- LP; apply len_nonneg).
  match goal with |- exists _, foldM ?f _ _ = _ /\ _ => set (F := f) end.
  destruct (foldM_zrange F
    (fun k r => len r = nx /\ (forall j, k <= j -> get r j = get row j)
      /\ forall j p q w, j < k -> get (l_prox s) j = Ok p -> get (l_nearest s) j = Ok q ->
           get row j = Ok w -> get r j = Ok (written i j p q w)) nx row Hnx) as (r & E & L & _ & R).
  - split; [exact LR|]. split; [auto|]. intros j p q w Hj G. apply get_ok_range in G. lia.
  - intros k r Hk (L & U & R). unfold F.
    destruct (get_range (l_nearest s) k) as (q & Gq); [lia|].
    destruct (get_range (l_prox s) k) as (p & Gp); [lia|].
    destruct (get_range row k) as (w & Gw); [lia|].
    rewrite Gq. cbn [rbind]. rewrite Gp. cbn [rbind].
    destruct ((0 <=? fst q) && pnonneg ar p) eqn:EC.
    + assert (TQ : ctgt q).
      { destruct (HQ k q Gq); [lia|assumption]. }
      rewrite second_ok by (auto; lia). cbn [rbind].
      destruct (set_range r k (sec i k (snd q) (fst q))) as (r' & ES); [lia|].
      exists r'. split; [exact ES|]. split; [rewrite (set_len _ _ _ _ ES); exact L|]. split.
      * intros j Hj. rewrite (get_set_other _ _ _ _ _ ES) by lia. apply U. lia.
      * intros j p1 q1 w1 Hj G1 G2 G3. destruct (Z.eq_dec j k) as [->|NE].
        -- rewrite (get_set_same _ _ _ _ ES). rewrite Gp in G1. rewrite Gq in G2.
           injection G1 as <-. injection G2 as <-. unfold written. now rewrite EC.
        -- rewrite (get_set_other _ _ _ _ _ ES) by lia. apply R; auto. lia.
    + exists r. split; [reflexivity|]. split; [exact L|]. split.
      * intros j Hj. apply U. lia.
      * intros j p1 q1 w1 Hj G1 G2 G3. destruct (Z.eq_dec j k) as [->|NE].
        -- rewrite U by lia. rewrite Gp in G1. rewrite Gq in G2.
           injection G1 as <-. injection G2 as <-. unfold written. now rewrite EC.
        -- apply R; auto. lia.
  - exists r. split; [exact E|]. split; [exact L|].
    intros j p q w G1 G2 G3. apply R; auto. apply get_ok_range in G1. lia.
Qed.

(* ---------------- both passes over a line ---------------- *)

Notation process_both := (process_both ar target true second xc yc).

Lemma full_near_ok : forall j c, get (full nx none) j = Ok c -> near_ok c.
Proof.
  intros j c G. pose proof (get_ok_range _ _ _ G) as R.
  assert (Hnx : 0 <= nx) by (rewrite <- nx_xc; apply len_nonneg).
  rewrite full_len in R by exact Hnx. rewrite get_full in G by exact R. injection G as <-.
  left. cbn. lia.
Qed.

Lemma nearest_ok fwd i s t : line_ok s -> line_ok t ->
  (forall j, 0 <= j < nx -> line_rel fwd i s t j) ->
  (forall j c, get (l_nearest s) j = Ok c -> near_ok c) ->
  forall j c, get (l_nearest t) j = Ok c -> near_ok c.
Proof.
  intros (_ & _ & LQs & _) (_ & _ & LQ & HN) R HQ j c G.
  pose proof (get_ok_range _ _ _ G) as Hj. rewrite LQ in Hj.
  destruct (R j Hj) as (p & n & q & p' & n' & q' & G1 & G2 & G3 & G4 & G5 & G6 & PX).
  rewrite G in G6. injection G6 as <-.
  destruct PX as [(T & _ & _ & ->)|(_ & _ & _ & PX)].
  - right. exact T.
  - destruct (_ && _ && _) in PX; destruct PX as [_ ->].
    + eapply HN; eauto.
    + eapply HQ; eauto.
Qed.

(* The result of both passes, via the state [m] between them. *)
Lemma process_both_ok row first i prox near srow :
  get src i = Ok row -> 0 <= i < ny -> len prox = nx -> len near = nx -> len srow = nx ->
  (forall j c, get near j = Ok c -> near_ok c) ->
  exists m t srow', process_both row first i prox near srow = Ok (l_prox t, l_near t, srow')
    /\ line_ok m /\ line_ok t /\ len srow' = nx
    /\ (forall j, 0 <= j < nx ->
          line_rel first i (mkLine prox near (full nx none)) m j
          /\ line_rel (negb first) i (mkLine (l_prox m) (l_near m) (full nx none)) t j)
    /\ forall j w p1 q1 p2 q2, get srow j = Ok w ->
         get (l_prox m) j = Ok p1 -> get (l_nearest m) j = Ok q1 ->
         get (l_prox t) j = Ok p2 -> get (l_nearest t) j = Ok q2 ->
         get srow' j = Ok (written i j p2 q2 (written i j p1 q1 w)).
Proof.
  intros Hrow Hi LP LN LS HN. pose proof (nx_src _ _ Hrow) as LR.
  assert (Hnx : 0 <= nx) by (rewrite <- LR; apply len_nonneg).
  unfold Proximity.process_both, reset_nearest. rewrite LR.
  destruct (process_line_ok row first i (mkLine prox near (full nx none)) Hrow Hi)
    as (m & Em & Lm & Rm).
  { unfold line_ok. cbn. rewrite full_len by exact Hnx. auto. }
  rewrite Em. cbn [rbind].
  assert (Qm : forall j c, get (l_nearest m) j = Ok c -> near_ok c).
  { eapply nearest_ok; [|exact Lm|exact Rm|].
    - unfold line_ok. cbn. rewrite full_len by exact Hnx. auto.
    - exact full_near_ok. }
  destruct Lm as (LPm & LNm & LQm & HNm) eqn:Elm; clear Elm.
  destruct (write_secondary_ok i m srow Hi LPm LQm LS Qm) as (r1 & E1 & L1 & W1).
  rewrite E1. cbn [rbind].
  destruct (process_line_ok row (negb first) i (mkLine (l_prox m) (l_near m) (full nx none)) Hrow Hi)
    as (t & Et & Lt & Rt).
  { unfold line_ok. cbn. rewrite full_len by exact Hnx. auto. }
  rewrite Et. cbn [rbind].
  assert (Qt : forall j c, get (l_nearest t) j = Ok c -> near_ok c).
  { eapply nearest_ok; [|exact Lt|exact Rt|].
    - unfold line_ok. cbn. rewrite full_len by exact Hnx. auto.
    - exact full_near_ok. }
  destruct (write_secondary_ok i t r1 Hi) as (r2 & E2 & L2 & W2);
    [apply Lt|apply Lt|exact L1|exact Qt|].
  rewrite E2. cbn [rbind].
  exists m, t, r2. split; [reflexivity|].
  split; [unfold line_ok; auto|]. split; [exact Lt|]. split; [exact L2|].
  split; [auto|]. intros j w p1 q1 p2 q2 G G1 G2 G3 G4.
  apply W2; auto.
Qed.

(* ---------------- the whole raster ---------------- *)

Notation down_line := (down_line ar target true second xc yc).
Notation up_line := (up_line ar target true second xc yc).
Notation compute := (compute_proximity ar target true second xc yc).

Definition shaped {B} (a : list (list B)) : Prop :=
  len a = ny /\ forall i r, get a i = Ok r -> len r = nx.

(* Induction over the rows: [Nd i] / [Nu i] is what the candidates satisfy when
   row i is about to be processed going down / up; [Rd], [Ru] relate row i of
   the arrays after the pass. *)
Lemma compute_rows nodata prox0 sec0
  (Nd Nu : Z -> list cand -> Prop) (Rd Ru : Z -> list P -> list S -> Prop) :
  shaped prox0 -> shaped sec0 ->
  Nd 0 (full nx none) -> Nu (ny - 1) (full nx none) ->
  (forall i row srow near, get src i = Ok row -> 0 <= i < ny -> get sec0 i = Ok srow ->
     len near = nx -> (forall j c, get near j = Ok c -> near_ok c) -> Nd i near ->
     exists prox near' srow', process_both row true i (full nx (pminus1 ar)) near srow
       = Ok (prox, near', srow')
       /\ len prox = nx /\ len near' = nx /\ len srow' = nx
       /\ (forall j c, get near' j = Ok c -> near_ok c)
       /\ Nd (i + 1) near' /\ Rd i prox srow') ->
  (forall i row prox srow near, get src i = Ok row -> 0 <= i < ny ->
     len prox = nx -> len srow = nx -> Rd i prox srow ->
     len near = nx -> (forall j c, get near j = Ok c -> near_ok c) -> Nu i near ->
     exists prox' near' srow', process_both row false i prox near srow
       = Ok (prox', near', srow')
       /\ len prox' = nx /\ len near' = nx /\ len srow' = nx
       /\ (forall j c, get near' j = Ok c -> near_ok c)
       /\ Nu (i - 1) near'
       /\ Ru i (map (fun p => if pneg ar p then nodata else p) prox') srow') ->
  exists prox secondary, compute src ny nx nodata prox0 sec0 = Ok (prox, secondary)
    /\ shaped prox /\ shaped secondary
    /\ forall i, 0 <= i < ny -> exists r s, get prox i = Ok r /\ get secondary i = Ok s
         /\ Ru i r s.
Proof.
  intros [LP0 SP0] [LS0 SS0] Nd0 Nu0 HD HU.
  assert (Hny : 0 <= ny) by (rewrite <- ny_src; apply len_nonneg).
  assert (Hnx : 0 <= nx) by (rewrite <- nx_xc; apply len_nonneg).
  unfold compute_proximity.
  destruct (foldM_zrange (down_line src nx)
    (fun k s => shaped (s_prox s) /\ shaped (s_second s) /\ len (s_near s) = nx
       /\ (forall j c, get (s_near s) j = Ok c -> near_ok c) /\ Nd k (s_near s)
       /\ (forall i, k <= i -> get (s_second s) i = get sec0 i)
       /\ forall i, 0 <= i < k -> exists r w, get (s_prox s) i = Ok r /\ get (s_second s) i = Ok w
            /\ Rd i r w) ny
    (mkScan prox0 sec0 (full nx none)) Hny) as (s1 & E1 & I1).
  - cbn. split; [split; auto|]. split; [split; auto|]. split; [now apply full_len|].
    split; [exact full_near_ok|]. split; [exact Nd0|]. split; [auto|]. intros; lia.
  - intros k s Hk ([LP SP] & [LS SS] & LN & HN & HNd & US & HR).
    destruct (get_range src k) as (row & Grow); [lia|].
    destruct (get_range (s_second s) k) as (srow & Gs); [lia|].
    unfold Proximity.down_line. rewrite Grow. cbn [rbind]. unfold second_row. rewrite Gs. cbn [rbind].
    rewrite US in Gs by lia.
    destruct (HD k row srow (s_near s) Grow Hk Gs LN HN HNd)
      as (prox & near' & srow' & E & L1 & L2 & L3 & HN' & HNd' & HRd).
    rewrite E. cbn [rbind]. unfold set_second.
    destruct (set_range (s_second s) k srow') as (sec' & ES); [lia|]. rewrite ES. cbn [rbind].
    destruct (set_range (s_prox s) k prox) as (prox' & EP); [lia|]. rewrite EP. cbn [rbind].
    eexists. split; [reflexivity|]. cbn.
    split; [|split; [|split; [exact L2|split; [exact HN'|split; [exact HNd'|split]]]]].
    + split; [rewrite (set_len _ _ _ _ EP); exact LP|]. intros i r G.
      destruct (Z.eq_dec i k) as [->|NE].
      * rewrite (get_set_same _ _ _ _ EP) in G. injection G as <-. exact L1.
      * rewrite (get_set_other _ _ _ _ _ EP) in G by auto. eauto.
    + split; [rewrite (set_len _ _ _ _ ES); exact LS|]. intros i r G.
      destruct (Z.eq_dec i k) as [->|NE].
      * rewrite (get_set_same _ _ _ _ ES) in G. injection G as <-. exact L3.
      * rewrite (get_set_other _ _ _ _ _ ES) in G by auto. eauto.
    + intros i Hi. rewrite (get_set_other _ _ _ _ _ ES) by lia. apply US. lia.
    + intros i Hi. destruct (Z.eq_dec i k) as [->|NE].
      * exists prox, srow'. rewrite (get_set_same _ _ _ _ EP), (get_set_same _ _ _ _ ES). auto.
      * rewrite (get_set_other _ _ _ _ _ EP), (get_set_other _ _ _ _ _ ES) by auto.
        apply HR. lia.
  - rewrite E1. cbn [rbind]. destruct I1 as ([LP SP] & [LS SS] & _ & _ & _ & _ & HR).
    rewrite (zrange_rev ny Hny).
    destruct (foldM_range (up_line src nodata) (fun k => ny - 1 - k)
      (fun k s => shaped (s_prox s) /\ shaped (s_second s) /\ len (s_near s) = nx
         /\ (forall j c, get (s_near s) j = Ok c -> near_ok c) /\ Nu (ny - 1 - k) (s_near s)
         /\ (forall i, i <= ny - 1 - k -> get (s_second s) i = get (s_second s1) i
               /\ get (s_prox s) i = get (s_prox s1) i)
         /\ forall i, ny - 1 - k < i < ny -> exists r w, get (s_prox s) i = Ok r
              /\ get (s_second s) i = Ok w /\ Ru i r w) ny
      (mkScan (s_prox s1) (s_second s1) (full nx none)) Hny) as (s2 & E2 & I2).
    + cbn. split; [split; auto|]. split; [split; auto|]. split; [now apply full_len|].
      split; [exact full_near_ok|]. replace (ny - 1 - 0) with (ny - 1) by lia.
      split; [exact Nu0|]. split; [auto|]. intros; lia.
    + intros k s Hk ([LP' SP'] & [LS' SS'] & LN & HN & HNu & US & HR').
      set (i0 := ny - 1 - k) in *.
      destruct (get_range src i0) as (row & Grow); [lia|].
      destruct (US i0 ltac:(lia)) as [US1 US2].
      destruct (HR i0 ltac:(lia)) as (r0 & w0 & Gr0 & Gw0 & Rd0).
      unfold Proximity.up_line. rewrite Grow. cbn [rbind]. rewrite US2, Gr0. cbn [rbind].
      unfold second_row. rewrite US1, Gw0. cbn [rbind].
      destruct (HU i0 row r0 w0 (s_near s) Grow ltac:(lia) (SP _ _ Gr0) (SS _ _ Gw0) Rd0 LN HN HNu)
        as (prox & near' & srow' & E & L1 & L2 & L3 & HN' & HNu' & HRu).
      rewrite E. cbn [rbind]. unfold set_second.
      destruct (set_range (s_second s) i0 srow') as (sec' & ES); [lia|]. rewrite ES. cbn [rbind].
      set (filled := map _ prox) in *.
      destruct (set_range (s_prox s) i0 filled) as (prox' & EP); [lia|]. rewrite EP. cbn [rbind].
      eexists. split; [reflexivity|]. cbn.
      split; [|split; [|split; [exact L2|split; [exact HN'|split; [|split]]]]].
      * split; [rewrite (set_len _ _ _ _ EP); exact LP'|]. intros i r G.
        destruct (Z.eq_dec i i0) as [->|NE].
        -- rewrite (get_set_same _ _ _ _ EP) in G. injection G as <-. unfold filled.
           now rewrite len_map.
        -- rewrite (get_set_other _ _ _ _ _ EP) in G by auto. eauto.
      * split; [rewrite (set_len _ _ _ _ ES); exact LS'|]. intros i r G.
        destruct (Z.eq_dec i i0) as [->|NE].
        -- rewrite (get_set_same _ _ _ _ ES) in G. injection G as <-. exact L3.
        -- rewrite (get_set_other _ _ _ _ _ ES) in G by auto. eauto.
      * replace (ny - 1 - (k + 1)) with (i0 - 1) by lia. exact HNu'.
      * intros i Hi. rewrite (get_set_other _ _ _ _ _ ES), (get_set_other _ _ _ _ _ EP) by lia.
        apply US. lia.
      * intros i Hi. destruct (Z.eq_dec i i0) as [->|NE].
        -- exists filled, srow'. rewrite (get_set_same _ _ _ _ EP), (get_set_same _ _ _ _ ES). auto.
        -- rewrite (get_set_other _ _ _ _ _ EP), (get_set_other _ _ _ _ _ ES) by auto.
           apply HR'. lia.
    + rewrite E2. cbn [rbind]. destruct I2 as (SP2 & SS2 & _ & _ & _ & _ & HR2).
      exists (s_prox s2), (s_second s2). split; [reflexivity|]. split; [exact SP2|].
      split; [exact SS2|]. intros i Hi. apply HR2. lia.
Qed.

End Run.
