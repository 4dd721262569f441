(* The search of CostDist.v over an abstract list of outgoing edges: invariant
   and consequences.  CostProofs.v connects it to grids. *)
From Verif Require Import BaseFacts Heap HeapProofs F64 F64Facts CostDist.
From Flocq Require Import Core BinarySingleNaN.
From Coq Require Import ZifyBool ZifyNat.
Open Scope Z_scope.

Notation HInv := (@Inv f64 fleb finf fok).
Notation habs := (@abs f64).

Lemma feqb_finf x : feqb x finf = true <-> x = finf.
Proof.
  split; [|intros ->; reflexivity].
  destruct x as [s|[]| |s m e H]; cbn; try discriminate; auto;
    destruct s; discriminate.
Qed.

Lemma feqb_finf_false x : feqb x finf = false <-> x <> finf.
Proof.
  rewrite <- feqb_finf. destruct (feqb x finf); split; congruence.
Qed.

Lemma fleb_finite_inf x : x <> finf -> fok x = true -> fleb finf x = false.
Proof.
  intros N O. destruct x as [s|[]| |s m e H]; try reflexivity; try discriminate.
  exfalso. now apply N.
Qed.

Lemma fle_not_inf x y : fleb x y = true -> y <> finf -> x <> finf.
Proof.
  intros L N ->. rewrite fleb_finite_inf in L; try discriminate; auto.
  eapply fleb_ok_r; eauto.
Qed.

Section Dijkstra.
Variable size : Z.
Definition edge := (Z * Z * f64)%type.      (* move index, target, step cost *)
Variable nbrs : Z -> list edge.
Variable source : Z -> option Z.
Variable snull : Z.
Hypothesis nbrs_ok : forall i m j w, 0 <= i < size -> In (m, j, w) (nbrs i) ->
  0 <= j < size /\ fnonneg w = true.

(* One edge of the popped cell. *)
Definition relax (src : Z) (cum : f64) (s : state) (e : edge) : res state :=
  let '(m, j, w) := e in
  let* d := get (dist s) j in
  if negb (feqb d finf) then Ok s
  else
    let nc := fadd cum w in
    if negb (feqb nc finf) then
      let* '(h, flag) := push_if_lower fltb finf (hp s) nc j in
      if 0 <? flag then
        let* tb' := set (tb s) j m in
        let* al' := set (alloc s) j src in
        Ok (mkState (dist s) tb' al' h)
      else Ok (mkState (dist s) (tb s) (alloc s) h)
    else Ok s.

Fixpoint relax_all (src : Z) (cum : f64) (es : list edge) (s : state) : res state :=
  match es with
  | [] => Ok s
  | e :: es' => let* s' := relax src cum s e in relax_all src cum es' s'
  end.

(* Cells in pop order (latest first): each is a source or was reached from an
   earlier one. *)
Definition has_pred (s : state) (earlier : list Z) (x : Z) (k : f64) : Prop :=
  exists i m w d a, In i earlier /\ In (m, x, w) (nbrs i)
    /\ get (dist s) i = Ok d /\ k = fadd d w /\ get (tb s) x = Ok m
    /\ get (alloc s) i = Ok a /\ get (alloc s) x = Ok a.

Fixpoint traced (s : state) (ord : list Z) : Prop :=
  match ord with
  | [] => True
  | x :: l => traced s l
      /\ (source x <> None
          \/ (source x = None /\ exists k, get (dist s) x = Ok k /\ has_pred s l x k))
  end.

Record DInv (s : state) (ord : list Z) (E : Z -> edge -> Prop) : Prop := mkDInv {
  d_heap : HInv (hp s);
  d_hmax : hmax (hp s) = Z.max (size - 1) 1;
  d_lend : len (dist s) = size;
  d_lent : len (tb s) = size;
  d_lena : len (alloc s) = size;
  d_nodup : NoDup ord;
  d_fin : forall x, In x ord -> 0 <= x < size /\
      exists d, get (dist s) x = Ok d /\ fnonneg d = true /\ d <> finf;
  d_inf : forall x, 0 <= x < size -> ~ In x ord -> get (dist s) x = Ok finf;
  d_front : forall x k, habs (hp s) x = Some k ->
      0 <= x < size /\ ~ In x ord /\ fnonneg k = true /\ k <> finf
      /\ forall y d, In y ord -> get (dist s) y = Ok d -> fleb d k = true;
  d_src : forall x l, 0 <= x < size -> source x = Some l ->
      get (tb s) x = Ok (-1) /\ get (alloc s) x = Ok l
      /\ ((In x ord /\ get (dist s) x = Ok fzero) \/ habs (hp s) x = Some fzero);
  d_pred : forall x k, source x = None -> habs (hp s) x = Some k ->
      has_pred s ord x k;
  d_traced : traced s ord;
  d_edge : forall i m j w d, In i ord -> E i (m, j, w) -> get (dist s) i = Ok d ->
      fadd d w = finf
      \/ (exists dj, In j ord /\ get (dist s) j = Ok dj /\ fleb dj (fadd d w) = true)
      \/ (exists k, habs (hp s) j = Some k /\ fleb k (fadd d w) = true);
  d_none : forall x, 0 <= x < size -> ~ In x ord -> habs (hp s) x = None ->
      source x = None /\ get (tb s) x = Ok TRACEBACK_NOT_REACHED
      /\ get (alloc s) x = Ok snull
}.

(* traced only looks at cells of ord *)
Lemma traced_frame s s' ord :
  (forall x, In x ord -> get (dist s') x = get (dist s) x
     /\ get (tb s') x = get (tb s) x /\ get (alloc s') x = get (alloc s) x) ->
  traced s ord -> traced s' ord.
Proof.
  induction ord as [|x l IH]; cbn [traced]; auto.
  intros F [T P]. split.
  - apply IH; auto. intros y Hy. apply F. now right.
  - destruct P as [P|(Ns & k & Gk & i & m & w & d & a & H1 & H2 & H3 & H4 & H5 & H6 & H7)];
      [now left|right].
    split; [exact Ns|].
    destruct (F x (or_introl eq_refl)) as (A1 & A2 & A3).
    destruct (F i (or_intror H1)) as (B1 & B2 & B3).
    exists k. rewrite A1. split; [exact Gk|]. exists i, m, w, d, a.
    rewrite A2, A3, B1, B3. auto 10.
Qed.

Lemma dinv_weaken s ord (E E' : Z -> edge -> Prop) :
  (forall i e, In i ord -> E' i e -> E i e) -> DInv s ord E -> DInv s ord E'.
Proof. intros H D. destruct D. constructor; auto. intros; eauto. Qed.

Lemma relax_spec s ord E u cum src m j w :
  DInv s ord E -> In u ord -> get (dist s) u = Ok cum ->
  (forall y d, In y ord -> get (dist s) y = Ok d -> fleb d cum = true) ->
  get (alloc s) u = Ok src -> In (m, j, w) (nbrs u) ->
  exists s', relax src cum s (m, j, w) = Ok s' /\ dist s' = dist s
    /\ get (alloc s') u = Ok src
    /\ DInv s' ord (fun i e => E i e \/ (i = u /\ e = (m, j, w))).
Proof.
  intros D Hu Gu Max Gsrc He. unfold relax.
  destruct (d_fin _ _ _ D u Hu) as (Ru & du & Gdu & Nnu & Nfu).
  assert (du = cum) by congruence; subst du. clear Gdu.
  destruct (nbrs_ok u m j w Ru He) as (Rj & Nw).
  destruct (get_range (dist s) j) as [dj Gj]; [rewrite (d_lend _ _ _ D); lia|].
  rewrite Gj. cbn [rbind].
  assert (Hnc : fnonneg (fadd cum w) = true) by (apply fadd_nonneg; assumption).
  assert (Hle : fleb cum (fadd cum w) = true) by (apply fadd_infl; assumption).
  destruct (feqb dj finf) eqn:Ej; cbn [negb].
  2:{ (* already settled *)
    exists s. split; [reflexivity|]. split; [reflexivity|]. split; [exact Gsrc|].
    assert (Ij : In j ord).
    { destruct (in_dec Z.eq_dec j ord) as [|N]; [assumption|].
      rewrite (d_inf _ _ _ D j Rj N) in Gj. injection Gj as <-.
      apply feqb_finf_false in Ej. congruence. }
    destruct D; constructor; auto.
    intros i m' j' w' d Hi [HE|[-> [= -> -> ->]]] Gd; [eauto|].
    assert (d = cum) by congruence; subst d.
    right; left. exists dj. split; [exact Ij|]. split; [exact Gj|].
    apply fleb_trans with cum; [exact (Max j dj Ij Gj)|exact Hle]. }
  apply feqb_finf in Ej. subst dj.
  assert (Nj : ~ In j ord).
  { intros HI. destruct (d_fin _ _ _ D j HI) as (_ & d & G & _ & N). congruence. }
  destruct (feqb (fadd cum w) finf) eqn:Enc; cbn [negb].
  { apply feqb_finf in Enc.
    exists s. split; [reflexivity|]. split; [reflexivity|]. split; [exact Gsrc|].
    destruct D; constructor; auto.
    intros i m' j' w' d Hi [HE|[-> [= -> -> ->]]] Gd; [eauto|].
    assert (d = cum) by congruence; subst d. now left. }
  apply feqb_finf_false in Enc.
  destruct (push_if_lower_spec f64_KeyOrder (hp s) (fadd cum w) j (d_heap _ _ _ D)
              (fnonneg_ok _ Hnc)) as (h' & c & EP & IP & MP & SP).
  rewrite EP. cbn [rbind].
  destruct ((0 <=? j) && (j <=? hmax (hp s))) eqn:ER.
  2:{ rewrite (d_hmax _ _ _ D) in ER. lia. }
  cbv zeta in SP. destruct SP as (Sc & Sa).
  set (lower := match habs (hp s) j with Some k0 => fltb (fadd cum w) k0 | None => true end) in *.
  destruct lower eqn:EL.
  - (* inserted or lowered *)
    subst c. cbn [Z.ltb Z.compare].
    assert (Sa' : forall x, habs h' x = if x =? j then Some (fadd cum w) else habs (hp s) x)
      by (intros x; rewrite Sa; now rewrite andb_true_r).
    (* j is not a source: a queued source has key 0 *)
    assert (NSj : source j = None).
    { destruct (source j) as [l|] eqn:ES; [|reflexivity]. exfalso.
      destruct (d_src _ _ _ D j l Rj ES) as (_ & _ & [[HI _]|HF]); [auto|].
      subst lower. rewrite HF in EL.
      rewrite (ko_ltb _ _ _ _ f64_KeyOrder) in EL by (reflexivity || now apply fnonneg_ok).
      unfold fnonneg in Hnc. rewrite Hnc in EL. discriminate. }
    assert (Huj : u <> j) by (intros ->; auto).
    destruct (set_range (tb s) j m) as [tb' St]; [rewrite (d_lent _ _ _ D); lia|].
    destruct (set_range (alloc s) j src) as [al' Sal]; [rewrite (d_lena _ _ _ D); lia|].
    rewrite St. cbn [rbind]. rewrite Sal. cbn [rbind].
    eexists. split; [reflexivity|]. split; [reflexivity|].
    split. { cbn [alloc]. rewrite (get_set_other _ _ _ _ _ Sal) by lia. exact Gsrc. }
    assert (FT : forall x, x <> j -> get tb' x = get (tb s) x)
      by (intros; eapply get_set_other; eauto).
    assert (FA : forall x, x <> j -> get al' x = get (alloc s) x)
      by (intros; eapply get_set_other; eauto).
    assert (OJ : forall x, In x ord -> x <> j) by (intros x Hx ->; auto).
    constructor; cbn [dist tb alloc hp].
    + exact IP.
    + rewrite MP. apply D.
    + apply D.
    + rewrite (set_len _ _ _ _ St). apply D.
    + rewrite (set_len _ _ _ _ Sal). apply D.
    + apply D.
    + apply D.
    + apply D.
    + intros x k Hx. rewrite Sa' in Hx. destruct (x =? j) eqn:Exj.
      * assert (x = j) by lia; subst x. injection Hx as <-.
        split; [lia|]. split; [exact Nj|]. split; [exact Hnc|]. split; [exact Enc|].
        intros y d Hy Gy. apply fleb_trans with cum; [exact (Max y d Hy Gy)|exact Hle].
      * now apply (d_front _ _ _ D).
    + intros x l Rx Sx. assert (x <> j) by congruence.
      rewrite FT, FA by assumption. rewrite Sa'.
      destruct (x =? j) eqn:Exj; [lia|]. now apply (d_src _ _ _ D).
    + intros x k Nsx Hx. rewrite Sa' in Hx. destruct (x =? j) eqn:Exj.
      * assert (x = j) by lia; subst x. injection Hx as <-.
        exists u, m, w, cum, src. cbn [dist tb alloc].
        rewrite (get_set_same _ _ _ _ St), (get_set_same _ _ _ _ Sal).
        rewrite FA by assumption. auto 10.
      * destruct (d_pred _ _ _ D x k Nsx Hx) as
          (i & m' & w' & d & a & P1 & P2 & P3 & P4 & P5 & P6 & P7).
        exists i, m', w', d, a. cbn [dist tb alloc].
        rewrite FT by lia. rewrite !FA by (lia || auto). auto 10.
    + eapply traced_frame; [|apply D]. cbn [dist tb alloc].
      intros x Hx. rewrite FT, FA by auto. auto.
    + intros i m' j' w' d Hi [HE|[-> [= -> -> ->]]] Gd.
      * destruct (d_edge _ _ _ D i m' j' w' d Hi HE Gd) as [H|[H|(k & H1 & H2)]]; auto.
        right; right. rewrite Sa'. destruct (j' =? j) eqn:Exj.
        -- assert (j' = j) by lia; subst j'. eexists. split; [reflexivity|].
           apply fleb_trans with k; [|exact H2].
           subst lower. rewrite H1 in EL.
           destruct (d_front _ _ _ D j k H1) as (_ & _ & Nk & _).
           rewrite (ko_ltb _ _ _ _ f64_KeyOrder) in EL by (now apply fnonneg_ok).
           destruct (fleb_total (fadd cum w) k (fnonneg_ok _ Hnc) (fnonneg_ok _ Nk)) as [T|T];
             [exact T|]. rewrite T in EL. discriminate.
        -- eauto.
      * assert (d = cum) by congruence; subst d. right; right.
        rewrite Sa'. rewrite Z.eqb_refl. eexists. split; [reflexivity|].
        apply fleb_refl. now apply fnonneg_ok.
    + intros x Rx Nx Hx. rewrite Sa' in Hx. destruct (x =? j) eqn:Exj; [discriminate|].
      rewrite FT, FA by lia. now apply (d_none _ _ _ D).
  - (* the queued key is no larger *)
    subst c. cbn [Z.ltb Z.compare].
    assert (Sa' : forall x, habs h' x = habs (hp s) x)
      by (intros x; rewrite Sa; now rewrite andb_false_r).
    eexists. split; [reflexivity|]. split; [reflexivity|].
    split; [exact Gsrc|].
    destruct (habs (hp s) j) as [k0|] eqn:EA.
    2:{ subst lower. discriminate. }
    subst lower. destruct D; constructor; cbn [dist tb alloc hp]; auto; try congruence.
    + intros x k Hx. rewrite Sa' in Hx. auto.
    + intros x l Rx Sx. rewrite Sa'. auto.
    + intros x k Ns Hx. rewrite Sa' in Hx.
      destruct (d_pred0 x k Ns Hx) as (i & m' & w' & d & a & P).
      exists i, m', w', d, a. exact P.
    + eapply traced_frame; [|eassumption]. auto.
    + intros i m' j' w' d Hi [HE|[-> [= -> -> ->]]] Gd.
      * setoid_rewrite Sa'. eauto.
      * assert (d = cum) by congruence; subst d. right; right.
        rewrite Sa', EA. exists k0. split; [reflexivity|].
        destruct (d_front0 j k0 EA) as (_ & _ & Nk & _).
        rewrite (ko_ltb _ _ _ _ f64_KeyOrder) in EL by (now apply fnonneg_ok).
        destruct (fleb k0 (fadd cum w)); [reflexivity|discriminate].
    + intros x Rx Nx Hx. rewrite Sa' in Hx. auto.
Qed.

Lemma relax_all_spec es : forall s ord E u cum src,
  DInv s ord E -> In u ord -> get (dist s) u = Ok cum ->
  (forall y d, In y ord -> get (dist s) y = Ok d -> fleb d cum = true) ->
  get (alloc s) u = Ok src -> (forall e, In e es -> In e (nbrs u)) ->
  exists s', relax_all src cum es s = Ok s' /\ dist s' = dist s
    /\ DInv s' ord (fun i e => E i e \/ (i = u /\ In e es)).
Proof.
  induction es as [|((m & j) & w) es IH]; intros s ord E u cum src D Hu Gu Max Gsrc Hes.
  - exists s. split; [reflexivity|]. split; [reflexivity|].
    eapply dinv_weaken; [|exact D]. cbn. intros; tauto.
  - cbn [relax_all].
    destruct (relax_spec s ord E u cum src m j w D Hu Gu Max Gsrc) as
      (s1 & E1 & Ed1 & Ga1 & D1); [apply Hes; now left|].
    rewrite E1. cbn [rbind].
    destruct (IH s1 ord _ u cum src D1 Hu) as (s2 & E2 & Ed2 & D2); rewrite ?Ed1; auto.
    { intros e He. apply Hes. now right. }
    exists s2. split; [exact E2|]. split; [congruence|].
    eapply dinv_weaken; [|exact D2]. cbn [In]. intros i e Hi [H|[-> [<-|H]]]; auto.
Qed.

(* One turn of the main loop with the edges of the popped cell. *)
Definition dstep (s : state) : res state :=
  let* '(h, cum, u) := pop fleb fltb finf (hp s) in
  let* src := get (alloc s) u in
  let* d' := set (dist s) u cum in
  relax_all src cum (nbrs u) (mkState d' (tb s) (alloc s) h).

Definition all_edges (i : Z) (e : edge) : Prop := In e (nbrs i).

Lemma dstep_spec s ord :
  DInv s ord all_edges -> hcount (hp s) <> 0 ->
  exists u s', dstep s = Ok s' /\ DInv s' (u :: ord) all_edges.
Proof.
  intros D Hc. unfold dstep.
  destruct (pop_spec f64_KeyOrder (hp s) (d_heap _ _ _ D)) as
    (h & k & u & EP & IP & MP & SP).
  destruct SP as [(C0 & _)|(C1 & C2 & A & Mn & Del)]; [lia|].
  rewrite EP. cbn [rbind].
  destruct (d_front _ _ _ D u k A) as (Ru & Nu & Nk & Fk & Max).
  destruct (get_range (alloc s) u) as [src Gs]; [rewrite (d_lena _ _ _ D); lia|].
  rewrite Gs. cbn [rbind].
  destruct (set_range (dist s) u k) as [d' Sd]; [rewrite (d_lend _ _ _ D); lia|].
  rewrite Sd. cbn [rbind].
  assert (GU : get d' u = Ok k) by (eapply get_set_same; eauto).
  assert (GO : forall x, x <> u -> get d' x = get (dist s) x)
    by (intros; eapply get_set_other; eauto).
  assert (OU : forall x, In x ord -> x <> u) by (intros x Hx ->; auto).
  set (s1 := mkState d' (tb s) (alloc s) h).
  assert (PFr : forall x k', has_pred s ord x k' -> has_pred s1 ord x k').
  { intros x k' (i & m & w & d & a & P1 & P2 & P3 & P). exists i, m, w, d, a.
    subst s1. cbn [dist tb alloc]. rewrite GO by auto. auto. }
  assert (D1 : DInv s1 (u :: ord) (fun i e => i <> u /\ In e (nbrs i))).
  { constructor; subst s1; cbn [dist tb alloc hp].
    - exact IP.
    - rewrite MP. apply D.
    - rewrite (set_len _ _ _ _ Sd). apply D.
    - apply D.
    - apply D.
    - constructor; [exact Nu|apply D].
    - intros x [<-|Hx].
      + split; [exact Ru|]. exists k. auto.
      + rewrite GO by auto. now apply (d_fin _ _ _ D).
    - intros x Rx Nx. rewrite GO by (intros ->; apply Nx; now left).
      apply (d_inf _ _ _ D); auto. intros H; apply Nx; now right.
    - intros x k' Hx. rewrite Del in Hx. destruct (x =? u) eqn:Exu; [discriminate|].
      destruct (d_front _ _ _ D x k' Hx) as (R1 & R2 & R3 & R4 & R5).
      split; [exact R1|]. split; [intros [H|H]; [lia|auto]|].
      split; [exact R3|]. split; [exact R4|].
      intros y d [<-|Hy] Gy.
      + assert (d = k) by congruence; subst d. eapply Mn; eauto.
      + rewrite GO in Gy by auto. eauto.
    - intros x l Rx Sx. destruct (d_src _ _ _ D x l Rx Sx) as (T1 & T2 & T3).
      split; [exact T1|]. split; [exact T2|].
      destruct (Z.eq_dec x u) as [->|Nxu].
      + destruct T3 as [[HI _]|HF]; [contradiction|].
        left. split; [now left|]. congruence.
      + destruct T3 as [[HI HD]|HF].
        * left. split; [now right|]. rewrite GO by exact Nxu. exact HD.
        * right. rewrite Del. destruct (x =? u) eqn:Exu; [lia|exact HF].
    - intros x k' Ns Hx. rewrite Del in Hx. destruct (x =? u) eqn:Exu; [discriminate|].
      destruct (PFr x k' (d_pred _ _ _ D x k' Ns Hx)) as (i & m & w & d & a & P1 & P).
      exists i, m, w, d, a. split; [now right|exact P].
    - cbn [traced]. split.
      + eapply traced_frame; [|apply D]. cbn [dist tb alloc].
        intros x Hx. rewrite GO by auto. auto.
      + destruct (source u) as [l|] eqn:ES; [left; discriminate|right].
        split; [reflexivity|]. exists k. cbn [dist]. split; [exact GU|].
        apply PFr. now apply (d_pred _ _ _ D).
    - intros i m j w d Hi [Niu HE] Gd. destruct Hi as [Hi|Hi]; [congruence|].
      rewrite GO in Gd by exact Niu.
      destruct (d_edge _ _ _ D i m j w d Hi HE Gd) as [H|[(dj & H1 & H2 & H3)|(k' & H1 & H2)]].
      + now left.
      + right; left. exists dj. split; [now right|]. rewrite GO by auto. auto.
      + destruct (Z.eq_dec j u) as [->|Nju].
        * right; left. exists k. split; [now left|]. split; [exact GU|].
          assert (k' = k) by congruence; subst k'. exact H2.
        * right; right. exists k'. rewrite Del. destruct (j =? u) eqn:Eju; [lia|]. auto.
    - intros x Rx Nx Hx. rewrite Del in Hx.
      destruct (x =? u) eqn:Exu.
      + exfalso. apply Nx. left. lia.
      + apply (d_none _ _ _ D); auto. intros H; apply Nx; now right. }
  destruct (relax_all_spec (nbrs u) s1 (u :: ord) _ u k src D1) as (s2 & E2 & Ed2 & D2).
  - now left.
  - exact GU.
  - intros y d [<-|Hy] Gy; subst s1; cbn [dist] in Gy.
    + assert (d = k) by congruence; subst d. apply fleb_refl. now apply fnonneg_ok.
    + rewrite GO in Gy by auto. exact (Max y d Hy Gy).
  - exact Gs.
  - auto.
  - exists u, s2. split; [exact E2|].
    eapply dinv_weaken; [|exact D2]. intros i e Hi He. unfold all_edges in He.
    destruct (Z.eq_dec i u) as [->|N]; auto.
Qed.

Fixpoint dloop (n : nat) (s : state) : res state :=
  match n with
  | O => Ok s
  | S n' => if hcount (hp s) =? 0 then Ok s
            else let* s' := dstep s in dloop n' s'
  end.

Lemma ord_length s ord E : DInv s ord E -> len ord <= Z.max size 0.
Proof.
  intros D.
  assert (incl ord (map Z.of_nat (seq 0 (Z.to_nat size)))).
  { intros x Hx. destruct (d_fin _ _ _ D x Hx) as (R & _). apply in_map_iff.
    exists (Z.to_nat x). split; [lia|]. apply in_seq. lia. }
  apply NoDup_incl_length in H; [|apply D].
  rewrite map_length, seq_length in H. unfold len. lia.
Qed.

Lemma dloop_spec n : forall s ord, 0 <= size ->
  DInv s ord all_edges -> size <= len ord + Z.of_nat n ->
  exists s' ord', dloop n s = Ok s' /\ DInv s' ord' all_edges /\ hcount (hp s') = 0.
Proof.
  induction n as [|n IH]; intros s ord Hs D Hn.
  - cbn [dloop]. exists s, ord. split; [reflexivity|]. split; [exact D|].
    (* every cell is settled, so the queue is empty *)
    apply (count_zero_iff (hp s) (d_heap _ _ _ D)). intros x.
    destruct (habs (hp s) x) as [k|] eqn:Ex; [|reflexivity]. exfalso.
    destruct (d_front _ _ _ D x k Ex) as (Rx & Nx & _).
    assert (incl (x :: ord) (map Z.of_nat (seq 0 (Z.to_nat size)))).
    { intros y [<-|Hy].
      - apply in_map_iff. exists (Z.to_nat x). split; [lia|]. apply in_seq. lia.
      - destruct (d_fin _ _ _ D y Hy) as (R & _). apply in_map_iff.
        exists (Z.to_nat y). split; [lia|]. apply in_seq. lia. }
    apply NoDup_incl_length in H; [|constructor; [exact Nx|apply D]].
    rewrite map_length, seq_length in H. cbn [length] in H. unfold len in Hn. lia.
  - cbn [dloop]. destruct (hcount (hp s) =? 0) eqn:E.
    + exists s, ord. split; [reflexivity|]. split; [exact D|]. lia.
    + destruct (dstep_spec s ord D ltac:(lia)) as (u & s' & E' & D').
      rewrite E'. cbn [rbind].
      destruct (IH s' (u :: ord) Hs D') as (s2 & ord2 & R).
      { unfold len in *. cbn [length]. lia. }
      exists s2, ord2. exact R.
Qed.

(* The cap does not matter once it is at least the number of cells. *)
Lemma dloop_cap n : forall s ord, 0 <= size ->
  DInv s ord all_edges -> size <= len ord + Z.of_nat n ->
  forall m, (n <= m)%nat -> dloop m s = dloop n s.
Proof.
  induction n as [|n IH]; intros s ord Hs D Hn m Hm.
  - destruct (dloop_spec 0 s ord Hs D Hn) as (s' & ord' & E & _ & C).
    cbn in E. injection E as <-. destruct m as [|m]; [reflexivity|].
    cbn [dloop]. destruct (hcount (hp s) =? 0) eqn:E2; [reflexivity|lia].
  - destruct m as [|m]; [lia|]. cbn [dloop].
    destruct (hcount (hp s) =? 0) eqn:E; [reflexivity|].
    destruct (dstep_spec s ord D ltac:(lia)) as (u & s' & E' & D').
    rewrite E'. cbn [rbind]. apply (IH s' (u :: ord) Hs D').
    + unfold len in *. cbn [length]. lia.
    + lia.
Qed.

(* ---------------- sources ---------------- *)

Lemma push_sources_spec srcs : forall i s (pre : list Z),
  i = len pre -> len pre + len srcs = size ->
  HInv (hp s) -> hmax (hp s) = Z.max (size - 1) 1 ->
  len (tb s) = size -> len (alloc s) = size ->
  exists s', push_sources snull srcs i s = Ok s' /\ dist s' = dist s
    /\ HInv (hp s') /\ hmax (hp s') = Z.max (size - 1) 1
    /\ len (tb s') = size /\ len (alloc s') = size
    /\ forall x, 0 <= x < size ->
         (if x <? i then get (tb s') x = get (tb s) x
                         /\ get (alloc s') x = get (alloc s) x
                         /\ habs (hp s') x = habs (hp s) x
          else exists v, get srcs (x - i) = Ok v /\
               if v =? snull then get (tb s') x = get (tb s) x
                         /\ get (alloc s') x = get (alloc s) x
                         /\ habs (hp s') x = habs (hp s) x
               else get (tb s') x = Ok (-1) /\ get (alloc s') x = Ok v
                    /\ habs (hp s') x = Some fzero).
Proof.
  induction srcs as [|v srcs IH]; intros i s pre Hi Hsz HI HM Ht Ha.
  - exists s. cbn [push_sources]. split; [reflexivity|].
    split; [reflexivity|]. split; [exact HI|]. split; [exact HM|].
    split; [exact Ht|]. split; [exact Ha|].
    intros x Hx. unfold len in *. cbn [length] in Hsz.
    destruct (x <? i) eqn:E; [auto|lia].
  - cbn [push_sources]. unfold len in Hsz; cbn [length] in Hsz. fold (len pre) in Hsz.
    assert (Ri : 0 <= i < size) by (unfold len in *; lia).
    assert (STEP : exists s1,
      (if negb (v =? snull) then
          let* tb' := set (tb s) i (-1) in
          let* al' := set (alloc s) i v in
          let* '(h, _) := push fltb finf (hp s) fzero i in
          Ok (mkState (dist s) tb' al' h)
        else Ok s) = Ok s1 /\ dist s1 = dist s /\ HInv (hp s1)
      /\ hmax (hp s1) = Z.max (size - 1) 1 /\ len (tb s1) = size
      /\ len (alloc s1) = size
      /\ (forall x, x <> i -> get (tb s1) x = get (tb s) x
            /\ get (alloc s1) x = get (alloc s) x /\ habs (hp s1) x = habs (hp s) x)
      /\ (if v =? snull then get (tb s1) i = get (tb s) i
            /\ get (alloc s1) i = get (alloc s) i /\ habs (hp s1) i = habs (hp s) i
          else get (tb s1) i = Ok (-1) /\ get (alloc s1) i = Ok v
               /\ habs (hp s1) i = Some fzero)).
    { destruct (v =? snull) eqn:Ev; cbn [negb].
      - exists s. auto 12.
      - destruct (set_range (tb s) i (-1)) as [tb' St]; [lia|].
        destruct (set_range (alloc s) i v) as [al' Sa]; [lia|].
        destruct (push_spec f64_KeyOrder (hp s) fzero i HI eq_refl)
          as (h' & c & EP & IP & MP & SP).
        rewrite St. cbn [rbind]. rewrite Sa. cbn [rbind]. rewrite EP. cbn [rbind].
        destruct ((0 <=? i) && (i <=? hmax (hp s))) eqn:ER; [|lia].
        destruct SP as [_ SP].
        eexists. split; [reflexivity|]. cbn [dist tb alloc hp].
        split; [reflexivity|]. split; [exact IP|]. split; [congruence|].
        rewrite (set_len _ _ _ _ St), (set_len _ _ _ _ Sa).
        split; [exact Ht|]. split; [exact Ha|]. split.
        + intros x Hx. rewrite (get_set_other _ _ _ _ _ St) by lia.
          rewrite (get_set_other _ _ _ _ _ Sa) by lia. rewrite SP.
          destruct (x =? i) eqn:Exi; [lia|]. auto.
        + rewrite (get_set_same _ _ _ _ St), (get_set_same _ _ _ _ Sa), SP.
          rewrite Z.eqb_refl. auto. }
    destruct STEP as (s1 & E1 & Ed1 & I1 & M1 & T1 & A1 & F1 & V1).
    rewrite E1. cbn [rbind].
    destruct (IH (i + 1) s1 (pre ++ [v])) as (s2 & E2 & Ed2 & I2 & M2 & T2 & A2 & F2).
    { unfold len. rewrite app_length. cbn [length]. unfold len in Hi. lia. }
    { unfold len. rewrite app_length. cbn [length]. unfold len in *. lia. }
    { exact I1. } { exact M1. } { exact T1. } { exact A1. }
    exists s2. split; [exact E2|]. split; [congruence|]. split; [exact I2|].
    split; [exact M2|]. split; [exact T2|]. split; [exact A2|].
    intros x Hx. specialize (F2 x Hx).
    destruct (x <? i) eqn:Exi.
    + destruct (x <? i + 1) eqn:Exi1; [|lia]. destruct F2 as (-> & -> & ->).
      apply F1. lia.
    + destruct (Z.eq_dec x i) as [->|N].
      * destruct (i <? i + 1) eqn:Exi1; [|lia]. destruct F2 as (-> & -> & ->).
        replace (i - i) with 0 by lia. exists v. split; [reflexivity|]. exact V1.
      * destruct (x <? i + 1) eqn:Exi1; [lia|].
        destruct F2 as (v2 & G2 & F2). exists v2. split.
        { rewrite <- G2. unfold get.
          destruct (x - i <? 0) eqn:Q1; [lia|]. destruct (x - (i + 1) <? 0) eqn:Q2; [lia|].
          replace (Z.to_nat (x - i)) with (S (Z.to_nat (x - (i + 1)))) by lia. reflexivity. }
        destruct (F1 x N) as (Q1 & Q2 & Q3).
        destruct (v2 =? snull); [rewrite Q1, Q2, Q3 in F2|]; exact F2.
Qed.

Lemma dinv_init srcs h s :
  0 <= size -> len srcs = size ->
  (forall x, 0 <= x < size -> exists v, get srcs x = Ok v
     /\ source x = if v =? snull then None else Some v) ->
  HInv h -> hmax h = Z.max (size - 1) 1 -> (forall v, habs h v = None) ->
  push_sources snull srcs 0 (mkState (full size finf)
     (full size TRACEBACK_NOT_REACHED) (full size snull) h) = Ok s ->
  DInv s [] all_edges.
Proof.
  intros Hs Hl Hsrc HI HM HA E.
  destruct (push_sources_spec srcs 0 (mkState (full size finf)
     (full size TRACEBACK_NOT_REACHED) (full size snull) h) [])
    as (s' & E' & Ed & I' & M' & T' & A' & F'); cbn [tb alloc hp];
    rewrite ?full_len by lia; auto; try (unfold len; cbn; lia).
  rewrite E in E'. injection E' as <-.
  cbn [dist tb alloc hp] in *.
  assert (FF : forall x, 0 <= x < size -> 
     match source x with
     | Some v => get (tb s) x = Ok (-1) /\ get (alloc s) x = Ok v
                 /\ habs (hp s) x = Some fzero
     | None => get (tb s) x = Ok TRACEBACK_NOT_REACHED
               /\ get (alloc s) x = Ok snull /\ habs (hp s) x = None
     end).
  { intros x Hx. destruct (Hsrc x Hx) as (v & Gv & Sv). rewrite Sv.
    specialize (F' x Hx). destruct (x <? 0) eqn:E0; [lia|].
    destruct F' as (v' & Gv' & F'). rewrite Z.sub_0_r in Gv'.
    assert (v' = v) by congruence; subst v'.
    rewrite !get_full in F' by lia. rewrite HA in F'.
    destruct (v =? snull); exact F'. }
  assert (RNG : forall x k, habs (hp s) x = Some k -> 0 <= x < size).
  { intros x k Hx. destruct (Z_lt_le_dec x 0) as [H0|H0].
    - destruct (abs_some (hp s) x k I' Hx) as (R & _). lia.
    - destruct (Z_lt_le_dec x size) as [|H1]; [lia|].
      exfalso.
      destruct (abs_some (hp s) x k I' Hx) as (R & _ & _).
      rewrite M' in R.
      (* only possible for size <= 1 and x beyond the grid: nothing was pushed there *)
      assert (OUT : forall l i s0 s1, push_sources snull l i s0 = Ok s1 -> 0 <= i ->
                 HInv (hp s0) -> i + len l <= x -> habs (hp s0) x = None ->
                 habs (hp s1) x = None).
      { induction l as [|v l IHl]; intros i s0 s1 EE Hi HI0 Hx1 Hn.
        - cbn in EE. injection EE as <-. exact Hn.
        - cbn [push_sources] in EE. unfold len in Hx1; cbn [length] in Hx1.
          apply rbind_ok in EE. destruct EE as (s2 & EE1 & EE2).
          destruct (v =? snull); cbn [negb] in EE1.
          + injection EE1 as <-. eapply IHl; eauto; unfold len; lia.
          + apply rbind_ok in EE1. destruct EE1 as (t' & _ & EE1).
            apply rbind_ok in EE1. destruct EE1 as (a' & _ & EE1).
            apply rbind_ok in EE1. destruct EE1 as ((h2 & c) & EP & EE1).
            injection EE1 as <-.
            destruct (push_spec f64_KeyOrder (hp s0) fzero i HI0 eq_refl)
              as (h' & c' & EP' & IP & MP & SP).
            assert (h' = h2) by congruence; subst h'.
            eapply IHl; [exact EE2|lia|exact IP|unfold len; lia|].
            cbn [hp]. destruct ((0 <=? i) && (i <=? hmax (hp s0))).
            * destruct SP as [_ SP]. rewrite SP. destruct (x =? i) eqn:Exi; [lia|exact Hn].
            * destruct SP as [_ ->]. exact Hn. }
      rewrite (OUT srcs 0 _ s E) in Hx; [discriminate|lia|exact HI|lia|apply HA]. }
  constructor.
  - exact I'.
  - exact M'.
  - rewrite Ed. apply full_len; lia.
  - exact T'.
  - exact A'.
  - constructor.
  - intros x [].
  - intros x Hx _. rewrite Ed. apply get_full. lia.
  - intros x k Hx. pose proof (RNG x k Hx) as R. specialize (FF x R).
    destruct (source x) as [v|] eqn:ES; [|destruct FF as (_ & _ & FF); congruence].
    destruct FF as (_ & _ & FF). assert (k = fzero) by congruence; subst k.
    split; [exact R|]. split; [intros []|]. split; [reflexivity|].
    split; [discriminate|]. intros y d [].
  - intros x l Rx Sx. specialize (FF x Rx). rewrite Sx in FF.
    destruct FF as (F1 & F2 & F3). auto.
  - intros x k Ns Hx. pose proof (RNG x k Hx) as R. specialize (FF x R).
    rewrite Ns in FF. destruct FF as (_ & _ & FF). congruence.
  - exact I.
  - intros i m j w d [].
  - intros x Rx _ Hx. specialize (FF x Rx). destruct (source x) as [v|] eqn:ES.
    + destruct FF as (_ & _ & FF). congruence.
    + tauto.
Qed.

(* ---------------- consequences at the end ---------------- *)

(* Paths over the abstract edges; legal sources in range. *)
Inductive fpath (x0 : Z) : Z -> f64 -> Prop :=
| fpath_nil l : 0 <= x0 < size -> source x0 = Some l -> fpath x0 x0 fzero
| fpath_step i acc m j w : fpath x0 i acc -> In (m, j, w) (nbrs i) ->
    fpath x0 j (fadd acc w).

Lemma fpath_facts x0 x acc : fpath x0 x acc -> 0 <= x < size /\ fnonneg acc = true.
Proof.
  induction 1 as [l R S|i acc m j w H IH He].
  - split; [exact R|reflexivity].
  - destruct IH as [R N]. destruct (nbrs_ok i m j w R He) as [Rj Nw].
    split; [exact Rj|]. now apply fadd_nonneg.
Qed.

Lemma final_lower s ord x0 x acc :
  DInv s ord all_edges -> hcount (hp s) = 0 -> fpath x0 x acc -> acc <> finf ->
  exists d, get (dist s) x = Ok d /\ fleb d acc = true.
Proof.
  intros D C P. 
  assert (NF : forall v, habs (hp s) v = None)
    by (now apply (count_zero_iff (hp s) (d_heap _ _ _ D))).
  assert (G : acc <> finf -> exists d, In x ord /\ get (dist s) x = Ok d /\ fleb d acc = true).
  { induction P as [l R S|i acc m j w P IH He]; intros Nf.
    - destruct (d_src _ _ _ D x0 l R S) as (_ & _ & [[HI HD]|HF]).
      + exists fzero. auto.
      + rewrite NF in HF. discriminate.
    - destruct (fpath_facts _ _ _ P) as [Ri Na].
      destruct (nbrs_ok i m j w Ri He) as [Rj Nw].
      assert (Nacc : acc <> finf)
        by (intros ->; apply Nf; now apply fadd_inf_l).
      destruct (IH Nacc) as (d & Hi & Gd & Ld).
      destruct (d_fin _ _ _ D i Hi) as (_ & d' & Gd' & Nnd & _).
      assert (d' = d) by congruence; subst d'.
      assert (M : fleb (fadd d w) (fadd acc w) = true) by (apply fadd_mono; assumption).
      destruct (d_edge _ _ _ D i m j w d Hi He Gd) as [H|[(dj & H1 & H2 & H3)|(k & H1 & H2)]].
      + exfalso. apply (fle_not_inf _ _ M Nf H).
      + exists dj. split; [exact H1|]. split; [exact H2|].
        now apply fleb_trans with (fadd d w).
      + rewrite NF in H1. discriminate. }
  intros Nf. destruct (G Nf) as (d & _ & H1 & H2). eauto.
Qed.

Lemma traced_in s ord x : traced s ord -> In x ord ->
  exists l1 l2, ord = l1 ++ x :: l2 /\ traced s (x :: l2).
Proof.
  induction ord as [|y l IH]; [intros _ []|].
  intros T [->|Hx].
  - exists [], l. auto.
  - destruct T as [T _]. destruct (IH T Hx) as (l1 & l2 & -> & T2).
    exists (y :: l1), l2. auto.
Qed.

(* Following tb from x: [fwalk s x l]; l starts with x and ends in a source. *)
Inductive fwalk (s : state) : Z -> list Z -> Prop :=
| fwalk_end x lbl : source x = Some lbl -> fwalk s x [x]
| fwalk_next x i m w d k l : source x = None -> get (tb s) x = Ok m ->
    In (m, x, w) (nbrs i) -> get (dist s) i = Ok d -> get (dist s) x = Ok k ->
    k = fadd d w -> get (alloc s) x = get (alloc s) i ->
    fwalk s i l -> fwalk s x (x :: l).

Lemma traced_walk s n : forall ord x, (length ord <= n)%nat -> traced s ord -> In x ord ->
  exists l, fwalk s x l /\ (length l <= length ord)%nat /\ incl l ord /\ (NoDup ord -> NoDup l).
Proof.
  induction n as [|n IH]; intros ord x Hn T Hx.
  - destruct ord; [destruct Hx|cbn in Hn; lia].
  - destruct (traced_in s ord x T Hx) as (l1 & l2 & -> & T2).
    rewrite app_length in Hn. cbn [length] in Hn.
    destruct T2 as [T2 P].
    destruct (source x) as [lbl|] eqn:ES.
    + exists [x]. split; [econstructor; eauto|].
      split; [rewrite app_length; cbn [length]; lia|].
      split; [intros y [<-|[]]; apply in_or_app; right; now left|].
      intros _. repeat constructor. intros [].
    + destruct P as [P|(_ & k & Gk & i & m & w & d & a & P1 & P2 & P3 & P4 & P5 & P6 & P7)];
        [congruence|].
      destruct (IH l2 i) as (l & W & L & Inc & ND); [lia|exact T2|exact P1|].
      exists (x :: l). split; [|split; [|split]].
      * eapply fwalk_next; eauto. congruence.
      * rewrite app_length. cbn [length]. lia.
      * intros y [<-|Hy]; apply in_or_app; right; [now left|right; auto].
      * intros N. apply NoDup_remove in N. destruct N as [N1 N2].
        constructor.
        -- intros Hxl. apply N2. apply in_or_app. right. auto.
        -- apply ND. clear - N1. induction l1 as [|y l1 IHl]; [exact N1|].
           apply IHl. now inversion N1.
Qed.

Lemma last_cons {A} (x y : A) l z : last (x :: y :: l) z = last (y :: l) z.
Proof. reflexivity. Qed.

Lemma last_default {A} (l : list A) : forall y a b, last (y :: l) a = last (y :: l) b.
Proof.
  induction l as [|z l IH]; intros y a b; [reflexivity|].
  rewrite !last_cons. apply IH.
Qed.

Lemma fwalk_path s ord x l :
  DInv s ord all_edges -> In x ord -> fwalk s x l ->
  exists d, get (dist s) x = Ok d /\ fpath (last l x) x d
    /\ get (alloc s) x = get (alloc s) (last l x).
Proof.
  intros D Hx W. revert Hx.
  induction W as [x lbl S|x i m w d k l S Gt He Gd Gk Ek Ea W IH]; intros Hx.
  - destruct (d_fin _ _ _ D x Hx) as (R & _).
    destruct (d_src _ _ _ D x lbl R S) as (_ & _ & [[_ HD]|HF]).
    + exists fzero. cbn [last]. split; [exact HD|]. split; [econstructor; eauto|reflexivity].
    + destruct (d_front _ _ _ D x _ HF) as (_ & N & _). contradiction.
  - assert (Hi : In i ord).
    { destruct (in_dec Z.eq_dec i ord) as [|N]; [assumption|].
      pose proof (get_ok_range _ _ _ Gd) as R. rewrite (d_lend _ _ _ D) in R.
      rewrite (d_inf _ _ _ D i R N) in Gd. injection Gd as <-.
      destruct (d_fin _ _ _ D x Hx) as (_ & k' & Gk' & _ & Nf).
      assert (k' = k) by congruence; subst k'.
      destruct (nbrs_ok i m x w R He) as [_ Nw].
      rewrite fadd_inf_l in Ek by exact Nw. congruence. }
    destruct (IH Hi) as (d' & Gd' & P & A).
    assert (d' = d) by congruence; subst d'.
    exists k. split; [exact Gk|].
    assert (EL : last (x :: l) x = last l i).
    { destruct l as [|y l]; [inversion W|]. rewrite last_cons. apply last_default. }
    rewrite EL, Ea, A. split; [|reflexivity]. subst k. econstructor; eauto.
Qed.

End Dijkstra.
