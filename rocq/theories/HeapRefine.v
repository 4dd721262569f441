(* The queue refines the map specification of HeapSpec.v. *)
From Verif Require Import BaseFacts Heap HeapSpec HeapProofs.
From Coq Require Import ZifyBool ZifyNat Sorted.

Section Refine.
Context {K : Type} {leb ltb : K -> K -> bool} {inf : K} {ok : K -> bool}.
Context (KO : KeyOrder leb ltb inf ok).
Notation Inv := (@Inv K leb inf ok).
Notation step := (step leb ltb inf).
Notation run := (run leb ltb inf).
Notation spec_step := (spec_step leb ltb inf).
Notation spec_run := (spec_run leb ltb inf).

Lemma step_refines h o : Inv h -> op_ok ok o ->
  exists h' x, step h o = Ok (h', x) /\ Inv h' /\ hmax h' = hmax h
    /\ spec_step (hmax h) (abs h) o x (abs h').
Proof.
  intros I Ho. destruct o as [k v|k v|]; cbn [op_ok] in Ho; cbn [Heap.step].
  - destruct (push_spec KO h k v I Ho) as (h' & c & E & I' & M & S).
    rewrite E. cbn [rbind]. exists h', (Code c).
    split; [reflexivity|]. split; [exact I'|]. split; [exact M|].
    cbn [HeapSpec.spec_step].
    destruct ((0 <=? v) && (v <=? hmax h)) eqn:R.
    + destruct S as [S1 S2]. split; [|split]; [| |lia].
      * intros _ N. rewrite N in S1. auto.
      * intros k0 _ N. rewrite N in S1. auto.
    + destruct S as [-> ->]. split; [lia|]. split; [lia|]. intros _. split; [reflexivity|].
      intros w; reflexivity.
  - destruct (push_if_lower_spec KO h k v I Ho) as (h' & c & E & I' & M & S).
    rewrite E. cbn [rbind]. exists h', (Code c).
    split; [reflexivity|]. split; [exact I'|]. split; [exact M|].
    cbn [HeapSpec.spec_step].
    destruct ((0 <=? v) && (v <=? hmax h)) eqn:R.
    + cbv zeta in S. destruct S as [S1 S2].
      split; [|split; [|split]]; [| | |lia].
      * intros _ N. rewrite N in *. split; [exact S1|]. intros w. rewrite S2.
        now rewrite andb_true_r.
      * intros k0 _ N L. rewrite N, L in *. split; [exact S1|]. intros w.
        rewrite S2. now rewrite andb_true_r.
      * intros k0 _ N L. rewrite N, L in *. split; [exact S1|]. intros w.
        rewrite S2. now rewrite andb_false_r.
    + destruct S as [-> ->]. split; [lia|]. split; [lia|]. split; [lia|].
      intros _. split; [reflexivity|]. intros w; reflexivity.
  - destruct (pop_spec KO h I) as (h' & k & v & E & I' & M & S).
    rewrite E. cbn [rbind]. exists h', (Popped k v).
    split; [reflexivity|]. split; [exact I'|]. split; [exact M|].
    cbn [HeapSpec.spec_step].
    destruct S as [(C & -> & ->)|(C & C' & A & Mn & D)].
    + left. split; [now apply (count_zero_iff h I)|]. split; [reflexivity|].
      intros w; reflexivity.
    + right. auto.
Qed.

Lemma run_refines ops : forall h, Inv h -> Forall (op_ok ok) ops ->
  exists h' xs, run h ops = Ok (h', xs) /\ Inv h' /\ hmax h' = hmax h
    /\ spec_run (hmax h) (abs h) ops xs (abs h').
Proof.
  induction ops as [|o ops IH]; intros h I F.
  - exists h, []. split; [reflexivity|]. split; [exact I|]. split; [reflexivity|].
    constructor. intros w; reflexivity.
  - inversion F as [|o' ops' Ho Hops]; subst. cbn [Heap.run].
    destruct (step_refines h o I Ho) as (h1 & x & E1 & I1 & M1 & S1).
    rewrite E1. cbn [rbind].
    destruct (IH h1 I1 Hops) as (h2 & xs & E2 & I2 & M2 & S2).
    rewrite E2. cbn [rbind]. exists h2, (x :: xs).
    split; [reflexivity|]. split; [exact I2|]. split; [congruence|].
    econstructor; [exact S1|]. rewrite <- M1. exact S2.
Qed.

Lemma inv_has_size h : Inv h -> has_size (abs h) (hcount h).
Proof.
  intros I. pose proof (inv_cnt _ I) as Hc. pose proof (inv_lenv _ I) as Lv.
  exists (firstn (Z.to_nat (hcount h)) (hvals h)).
  assert (NE : forall n v, nth_error (firstn (Z.to_nat (hcount h)) (hvals h)) n = Some v <->
            (Z.of_nat n < hcount h /\ get (hvals h) (Z.of_nat n) = Ok v)).
  { intros n v. unfold get. destruct (Z.of_nat n <? 0) eqn:E; [lia|].
    rewrite Nat2Z.id. split.
    - intros H. assert (n < length (firstn (Z.to_nat (hcount h)) (hvals h)))%nat
        by (apply nth_error_Some; congruence).
      rewrite firstn_length in H0. rewrite nth_error_firstn in H by lia.
      rewrite H. split; [lia|reflexivity].
    - intros [H1 H2]. rewrite nth_error_firstn by lia.
      destruct (nth_error (hvals h) n); congruence. }
  split; [|split].
  - apply NoDup_nth_error. intros i j Hi Hij.
    destruct (nth_error (firstn (Z.to_nat (hcount h)) (hvals h)) i) as [v|] eqn:Ei.
    2:{ apply nth_error_None in Ei. lia. }
    symmetry in Hij. apply NE in Ei. apply NE in Hij.
    destruct (inv_vals _ I (Z.of_nat i)) as (v1 & A1 & A2 & A3); [lia|].
    destruct (inv_vals _ I (Z.of_nat j)) as (v2 & B1 & B2 & B3); [lia|].
    destruct Ei as [_ Ei]. destruct Hij as [_ Ej].
    assert (v1 = v) by congruence. assert (v2 = v) by congruence. subst.
    rewrite A3 in B3. injection B3. lia.
  - intros v. split.
    + intros H. apply In_nth_error in H. destruct H as [n H]. apply NE in H.
      destruct H as [H1 H2].
      destruct (get_range (hkeys h) (pow2 (hlevels h) - 1 + Z.of_nat n)) as [k Gk].
      { rewrite (inv_lenk _ I). lia. }
      rewrite (abs_leaf h (Z.of_nat n) v k I ltac:(lia) H2 Gk). discriminate.
    + intros H. destruct (abs h v) as [k|] eqn:E; [|congruence].
      destruct (abs_some h v k I E) as (_ & _ & c & C1 & C2 & _).
      eapply nth_error_In with (n := Z.to_nat c). apply NE.
      rewrite Z2Nat.id by lia. split; [lia|exact C2].
  - unfold len in *. rewrite firstn_length. lia.
Qed.

Lemma spec_run_congr mx ops m1 m2 xs m3 :
  unchanged m1 m2 -> spec_run mx m2 ops xs m3 -> spec_run mx m1 ops xs m3.
Proof.
  intros U R.
  assert (E : forall w, m1 w = m2 w) by (intros w; symmetry; apply U).
  destruct R as [m m' H|m o x m' ops xs m'' H R].
  - constructor. intros w. rewrite H. apply U.
  - econstructor; [|eassumption].
    destruct o as [k v|k v|], x as [c|k' v']; cbn [HeapSpec.spec_step] in *;
      unfold unchanged, put, del in *; try tauto;
      repeat setoid_rewrite E; exact H.
Qed.

Lemma reachable_refines capacity mx ops :
  1 <= capacity -> 1 <= mx -> Forall (op_ok ok) ops ->
  exists h0 h outs, init_heap inf capacity mx = Ok h0 /\ run h0 ops = Ok (h, outs)
    /\ Inv h /\ hmax h = mx
    /\ spec_run mx empty_map ops outs (abs h) /\ has_size (abs h) (hcount h).
Proof.
  intros Hc Hm F. destruct (init_ok KO capacity mx Hc Hm) as (h0 & E0 & I0 & M0 & C0 & A0).
  destruct (run_refines ops h0 I0 F) as (h & outs & E & I & M & S).
  exists h0, h, outs. rewrite M0 in *.
  split; [exact E0|]. split; [exact E|]. split; [exact I|]. split; [congruence|].
  split; [|now apply inv_has_size].
  eapply spec_run_congr; [|exact S]. intros w. rewrite A0. reflexivity.
Qed.

(* Popping until empty: a heap sort. *)
Lemma drain n : forall h, Inv h -> hcount h = Z.of_nat n ->
  exists h' l, run h (repeat Pop n) = Ok (h', map (fun p => Popped (fst p) (snd p)) l)
    /\ hcount h' = 0 /\ Inv h'
    /\ NoDup (map snd l) /\ sorted_keys leb l
    /\ (forall k v, In (k, v) l <-> abs h v = Some k).
Proof.
  induction n as [|n IH]; intros h I C.
  - exists h, []. split; [reflexivity|]. split; [lia|]. split; [exact I|].
    split; [constructor|]. split; [constructor|].
    intros k v. rewrite (proj1 (count_zero_iff h I)) by lia. split; [intros []|discriminate].
  - destruct (pop_spec KO h I) as (h1 & k & v & E & I1 & M1 & S).
    destruct S as [(C0 & _)|(C1 & C2 & A & Mn & D)]; [lia|].
    destruct (IH h1 I1) as (h2 & l & E2 & Z2 & I2 & N2 & S2 & H2); [lia|].
    exists h2, ((k, v) :: l).
    split. { cbn [repeat Heap.run Heap.step]. rewrite E. cbn [rbind]. rewrite E2. reflexivity. }
    split; [exact Z2|]. split; [exact I2|]. split; [|split].
    + cbn. constructor; [|exact N2]. intros HI. apply in_map_iff in HI.
      destruct HI as ((k' & v') & Ev & HI). cbn in Ev. subst v'.
      apply H2 in HI. rewrite D in HI. rewrite Z.eqb_refl in HI. discriminate.
    + constructor; [exact S2|]. apply Forall_forall. intros (k' & v') HI. cbn.
      apply H2 in HI. rewrite D in HI. destruct (v' =? v); [discriminate|]. eauto.
    + intros k' v'. cbn [In]. rewrite H2, D. destruct (v' =? v) eqn:E3.
      * assert (v' = v) by lia; subst v'. split.
        -- intros [H|H]; congruence.
        -- intros H. left. congruence.
      * split.
        -- intros [H|H]; [|exact H]. injection H as -> ->. lia.
        -- auto.
Qed.

Lemma queue_is_map capacity mx ops :
  1 <= capacity -> 1 <= mx -> Forall (op_ok ok) ops ->
  exists h0 h outs m,
    init_heap inf capacity mx = Ok h0 /\ run h0 ops = Ok (h, outs)
    /\ spec_run mx empty_map ops outs m /\ has_size m (hcount h).
Proof.
  intros Hc Hm F.
  destruct (reachable_refines capacity mx ops Hc Hm F)
    as (h0 & h & outs & H1 & H2 & _ & _ & H3 & H4).
  exists h0, h, outs, (abs h). auto.
Qed.

Lemma reach_inv capacity mx ops h0 h outs :
  1 <= capacity -> 1 <= mx -> Forall (op_ok ok) ops ->
  init_heap inf capacity mx = Ok h0 -> run h0 ops = Ok (h, outs) ->
  Inv h /\ spec_run mx empty_map ops outs (abs h).
Proof.
  intros Hc Hm F E0 E.
  destruct (reachable_refines capacity mx ops Hc Hm F)
    as (h0' & h'' & outs' & H1 & H2 & I & _ & H3 & H4).
  assert (h0' = h0) by congruence; subst h0'.
  assert (h'' = h) by congruence; assert (outs' = outs) by congruence; subst h'' outs'.
  auto.
Qed.

Lemma pop_minimal capacity mx ops h0 h outs :
  1 <= capacity -> 1 <= mx -> Forall (op_ok ok) ops ->
  init_heap inf capacity mx = Ok h0 -> run h0 ops = Ok (h, outs) ->
  exists m h' k v,
    spec_run mx empty_map ops outs m /\ pop leb ltb inf h = Ok (h', k, v)
    /\ ((forall w, m w = None) -> k = inf /\ h' = h)
    /\ ((exists w, m w <> None) ->
          m v = Some k /\ forall w kw, m w = Some kw -> leb k kw = true).
Proof.
  intros Hc Hm F E0 E.
  destruct (reach_inv _ _ _ _ _ _ Hc Hm F E0 E) as [I H3].
  destruct (pop_spec KO h I) as (h' & k & v & P1 & P2 & P3 & P4).
  exists (abs h), h', k, v. split; [exact H3|]. split; [exact P1|].
  destruct P4 as [(C & -> & ->)|(C & _ & A & Mn & D)].
  - split; [auto|]. intros (w & Hw). exfalso. apply Hw.
    now apply (count_zero_iff h I).
  - split; [|auto]. intros N. rewrite N in A. discriminate.
Qed.

Lemma drain_is_sorted capacity mx ops h0 h outs :
  1 <= capacity -> 1 <= mx -> Forall (op_ok ok) ops ->
  init_heap inf capacity mx = Ok h0 -> run h0 ops = Ok (h, outs) ->
  exists m h' l,
    spec_run mx empty_map ops outs m
    /\ run h (repeat Pop (Z.to_nat (hcount h)))
       = Ok (h', map (fun p => Popped (fst p) (snd p)) l)
    /\ hcount h' = 0 /\ NoDup (map snd l) /\ sorted_keys leb l
    /\ (forall k v, In (k, v) l <-> m v = Some k).
Proof.
  intros Hc Hm F E0 E.
  destruct (reach_inv _ _ _ _ _ _ Hc Hm F E0 E) as [I H3].
  destruct (drain (Z.to_nat (hcount h)) h I)
    as (h' & l & D1 & D2 & _ & D3 & D4 & D5).
  { pose proof (inv_cnt _ I). rewrite Z2Nat.id; tauto. }
  exists (abs h), h', l. auto 10.
Qed.

Lemma queue_memory_safe capacity mx ops :
  1 <= capacity -> 1 <= mx -> Forall (op_ok ok) ops ->
  exists h0 r, init_heap inf capacity mx = Ok h0 /\ run h0 ops = Ok r.
Proof.
  intros Hc Hm F.
  destruct (queue_is_map capacity mx ops Hc Hm F) as (h0 & h & outs & m & H1 & H2 & _).
  exists h0, (h, outs). auto.
Qed.

Lemma init_bad_arguments capacity mx :
  capacity < 1 \/ mx < 1 -> init_heap inf capacity mx = Err ValueError.
Proof.
  intros H. unfold init_heap.
  destruct (Z.ltb_spec capacity 1); [reflexivity|].
  destruct (Z.ltb_spec mx 1); [reflexivity|]. lia.
Qed.

End Refine.
