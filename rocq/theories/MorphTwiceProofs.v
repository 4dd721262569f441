(* Dilating or eroding twice *)
From Coq Require Import QArith Lia List.
From Verif Require Import Base BaseFacts Scalars NumFacts Chunks ChunksSpec ChunksProofs Arr2 Arr2Facts Focal FocalSpec FocalProofs FocalValues FocalFast FocalResults Morph MorphSpec MorphProofs FocalMorphProofs.
Import ListNotations.
Open Scope Z_scope.

Lemma greatest_step W W2 (W1 : Z -> Z -> Z -> Z -> Prop) value value' v :
  (forall p q, W p q <-> exists p' q', W2 p' q' /\ W1 p' q' p q) -> (forall p' q', W2 p' q' -> greatest_in (W1 p' q') value (value' p' q')) ->
  greatest_in W2 value' v -> greatest_in W value v.
Proof.
  intros S G [(p' & q' & P & E) L]. destruct (G p' q' P) as [(p & q & P1 & E1) L1]. split.
  - exists p, q. split; [apply S; eauto|]. now apply (num_eqb_trans _ (value' p' q')).
  - intros a b H. apply S in H. destruct H as (a' & b' & H2 & H1). destruct (G a' b' H2) as [_ L']. apply (num_leb_trans _ (value' a' b')); [now apply L'|now apply L].
Qed.
Lemma least_step W W2 (W1 : Z -> Z -> Z -> Z -> Prop) value value' v :
  (forall p q, W p q <-> exists p' q', W2 p' q' /\ W1 p' q' p q) -> (forall p' q', W2 p' q' -> least_in (W1 p' q') value (value' p' q')) ->
  least_in W2 value' v -> least_in W value v.
Proof.
  intros S G [(p' & q' & P & E) L]. destruct (G p' q' P) as [(p & q & P1 & E1) L1]. split.
  - exists p, q. split; [apply S; eauto|]. now apply (num_eqb_trans _ (value' p' q')).
  - intros a b H. apply S in H. destruct H as (a' & b' & H2 & H1). destruct (G a' b' H2) as [_ L']. apply (num_leb_trans _ (value' a' b')); [now apply L|now apply L'].
Qed.
(* a window of n + m - 1 cells in two steps; the cell between lies between *)
Lemma down_twice n m i p : 0 < n -> 0 < m -> n mod 2 = 1 ->
  reaches_down (n + m - 1) (p - i) <-> exists p', Z.min i p <= p' <= Z.max i p /\ reaches_down m (p' - i) /\ reaches_down n (p - p').
Proof.
  intros Hn Hm Ho. unfold reaches_down. pose proof (half_odd n Ho).
  assert (A : (n + m - 1) / 2 = (n - 1) / 2 + m / 2).
  { pose proof (Z.div_mod n 2 ltac:(lia)). pose proof (Z.div_mod (n - 1) 2 ltac:(lia)). pose proof (Z.mod_pos_bound (n - 1) 2 ltac:(lia)). replace (n + m - 1) with ((n - 1) / 2 * 2 + m) by lia. apply Z.div_add_l. lia. }
  assert (B : (n + m - 1 - 1) / 2 = (n - 1) / 2 + (m - 1) / 2).
  { pose proof (Z.div_mod n 2 ltac:(lia)). pose proof (Z.div_mod (n - 1) 2 ltac:(lia)). pose proof (Z.mod_pos_bound (n - 1) 2 ltac:(lia)). replace (n + m - 1 - 1) with ((n - 1) / 2 * 2 + (m - 1)) by lia. apply Z.div_add_l. lia. }
  pose proof (Z.div_pos (n - 1) 2). pose proof (Z.div_pos m 2). pose proof (Z.div_pos (m - 1) 2). rewrite A, B. split.
  - intros H'. exists (i + Z.max (- ((m - 1) / 2)) (Z.min (m / 2) (p - i))). lia.
  - intros (p' & H'). lia.
Qed.
Lemma up_down n k : reaches_up n k <-> reaches_down n (- k).
Proof. unfold reaches_up, reaches_down. lia. Qed.
Lemma up_twice n m i p : 0 < n -> 0 < m -> n mod 2 = 1 ->
  reaches_up (n + m - 1) (p - i) <-> exists p', Z.min i p <= p' <= Z.max i p /\ reaches_up m (p' - i) /\ reaches_up n (p - p').
Proof.
  intros Hn Hm Ho. rewrite up_down. replace (- (p - i)) with (- p - - i) by lia. rewrite (down_twice n m (- i) (- p) Hn Hm Ho). split; intros (p' & A & B & C); exists (- p').
  - rewrite !up_down. replace (- (- p' - i)) with (p' - - i) by lia. replace (- (p - - p')) with (- p - p') by lia. split; [lia|now split].
  - rewrite up_down in B, C. replace (- p' - - i) with (- (p' - i)) by lia. replace (- p - - p') with (- (p - p')) by lia. split; [lia|now split].
Qed.
Lemma up_twice_any n m i p' p : 0 < n -> 0 < m -> n mod 2 = 1 -> reaches_up m (p' - i) -> reaches_up n (p - p') -> reaches_up (n + m - 1) (p - i).
Proof.
  intros Hn Hm Ho. unfold reaches_up. pose proof (half_odd n Ho).
  pose proof (Z.div_mod n 2 ltac:(lia)). pose proof (Z.div_mod (n - 1) 2 ltac:(lia)). pose proof (Z.mod_pos_bound (n - 1) 2 ltac:(lia)).
  replace (n + m - 1) with ((n - 1) / 2 * 2 + m) by lia. replace ((n - 1) / 2 * 2 + m - 1) with ((n - 1) / 2 * 2 + (m - 1)) by lia. rewrite !Z.div_add_l by lia. lia.
Qed.
Lemma down_twice_any n m i p' p : 0 < n -> 0 < m -> n mod 2 = 1 -> reaches_down m (p' - i) -> reaches_down n (p - p') -> reaches_down (n + m - 1) (p - i).
Proof.
  intros Hn Hm Ho. unfold reaches_down. pose proof (half_odd n Ho).
  pose proof (Z.div_mod n 2 ltac:(lia)). pose proof (Z.div_mod (n - 1) 2 ltac:(lia)). pose proof (Z.mod_pos_bound (n - 1) 2 ltac:(lia)).
  replace (n + m - 1) with ((n - 1) / 2 * 2 + m) by lia. replace ((n - 1) / 2 * 2 + m - 1) with ((n - 1) / 2 * 2 + (m - 1)) by lia. rewrite !Z.div_add_l by lia. lia.
Qed.
Lemma up_self n k : 0 < n -> reaches_up n (k - k).
Proof. intros Hn. unfold reaches_up. pose proof (Z.div_pos (n - 1) 2). pose proof (Z.div_pos n 2). lia. Qed.
Lemma held_eq d v w : num_eqb v w = true -> held_by d v -> held_by d w.
Proof.
  destruct v as [p| | |], w as [q| | |]; cbn [num_eqb held_by]; try discriminate; try tauto. intros E [A B]. apply Qeq_bool_iff in E. split; rewrite <- E; assumption.
Qed.
Lemma valid_null mask ny nx p q : valid_cell mask ny nx p q <-> 0 <= p < ny /\ 0 <= q < nx /\ null_cell mask p q = false.
Proof. unfold valid_cell, null_cell. destruct mask; tauto. Qed.

Section Twice.
Variables (s1 s2 s3 : size) (kr kc lr lc : Z) (d : dtype) (nv nv' nv'' : num) (ny nx : Z) (ycs xcs ycs' xcs' ycs'' xcs'' : list Z) (data : list (list num)) (mask : option (list (list bool))).
Hypothesis D1 : dims s1 = Some (kr, kc).
Hypothesis D2 : dims s2 = Some (lr, lc).
Hypothesis D3 : dims s3 = Some (kr + lr - 1, kc + lc - 1).
Hypotheses (Kr : 0 < kr) (Kc : 0 < kc) (K1 : ~ (kr = 1 /\ kc = 1)) (Or : kr mod 2 = 1) (Oc : kc mod 2 = 1).
Hypotheses (Lr : 0 < lr) (Lc : 0 < lc) (L1 : ~ (lr = 1 /\ lc = 1)).
Hypotheses (HD : d <> BOOL) (Hy : 0 < ny) (Hx : 0 < nx) (By : (kr + lr - 1) / 2 <= ny) (Bx : (kc + lc - 1) / 2 <= nx).
Hypotheses (Cy : cuts ny ycs) (Cx : cuts nx xcs) (Cy' : cuts ny ycs') (Cx' : cuts nx xcs') (Cy'' : cuts ny ycs'') (Cx'' : cuts nx xcs'').
Hypotheses (SD : shaped2 ny nx data) (SM : match mask with Some m => shaped2 ny nx m | None => True end).

Lemma halves n m b : 0 < n -> 0 < m -> (n + m - 1) / 2 <= b -> n / 2 <= b /\ m / 2 <= b.
Proof. intros. assert (n / 2 <= (n + m - 1) / 2) by (apply Z.div_le_mono; lia). assert (m / 2 <= (n + m - 1) / 2) by (apply Z.div_le_mono; lia). lia. Qed.

Theorem dilate_twice : (forall p q, valid_cell mask ny nx p q -> held_by d (val2 NaN data p q) /\ val2 NaN data p q <> MInf) ->
  exists o1 m1 o2 m2 o m, dilate_or_erode Dilation s1 d nv ny nx ycs xcs (Band data mask) = Ok (Band o1 m1)
  /\ dilate_or_erode Dilation s2 d nv' ny nx ycs' xcs' (Band o1 m1) = Ok (Band o2 m2)
  /\ dilate_or_erode Dilation s3 d nv'' ny nx ycs'' xcs'' (Band data mask) = Ok (Band o m)
  /\ forall i j, 0 <= i < ny -> 0 <= j < nx -> null_cell m2 i j = null_cell m i j /\ (null_cell m i j = false -> num_eqb (val2 NaN o2 i j) (val2 NaN o i j) = true).
Proof.
  intros HV. destruct (halves kr lr ny Kr Lr By) as [By1 By2]. destruct (halves kc lc nx Kc Lc Bx) as [Bx1 Bx2].
  destruct (dilate_spec s1 kr kc d nv ny nx ycs xcs data mask) as (o1 & m1 & E1 & S1 & M1 & V1); try assumption.
  assert (HV1 : forall p q, valid_cell m1 ny nx p q -> held_by d (val2 NaN o1 p q) /\ val2 NaN o1 p q <> MInf).
  { intros p q H. apply valid_null in H. destruct H as (Hp & Hq & N). destruct (V1 p q Hp Hq) as [_ G]. cbv zeta in G. rewrite N in G. destruct G as [(a & b & (_ & _ & W) & E) _].
    destruct (HV a b W) as [A B]. split; [now apply (held_eq d (val2 NaN data a b))|]. intros X. rewrite X in E. destruct (val2 NaN data a b); try discriminate. now apply B. }
  destruct (dilate_spec s2 lr lc d nv' ny nx ycs' xcs' o1 m1) as (o2 & m2 & E2 & S2 & M2 & V2); try assumption. { destruct m1; [apply M1|exact I]. }
  destruct (dilate_spec s3 (kr + lr - 1) (kc + lc - 1) d nv'' ny nx ycs'' xcs'' data mask) as (o & m & E & S & M & V); try assumption; try lia.
  exists o1, m1, o2, m2, o, m. split; [exact E1|]. split; [exact E2|]. split; [exact E|]. intros i j Hi Hj.
  destruct (V2 i j Hi Hj) as [A1 A2]. destruct (V i j Hi Hj) as [B1 B2]. cbv zeta in *.
  assert (S12 : forall p q, (reaches_down (kr + lr - 1) (p - i) /\ reaches_down (kc + lc - 1) (q - j) /\ valid_cell mask ny nx p q)
    <-> exists p' q', (reaches_down lr (p' - i) /\ reaches_down lc (q' - j) /\ valid_cell m1 ny nx p' q') /\ (reaches_down kr (p - p') /\ reaches_down kc (q - q') /\ valid_cell mask ny nx p q)).
  { intros p q. split.
    - intros (P & Q & W). apply (down_twice kr lr i p Kr Lr Or) in P. apply (down_twice kc lc j q Kc Lc Oc) in Q. destruct P as (p' & P0 & P1 & P2). destruct Q as (q' & Q0 & Q1 & Q2).
      assert (Rp : 0 <= p' < ny) by (destruct W; lia). assert (Rq : 0 <= q' < nx) by (destruct W as (_ & ? & _); lia).
      exists p', q'. split; [|exact (conj P2 (conj Q2 W))]. split; [exact P1|]. split; [exact Q1|]. apply valid_null. split; [exact Rp|]. split; [exact Rq|]. apply (V1 p' q' Rp Rq). exists p, q. exact (conj P2 (conj Q2 W)).
    - intros (p' & q' & (P1 & Q1 & _) & P2 & Q2 & W). split; [now apply (down_twice_any kr lr i p' p)|]. split; [now apply (down_twice_any kc lc j q' q)|]. exact W. }
  assert (N : null_cell m2 i j = null_cell m i j).
  { destruct (null_cell m i j) eqn:X.
    - destruct (null_cell m2 i j) eqn:Y; [reflexivity|]. destruct (proj1 A1 eq_refl) as (p' & q' & P' & Q' & W'). exfalso. apply valid_null in W' as W. destruct W as (Rp & Rq & W).
      destruct (V1 p' q' Rp Rq) as [C _]. destruct (proj1 C W) as (p & q & P). assert (F : true = false); [|discriminate]. apply B1. exists p, q. apply S12. exists p', q'. exact (conj (conj P' (conj Q' W')) P).
    - apply A1. destruct (proj1 B1 eq_refl) as (p & q & P). apply S12 in P. destruct P as (p' & q' & P & _). now exists p', q'. }
  split; [exact N|]. intros X. rewrite N, X in A2. rewrite X in B2.
  refine (greatest_unique _ _ _ _ _ (fun p q => iff_refl _) (greatest_step _ _ _ _ _ _ S12 _ A2) B2).
  intros p' q' (_ & _ & W). apply valid_null in W. destruct W as (Rp & Rq & W). destruct (V1 p' q' Rp Rq) as [_ G]. cbv zeta in G. now rewrite W in G.
Qed.
Theorem erode_twice : (forall p q, valid_cell mask ny nx p q -> held_by d (val2 NaN data p q) /\ val2 NaN data p q <> PInf) ->
  exists o1 m1 o2 m2 o m, dilate_or_erode Erosion s1 d nv ny nx ycs xcs (Band data mask) = Ok (Band o1 m1)
  /\ dilate_or_erode Erosion s2 d nv' ny nx ycs' xcs' (Band o1 m1) = Ok (Band o2 m2)
  /\ dilate_or_erode Erosion s3 d nv'' ny nx ycs'' xcs'' (Band data mask) = Ok (Band o m)
  /\ forall i j, 0 <= i < ny -> 0 <= j < nx -> null_cell m2 i j = null_cell m i j /\ (null_cell m i j = false -> num_eqb (val2 NaN o2 i j) (val2 NaN o i j) = true).
Proof.
  intros HV. destruct (halves kr lr ny Kr Lr By) as [By1 By2]. destruct (halves kc lc nx Kc Lc Bx) as [Bx1 Bx2].
  destruct (erode_spec s1 kr kc d nv ny nx ycs xcs data mask) as (o1 & m1 & E1 & S1 & M1 & V1); try assumption.
  assert (MN : m1 = None <-> mask = None) by (destruct m1; [destruct M1; split; [discriminate|contradiction]|now split]).
  assert (HV1 : forall p q, valid_cell m1 ny nx p q -> held_by d (val2 NaN o1 p q) /\ val2 NaN o1 p q <> PInf).
  { intros p q H. apply valid_null in H. destruct H as (Hp & Hq & N). destruct (V1 p q Hp Hq) as [_ G]. cbv zeta in G. rewrite N in G. destruct G as [(a & b & (_ & W) & E) _].
    destruct (HV a b W) as [A B]. split; [now apply (held_eq d (val2 NaN data a b))|]. intros X. rewrite X in E. destruct (val2 NaN data a b); try discriminate. now apply B. }
  destruct (erode_spec s2 lr lc d nv' ny nx ycs' xcs' o1 m1) as (o2 & m2 & E2 & S2 & M2 & V2); try assumption. { destruct m1; [apply M1|exact I]. }
  destruct (erode_spec s3 (kr + lr - 1) (kc + lc - 1) d nv'' ny nx ycs'' xcs'' data mask) as (o & m & E & S & M & V); try assumption; try lia.
  exists o1, m1, o2, m2, o, m. split; [exact E1|]. split; [exact E2|]. split; [exact E|]. intros i j Hi Hj.
  destruct (V2 i j Hi Hj) as [A1 A2]. destruct (V i j Hi Hj) as [B1 B2]. cbv zeta in *.
  assert (N : null_cell m2 i j = null_cell m i j).
  { assert (Q : null_cell m2 i j = false <-> null_cell m i j = false); [|destruct (null_cell m2 i j), (null_cell m i j); try reflexivity; destruct Q as [Q Q']; [now rewrite Q' by reflexivity|now rewrite Q by reflexivity]].
    rewrite A1, B1, MN. assert (ZM : mask = None \/ mask <> None) by (destruct mask; [right; discriminate|now left]). destruct ZM as [ZM|ZM]; [split; intros _; now left|].
    split; (intros [X|X]; [contradiction|right]).
    - intros p q [P Q]. apply (up_twice kr lr i p Kr Lr Or) in P. apply (up_twice kc lc j q Kc Lc Oc) in Q. destruct P as (p' & _ & P1 & P2). destruct Q as (q' & _ & Q1 & Q2).
      specialize (X p' q' (conj P1 Q1)). apply valid_null in X. destruct X as (Rp & Rq & X). destruct (proj1 (proj1 (V1 p' q' Rp Rq)) X) as [Y|Y]; [contradiction|]. now apply Y.
    - intros p' q' [P Q]. assert (W : valid_cell mask ny nx p' q') by (apply X; split; [apply (up_twice_any kr lr i p' p')|apply (up_twice_any kc lc j q' q')]; try assumption; now apply up_self).
      apply valid_null in W. destruct W as (Rp & Rq & _). apply valid_null. split; [exact Rp|]. split; [exact Rq|]. apply (V1 p' q' Rp Rq). right. intros p q [P' Q']. apply X. split; [now apply (up_twice_any kr lr i p' p)|now apply (up_twice_any kc lc j q' q)]. }
  split; [exact N|]. intros X. rewrite N, X in A2. rewrite X in B2. rewrite N, X in A1.
  assert (S12 : forall p q, ((reaches_up (kr + lr - 1) (p - i) /\ reaches_up (kc + lc - 1) (q - j)) /\ valid_cell mask ny nx p q)
    <-> exists p' q', ((reaches_up lr (p' - i) /\ reaches_up lc (q' - j)) /\ valid_cell m1 ny nx p' q') /\ ((reaches_up kr (p - p') /\ reaches_up kc (q - q')) /\ valid_cell mask ny nx p q)).
  { intros p q. split.
    - intros ((P & Q) & W). apply (up_twice kr lr i p Kr Lr Or) in P. apply (up_twice kc lc j q Kc Lc Oc) in Q. destruct P as (p' & P0 & P1 & P2). destruct Q as (q' & Q0 & Q1 & Q2).
      assert (Rp : 0 <= p' < ny) by (destruct W; lia). assert (Rq : 0 <= q' < nx) by (destruct W as (_ & ? & _); lia).
      exists p', q'. split; [|exact (conj (conj P2 Q2) W)]. split; [exact (conj P1 Q1)|]. destruct (proj1 A1 eq_refl) as [Z|Z]; [|exact (Z p' q' (conj P1 Q1))]. rewrite Z. exact (conj Rp (conj Rq I)).
    - intros (p' & q' & ((P1 & Q1) & _) & (P2 & Q2) & W). split; [|exact W]. split; [now apply (up_twice_any kr lr i p' p)|now apply (up_twice_any kc lc j q' q)]. }
  refine (least_unique _ _ _ _ _ (fun p q => iff_refl _) (least_step _ _ _ _ _ _ S12 _ A2) B2).
  intros p' q' (_ & W). apply valid_null in W. destruct W as (Rp & Rq & W). destruct (V1 p' q' Rp Rq) as [_ G]. cbv zeta in G. now rewrite W in G.
Qed.
End Twice.
