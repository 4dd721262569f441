From Coq Require Import QArith.
From Verif Require Import Base BaseFacts Scalars Arr2 Arr2Facts ChunksProofs ProximityChunk FocalSpec BandsSpec Bands BandsProofs BlockArgs MapBlocks MapBlocksSpec MapBlocksProofs Normalize NormalizeProofs Ingest IngestSpec IngestProofs Align AlignSpec AlignProofs.
From Coq Require Import ZifyBool.
Open Scope Z_scope.

(* ---- shapes ---- *)
Lemma broadcast_length a : forall b s, broadcast_rev a b = Some s -> len s = Z.max (len a) (len b).
Proof.
  induction a as [|m a IH]; intros [|n b] s E; cbn [broadcast_rev] in E; try (injection E as <-; unfold len; cbn [length]; lia).
  destruct (broadcast_rev a b) as [t|] eqn:T; [|discriminate]. apply IH in T. assert (len s = 1 + len t) by (destruct (m =? n); [|destruct (m =? 1); [|destruct (n =? 1); [|discriminate]]]; injection E as <-; unfold len; cbn [length]; lia).
  unfold len in *. cbn [length]. lia.
Qed.
Lemma accepted_iff s nb ny nx : 0 < nb -> 0 < ny -> 0 < nx ->
  (can_broadcast [nb; ny; nx] s = true /\ broadcast_rev (rev [nb; ny; nx]) (rev s) = Some (rev [nb; ny; nx])) <-> fits s nb ny nx.
Proof.
  intros Hb Hy Hx. unfold can_broadcast, fits. destruct s as [|p [|q [|r [|t s]]]].
  - cbn. split; [|auto]. intros _. split; [lia|constructor].
  - cbn [rev app length skipn Nat.sub broadcast_rev len]. split.
    + intros [_ H]. split; [lia|]. constructor; [|constructor]. destruct (Z.eqb_spec nx p); [auto|]. destruct (Z.eqb_spec nx 1); [inversion H; lia|]. destruct (Z.eqb_spec p 1); [auto|discriminate].
    + intros [_ F]. inversion F as [|? ? ? ? H _]; subst. destruct (Z.eqb_spec nx p); [now split|]. destruct (Z.eqb_spec nx 1); [lia|]. destruct (Z.eqb_spec p 1); [now split|lia].
  - cbn [rev app length skipn Nat.sub broadcast_rev len]. split.
    + intros [_ H]. split; [lia|]. 
      assert (H12 : (p = ny \/ p = 1) /\ (q = nx \/ q = 1)) by (destruct (Z.eqb_spec ny p), (Z.eqb_spec ny 1), (Z.eqb_spec p 1); try discriminate; destruct (Z.eqb_spec nx q), (Z.eqb_spec nx 1), (Z.eqb_spec q 1); try discriminate; inversion H; lia). destruct H12 as [H1 H2].
      constructor; [exact H1|]. constructor; [exact H2|constructor].
    + intros [_ F]. inversion F as [|? ? ? ? H1 F1]; subst. inversion F1 as [|? ? ? ? H2 _]; subst.
      destruct (Z.eqb_spec ny p); [|destruct (Z.eqb_spec ny 1); [lia|destruct (Z.eqb_spec p 1); [|lia]]]; (destruct (Z.eqb_spec nx q); [now split|destruct (Z.eqb_spec nx 1); [lia|destruct (Z.eqb_spec q 1); [now split|lia]]]).
  - cbn [rev app length skipn Nat.sub broadcast_rev len]. split.
    + intros [_ H]. split; [lia|].
      destruct (Z.eqb_spec nb p), (Z.eqb_spec nb 1), (Z.eqb_spec p 1); try discriminate; destruct (Z.eqb_spec ny q), (Z.eqb_spec ny 1), (Z.eqb_spec q 1); try discriminate; destruct (Z.eqb_spec nx r), (Z.eqb_spec nx 1), (Z.eqb_spec r 1); try discriminate; inversion H;
        (constructor; [lia|constructor; [lia|constructor; [lia|constructor]]]).
    + intros [_ F]. inversion F as [|? ? ? ? H1 F1]; subst. inversion F1 as [|? ? ? ? H2 F2]; subst. inversion F2 as [|? ? ? ? H3 _]; subst.
      destruct (Z.eqb_spec nb p); [|destruct (Z.eqb_spec nb 1); [lia|destruct (Z.eqb_spec p 1); [|lia]]];
      (destruct (Z.eqb_spec ny q); [|destruct (Z.eqb_spec ny 1); [lia|destruct (Z.eqb_spec q 1); [|lia]]]);
      (destruct (Z.eqb_spec nx r); [now split|destruct (Z.eqb_spec nx 1); [lia|destruct (Z.eqb_spec r 1); [now split|lia]]]).
  - split; [|cbn [length]; lia]. intros [_ H]. exfalso. apply broadcast_length in H. rewrite !len_rev in H. unfold len in H. cbn [length] in H. lia.
Qed.
(* the position computed from strides *)
Lemma position_in a nb ny nx b i j : nd_ok a -> fits (nd_shape a) nb ny nx -> 0 <= b < nb -> 0 <= i < ny -> 0 <= j < nx ->
  exists v, get (nd_flat a) (flat_position 1 (rev (nd_shape a)) [j; i; b]) = Ok v /\ element a b i j v.
Proof.
  intros [P L] [Ls F] Rb Ri Rj. unfold element. destruct a as [s flat]. cbn [nd_shape nd_flat] in *.
  assert (M : forall n m p q, 0 <= p < n -> 0 <= q < m -> 0 <= p * m + q < n * m) by (intros; nia).
  assert (G : exists k, flat_position 1 (rev s) [j; i; b] = k /\ c_order s (map (fun '(n, k) => if n =? 1 then 0 else k) (combine s (skipn (3 - length s) [b; i; j]))) = k /\ 0 <= k < len flat).
  { rewrite L. destruct s as [|p [|q [|r [|t s]]]]; cbn [length] in *; [| | | |lia]; cbn [rev app flat_position skipn Nat.sub combine map c_order fold_left fold_right] in *; unfold c_order; cbn [combine fold_left fold_right].
    - exists 0. lia.
    - inversion F as [|? ? ? ? H1 _]; subst. eexists. split; [reflexivity|]. destruct (Z.eqb_spec p 1); lia.
    - inversion F as [|? ? ? ? H1 F1]; subst. inversion F1 as [|? ? ? ? H2 _]; subst. inversion P as [|? ? P1 P']; subst. inversion P' as [|? ? P2 _]; subst.
      eexists. split; [reflexivity|]. set (u := if p =? 1 then 0 else i). set (w := if q =? 1 then 0 else j).
      assert (Hu : 0 <= u < p) by (unfold u; destruct (Z.eqb_spec p 1); lia). assert (Hw : 0 <= w < q) by (unfold w; destruct (Z.eqb_spec q 1); lia).
      replace ((if q =? 1 then 0 else 1 * j) + ((if p =? 1 then 0 else 1 * q * i) + 0)) with (u * q + w) by (unfold u, w; destruct (q =? 1), (p =? 1); ring).
      split; [ring|]. rewrite Z.mul_1_r. now apply M.
    - inversion F as [|? ? ? ? H1 F1]; subst. inversion F1 as [|? ? ? ? H2 F2]; subst. inversion F2 as [|? ? ? ? H3 _]; subst. inversion P as [|? ? P1 P']; subst. inversion P' as [|? ? P2 P'']; subst. inversion P'' as [|? ? P3 _]; subst.
      eexists. split; [reflexivity|]. set (u := if p =? 1 then 0 else b). set (w := if q =? 1 then 0 else i). set (z := if r =? 1 then 0 else j).
      assert (Hu : 0 <= u < p) by (unfold u; destruct (Z.eqb_spec p 1); lia). assert (Hw : 0 <= w < q) by (unfold w; destruct (Z.eqb_spec q 1); lia). assert (Hz : 0 <= z < r) by (unfold z; destruct (Z.eqb_spec r 1); lia).
      replace ((if r =? 1 then 0 else 1 * j) + ((if q =? 1 then 0 else 1 * r * i) + ((if p =? 1 then 0 else 1 * r * q * b) + 0))) with ((u * q + w) * r + z) by (unfold u, w, z; destruct (r =? 1), (q =? 1), (p =? 1); ring).
      split; [ring|]. replace (p * (q * (r * 1))) with (p * q * r) by ring. apply M; [now apply M|exact Hz]. }
  destruct G as (k & -> & -> & R). destruct (get_range flat k R) as [v V]. exists v. auto.
Qed.
(* ---- cells ---- *)
Lemma traverse_numbered {A B} (f : Z * A -> res B) (l : list A) : (forall k x, get l k = Ok x -> exists y, f (k, x) = Ok y) ->
  exists l', traverse f (combine (zrange 0 (len l)) l) = Ok l' /\ len l' = len l /\ forall k x, get l k = Ok x -> exists y, f (k, x) = Ok y /\ get l' k = Ok y.
Proof.
  intros H. pose proof (len_nonneg l) as N.
  assert (LC : len (combine (zrange 0 (len l)) l) = len l). { unfold len at 1. rewrite combine_length. pose proof (len_zrange 0 (len l)) as Z1. unfold len in Z1 |- *. lia. }
  assert (GC : forall k x, get l k = Ok x -> get (combine (zrange 0 (len l)) l) k = Ok (k, x)).
  { intros k x K. pose proof (get_ok_range _ _ _ K) as R. unfold get in *. replace (k <? 0) with false in * by lia. destruct (nth_error l (Z.to_nat k)) eqn:E; [|discriminate]. injection K as ->.
    assert (Z2 : nth_error (zrange 0 (len l)) (Z.to_nat k) = Some k). { assert (Z1 : get (zrange 0 (len l)) k = Ok k) by (rewrite get_zrange by lia; f_equal; lia). unfold get in Z1. replace (k <? 0) with false in Z1 by lia. destruct (nth_error (zrange 0 (len l)) (Z.to_nat k)) eqn:E2; [now injection Z1 as ->|discriminate Z1]. }
    revert Z2 E. generalize (Z.to_nat k) as n. generalize (zrange 0 (len l)) as zs. clear. intros zs n. revert zs l. induction n as [|n IH]; intros [|z zs] [|y l]; cbn; try discriminate; [intros [= ->] [= ->]; reflexivity|apply IH]. }
  destruct (traverse_each f (combine (zrange 0 (len l)) l)) as (l' & T & L & G).
  { intros [k x] I. apply in_get in I as [p P]. pose proof (get_ok_range _ _ _ P) as R. rewrite LC in R. destruct (get_range l p R) as [x' X]. pose proof (GC p x' X) as P'. rewrite P in P'. injection P' as -> ->. now apply (H p). }
  exists l'. split; [exact T|]. split; [lia|]. intros k x K. exact (G k (k, x) (GC k x K)).
Qed.
Lemma traverse3_numbered {A B} (f : Z -> Z -> Z -> A -> res B) nb ny nx (a : list (list (list A))) : shaped3 nb ny nx a -> (forall b i j v, at3 a b i j v -> exists w, f b i j v = Ok w) ->
  exists d, traverse (fun '(b, band) => traverse (fun '(i, row) => traverse (fun '(j, v) => f b i j v) (combine (zrange 0 (len row)) row)) (combine (zrange 0 (len band)) band)) (combine (zrange 0 (len a)) a) = Ok d
  /\ shaped3 nb ny nx d /\ forall b i j v, at3 a b i j v -> exists w, f b i j v = Ok w /\ at3 d b i j w.
Proof.
  intros [L F] H. rewrite Forall_forall in F.
  assert (ROW : forall b band i row, get a b = Ok band -> get band i = Ok row -> exists r, traverse (fun '(j, v) => f b i j v) (combine (zrange 0 (len row)) row) = Ok r /\ len r = len row /\ forall j v, get row j = Ok v -> exists w, f b i j v = Ok w /\ get r j = Ok w).
  { intros b band i row Bq I. apply (traverse_numbered (fun '(j, v) => f b i j v)). intros j v J. apply H. exists band. split; [exact Bq|]. exists row. auto. }
  assert (BAND : forall b band, get a b = Ok band -> exists t, traverse (fun '(i, row) => traverse (fun '(j, v) => f b i j v) (combine (zrange 0 (len row)) row)) (combine (zrange 0 (len band)) band) = Ok t
     /\ shaped2 ny nx t /\ forall i j v, at2 band i j v -> exists w, f b i j v = Ok w /\ at2 t i j w).
  { intros b band Bq. destruct (F band (get_in _ _ _ Bq)) as [Lb Fb]. rewrite Forall_forall in Fb.
    destruct (traverse_numbered (fun '(i, row) => traverse (fun '(j, v) => f b i j v) (combine (zrange 0 (len row)) row)) band) as (t & T & Lt & G). { intros i row I. destruct (ROW b band i row Bq I) as (r & R & _). eauto. }
    exists t. split; [exact T|]. split.
    - split; [lia|]. apply Forall_forall. intros r I. apply in_get in I as [i I]. pose proof (get_ok_range _ _ _ I) as R. rewrite Lt in R. destruct (get_range band i R) as [row W]. destruct (G i row W) as (r' & R1 & R2). destruct (ROW b band i row Bq W) as (r2 & Q1 & Q2 & _).
      rewrite R1 in Q1. injection Q1 as <-. pose proof (Fb row (get_in _ _ _ W)). congruence.
    - intros i j v (row & I & J). destruct (G i row I) as (r' & R1 & R2). destruct (ROW b band i row Bq I) as (r2 & Q1 & Q2 & Q3). rewrite R1 in Q1. injection Q1 as <-. destruct (Q3 j v J) as (w & W1 & W2). exists w. split; [exact W1|]. exists r'. auto. }
  destruct (traverse_numbered (fun '(b, band) => traverse (fun '(i, row) => traverse (fun '(j, v) => f b i j v) (combine (zrange 0 (len row)) row)) (combine (zrange 0 (len band)) band)) a) as (d & T & Ld & G). { intros b band Bq. destruct (BAND b band Bq) as (t & R & _). eauto. }
  exists d. split; [exact T|]. split.
  - split; [lia|]. apply Forall_forall. intros t I. apply in_get in I as [b Bq]. pose proof (get_ok_range _ _ _ Bq) as R. rewrite Ld in R. destruct (get_range a b R) as [band W]. destruct (G b band W) as (t' & R1 & R2). destruct (BAND b band W) as (t2 & Q1 & Q2 & _).
    rewrite R1 in Q1. injection Q1 as <-. congruence.
  - intros b i j v (band & Bq & V). destruct (G b band Bq) as (t' & R1 & R2). destruct (BAND b band Bq) as (t2 & Q1 & Q2 & Q3). rewrite R1 in Q1. injection Q1 as <-. destruct (Q3 i j v V) as (w & W1 & W2). exists w. split; [exact W1|]. exists t'. auto.
Qed.
Lemma finish_cells f out r (other : Z -> Z -> Z -> num -> Prop) data : sound r -> shaped3 (len (r_band (values r))) (len (r_y (values r))) (len (r_x (values r))) data ->
  (forall b i j v, at3 (r_data (values r)) b i j v -> exists o, other b i j o /\ at3 data b i j (f v o)) ->
  exists res, finish out (ds_masked r) (with_data (values r) data) (Ok (nulls r)) = Ok res /\ cellwise f out r other res.
Proof.
  destruct r as [[n x] m]. intros (Gx & Gm & M1 & M2 & M3). unfold values, nulls, finish. cbn [fst snd rbind]. intros Sd H. pose proof Gx as (Hb & Hy & Hx & D1 & D2 & D3 & Sx). pose proof Gm as (_ & _ & _ & _ & _ & _ & Sm). rewrite M1, M2, M3 in Sm.
  destruct n as [n|]; cbn [ds_masked fst snd].
  - eexists. split; [reflexivity|]. unfold cellwise, values, nulls, has_null_value, sound, gridded. cbn [fst snd with_data r_band r_y r_x r_data]. do 3 (split; [reflexivity|]). split; [|split; [split; discriminate|split; [reflexivity|]]].
    + split; [repeat (split; [assumption|]); now apply where3_shaped|]. split; [exact Gm|auto].
    + intros b i j v V. destruct (H b i j v V) as (o & O & W). destruct (at3_range _ _ _ _ _ _ _ _ Sx V) as (R1 & R2 & R3). destruct (shaped3_get _ _ _ (r_data m) b i j Sm R1 R2 R3) as [k K].
      exists o, k. eexists. split; [exact O|]. split; [exact K|]. split; [exact (where3_at _ _ _ _ _ _ _ _ _ _ _ Hb Hy Hx Sd Sm W K)|]. split; [|reflexivity]. split; [intros ->; split; [discriminate|exact K]|]. intros [_ K2]. eapply at3_fun; eassumption.
  - eexists. split; [reflexivity|]. unfold cellwise, values, nulls, has_null_value, sound, gridded. cbn [fst snd with_data r_band r_y r_x r_data]. do 3 (split; [reflexivity|]). split; [|split; [tauto|split; [congruence|]]].
    + split; [repeat (split; [assumption|]); assumption|]. split; [repeat (split; [assumption|]); now apply map3_shaped|auto].
    + intros b i j v V. destruct (H b i j v V) as (o & O & W). exists o, false. eexists. split; [exact O|]. split; [exact (at3_map3 (fun _ => false) _ _ _ _ _ W)|]. split; [exact W|]. split; [|reflexivity]. split; [discriminate|]. intros [K _]. now destruct K.
Qed.
Lemma array_applied f out r a : sound r -> nd_ok a -> fits (nd_shape a) (len (r_band (values r))) (len (r_y (values r))) (len (r_x (values r))) ->
  exists res, apply_array f out r a = Ok res /\ cellwise f out r (element a) res.
Proof.
  intros S Ha F. destruct r as [[n x] m]. unfold apply_array. unfold values in F. cbn [fst snd] in F. pose proof S as (Gx & _). pose proof Gx as (Hb & Hy & Hx & _ & _ & _ & Sx).
  destruct (proj2 (accepted_iff _ _ _ _ Hb Hy Hx) F) as [A1 A2]. unfold nd_shape3. rewrite A1. cbn [negb]. rewrite A2.
  replace (same_labels Z.eqb (rev [len (r_band x); len (r_y x); len (r_x x)]) (rev [len (r_band x); len (r_y x); len (r_x x)])) with true by (cbn; rewrite !Z.eqb_refl; reflexivity). cbn [negb].
  destruct (traverse3_numbered (fun b i j v => let* o := get (nd_flat a) (flat_position 1 (rev (nd_shape a)) [j; i; b]) in Ok (f v o)) _ _ _ (r_data x) Sx) as (d & T & Sd & V).
  { intros b i j v H. destruct (at3_range _ _ _ _ _ _ _ _ Sx H) as (R1 & R2 & R3). destruct (position_in a _ _ _ b i j Ha F R1 R2 R3) as (o & O & _). rewrite O. cbn [rbind]. eauto. }
  unfold arr3, arr2 in *. rewrite T. cbn [rbind]. apply (finish_cells f out (n, x, m) (element a) d S Sd). unfold values. cbn [fst snd]. intros b i j v H. destruct (V b i j v H) as (w & W1 & W2). destruct (at3_range _ _ _ _ _ _ _ _ Sx H) as (R1 & R2 & R3).
  destruct (position_in a _ _ _ b i j Ha F R1 R2 R3) as (o & O & E). rewrite O in W1. cbn [rbind] in W1. injection W1 as <-. eauto.
Qed.
Lemma array_refused f out r a : sound r -> ~ fits (nd_shape a) (len (r_band (values r))) (len (r_y (values r))) (len (r_x (values r))) -> apply_array f out r a = Err ValueError.
Proof.
  intros S F. destruct r as [[n x] m]. pose proof S as (Gx & _). pose proof Gx as (Hb & Hy & Hx & _). unfold values in F. cbn [fst snd] in F. unfold apply_array, nd_shape3.
  destruct (can_broadcast _ (nd_shape a)) eqn:E1; [|reflexivity]. cbn [negb]. destruct (broadcast_rev _ _) as [s|] eqn:E2; [|reflexivity]. destruct (same_labels Z.eqb s _) eqn:E3; [|reflexivity]. exfalso. apply F. apply (accepted_iff _ _ _ _ Hb Hy Hx). split; [exact E1|]. rewrite E2. f_equal.
  apply (same_labels_iff _ _ eqb_Z) in E3. clear - E3. induction E3; [reflexivity|now subst].
Qed.
(* ---- bandwise ---- *)
Definition band_values (l : list num) (b i j : Z) (o : num) : Prop := get l b = Ok o.
Lemma bandwise_applied f out r l : sound r -> len l = len (r_band (values r)) -> 1 < len l -> len (r_x (values r)) <> 1 -> len (r_x (values r)) <> len l ->
  exists res, apply_bandwise f out r (NdArray [len l] l) = Ok res /\ cellwise f out r (band_values l) res.
Proof.
  intros S L L1 X1 X2. unfold apply_bandwise, normalize_bandwise_other. cbn [nd_flat nd_shape]. replace (len l =? 1) with false by lia. destruct r as [[n x] m]. unfold values in *. cbn [fst snd] in *. pose proof S as (Gx & _). pose proof Gx as (Hb & Hy & Hx & _).
  assert (can_broadcast [len l] (nd_shape3 x) = false) as ->.
  { unfold can_broadcast, nd_shape3. cbn [rev app broadcast_rev]. replace (len l =? len (r_x x)) with false by lia. replace (len l =? 1) with false by lia. now replace (len (r_x x) =? 1) with false by lia. }
  cbn [nd_shape3 nth]. replace (len [len l] =? 1) with true by reflexivity. replace (len l =? len (r_band x)) with true by lia. cbn [andb rbind].
  destruct (array_applied f out (n, x, m) (NdArray [len l; 1; 1] l) S) as (res & E & C1 & C2 & C3 & C4 & C5 & C6 & C7).
  - split; [repeat constructor; lia|]. cbn [nd_flat nd_shape fold_right]. lia.
  - split; [cbn; lia|]. cbn [nd_shape length Nat.sub skipn]. constructor; [left; exact L|]. constructor; [now right|]. constructor; [now right|constructor].
  - exists res. split; [exact E|]. repeat (split; [assumption|]). intros b i j v V. destruct (C7 b i j v V) as (o & k & w & O & K). exists o, k, w. split; [|exact K]. unfold element, c_order in O. cbn [nd_flat nd_shape length Nat.sub skipn combine map fold_left] in O. rewrite Z.eqb_refl in O.
    unfold band_values. replace (len l =? 1) with false in O by lia. now replace (((0 * len l + b) * 1 + 0) * 1 + 0) with b in O by lia.
Qed.
Lemma bandwise_one f out r s v : sound r -> exists res, apply_bandwise f out r (NdArray s [v]) = Ok res /\ cellwise f out r (fun _ _ _ o => o = v) res.
Proof.
  intros S. unfold apply_bandwise, normalize_bandwise_other. cbn [nd_flat nd_shape]. replace (len [v] =? 1) with true by reflexivity. cbn [rbind].
  destruct (array_applied f out r (NdArray [1] [v]) S) as (res & E & C1 & C2 & C3 & C4 & C5 & C6 & C7).
  - split; [repeat constructor; lia|reflexivity].
  - split; [cbn; lia|]. cbn [nd_shape length Nat.sub skipn]. constructor; [now right|constructor].
  - exists res. split; [exact E|]. repeat (split; [assumption|]). intros b i j u V. destruct (C7 b i j u V) as (o & k & w & O & K). exists o, k, w. split; [|exact K]. cbv in O. congruence.
Qed.
Lemma bandwise_refused f out r a : nd_ok a -> len (nd_flat a) <> 1 ->
  (nd_shape a = [len (nd_flat a)] -> len (nd_flat a) <> len (r_band (values r)) \/ len (r_x (values r)) = 1 \/ len (r_x (values r)) = len (nd_flat a)) ->
  apply_bandwise f out r a = Err ValueError.
Proof.
  intros [_ L] N H. unfold apply_bandwise, normalize_bandwise_other. destruct r as [[n x] m]. unfold values in H. cbn [fst snd] in *. replace (len (nd_flat a) =? 1) with false by lia.
  destruct (can_broadcast (nd_shape a) (nd_shape3 x)) eqn:E; [reflexivity|]. destruct (len (nd_shape a) =? 1) eqn:E1; [|reflexivity]. cbn [andb nd_shape3 nth]. destruct (len (nd_flat a) =? len (r_band x)) eqn:E2; [|reflexivity].
  exfalso. destruct a as [s flat]. cbn [nd_shape nd_flat] in *. destruct s as [|p [|q s]]; [discriminate| |unfold len in E1; cbn [length] in E1; lia]. cbn [fold_right] in L. assert (p = len flat) as -> by lia.
  destruct (H eq_refl) as [K|K]; [lia|]. unfold can_broadcast, nd_shape3 in E. cbn [rev app broadcast_rev] in E.
  destruct K as [K|K]; rewrite K in E; [|rewrite Z.eqb_refl in E; discriminate]. replace (len flat =? 1) with false in E by lia. discriminate.
Qed.
