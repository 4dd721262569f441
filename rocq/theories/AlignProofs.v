From Coq Require Import QArith Permutation.
From Verif Require Import Base BaseFacts Scalars Arr2 Arr2Facts ChunksProofs FocalSpec BandsSpec Bands BandsProofs BlockArgs MapBlocks MapBlocksSpec MapBlocksProofs Normalize NormalizeProofs Ingest IngestSpec IngestProofs Align AlignSpec.
From Coq Require Import ZifyBool.
Open Scope Z_scope.

Lemma traverse_each {A B} (f : A -> res B) l : (forall x, In x l -> exists y, f x = Ok y) ->
  exists l', traverse f l = Ok l' /\ len l' = len l /\ forall k x, get l k = Ok x -> exists y, f x = Ok y /\ get l' k = Ok y.
Proof.
  induction l as [|x l IH]; intros H; [exists []; split; [reflexivity|]; split; [reflexivity|]; intros k x K; apply get_ok_range in K; unfold len in K; cbn in K; lia|].
  destruct (H x (or_introl eq_refl)) as [y Y]. destruct IH as (l' & T & L & G); [intros; apply H; now right|]. exists (y :: l'). cbn [traverse]. rewrite Y. cbn [rbind]. rewrite T. cbn [rbind].
  split; [reflexivity|]. split; [unfold len in *; cbn [length]; lia|]. intros k z K. pose proof (get_ok_range _ _ _ K) as R. destruct (Z.eq_dec k 0) as [->|N].
  - cbn in K. injection K as <-. exists y. split; [exact Y|reflexivity].
  - assert (E : forall X (u : X) t, get (u :: t) k = get t (k - 1)).
    { intros X u t. unfold get. replace (k <? 0) with false by lia. replace (k - 1 <? 0) with false by lia. replace (Z.to_nat k) with (S (Z.to_nat (k - 1))) by lia. reflexivity. }
    rewrite E in K |- *. destruct (G _ _ K) as (w & W1 & W2). eauto.
Qed.

Section Labels.
Context {X : Type} (eqb : X -> X -> bool) (R : X -> X -> Prop).
Hypothesis E : forall x y, eqb x y = true <-> R x y.
Lemma same_labels_iff a : forall b, same_labels eqb a b = true <-> Forall2 R a b.
Proof.
  induction a as [|x a IH]; intros [|y b]; cbn [same_labels]; split; intros H; try discriminate; try (now constructor); try (inversion H; fail).
  - apply andb_true_iff in H as [H1 H2]. constructor; [now apply E|now apply IH].
  - inversion H; subst. apply andb_true_iff. split; [now apply E|now apply IH].
Qed.
Lemma forall2_get (a b : list X) : Forall2 R a b -> len a = len b /\ forall k y, get b k = Ok y -> exists x, get a k = Ok x /\ R x y.
Proof.
  induction 1 as [|x y a b H F [L IH]]; [split; [reflexivity|]; intros k y K; apply get_ok_range in K; unfold len in K; cbn in K; lia|].
  split; [unfold len in *; cbn [length]; lia|]. intros k z K. pose proof (get_ok_range _ _ _ K) as Rg. destruct (Z.eq_dec k 0) as [->|N]; [cbn in K; injection K as <-; exists x; auto|].
  assert (G : forall (u : X) t, get (u :: t) k = get t (k - 1)).
  { intros u t. unfold get. replace (k <? 0) with false by lia. replace (k - 1 <? 0) with false by lia. replace (Z.to_nat k) with (S (Z.to_nat (k - 1))) by lia. reflexivity. }
  rewrite G in K |- *. now apply IH.
Qed.
Lemma position_get l x : (exists y, In y l /\ R y x) -> exists y, get l (position eqb l x) = Ok y /\ R y x.
Proof.
  induction l as [|z l IH]; intros (y & I & H); [destruct I|]. cbn [position]. destruct (eqb z x) eqn:Q.
  - exists z. split; [reflexivity|now apply E].
  - destruct I as [->|I]; [apply E in H; congruence|]. destruct IH as (w & W1 & W2); [eauto|]. exists w. split; [|exact W2]. pose proof (get_ok_range _ _ _ W1).
    unfold get in *. replace (1 + position eqb l x <? 0) with false by lia. destruct (position eqb l x <? 0) eqn:N; [lia|]. replace (Z.to_nat (1 + position eqb l x)) with (S (Z.to_nat (position eqb l x))) by lia. exact W1.
Qed.
Lemma take_spec {A} from to (l : list A) : len l = len from -> (forall x, In x to -> exists y, In y from /\ R y x) ->
  exists l', take eqb from to l = Ok l' /\ len l' = len to /\ forall k x, get to k = Ok x -> exists p x', get from p = Ok x' /\ R x' x /\ get l' k = get l p.
Proof.
  intros L H. unfold take. destruct (same_labels eqb from to) eqn:Sm.
  - apply same_labels_iff in Sm. apply forall2_get in Sm as [L2 G]. exists l. split; [reflexivity|]. split; [lia|]. intros k x K. destruct (G k x K) as (x' & G1 & G2). exists k, x'. auto.
  - destruct (traverse_each (fun x => get l (position eqb from x)) to) as (l' & T & L' & G).
    { intros x I. destruct (position_get from x (H x I)) as (y & P & _). apply get_ok_range in P. rewrite <- L in P. apply get_range. exact P. }
    exists l'. split; [exact T|]. split; [exact L'|]. intros k x K. destruct (G k x K) as (y & Y1 & Y2). destruct (position_get from x (H x (get_in _ _ _ K))) as (x' & P & Q). exists (position eqb from x), x'. split; [exact P|]. split; [exact Q|congruence].
Qed.
Lemma common_in a b x : In x (common_labels eqb a b) <-> In x a /\ exists y, In y b /\ R x y.
Proof.
  unfold common_labels. destruct (same_labels eqb a b) eqn:Sm.
  - apply same_labels_iff in Sm. split; [|tauto]. intros I. split; [exact I|]. induction Sm as [|u v a b H F IH]; [destruct I|]. destruct I as [->|I]; [exists v; split; [now left|exact H]|]. destruct (IH I) as (y & I2 & H2). exists y. split; [now right|exact H2].
  - rewrite filter_In, existsb_exists. split; intros [I (y & I2 & H)]; (split; [exact I|]); exists y; (split; [exact I2|now apply E]).
Qed.
Lemma common_spec a b : common R a b (common_labels eqb a b).
Proof.
  unfold common_labels, common. destruct (same_labels eqb a b) eqn:Sm.
  - exists (fun _ => true). split; [induction a as [|u a IHa] in b, Sm |- *; [reflexivity|]; destruct b; cbn [same_labels] in Sm; [discriminate|]; apply andb_true_iff in Sm as [_ Sm]; cbn [filter]; now rewrite <- (IHa _ Sm)|]. intros x I. split; [intros _|reflexivity]. assert (C : In x (common_labels eqb a b)) by (unfold common_labels; now rewrite Sm). now apply common_in in C.
  - exists (fun x => existsb (eqb x) b). split; [reflexivity|]. intros x I. rewrite existsb_exists. split; intros (y & I2 & H); exists y; (split; [exact I2|now apply E]).
Qed.
End Labels.
Lemma eqb_Z x y : Z.eqb x y = true <-> x = y. Proof. apply Z.eqb_eq. Qed.
Lemma eqb_Q x y : Qeq_bool x y = true <-> (x == y)%Q. Proof. apply Qeq_bool_iff. Qed.
Definition covers {X} (R : X -> X -> Prop) (from to : list X) : Prop := forall x, In x to -> exists y, In y from /\ R y x.
Lemma len_nil_or {A} (l : list A) : l = [] \/ 0 < len l. Proof. destruct l; [now left|right; unfold len; cbn [length]; lia]. Qed.
Lemma reindex_spec {A} (r : raster_array A) bands ys xs : gridded r -> covers eq (r_band r) bands -> covers Qeq (r_y r) ys -> covers Qeq (r_x r) xs ->
  exists d, reindex r bands ys xs = Ok d /\ shaped3 (len bands) (len ys) (len xs) d
  /\ forall b i j band y x, get bands b = Ok band -> get ys i = Ok y -> get xs j = Ok x -> exists v, at3 d b i j v /\ value_of r band y x v.
Proof.
  intros (Hb & Hy & Hx & Db & Dy & Dx & L & F) Cb Cy Cx. unfold reindex. rewrite Forall_forall in F.
  destruct (take_spec Z.eqb eq eqb_Z (r_band r) bands (r_data r) L Cb) as (a & Ta & La & Ga). rewrite Ta. cbn [rbind]. unfold arr3, arr2 in *.
  assert (Ia : forall band, In band a -> In band (r_data r)).
  { intros band I. apply In_nth_error in I as [k K]. assert (Gk : get a (Z.of_nat k) = Ok band) by (unfold get; replace (Z.of_nat k <? 0) with false by lia; now rewrite Nat2Z.id, K).
    pose proof (get_ok_range _ _ _ Gk) as Rk. rewrite La in Rk. destruct (get_range bands (Z.of_nat k) Rk) as [x Kx]. destruct (Ga _ _ Kx) as (p & x' & _ & _ & Q). rewrite Q in Gk. now apply get_in in Gk. }
  assert (ROW : forall row : list A, len row = len (r_x r) -> exists row', take Qeq_bool (r_x r) xs row = Ok row' /\ len row' = len xs /\ forall k x, get xs k = Ok x -> exists p x', get (r_x r) p = Ok x' /\ (x' == x)%Q /\ get row' k = get row p).
  { intros row Lr. apply (take_spec Qeq_bool Qeq eqb_Q); assumption. }
  assert (BAND : forall band : list (list A), In band a -> exists t, (let* rows := take Qeq_bool (r_y r) ys band in traverse (fun row => take Qeq_bool (r_x r) xs row) rows) = Ok t
     /\ shaped2 (len ys) (len xs) t /\ forall i j y x, get ys i = Ok y -> get xs j = Ok x -> exists p q y' x' v, get (r_y r) p = Ok y' /\ (y' == y)%Q /\ get (r_x r) q = Ok x' /\ (x' == x)%Q /\ at2 band p q v /\ at2 t i j v).
  { intros band I. destruct (F band (Ia band I)) as (Lb & Fb). rewrite Forall_forall in Fb. destruct (take_spec Qeq_bool Qeq eqb_Q (r_y r) ys band Lb Cy) as (rows & Tr & Lr & Gr). rewrite Tr. cbn [rbind].
    assert (IR : forall row, In row rows -> len row = len (r_x r)).
    { intros row Ir. apply In_nth_error in Ir as [k K]. assert (Gk : get rows (Z.of_nat k) = Ok row) by (unfold get; replace (Z.of_nat k <? 0) with false by lia; now rewrite Nat2Z.id, K).
      pose proof (get_ok_range _ _ _ Gk) as Rk. rewrite Lr in Rk. destruct (get_range ys (Z.of_nat k) Rk) as [x Kx]. destruct (Gr _ _ Kx) as (p & x' & _ & _ & Q). rewrite Q in Gk. apply Fb. now apply get_in in Gk. }
    destruct (traverse_each (fun row => take Qeq_bool (r_x r) xs row) rows) as (t & Tt & Lt & Gt). { intros row Ir. destruct (ROW row (IR row Ir)) as (row' & Q & _). eauto. }
    exists t. split; [exact Tt|]. split.
    - split; [lia|]. apply Forall_forall. intros row' Ir. apply In_nth_error in Ir as [k K]. assert (Gk : get t (Z.of_nat k) = Ok row') by (unfold get; replace (Z.of_nat k <? 0) with false by lia; now rewrite Nat2Z.id, K).
      pose proof (get_ok_range _ _ _ Gk) as Rk. rewrite Lt in Rk. destruct (get_range rows _ Rk) as [row Kr]. destruct (Gt _ _ Kr) as (w & W1 & W2). destruct (ROW row (IR row (get_in _ _ _ Kr))) as (row2 & Q1 & Q2 & _). congruence.
    - intros i j y x Gi Gj. destruct (Gr i y Gi) as (p & y' & P1 & P2 & P3). pose proof (get_ok_range _ _ _ Gi) as Ri. rewrite <- Lr in Ri. destruct (get_range rows i Ri) as [row Kr].
      destruct (Gt _ _ Kr) as (row' & W1 & W2). destruct (ROW row (IR row (get_in _ _ _ Kr))) as (row2 & Q1 & Q2 & Q3). assert (row2 = row') as -> by congruence.
      destruct (Q3 j x Gj) as (q & x' & X1 & X2 & X3). pose proof (get_ok_range _ _ _ X1) as Rq. rewrite <- (IR row (get_in _ _ _ Kr)) in Rq. destruct (get_range row q Rq) as [v V].
      exists p, q, y', x', v. split; [exact P1|]. split; [exact P2|]. split; [exact X1|]. split; [exact X2|]. split; [exists row; split; [congruence|exact V]|exists row'; split; [exact W2|congruence]]. }
  destruct (traverse_each (fun band => let* rows := take Qeq_bool (r_y r) ys band in traverse (fun row => take Qeq_bool (r_x r) xs row) rows) a) as (d & Td & Ld & Gd). { intros band I. destruct (BAND band I) as (t & T & _). eauto. }
  exists d. split; [exact Td|]. split.
  - split; [unfold arr3, arr2 in *; lia|]. apply Forall_forall. intros t I. apply In_nth_error in I as [k K]. assert (Gk : get d (Z.of_nat k) = Ok t) by (unfold get; replace (Z.of_nat k <? 0) with false by lia; now rewrite Nat2Z.id, K).
    pose proof (get_ok_range _ _ _ Gk) as Rk. rewrite Ld in Rk. destruct (get_range a _ Rk) as [band Kb]. destruct (Gd _ _ Kb) as (w & W1 & W2). destruct (BAND band (get_in _ _ _ Kb)) as (t2 & Q1 & Q2 & _). rewrite W1 in Q1. injection Q1 as <-. congruence.
  - intros b i j band y x Gb Gi Gj. destruct (Ga b band Gb) as (p & bl & P1 & -> & P3). pose proof (get_ok_range _ _ _ Gb) as Rb. rewrite <- La in Rb. destruct (get_range a b Rb) as [bd Kb].
    destruct (Gd _ _ Kb) as (t & W1 & W2). destruct (BAND bd (get_in _ _ _ Kb)) as (t2 & Q1 & _ & Q3). rewrite W1 in Q1. injection Q1 as <-. destruct (Q3 i j y x Gi Gj) as (q & s & y' & x' & v & V1 & V2 & V3 & V4 & V5 & V6).
    exists v. split; [exists t; auto|]. exists p, q, s, y', x'. repeat (split; [assumption|]). exists bd. split; [congruence|exact V5].
Qed.
Lemma value_of_fun {A} (r : raster_array A) band y x v w : gridded r -> value_of r band y x v -> value_of r band y x w -> v = w.
Proof.
  intros (_ & _ & _ & Db & Dy & Dx & _) (b & i & j & y1 & x1 & H1 & H2 & H3 & H4 & H5 & H6) (b' & i' & j' & y2 & x2 & K1 & K2 & K3 & K4 & K5 & K6).
  rewrite <- (Db _ _ _ _ H1 K1 eq_refl) in K6. assert (y1 == y2)%Q as Ey by now rewrite H3, K3. assert (x1 == x2)%Q as Ex by now rewrite H5, K5.
  rewrite <- (Dy _ _ _ _ H2 K2 Ey), <- (Dx _ _ _ _ H4 K4 Ex) in K6. eapply at3_fun; eassumption.
Qed.
Lemma covers_left {X} (eqb : X -> X -> bool) (R : X -> X -> Prop) (E : forall x y, eqb x y = true <-> R x y) (Rr : forall x, R x x) a b : covers R a (common_labels eqb a b).
Proof. intros x I. apply (common_in eqb R E) in I as [I _]. exists x. auto. Qed.
Lemma covers_right {X} (eqb : X -> X -> bool) (R : X -> X -> Prop) (E : forall x y, eqb x y = true <-> R x y) (Rs : forall x y, R x y -> R y x) a b : covers R b (common_labels eqb a b).
Proof. intros x I. apply (common_in eqb R E) in I as [_ (y & I & H)]. exists y. auto. Qed.
Lemma in_get {A} (l : list A) x : In x l -> exists k, get l k = Ok x.
Proof. intros I. apply In_nth_error in I as [k K]. exists (Z.of_nat k). unfold get. replace (Z.of_nat k <? 0) with false by lia. now rewrite Nat2Z.id, K. Qed.
Lemma combined {A B C} (f : A -> B -> C) (a : raster_array A) (b : raster_array B) (u0 : A) (v0 : B) : gridded a -> gridded b ->
  exists r, combine_aligned f a b = Ok r /\ common eq (r_band a) (r_band b) (r_band r) /\ common Qeq (r_y a) (r_y b) (r_y r) /\ common Qeq (r_x a) (r_x b) (r_x r)
  /\ shaped3 (len (r_band r)) (len (r_y r)) (len (r_x r)) (r_data r)
  /\ forall band y x w, value_of r band y x w <-> exists u v, value_of a band y x u /\ value_of b band y x v /\ w = f u v.
Proof.
  intros Ga Gb. unfold combine_aligned. set (bands := common_labels Z.eqb _ _). set (ys := common_labels Qeq_bool (r_y a) (r_y b)). set (xs := common_labels Qeq_bool (r_x a) (r_x b)).
  destruct (reindex_spec a bands ys xs Ga) as (da & Ra & Sa & Va); [apply (covers_left _ _ eqb_Z); auto|apply (covers_left _ _ eqb_Q); apply Qeq_refl|apply (covers_left _ _ eqb_Q); apply Qeq_refl|].
  destruct (reindex_spec b bands ys xs Gb) as (db & Rb & Sb & Vb); [apply (covers_right _ _ eqb_Z); auto|apply (covers_right _ _ eqb_Q); intros; now apply Qeq_sym|apply (covers_right _ _ eqb_Q); intros; now apply Qeq_sym|].
  rewrite Ra, Rb. cbn [rbind]. eexists. split; [reflexivity|]. cbn [r_band r_y r_x r_data]. split; [apply (common_spec _ _ eqb_Z)|]. split; [apply (common_spec _ _ eqb_Q)|]. split; [apply (common_spec _ _ eqb_Q)|].
  pose proof (len_nonneg bands) as N1. pose proof (len_nonneg ys) as N2. pose proof (len_nonneg xs) as N3.
  split; [apply map3_shaped; now apply zip3_shaped|].
  intros band y x w. split.
  - intros (p & i & j & y' & x' & H1 & H2 & H3 & H4 & H5 & H6). cbn [r_band r_y r_x r_data] in *. destruct (Va p i j band y' x' H1 H2 H4) as (u & U1 & U2). destruct (Vb p i j band y' x' H1 H2 H4) as (v & V1 & V2).
    assert (T : forall {X} (r : raster_array X) z, value_of r band y' x' z -> value_of r band y x z).
    { intros X r z (p2 & i2 & j2 & y2 & x2 & K1 & K2 & K3 & K4 & K5 & K6). exists p2, i2, j2, y2, x2. repeat (split; [first [assumption|now rewrite K3|now rewrite K5]|]). exact K6. }
    exists u, v. split; [now apply T|]. split; [now apply T|]. pose proof (at3_map3 (fun '(u, v) => f u v) _ _ _ _ _ (at3_zip _ _ _ _ _ _ _ _ _ _ Sa Sb N1 N2 U1 V1)) as Q. cbv beta iota in Q. eapply at3_fun; eassumption.
  - intros (u & v & U & V & ->). pose proof U as (b1 & i1 & j1 & y1 & x1 & U1 & U2 & U3 & U4 & U5 & _). pose proof V as (b2 & i2 & j2 & y2 & x2 & V1 & V2 & V3 & V4 & V5 & _).
    assert (I1 : In band bands) by (apply (common_in _ _ eqb_Z); split; [exact (get_in _ _ _ U1)|exists band; split; [exact (get_in _ _ _ V1)|reflexivity]]).
    assert (I2 : In y1 ys) by (apply (common_in _ _ eqb_Q); split; [exact (get_in _ _ _ U2)|exists y2; split; [exact (get_in _ _ _ V2)|now rewrite U3, V3]]).
    assert (I3 : In x1 xs) by (apply (common_in _ _ eqb_Q); split; [exact (get_in _ _ _ U4)|exists x2; split; [exact (get_in _ _ _ V4)|now rewrite U5, V5]]).
    apply in_get in I1 as [p P], I2 as [i I], I3 as [j J]. destruct (Va p i j band y1 x1 P I J) as (u' & Q1 & Q2). destruct (Vb p i j band y1 x1 P I J) as (v' & Q3 & Q4).
    assert (T : forall {X} (r : raster_array X) z, value_of r band y1 x1 z -> value_of r band y x z).
    { intros X r z (p2 & i3 & j3 & y3 & x3 & K1 & K2 & K3 & K4 & K5 & K6). exists p2, i3, j3, y3, x3. repeat (split; [first [assumption|now rewrite K3|now rewrite K5]|]). exact K6. }
    rewrite (value_of_fun a band y x u u' Ga U (T _ _ _ Q2)), (value_of_fun b band y x v v' Gb V (T _ _ _ Q4)).
    exists p, i, j, y1, x1. cbn [r_band r_y r_x r_data]. repeat (split; [assumption|]). exact (at3_map3 (fun '(u, v) => f u v) _ _ _ _ _ (at3_zip _ _ _ _ _ _ _ _ _ _ Sa Sb N1 N2 Q1 Q3)).
Qed.
Lemma same_coords_iff {A B} (a : raster_array A) (b : raster_array B) : same_coords a b = true <-> same_grid a b.
Proof. unfold same_coords, same_grid, same_list. rewrite !andb_true_iff, (same_labels_iff _ _ eqb_Z), !(same_labels_iff _ _ eqb_Q). tauto. Qed.
Lemma traverse_id {A} (l : list A) : traverse (fun x => Ok x) l = Ok l.
Proof. rewrite (traverse_ok (B := A) _ (fun x => x)) by reflexivity. now rewrite map_id. Qed.
Lemma reindex_same {A} (r : raster_array A) bands ys xs : Forall2 eq (r_band r) bands -> Forall2 Qeq (r_y r) ys -> Forall2 Qeq (r_x r) xs -> reindex r bands ys xs = Ok (r_data r).
Proof.
  intros H1 H2 H3. apply (same_labels_iff _ _ eqb_Z) in H1. apply (same_labels_iff _ _ eqb_Q) in H2, H3. unfold reindex, take. rewrite H1, H2, H3. cbn [rbind].
  rewrite (traverse_ext _ (fun x => Ok x)); [apply traverse_id|]. intros band _. apply traverse_id.
Qed.
Lemma forall2_refl {X} (R : X -> X -> Prop) : (forall x, R x x) -> forall l, Forall2 R l l. Proof. intros H. induction l; constructor; auto. Qed.
Lemma forall2_sym {X} (R : X -> X -> Prop) : (forall x y, R x y -> R y x) -> forall a b, Forall2 R a b -> Forall2 R b a. Proof. intros H a b F. induction F; constructor; auto. Qed.
Lemma combine_same {A B C} (f : A -> B -> C) (a : raster_array A) (b : raster_array B) : same_grid a b -> combine_aligned f a b = Ok (with_data a (map3 (fun '(u, v) => f u v) (zip3 (r_data a) (r_data b)))).
Proof.
  intros (H1 & H2 & H3). unfold combine_aligned, common_labels.
  pose proof H1 as S1. apply (same_labels_iff _ _ eqb_Z) in S1. pose proof H2 as S2. apply (same_labels_iff _ _ eqb_Q) in S2. pose proof H3 as S3. apply (same_labels_iff _ _ eqb_Q) in S3. rewrite S1, S2, S3.
  rewrite reindex_same; [|now apply forall2_refl|apply forall2_refl, Qeq_refl|apply forall2_refl, Qeq_refl]. cbn [rbind].
  rewrite reindex_same; [reflexivity|apply forall2_sym; [now intros|exact H1]|apply forall2_sym; [intros; now apply Qeq_sym|exact H2]|apply forall2_sym; [intros; now apply Qeq_sym|exact H3]].
Qed.
Lemma merge_combine a b : merge_two a b = if same_coords a b then combine_aligned orb a b else Err ValueError.
Proof. unfold merge_two. destruct (same_coords a b) eqn:E; [|reflexivity]. apply same_coords_iff in E. now rewrite (combine_same orb a b E). Qed.
Lemma burned_value {X} (r : raster_array X) (D : list (list (list num))) (M : list (list (list bool))) n band y x w : gridded (with_data r D) -> gridded (with_data r M) ->
  value_of (with_data r (where3 M n D)) band y x w <-> exists m v, value_of (with_data r M) band y x m /\ value_of (with_data r D) band y x v /\ w = if m then n else v.
Proof.
  intros GD GM. pose proof GD as (Hb & Hy & Hx & _ & _ & _ & SD). pose proof GM as (_ & _ & _ & _ & _ & _ & SM). unfold value_of. cbn [with_data r_band r_y r_x r_data] in *.
  assert (SW : shaped3 (len (r_band r)) (len (r_y r)) (len (r_x r)) (where3 M n D)) by now apply where3_shaped. split.
  - intros (b & i & j & y' & x' & H1 & H2 & H3 & H4 & H5 & H6). destruct (at3_range _ _ _ _ _ _ _ _ SW H6) as (R1 & R2 & R3).
    destruct (shaped3_get _ _ _ D b i j SD R1 R2 R3) as [v V]. destruct (shaped3_get _ _ _ M b i j SM R1 R2 R3) as [m Q]. exists m, v. split; [exists b, i, j, y', x'; auto 10|]. split; [exists b, i, j, y', x'; auto 10|].
    eapply at3_fun; [exact H6|]. exact (where3_at _ _ _ n D M b i j v m Hb Hy Hx SD SM V Q).
  - intros (m & v & (b & i & j & y' & x' & H1 & H2 & H3 & H4 & H5 & H6) & V & ->). destruct (at3_range _ _ _ _ _ _ _ _ SM H6) as (R1 & R2 & R3).
    destruct (shaped3_get _ _ _ D b i j SD R1 R2 R3) as [v' V']. assert (v' = v) as -> by (apply (value_of_fun (with_data r D) band y x _ _ GD); [exists b, i, j, y', x'; auto 10|exact V]).
    exists b, i, j, y', x'. repeat (split; [assumption|]). exact (where3_at _ _ _ n D M b i j v m Hb Hy Hx SD SM V' H6).
Qed.
Lemma masked_iff r : ds_masked r = true <-> has_null_value r.
Proof. unfold ds_masked, has_null_value. destruct (fst (fst r)); split; congruence. Qed.
Lemma rasters_unmasked f out a b : sound a -> sound b -> ~ has_null_value a -> ~ has_null_value b ->
  exists rd rm, apply_rasters f out a b = Ok (None, rd, rm)
  /\ common eq (r_band (values a)) (r_band (values b)) (r_band rd) /\ common Qeq (r_y (values a)) (r_y (values b)) (r_y rd) /\ common Qeq (r_x (values a)) (r_x (values b)) (r_x rd)
  /\ r_band rm = r_band rd /\ r_y rm = r_y rd /\ r_x rm = r_x rd
  /\ shaped3 (len (r_band rd)) (len (r_y rd)) (len (r_x rd)) (r_data rd) /\ shaped3 (len (r_band rd)) (len (r_y rd)) (len (r_x rd)) (r_data rm)
  /\ forall band y x, (forall w, value_of rd band y x w <-> exists u v, value_of (values a) band y x u /\ value_of (values b) band y x v /\ w = f u v) /\ (forall m, value_of rm band y x m -> m = false).
Proof.
  destruct a as [[na xa] ma], b as [[nb xb] mb]. intros (Ga & _) (Gb & _) Na Nb. rewrite <- masked_iff in Na, Nb. unfold values, apply_rasters. cbn [fst snd] in *.
  destruct (combined f xa xb NaN NaN Ga Gb) as (r & E & C1 & C2 & C3 & Sh & V). rewrite E. cbn [rbind]. unfold finish. destruct (ds_masked _); [now destruct Na|]. destruct (ds_masked _); [now destruct Nb|]. cbn [orb].
  eexists _, _. split; [reflexivity|]. cbn [with_data r_band r_y r_x r_data]. repeat (split; [first [assumption|reflexivity]|]). split; [now apply map3_shaped|]. intros band y x. split; [apply V|].
  intros m (p & i & j & y' & x' & _ & _ & _ & _ & _ & M). cbn [with_data r_data] in M. destruct (at3_range _ _ _ _ _ _ _ _ (map3_shaped _ _ _ _ _ Sh) M) as (R1 & R2 & R3).
  destruct (shaped3_get _ _ _ _ p i j Sh R1 R2 R3) as [v W]. exact (at3_fun _ _ _ _ _ _ M (at3_map3 (fun _ => false) _ _ _ _ _ W)).
Qed.
Lemma rasters_masked f out a b : sound a -> sound b -> has_null_value a \/ has_null_value b -> same_grid (values a) (values b) ->
  exists rd rm, apply_rasters f out a b = Ok (Some (default_null out), rd, rm) /\ sound (Some (default_null out), rd, rm)
  /\ r_band rd = r_band (values a) /\ r_y rd = r_y (values a) /\ r_x rd = r_x (values a)
  /\ forall band y x, (forall m, value_of rm band y x m <-> exists p q, value_of (nulls a) band y x p /\ value_of (nulls b) band y x q /\ m = p || q)
     /\ (forall w, value_of rd band y x w <-> exists u v m, value_of (values a) band y x u /\ value_of (values b) band y x v /\ value_of rm band y x m /\ w = if m then default_null out else f u v).
Proof.
  destruct a as [[na xa] ma], b as [[nb xb] mb]. intros (Ga & Gma & A1 & A2 & A3) (Gb & Gmb & B1 & B2 & B3) N SG. rewrite <- !masked_iff in N. unfold values, nulls, apply_rasters in *. cbn [fst snd] in *.
  destruct (combined f xa xb NaN NaN Ga Gb) as (r & E & _ & _ & _ & Sh & V). rewrite (combine_same f xa xb SG) in E. injection E as <-. rewrite (combine_same f xa xb SG). cbn [rbind].
  assert (SM : same_grid ma mb) by (destruct SG as (S1 & S2 & S3); split; [|split]; [rewrite A1, B1|rewrite A2, B2|rewrite A3, B3]; assumption).
  assert (SMc : same_coords ma mb = true) by now apply same_coords_iff.
  destruct (combined orb ma mb false false Gma Gmb) as (rm & E & _ & _ & _ & Shm & Vm). rewrite (combine_same orb ma mb SM) in E. injection E as <-.
  assert (OM : ds_masked (na, xa, ma) || ds_masked (nb, xb, mb) = true) by (destruct N as [-> | ->]; [reflexivity|apply orb_true_r]). rewrite OM. unfold finish. rewrite merge_combine, SMc, (combine_same orb ma mb SM). cbn [rbind].
  set (M := map3 (fun '(u, v) => u || v) (zip3 (r_data ma) (r_data mb))) in *. set (D := map3 (fun '(u, v) => f u v) (zip3 (r_data xa) (r_data xb))) in *. cbn [with_data r_band r_y r_x r_data] in *.
  assert (EM : with_data ma M = with_data xa M) by (unfold with_data; now rewrite A1, A2, A3). rewrite EM in *. unfold arr3, arr2 in *.
  pose proof Ga as (Hb & Hy & Hx & D1 & D2 & D3 & SA).
  assert (GD : gridded (with_data xa D)) by (unfold gridded; cbn [with_data r_band r_y r_x r_data]; auto 10).
  assert (GM : gridded (with_data xa M)) by (unfold gridded; cbn [with_data r_band r_y r_x r_data]; rewrite A1, A2, A3 in Shm; auto 10).
  eexists _, _. split; [reflexivity|]. cbn [with_data r_band r_y r_x r_data]. split.
  - split; [|split; [exact GM|now repeat split]]. unfold gridded in *. cbn [with_data r_band r_y r_x r_data] in *. repeat (split; [assumption|]). now apply where3_shaped.
  - do 3 (split; [reflexivity|]). intros band y x. split; [intros m; apply Vm|]. intros w. etransitivity; [apply (burned_value xa D M (default_null out) band y x w GD GM)|]. split.
    + intros (m & v & K1 & K2 & ->). apply V in K2 as (u & v' & U & V' & ->). exists u, v', m. auto.
    + intros (u & v & m & U & V' & K & ->). exists m, (f u v). split; [exact K|]. split; [apply V; eauto|reflexivity].
Qed.
Lemma rasters_refused f out a b : sound a -> sound b -> has_null_value a \/ has_null_value b -> ~ same_grid (values a) (values b) -> apply_rasters f out a b = Err ValueError.
Proof.
  destruct a as [[na xa] ma], b as [[nb xb] mb]. intros (Ga & Gma & A1 & A2 & A3) (Gb & Gmb & B1 & B2 & B3) N SG. rewrite <- !masked_iff in N. unfold values, apply_rasters in *. cbn [fst snd] in *.
  destruct (combined f xa xb NaN NaN Ga Gb) as (r & E & _). rewrite E. cbn [rbind]. unfold finish. assert (OM : ds_masked (na, xa, ma) || ds_masked (nb, xb, mb) = true) by (destruct N as [-> | ->]; [reflexivity|apply orb_true_r]). rewrite OM.
  unfold merge_two. destruct (same_coords ma mb) eqn:Sm; [|reflexivity]. destruct SG. apply same_coords_iff in Sm as (S1 & S2 & S3). unfold same_grid. rewrite <- A1, <- A2, <- A3, <- B1, <- B2, <- B3. auto.
Qed.
