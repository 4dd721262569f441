From Coq Require Import Lia ZifyBool ZifyNat.
From Verif Require Import Base BaseFacts ProximityChunk ChunksProofs RasterStack PadProofs LineStats LineStatsSpec.
Open Scope Z_scope.

(* ---- batches ---- *)
Lemma batches_spec {A} b (Hb : 1 <= b) : forall fuel (l : list A), (length l <= fuel)%nat ->
  exists bs, batches fuel b l = Ok bs /\ concat bs = l /\ Forall (fun x => 1 <= len x <= b) bs.
Proof.
  induction fuel as [|fuel IH]; intros l H.
  - destruct l; [|cbn in H; lia]. exists []. repeat split. constructor.
  - destruct l as [|x l']; [exists []; repeat split; constructor|].
    set (l := x :: l') in *.
    assert (L : 1 <= len l) by (unfold l; unfold len; cbn [length]; lia).
    destruct (IH (slice l b (len l))) as (bs & E & C & F).
    { unfold slice. rewrite firstn_length, skipn_length. unfold len in L. lia. }
    exists (slice l 0 b :: bs). repeat split.
    + change (batches (S fuel) b l) with (let* rest := batches fuel b (slice l b (len l)) in Ok (slice l 0 b :: rest)).
      rewrite E. reflexivity.
    + cbn [concat]. rewrite C. destruct (Z.le_gt_cases b (len l)).
      * rewrite slice_app by lia. apply slice_all. reflexivity.
      * assert (E1 : slice l b (len l) = []) by (unfold slice; rewrite skipn_all2 by (unfold len in *; lia); apply firstn_nil).
        rewrite E1, app_nil_r. unfold slice. cbn. apply firstn_all2. unfold len in *. lia.
    + constructor; [|exact F]. unfold slice, len. rewrite firstn_length, skipn_length. unfold len in L. lia.
Qed.

Lemma batch_size_range nverts n b : 0 <= n -> batch_size_of nverts n = Some b -> 1 <= b <= GEOM_BATCH_SIZE.
Proof.
  unfold batch_size_of, GEOM_BATCH_SIZE. intros Hn. destruct (_ || _); [|discriminate]. intros [= <-].
  generalize (n / Z.max 1 (nverts / (VERTS_PER_GEOM_CUTOFF * n))). intros q. clear. lia.
Qed.

Section Exact.
Context {S : Type}.
Variables (zero : S) (add mul : S -> S -> S).
Hypothesis HX : exact zero add.
Lemma add0l a : add zero a = a. Proof. apply HX. Qed.
Lemma addC a b : add a b = add b a. Proof. apply HX. Qed.
Lemma addA a b c : add a (add b c) = add (add a b) c. Proof. apply HX. Qed.
Lemma add0r a : add a zero = a. Proof. rewrite addC. apply add0l. Qed.
Lemma addX a b c d : add (add a b) (add c d) = add (add a c) (add b d).
Proof. rewrite <- !addA. f_equal. rewrite !addA. f_equal. apply addC. Qed.
Notation sum := (sum_of zero add).
Local Arguments sum_of : simpl never.
Lemma sum_cons' {A} (f : A -> S) x l : sum f (x :: l) = add (f x) (sum f l).
Proof. reflexivity. Qed.
Lemma sum_nil' {A} (f : A -> S) : sum f [] = zero.
Proof. reflexivity. Qed.
Lemma sum_app {A} (f : A -> S) l m : sum f (l ++ m) = add (sum f l) (sum f m).
Proof. induction l as [|x l IH]; cbn; [symmetry; apply add0l|]. rewrite !sum_cons', IH. apply addA. Qed.
Lemma sum_concat {A} (f : A -> S) ls : sum f (concat ls) = sum (sum f) ls.
Proof. induction ls as [|l ls IH]; cbn; [reflexivity|]. rewrite sum_app, sum_cons'. f_equal. exact IH. Qed.
Lemma sum_flat_map {A B} (f : B -> S) (g : A -> list B) l : sum f (flat_map g l) = sum (fun x => sum f (g x)) l.
Proof. induction l as [|x l IH]; cbn; [reflexivity|]. rewrite sum_app, sum_cons'. f_equal. exact IH. Qed.
Lemma sum_map {A B} (f : B -> S) (g : A -> B) l : sum f (map g l) = sum (fun x => f (g x)) l.
Proof. induction l as [|x l IH]; cbn; [reflexivity|]. rewrite !sum_cons'. f_equal. exact IH. Qed.
Lemma sum_ext {A} (f g : A -> S) l : (forall x, In x l -> f x = g x) -> sum f l = sum g l.
Proof. induction l as [|x l IH]; intros H; cbn; [reflexivity|]. rewrite !sum_cons'. f_equal; [apply H; left; reflexivity|]. apply IH. intros; apply H; right; assumption. Qed.
Lemma sum_zero {A} (f : A -> S) l : (forall x, In x l -> f x = zero) -> sum f l = zero.
Proof. intros H. rewrite (sum_ext f (fun _ => zero) l H). clear H. induction l as [|x l IH]; [reflexivity|]. rewrite sum_cons', IH. apply add0l. Qed.

(* the sum of the values with a given key *)
Definition at_key (k : Z) (e : Z * S) : S := if fst e =? k then snd e else zero.
Definition esum (d : list (Z * S)) (k : Z) : S := sum (at_key k) d.
Lemma esum_nodup d : NoDup (map fst d) -> forall k l, In (k, l) d -> esum d k = l.
Proof.
  induction d as [|[k' l'] d IH]; [easy|]. cbn [map fst]. intros N k l. inversion N as [|? ? N1 N2]; subst.
  unfold esum. rewrite sum_cons'. unfold at_key at 1. cbn [fst snd]. intros [[= -> ->]|H].
  - rewrite Z.eqb_refl. replace (sum (at_key k) d) with zero; [apply add0r|]. symmetry. apply sum_zero.
    intros [k'' l''] H. unfold at_key. cbn. destruct (k'' =? k) eqn:E; [|reflexivity].
    exfalso. apply N1. replace k with k'' by lia. change k'' with (fst (k'', l'')). apply in_map, H.
  - destruct (k' =? k) eqn:E.
    + exfalso. apply N1. replace k' with k by lia. change k with (fst (k, l)). apply in_map, H.
    + rewrite add0l. apply (IH N2 k l H).
Qed.
Lemma esum_absent d k : ~ In k (map fst d) -> esum d k = zero.
Proof.
  intros H. apply sum_zero. intros [k' l] Hi. unfold at_key. cbn. destruct (k' =? k) eqn:E; [|reflexivity].
  exfalso. apply H. replace k with k' by lia. change k' with (fst (k', l)). apply in_map, Hi.
Qed.

(* ---- _length_sum ---- *)
Lemma length_sum_spec rows : forall out, (forall l k, In (l, k) rows -> 0 <= k < len out) ->
  exists out', length_sum add out (map fst rows) (map snd rows) = Ok out' /\ len out' = len out /\
    forall k o, get out k = Ok o -> get out' k = Ok (add o (esum (map (fun '(l, k) => (k, l)) rows) k)).
Proof.
  intros out H. unfold length_sum.
  pose (P (i : Z) (o' : list S) := len o' = len out /\ forall k o, get out k = Ok o -> get o' k = Ok (add o (esum (map (fun '(l, k) => (k, l)) (firstn (Z.to_nat i) rows)) k))).
  destruct (foldM_zrange (fun out i => let* k := get (map snd rows) i in let* l := get (map fst rows) i in let* o := get out k in set out k (add o l)) P (len (map fst rows)) out) as (o' & E & P').
  - apply len_nonneg.
  - split; [reflexivity|]. intros k o Ho. cbn. unfold esum. rewrite sum_nil', add0r. exact Ho.
  - intros i s Hi [Pl Pg]. rewrite len_map in Hi. destruct (get_range rows i Hi) as [[l k] Er].
    rewrite !get_map_eq, Er. cbn [rbind fst snd].
    assert (Hk : 0 <= k < len out).
    { apply (H l). unfold get in Er. destruct (i <? 0); [discriminate|]. destruct (nth_error rows (Z.to_nat i)) eqn:En; [|discriminate].
      injection Er as ->. eapply nth_error_In, En. }
    destruct (get_range out k Hk) as [o Eo]. rewrite (Pg k o Eo). cbn [rbind].
    match goal with |- exists s', set s k ?v = _ /\ _ => destruct (set_range s k v ltac:(lia)) as [s' Es] end.
    exists s'. split; [exact Es|]. split; [rewrite (set_len _ _ _ _ Es); exact Pl|].
    intros k2 o2 Ho2.
    assert (F : firstn (Z.to_nat (i + 1)) rows = firstn (Z.to_nat i) rows ++ [(l, k)]).
    { replace (Z.to_nat (i + 1)) with (Datatypes.S (Z.to_nat i)) by lia.
      unfold get in Er. destruct (i <? 0); [discriminate|]. destruct (nth_error rows (Z.to_nat i)) eqn:En; [|discriminate]. injection Er as ->.
      clear - En. revert En. generalize (Z.to_nat i) as m. clear i. intros m. revert rows. induction m as [|m IH]; intros [|r rows] En; try discriminate En; cbn in En.
      - injection En as ->. reflexivity.
      - cbn [firstn app]. f_equal. apply IH, En. }
    rewrite F, map_app. unfold esum. rewrite sum_app. cbn [map]. rewrite sum_cons', sum_nil'.
    unfold at_key at 2. cbn [fst snd].
    destruct (Z.eq_dec k k2) as [->|D].
    + rewrite (get_set_same _ _ _ _ Es). rewrite Eo in Ho2. injection Ho2 as <-. rewrite Z.eqb_refl, add0r. f_equal. symmetry. apply addA.
    + rewrite (get_set_other _ _ _ _ _ Es D), (Pg _ _ Ho2). destruct (k =? k2) eqn:Ek; [lia|]. rewrite !add0r. reflexivity.
  - exists o'. split; [exact E|]. destruct P' as [P1 P2]. split; [exact P1|]. intros k o Ho. rewrite (P2 k o Ho).
    rewrite len_map. unfold len. rewrite Nat2Z.id, firstn_all. reflexivity.
Qed.

(* ---- core ---- *)
Notation lines := (list (@line S * S)).
Definition ltotal (weighted : bool) (gs : lines) (c : Z) : S := sum (fun '(g, w) => line_length zero mul weighted w c g) gs.

Lemma NoDup_zrange a b : NoDup (zrange a b).
Proof. unfold zrange. apply FinFun.Injective_map_NoDup; [intros x y; lia|]. apply seq_NoDup. Qed.
Lemma in_combine_get {A} (l : list A) k x : In (k, x) (combine (zrange 0 (len l)) l) <-> get l k = Ok x.
Proof.
  split.
  - intros H. destruct (In_nth_error _ _ H) as [i E].
    assert (G : forall (a : list Z) (b : list A) i k x, nth_error (combine a b) i = Some (k, x) -> nth_error a i = Some k /\ nth_error b i = Some x).
    { clear. induction a as [|y a IH]; intros [|z b] [|i] k x; cbn; try discriminate; [intros [= -> ->]; auto|apply IH]. }
    destruct (G _ _ _ _ _ E) as [E1 E2].
    assert (Hi : (i < length l)%nat) by (apply nth_error_Some; congruence).
    pose proof (get_zrange 0 (len l) (Z.of_nat i) ltac:(unfold len; lia)) as Z1. unfold get in Z1. rewrite Nat2Z.id in Z1.
    destruct (Z.of_nat i <? 0) eqn:E0; [lia|]. rewrite E1 in Z1. injection Z1 as Z1. assert (k = Z.of_nat i) by lia. subst k.
    unfold get. rewrite E0, Nat2Z.id, E2. reflexivity.
  - intros H. pose proof (get_ok_range _ _ _ H) as R. pose proof (get_zrange 0 (len l) k ltac:(lia)) as Z1.
    unfold get in H, Z1. destruct (k <? 0) eqn:E0; [lia|].
    destruct (nth_error l (Z.to_nat k)) eqn:E1; [|discriminate]. injection H as ->.
    destruct (nth_error (zrange 0 (len l)) (Z.to_nat k)) eqn:E2; [|discriminate]. injection Z1 as ->.
    assert (G : forall (a : list Z) (b : list A) i k x, nth_error a i = Some k -> nth_error b i = Some x -> nth_error (combine a b) i = Some (k, x)).
    { clear. induction a as [|y a IH]; intros [|z b] [|i] k x; cbn; try discriminate; [intros [= ->] [= ->]; auto|apply IH]. }
    eapply nth_error_In. rewrite (G _ _ _ _ _ E2 E1). reflexivity.
Qed.

Lemma overlay_esum weighted (gs : lines) targets k c : get targets k = Ok c ->
  esum (map (fun '(l, k) => (k, l)) (overlay mul weighted gs targets)) k = ltotal weighted gs c.
Proof.
  intros H. unfold esum, overlay, ltotal. rewrite sum_map, sum_flat_map. apply sum_ext. intros [g w] _.
  rewrite sum_flat_map.
  rewrite (sum_ext _ (fun '(k', c') => if k' =? k then line_length zero mul weighted w c' g else zero)).
  2:{ intros [k' c'] _. unfold line_length. destruct (l_clip g c') as [x|].
      - rewrite sum_cons', sum_nil'. unfold at_key. cbn. apply add0r.
      - rewrite sum_nil'. destruct (k' =? k); reflexivity. }
  set (F := fun kc : Z * Z => let '(k', c') := kc in if k' =? k then line_length zero mul weighted w c' g else zero).
  change (sum F (combine (zrange 0 (len targets)) targets) = line_length zero mul weighted w c g).
  rewrite (sum_ext F (fun kc => at_key k (fst kc, line_length zero mul weighted w (snd kc) g))) by (intros [? ?]; reflexivity).
  rewrite <- (sum_map (at_key k) (fun kc : Z * Z => (fst kc, line_length zero mul weighted w (snd kc) g))).
  change (esum (map (fun kc : Z * Z => (fst kc, line_length zero mul weighted w (snd kc) g)) (combine (zrange 0 (len targets)) targets)) k = line_length zero mul weighted w c g).
  apply esum_nodup.
  - rewrite map_map. cbn. rewrite (map_ext (fun x : Z * Z => fst x) fst) by reflexivity.
    assert (G : forall (a b : list Z), len a = len b -> map fst (combine a b) = a).
    { induction a as [|y a IH]; intros [|z b]; intros L; try reflexivity; try (unfold len in L; cbn in L; lia).
      cbn. f_equal. apply IH. unfold len in *. cbn in L. lia. }
    rewrite G; [apply NoDup_zrange|]. rewrite len_zrange. pose proof (len_nonneg targets). lia.
  - change (k, line_length zero mul weighted w c g) with ((fun kc : Z * Z => (fst kc, line_length zero mul weighted w (snd kc) g)) (k, c)).
    apply in_map. apply in_combine_get, H.
Qed.

Lemma overlay_keys weighted (gs : lines) targets l k : In (l, k) (overlay mul weighted gs targets) -> 0 <= k < len targets.
Proof.
  unfold overlay. intros H. apply in_flat_map in H. destruct H as ([g w] & _ & H). apply in_flat_map in H. destruct H as ([k' c] & H1 & H2).
  apply in_combine_get in H1. apply get_ok_range in H1. destruct (l_clip g c); [|easy]. destruct H2 as [[= <- <-]|[]]. exact H1.
Qed.

Definition near_lines (gs : lines) c : bool := existsb (fun '(g, _) => l_near g c) gs.
Lemma core_spec weighted n (gs : lines) : exists d, core zero add mul weighted n gs = Ok d /\
  map fst d = filter (near_lines gs) (zrange 0 n) /\ forall c l, In (c, l) d -> l = ltotal weighted gs c.
Proof.
  unfold core. set (ix := filter _ (zrange 0 n)). unfold compute_lengths.
  destruct (length_sum_spec (overlay mul weighted gs ix) (full (len ix) zero)) as (out & E & L & G).
  { intros l k H. rewrite full_len by apply len_nonneg. eapply overlay_keys, H. }
  rewrite E. cbn [rbind]. exists (combine ix out). split; [reflexivity|].
  rewrite full_len in L by apply len_nonneg.
  split.
  - change (map fst (combine ix out) = ix). clear - L. revert L. generalize ix as a, out as b. induction a as [|y a IH]; intros [|z b]; intros L; try reflexivity; try (unfold len in L; cbn in L; lia).
    cbn. f_equal. apply IH. unfold len in *. cbn in L. lia.
  - intros c l H. destruct (In_nth_error _ _ H) as [i Ei].
    assert (G' : forall (a : list Z) (b : list S) i k x, nth_error (combine a b) i = Some (k, x) -> nth_error a i = Some k /\ nth_error b i = Some x).
    { clear. induction a as [|y a IH]; intros [|z b] [|i] k x; cbn; try discriminate; [intros [= -> ->]; auto|apply IH]. }
    destruct (G' _ _ _ _ _ Ei) as [E1 E2].
    assert (Hi : (i < length ix)%nat) by (apply nth_error_Some; congruence).
    assert (I : get ix (Z.of_nat i) = Ok c) by (unfold get; rewrite Nat2Z.id, E1; destruct (Z.of_nat i <? 0) eqn:E0; [lia|reflexivity]).
    specialize (G (Z.of_nat i) zero (get_full (len ix) zero (Z.of_nat i) ltac:(unfold len; lia))).
    rewrite (overlay_esum weighted gs ix _ c I) in G. rewrite add0l in G.
    unfold get in G. rewrite Nat2Z.id, E2 in G. destruct (Z.of_nat i <? 0); [discriminate|]. injection G as ->. reflexivity.
Qed.

(* ---- groupby sum ---- *)
Lemma add_entry_esum c l d k : esum (add_entry add c l d) k = add (at_key k (c, l)) (esum d k).
Proof.
  induction d as [|[c' l'] d IH]; [reflexivity|]. cbn [add_entry]. destruct (c =? c') eqn:E1.
  - apply Z.eqb_eq in E1. subst c'. unfold esum. rewrite !sum_cons'. unfold at_key at 1 3 4. cbn.
    destruct (c =? k); [|rewrite !add0l; reflexivity]. rewrite (addC l' l). symmetry. apply addA.
  - destruct (c <? c'); [reflexivity|]. unfold esum in *. rewrite !sum_cons', IH.
    rewrite !addA. f_equal. apply addC.
Qed.
Definition above (c : Z) (d : list (Z * S)) : Prop := forall k l, In (k, l) d -> c < k.
Fixpoint ascending (d : list (Z * S)) : Prop := match d with [] => True | (c, _) :: d => above c d /\ ascending d end.
Lemma add_entry_in c l d k x : In (k, x) (add_entry add c l d) -> k = c \/ exists y, In (k, y) d.
Proof.
  induction d as [|[c' l'] d IH]; cbn; [intros [[= <- <-]|[]]; auto|].
  destruct (c =? c') eqn:E1.
  - intros [[= <- <-]|H]; right; eauto.
  - destruct (c <? c').
    + intros [[= <- <-]|[[= <- <-]|H]]; eauto.
    + intros [[= <- <-]|H]; [right; eauto|]. destruct (IH H) as [?|[y ?]]; eauto.
Qed.
Lemma add_entry_asc c l d : ascending d -> ascending (add_entry add c l d).
Proof.
  induction d as [|[c' l'] d IH]; cbn; [intros _; split; [intros ? ? []|exact I]|].
  intros [A1 A2]. destruct (c =? c') eqn:E1; [cbn; auto|]. destruct (c <? c') eqn:E2.
  - cbn. split; [|auto]. intros k x [[= <- <-]|H]; [lia|]. specialize (A1 _ _ H). lia.
  - cbn. split; [|auto]. intros k x H. destruct (add_entry_in _ _ _ _ _ H) as [->|[y Hy]]; [lia|eapply A1, Hy].
Qed.
Lemma asc_nodup d : ascending d -> NoDup (map fst d).
Proof.
  induction d as [|[c l] d IH]; cbn; [constructor|]. intros [A1 A2]. constructor; [|auto].
  intros H. apply in_map_iff in H. destruct H as ([c' l'] & E & H). cbn in E. subst c'. specialize (A1 _ _ H). lia.
Qed.
Lemma group_sum_gen e : forall d, ascending d -> let r := fold_left (fun d '(c, l) => add_entry add c l d) e d in
  ascending r /\ (forall k, esum r k = add (esum d k) (esum e k)) /\ forall k x, In (k, x) r -> (exists y, In (k, y) e) \/ exists y, In (k, y) d.
Proof.
  induction e as [|[c l] e IH]; intros d A r; unfold r; cbn [fold_left].
  - split; [exact A|]. split; [intros k; unfold esum at 3; rewrite sum_nil'; symmetry; apply add0r|]. intros k x H. right. eauto.
  - destruct (IH (add_entry add c l d) (add_entry_asc c l d A)) as (R1 & R2 & R3). split; [exact R1|]. split.
    + intros k. rewrite R2, add_entry_esum. change (esum ((c, l) :: e) k) with (add (at_key k (c, l)) (esum e k)). rewrite (addC (at_key k (c, l))). symmetry. apply addA.
    + intros k x H. destruct (R3 k x H) as [[y Hy]|[y Hy]]; [left; exists y; right; exact Hy|].
      destruct (add_entry_in _ _ _ _ _ Hy) as [->|[z Hz]]; [left; exists l; left; reflexivity|right; eauto].
Qed.
Lemma group_sum_spec e : NoDup (map fst (group_sum add e)) /\ (forall k, esum (group_sum add e) k = esum e k) /\
  forall k x, In (k, x) (group_sum add e) -> exists y, In (k, y) e.
Proof.
  destruct (group_sum_gen e [] I) as (R1 & R2 & R3). split; [apply asc_nodup, R1|]. split.
  - intros k. unfold group_sum. rewrite R2. apply add0l.
  - intros k x H. destruct (R3 k x H) as [?|[y []]]; assumption.
Qed.

(* ---- output[indices] = lengths ---- *)
Lemma write_spec d : forall out : list S, NoDup (map fst d) -> (forall c l, In (c, l) d -> 0 <= c < len out) ->
  exists out', foldM (fun out '(c, l) => set out c l) d out = Ok out' /\ len out' = len out /\
    (forall c l, In (c, l) d -> get out' c = Ok l) /\ forall c, ~ In c (map fst d) -> get out' c = get out c.
Proof.
  induction d as [|[c l] d IH]; intros out N R.
  - exists out. repeat split; easy.
  - cbn [map fst] in N. inversion N as [|? ? N1 N2]; subst. cbn [foldM].
    destruct (set_range out c l (R c l (or_introl eq_refl))) as [o1 E1]. rewrite E1. cbn [rbind].
    pose proof (set_len _ _ _ _ E1) as L1.
    destruct (IH o1 N2) as (o2 & E2 & L2 & G1 & G2).
    { intros c' l' H. rewrite L1. apply (R c' l'). right. exact H. }
    exists o2. split; [exact E2|]. split; [lia|]. split.
    + intros c' l' [[= <- <-]|H]; [|apply G1, H]. rewrite G2 by exact N1. apply (get_set_same _ _ _ _ E1).
    + intros c' H. cbn [map fst In] in H. rewrite G2 by tauto. apply (get_set_other _ _ _ _ _ E1). tauto.
Qed.

Lemma map_core_spec {A B} (f : A -> res B) (P : A -> B -> Prop) l : (forall x, In x l -> exists y, f x = Ok y /\ P x y) ->
  exists ys, map_core f l = Ok ys /\ Forall2 P l ys.
Proof.
  induction l as [|x l IH]; intros H; [exists []; split; [reflexivity|constructor]|].
  destruct (H x (or_introl eq_refl)) as (y & E & Py). destruct IH as (ys & E2 & F); [intros; apply H; right; assumption|].
  exists (y :: ys). cbn. rewrite E. cbn [rbind]. rewrite E2. cbn [rbind]. split; [reflexivity|constructor; assumption].
Qed.

Definition covered n (gs : lines) : Prop := forall g w c, In (g, w) gs -> 0 <= c < n -> l_clip g c <> None -> l_near g c = true.
Lemma core_esum weighted n (gs : lines) d : 0 <= n -> covered n gs -> 
  map fst d = filter (near_lines gs) (zrange 0 n) -> (forall c l, In (c, l) d -> l = ltotal weighted gs c) ->
  NoDup (map fst d) /\ (forall c l, In (c, l) d -> 0 <= c < n) /\ forall c, 0 <= c < n -> esum d c = ltotal weighted gs c.
Proof.
  intros Hn Hc K V. assert (N : NoDup (map fst d)) by (rewrite K; apply NoDup_filter, NoDup_zrange).
  assert (R : forall c, In c (map fst d) -> 0 <= c < n) by (intros c H; rewrite K in H; apply filter_In in H; destruct H as [H _]; apply zrange_in, H).
  split; [exact N|]. split.
  - intros c l H. apply R. change c with (fst (c, l)). apply in_map, H.
  - intros c Hr. destruct (in_dec Z.eq_dec c (map fst d)) as [H|H].
    + apply in_map_iff in H. destruct H as ([c' l] & E & H). cbn in E. subst c'. rewrite (esum_nodup d N c l H). apply V, H.
    + rewrite (esum_absent d c H). symmetry. apply sum_zero. intros [g w] Hg. unfold line_length.
      destruct (l_clip g c) eqn:El; [|reflexivity]. exfalso. apply H. rewrite K. apply filter_In. split; [apply zrange_in; lia|].
      unfold near_lines. apply existsb_exists. exists (g, w). split; [exact Hg|]. apply (Hc g w c Hg Hr). congruence.
Qed.

Lemma explode_in (fs : list (@feature S)) g w : In (g, w) (explode fs) <-> exists f, In f fs /\ In g (f_lines f) /\ w = f_weight f.
Proof.
  unfold explode. rewrite in_flat_map. split.
  - intros (f & Hf & H). apply in_map_iff in H. destruct H as (l & [= <- <-] & Hl). eauto.
  - intros (f & Hf & Hg & ->). exists f. split; [exact Hf|]. apply in_map_iff. eauto.
Qed.
Lemma explode_total weighted fs c : ltotal weighted (explode fs) c = cell_total zero add mul weighted fs c.
Proof.
  unfold ltotal, cell_total, explode. rewrite sum_flat_map. apply sum_ext. intros f _. rewrite sum_map. reflexivity.
Qed.

Lemma get_indices_spec weighted n fs : 0 <= n -> buffers_cover n fs ->
  exists d, get_indices_and_lengths zero add mul weighted n fs = Ok d /\
    NoDup (map fst d) /\ (forall c l, In (c, l) d -> 0 <= c < n) /\ forall c, 0 <= c < n -> esum d c = cell_total zero add mul weighted fs c.
Proof.
  intros Hn HC. assert (Hc : covered n (explode fs)).
  { intros g w c H. apply explode_in in H. destruct H as (f & Hf & Hg & ->). apply HC with f; assumption. }
  unfold get_indices_and_lengths. cbv zeta. destruct (batch_size_of _ _) as [b|] eqn:Eb.
  - apply batch_size_range in Eb; [|apply len_nonneg].
    destruct (batches_spec b ltac:(lia) (length (explode fs)) (explode fs) ltac:(lia)) as (bs & E & C & _).
    rewrite E. cbn [rbind].
    destruct (map_core_spec (core zero add mul weighted n) (fun g d => (forall c l, In (c, l) d -> 0 <= c < n) /\ forall c, 0 <= c < n -> esum d c = ltotal weighted g c) bs) as (ds & E2 & F).
    { intros g Hg. destruct (core_spec weighted n g) as (d & Ed & K & V). exists d. split; [exact Ed|].
      refine (proj2 (core_esum weighted n g d Hn _ K V)). intros g' w c H. apply Hc with w. rewrite <- C. apply in_concat. eauto. }
    rewrite E2. cbn [rbind]. exists (group_sum add (concat ds)). split; [reflexivity|].
    destruct (group_sum_spec (concat ds)) as (G1 & G2 & G3). split; [exact G1|]. split.
    + intros c l H. destruct (G3 c l H) as [y Hy]. apply in_concat in Hy. destruct Hy as (d & Hd & Hy).
      clear - F Hd Hy. induction F as [|g d' bs ds P F IH]; [destruct Hd|]. destruct Hd as [->|Hd]; [eapply P, Hy|auto].
    + intros c Hr. rewrite G2, <- explode_total, <- C. unfold esum, ltotal. rewrite !sum_concat.
      clear - F Hr. induction F as [|g d' bs ds P F IH]; [reflexivity|]. rewrite !sum_cons'. f_equal; [apply P, Hr|exact IH].
  - destruct (core_spec weighted n (explode fs)) as (d & E & K & V). exists d. split; [exact E|].
    destruct (core_esum weighted n (explode fs) d Hn Hc K V) as (N & R & T). split; [exact N|]. split; [exact R|].
    intros c H. rewrite T by exact H. apply explode_total.
Qed.

Lemma length_block_spec weighted n fs : 0 <= n -> buffers_cover n fs ->
  exists out, length_block zero add mul weighted n fs = Ok out /\ len out = n /\
    forall c, 0 <= c < n -> get out c = Ok (cell_total zero add mul weighted fs c).
Proof.
  intros Hn HC. destruct fs as [|f fs]; [exists (full n zero); split; [reflexivity|]; split; [apply full_len, Hn|]; intros c H; apply get_full, H|].
  set (fs' := f :: fs) in *. change (length_block zero add mul weighted n fs') with (let* d := get_indices_and_lengths zero add mul weighted n fs' in foldM (fun out '(c, l) => set out c l) d (full n zero)).
  destruct (get_indices_spec weighted n fs' Hn HC) as (d & E & N & R & T). rewrite E. cbn [rbind].
  destruct (write_spec d (full n zero) N) as (out & E2 & L & G1 & G2).
  { intros c l H. rewrite full_len by exact Hn. eapply R, H. }
  rewrite full_len in L by exact Hn. exists out. split; [exact E2|]. split; [exact L|]. intros c H.
  rewrite <- T by exact H. destruct (in_dec Z.eq_dec c (map fst d)) as [I|I].
  - apply in_map_iff in I. destruct I as ([c' l] & Ec & I). cbn in Ec. subst c'. rewrite (esum_nodup d N c l I). apply G1, I.
  - rewrite (esum_absent d c I), G2 by exact I. apply get_full, H.
Qed.

Lemma length_raster_spec weighted n parts : 0 <= n -> buffers_cover n (concat parts) ->
  exists out, length_raster zero add mul weighted n parts = Ok out /\ len out = n /\
    forall c, 0 <= c < n -> get out c = Ok (cell_total zero add mul weighted (concat parts) c).
Proof.
  intros Hn HC.
  assert (G : forall parts acc, buffers_cover n (concat parts) -> len acc = n ->
    exists out, foldM (fun acc p => let* r := length_block zero add mul weighted n p in Ok (add_all add acc r)) parts acc = Ok out /\ len out = n /\
    forall c a, 0 <= c < n -> get acc c = Ok a -> get out c = Ok (add a (cell_total zero add mul weighted (concat parts) c))).
  { clear parts HC. induction parts as [|p parts IH]; intros acc HC L.
    - exists acc. split; [reflexivity|]. split; [exact L|]. intros c a H E. cbn. unfold cell_total. rewrite sum_nil', add0r. exact E.
    - cbn [foldM]. destruct (length_block_spec weighted n p Hn) as (r & Er & Lr & Gr).
      { intros f l c Hf. apply (HC f l c). cbn [concat]. apply in_or_app. left. exact Hf. }
      rewrite Er. cbn [rbind].
      assert (La : len (add_all add acc r) = n) by (unfold add_all; rewrite len_map; unfold len in *; rewrite combine_length; lia).
      destruct (IH (add_all add acc r)) as (out & Eo & Lo & Go).
      { intros f l c Hf. apply (HC f l c). cbn [concat]. apply in_or_app. right. exact Hf. }
      { exact La. }
      exists out. split; [exact Eo|]. split; [exact Lo|]. intros c a H Ea.
      rewrite (Go c (add a (cell_total zero add mul weighted p c)) H).
      + f_equal. cbn [concat]. unfold cell_total. rewrite sum_app. symmetry. apply addA.
      + unfold add_all. rewrite get_map_eq. rewrite (PadProofs.get_combine' acc r c a _ Ea (Gr c H)). reflexivity. }
  destruct (G parts (full n zero) HC (full_len n zero Hn)) as (out & E & L & Go). exists out. split; [exact E|]. split; [exact L|].
  intros c H. rewrite (Go c zero H (get_full n zero c H)), add0l. reflexivity.
Qed.
End Exact.
