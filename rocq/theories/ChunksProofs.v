From Verif Require Import BaseFacts Chunks ChunksSpec.
From Coq Require Import ZifyBool ZifyNat Ascii Sorted.
Open Scope Z_scope.

(* ---------------- chunk locations ---------------- *)

Fixpoint locs_from (s : Z) (cs : list Z) : list (Z * Z) :=
  match cs with [] => [] | c :: cs => (s, s + c) :: locs_from (s + c) cs end.

Lemma locations_from cs : forall s acc,
  snd (fold_left (fun '(start, spans) c => (start + c, spans ++ [(start, start + c)])) cs (s, acc))
  = acc ++ locs_from s cs.
Proof.
  induction cs as [|c cs IH]; intros s acc; cbn; [now rewrite app_nil_r|].
  rewrite IH, <- app_assoc. reflexivity.
Qed.

Lemma locations_eq cs : chunks_to_array_locations cs = locs_from 0 cs.
Proof. unfold chunks_to_array_locations. now rewrite locations_from. Qed.

Definition start_of (cs : list Z) (k : Z) : Z := sum (firstn (Z.to_nat k) cs).

Lemma get_cons {A} (a : A) l k : 0 < k -> get (a :: l) k = get l (k - 1).
Proof.
  intros H. unfold get. destruct (k <? 0) eqn:E1; [lia|]. destruct (k - 1 <? 0) eqn:E2; [lia|].
  replace (Z.to_nat k) with (S (Z.to_nat (k - 1))) by lia. reflexivity.
Qed.
Lemma get_cons0 {A} (a : A) l : get (a :: l) 0 = Ok a.
Proof. reflexivity. Qed.
Lemma len_cons {A} (a : A) l : len (a :: l) = 1 + len l.
Proof. unfold len. cbn [length]. lia. Qed.
Lemma len_nil {A} : len (@nil A) = 0.
Proof. reflexivity. Qed.

Lemma get_nil {A} k (c : A) : get [] k = Ok c -> False.
Proof. intros G. apply get_ok_range in G. change (0 <= k < 0) in G. lia. Qed.

Lemma start_cons c cs k : 0 < k -> start_of (c :: cs) k = c + start_of cs (k - 1).
Proof.
  intros H. unfold start_of. replace (Z.to_nat k) with (S (Z.to_nat (k - 1))) by lia. reflexivity.
Qed.

Lemma locs_get cs : forall s k c, get cs k = Ok c ->
  get (locs_from s cs) k = Ok (s + start_of cs k, s + start_of cs k + c).
Proof.
  induction cs as [|c0 cs IH]; intros s k c G; [now apply get_nil in G|].
  pose proof (get_ok_range _ _ _ G) as R. cbn [locs_from].
  destruct (Z.eq_dec k 0) as [E0|N]; [subst k|].
  - rewrite get_cons0 in G. rewrite get_cons0. injection G as <-. unfold start_of. cbn. do 2 f_equal; lia.
  - rewrite get_cons in G by lia. rewrite get_cons by lia. rewrite (IH _ _ _ G), start_cons by lia. do 2 f_equal; lia.
Qed.

Lemma locs_len cs : forall s, len (locs_from s cs) = len cs.
Proof. induction cs as [|c cs IH]; intros s; cbn [locs_from]; [reflexivity|]. rewrite !len_cons, IH. lia. Qed.

Lemma locs_consecutive cs : Forall (fun c => 0 <= c) cs -> forall s, consecutive s (s + sum cs) (locs_from s cs).
Proof.
  induction 1 as [|c cs H HF IH]; intros s; cbn [locs_from consecutive]; [cbn; lia|].
  split; [reflexivity|]. split; [lia|]. change (sum (c :: cs)) with (c + sum cs).
  replace (s + (c + sum cs)) with (s + c + sum cs) by lia. apply IH.
Qed.

Lemma locations_spec cs : Forall (fun c => 0 <= c) cs ->
  len (chunks_to_array_locations cs) = len cs
  /\ consecutive 0 (sum cs) (chunks_to_array_locations cs)
  /\ forall k lo hi, get (chunks_to_array_locations cs) k = Ok (lo, hi) -> get cs k = Ok (hi - lo).
Proof.
  intros H. rewrite locations_eq. split; [apply locs_len|]. split; [exact (locs_consecutive cs H 0)|].
  intros k lo hi G. pose proof (get_ok_range _ _ _ G) as R. rewrite locs_len in R.
  destruct (get_range cs k R) as (c & Gc). rewrite (locs_get cs 0 k c Gc) in G. injection G as <- <-.
  rewrite Gc. f_equal. lia.
Qed.

Lemma consecutive_bounds rs : forall a b, consecutive a b rs -> a <= b /\
  forall k lo hi, get rs k = Ok (lo, hi) -> a <= lo <= hi /\ hi <= b.
Proof.
  induction rs as [|[lo hi] rs IH]; intros a b H; cbn in H.
  - split; [lia|]. intros k lo hi G. now apply get_nil in G.
  - destruct H as (-> & L & H). destruct (IH _ _ H) as [L' Hk]. split; [lia|].
    intros k lo hi0 G. destruct (Z.eq_dec k 0) as [E0|N]; [subst k|].
    + rewrite get_cons0 in G. injection G as <- <-. lia.
    + pose proof (get_ok_range _ _ _ G). rewrite get_cons in G by lia. specialize (Hk _ _ _ G). lia.
Qed.

Lemma consecutive_find rs : forall a b, consecutive a b rs -> forall i, a <= i < b ->
  exists k lo hi, get rs k = Ok (lo, hi) /\ lo <= i < hi
    /\ forall k' lo' hi', get rs k' = Ok (lo', hi') -> lo' <= i < hi' -> k' = k.
Proof.
  induction rs as [|[lo hi] rs IH]; intros a b H i Hi; cbn in H; [lia|].
  destruct H as (-> & L & H).
  destruct (Z_lt_ge_dec i hi) as [E|E].
  - exists 0, a, hi. split; [reflexivity|]. split; [lia|]. intros k' lo' hi' G R.
    destruct (Z.eq_dec k' 0) as [|N]; [assumption|].
    pose proof (get_ok_range _ _ _ G). rewrite get_cons in G by lia.
    pose proof (proj2 (consecutive_bounds _ _ _ H) _ _ _ G). lia.
  - destruct (IH _ _ H i ltac:(lia)) as (k & lo & hi' & G & R & U).
    pose proof (get_ok_range _ _ _ G) as RG.
    exists (k + 1), lo, hi'. rewrite get_cons by lia. replace (k + 1 - 1) with k by lia.
    split; [exact G|]. split; [exact R|]. intros k' lo' hi2 G' R'.
    destruct (Z.eq_dec k' 0) as [E0|N]; [subst k'|].
    + rewrite get_cons0 in G'. injection G' as <- <-. lia.
    + pose proof (get_ok_range _ _ _ G'). rewrite get_cons in G' by lia. specialize (U _ _ _ G' R'). lia.
Qed.

Lemma locations_unique cs i : Forall (fun c => 0 <= c) cs -> 0 <= i < sum cs ->
  exists! k, exists lo hi, get (chunks_to_array_locations cs) k = Ok (lo, hi) /\ lo <= i < hi.
Proof.
  intros H Hi. destruct (locations_spec cs H) as (_ & C & _).
  destruct (consecutive_find _ _ _ C i Hi) as (k & lo & hi & G & R & U).
  exists k. split; [eauto|]. intros k' (lo' & hi' & G' & R'). symmetry. eauto.
Qed.

(* ---------------- slices ---------------- *)

Lemma skipn_add {A} (l : list A) n m : skipn m (skipn n l) = skipn (n + m) l.
Proof.
  revert n. induction l as [|a l IH]; intros [|n]; cbn; [destruct m| destruct m| |]; auto.
Qed.

Lemma slice_app {A} (l : list A) a b c : 0 <= a <= b -> b <= c ->
  slice l a b ++ slice l b c = slice l a c.
Proof.
  intros H1 H2. unfold slice. replace (Z.to_nat (c - a)) with (Z.to_nat (b - a) + Z.to_nat (c - b))%nat by lia.
  replace (Z.to_nat b) with (Z.to_nat a + Z.to_nat (b - a))%nat by lia.
  generalize (Z.to_nat a) (Z.to_nat (b - a)) (Z.to_nat (c - b)). clear. intros n m k.
  rewrite <- (firstn_skipn m (firstn (m + k) (skipn n l))).
  rewrite firstn_firstn, skipn_firstn_comm, skipn_add.
  replace (Nat.min m (m + k)) with m by lia. replace (m + k - m)%nat with k by lia.
  reflexivity.
Qed.
Lemma slice_all {A} (l : list A) n : len l = n -> slice l 0 n = l.
Proof. unfold len, slice. intros <-. cbn. rewrite Z.sub_0_r, Nat2Z.id. apply firstn_all. Qed.

Lemma in_slice {A} (l : list A) a b x : In x (slice l a b) -> In x l.
Proof.
  unfold slice. intros H. rewrite <- (firstn_skipn (Z.to_nat a) l). apply in_or_app. right.
  rewrite <- (firstn_skipn (Z.to_nat (b - a)) (skipn _ l)). apply in_or_app. now left.
Qed.

Lemma get_in {A} (l : list A) i x : get l i = Ok x -> In x l.
Proof.
  unfold get. destruct (i <? 0); [discriminate|]. destruct (nth_error l _) eqn:E; [|discriminate].
  intros [= <-]. eapply nth_error_In; eauto.
Qed.

Lemma get_slice3 {A} (a : arr3 A) bs ys xs b i j :
  0 <= fst bs -> 0 <= fst ys -> 0 <= fst xs ->
  0 <= b < snd bs - fst bs -> 0 <= i < snd ys - fst ys -> 0 <= j < snd xs - fst xs ->
  get3 (slice3 a bs ys xs) b i j = get3 a (fst bs + b) (fst ys + i) (fst xs + j).
Proof.
  intros. unfold get3, slice3. rewrite get_map_eq, get_slice by lia.
  destruct (get a (fst bs + b)) as [p|]; cbn; [|reflexivity].
  rewrite get_map_eq, get_slice by lia. destruct (get p (fst ys + i)) as [r|]; cbn; [|reflexivity].
  now rewrite get_slice by lia.
Qed.

Lemma shape_slice3 {A} (a : arr3 A) n ny nx bs ys xs : shape3 n ny nx a ->
  0 <= fst bs <= snd bs -> snd bs <= n -> 0 <= fst ys <= snd ys -> snd ys <= ny ->
  0 <= fst xs <= snd xs -> snd xs <= nx ->
  shape3 (snd bs - fst bs) (snd ys - fst ys) (snd xs - fst xs) (slice3 a bs ys xs).
Proof.
  intros [L F] B1 B2 Y1 Y2 X1 X2. unfold slice3. split.
  - rewrite len_map, slice_len; lia.
  - rewrite Forall_forall in *. intros p Hp. apply in_map_iff in Hp. destruct Hp as (q & <- & Hq).
    apply in_slice in Hq. destruct (F q Hq) as [Lq Fq]. split; [rewrite len_map, slice_len; lia|].
    rewrite Forall_forall in *. intros r Hr. apply in_map_iff in Hr. destruct Hr as (s & <- & Hs).
    apply in_slice in Hs. specialize (Fq s Hs). rewrite slice_len; lia.
Qed.

(* ---------------- quadrants ---------------- *)

Lemma beside_slices {A} (p : list (list A)) x nx : 0 <= x <= nx -> Forall (fun r => len r = nx) p ->
  beside (map (fun r => slice r 0 x) p) (map (fun r => slice r x nx) p) = p.
Proof.
  intros Hx F. induction F as [|r p L F IH]; cbn; [reflexivity|].
  rewrite IH, slice_app by lia. now rewrite slice_all.
Qed.

Lemma map_combine_same {A B} (f : B * B -> B) (g h : A -> B) (k : A -> B) l :
  (forall a, In a l -> f (g a, h a) = k a) -> map f (combine (map g l) (map h l)) = map k l.
Proof.
  induction l as [|a l IH]; cbn; intros H; [reflexivity|]. rewrite IH by auto. now rewrite H by auto.
Qed.

Lemma slice3_quads {A} (a : arr3 A) n ny nx : shape3 n ny nx a -> 0 <= ny -> 0 <= nx ->
  above3 (beside3 (slice3 a (0, n) (0, ny / 2) (0, nx / 2)) (slice3 a (0, n) (0, ny / 2) (nx / 2, nx)))
         (beside3 (slice3 a (0, n) (ny / 2, ny) (0, nx / 2)) (slice3 a (0, n) (ny / 2, ny) (nx / 2, nx))) = a.
Proof.
  intros [L F] Hy Hx. unfold slice3, beside3, above3. cbn [fst snd]. rewrite slice_all by exact L.
  assert (HY : 0 <= ny / 2 <= ny) by (split; [apply Z.div_pos|apply Z.div_le_upper_bound]; lia).
  assert (HX : 0 <= nx / 2 <= nx) by (split; [apply Z.div_pos|apply Z.div_le_upper_bound]; lia).
  rewrite Forall_forall in F.
  rewrite (map_combine_same _ _ _ (fun p => slice p 0 (ny / 2))).
  - rewrite (map_combine_same _ _ _ (fun p => slice p (ny / 2) ny)).
    + rewrite (map_combine_same _ _ _ (fun p => p)); [apply map_id|].
      intros p Hp. rewrite slice_app by lia. apply slice_all. apply F; auto.
    + intros p Hp. apply beside_slices; [lia|]. rewrite Forall_forall. intros r Hr.
      apply in_slice in Hr. destruct (F p Hp) as [_ Fp]. rewrite Forall_forall in Fp. auto.
  - intros p Hp. apply beside_slices; [lia|]. rewrite Forall_forall. intros r Hr.
    apply in_slice in Hr. destruct (F p Hp) as [_ Fp]. rewrite Forall_forall in Fp. auto.
Qed.

Lemma well_shaped_slices {A C} (r : raster A C) n ny nx ys xs : well_shaped n ny nx r ->
  0 <= fst ys <= snd ys -> snd ys <= ny -> 0 <= fst xs <= snd xs -> snd xs <= nx ->
  well_shaped n (snd ys - fst ys) (snd xs - fst xs) (quadrant r ys xs).
Proof.
  intros (D & M & B & Y & X) HY1 HY2 HX1 HX2. unfold quadrant, well_shaped. cbn.
  assert (0 <= n) by (destruct D as [<- _]; apply len_nonneg).
  rewrite (proj1 D).
  assert (SH : forall {T} (a : arr3 T), shape3 n ny nx a ->
    shape3 n (snd ys - fst ys) (snd xs - fst xs) (slice3 a (0, n) ys xs)).
  { intros T a Ha. pose proof (shape_slice3 a n ny nx (0, n) ys xs Ha) as Q. cbn [fst snd] in Q.
    rewrite Z.sub_0_r in Q. apply Q; lia. }
  split; [now apply SH|]. split; [now apply SH|]. split; [exact B|].
  split; apply slice_len; lia.
Qed.

Lemma quadrants_spec {A C} (r : raster A C) n ny nx : well_shaped n ny nx r ->
  exists nw ne sw se, to_quadrants r ny nx = [nw; ne; sw; se]
    /\ well_shaped n (ny / 2) (nx / 2) nw /\ well_shaped n (ny / 2) (nx - nx / 2) ne
    /\ well_shaped n (ny - ny / 2) (nx / 2) sw /\ well_shaped n (ny - ny / 2) (nx - nx / 2) se
    /\ above3 (beside3 (r_data nw) (r_data ne)) (beside3 (r_data sw) (r_data se)) = r_data r
    /\ above3 (beside3 (r_mask nw) (r_mask ne)) (beside3 (r_mask sw) (r_mask se)) = r_mask r
    /\ r_y ne = r_y nw /\ r_y se = r_y sw /\ r_y nw ++ r_y sw = r_y r
    /\ r_x sw = r_x nw /\ r_x se = r_x ne /\ r_x nw ++ r_x ne = r_x r
    /\ r_band nw = r_band r /\ r_band ne = r_band r /\ r_band sw = r_band r /\ r_band se = r_band r.
Proof.
  intros W. pose proof W as (D & M & B & Y & X).
  assert (0 <= ny) by (rewrite <- Y; apply len_nonneg).
  assert (0 <= nx) by (rewrite <- X; apply len_nonneg).
  assert (HY : 0 <= ny / 2 <= ny) by (split; [apply Z.div_pos|apply Z.div_le_upper_bound]; lia).
  assert (HX : 0 <= nx / 2 <= nx) by (split; [apply Z.div_pos|apply Z.div_le_upper_bound]; lia).
  do 4 eexists. split; [reflexivity|]. cbn [fst snd].
  repeat split;
  try (match goal with |- _ (quadrant _ ?ys ?xs) =>
         let H := fresh in pose proof (well_shaped_slices r n ny nx ys xs W) as H; cbn [fst snd] in H;
         rewrite ?Z.sub_0_r in H; apply H; lia end).
  all: try (match goal with |- len _ = _ => idtac | |- Forall _ _ => idtac end;
    match goal with |- context [quadrant _ ?ys ?xs] =>
         let H := fresh in pose proof (well_shaped_slices r n ny nx ys xs W) as H; cbn [fst snd] in H;
         rewrite ?Z.sub_0_r in H; apply H; lia end).
  - unfold quadrant. cbn [r_data]. rewrite (proj1 D). now apply slice3_quads.
  - unfold quadrant. cbn [r_mask]. rewrite (proj1 D). now apply slice3_quads.
  - unfold quadrant. cbn [r_y fst snd]. rewrite slice_app by lia. now apply slice_all.
  - unfold quadrant. cbn [r_x fst snd]. rewrite slice_app by lia. now apply slice_all.
Qed.

(* ---------------- chunk rasters ---------------- *)

(* for k, c in enumerate(l), with a running total *)
Lemma foldM_enumerate {S} (f : S -> Z * Z -> res S) (I : Z -> S -> Prop) cs s :
  I 0 s ->
  (forall k c s, get cs k = Ok c -> I k s -> exists s', f s (k, c) = Ok s' /\ I (k + 1) s') ->
  exists s', foldM f (enumerate cs) s = Ok s' /\ I (len cs) s'.
Proof.
  intros H0 HS.
  assert (G : forall pre suf s, cs = pre ++ suf -> I (len pre) s ->
    exists s', foldM f (combine (map (fun k => len pre + k) (zrange 0 (len suf))) suf) s = Ok s' /\ I (len cs) s').
  { intros pre suf. revert pre. induction suf as [|c suf IH]; intros pre s0 E HI.
    - exists s0. split; [reflexivity|]. rewrite E, app_nil_r. exact HI.
    - assert (Gc : get cs (len pre) = Ok c).
      { unfold get, len. replace (Z.of_nat (length pre) <? 0) with false by lia.
        rewrite Nat2Z.id, E, nth_error_app2, Nat.sub_diag by lia. reflexivity. }
      destruct (HS _ _ _ Gc HI) as (s1 & E1 & I1).
      rewrite len_cons. pose proof (len_nonneg suf). rewrite zrange_cons by lia.
      cbn [map combine foldM]. rewrite Z.add_0_r, E1. cbn [rbind].
      replace (1 + len suf - 1) with (len suf) by lia.
      destruct (IH (pre ++ [c]) s1) as (s2 & E2 & I2).
      + rewrite <- app_assoc. exact E.
      + replace (len (pre ++ [c])) with (len pre + 1) by (unfold len; rewrite app_length; cbn [length]; lia). exact I1.
      + exists s2. split; [|exact I2]. rewrite map_map.
        rewrite (map_ext _ (fun k => len (pre ++ [c]) + k)); [exact E2|].
        intros a. unfold len. rewrite app_length. cbn [length]. lia. }
  destruct (G [] cs s eq_refl H0) as (s' & E & HI). exists s'. split; [|exact HI].
  unfold enumerate. rewrite (map_ext _ (fun k => k)) in E by (intros; rewrite len_nil; lia). now rewrite map_id in E.
Qed.

Lemma start_next cs k c : get cs k = Ok c -> start_of cs (k + 1) = start_of cs k + c.
Proof.
  revert k. induction cs as [|c0 cs IH]; intros k G; [now apply get_nil in G|]; pose proof (get_ok_range _ _ _ G) as R.
  destruct (Z.eq_dec k 0) as [E0|N]; [subst k|].
  - rewrite get_cons0 in G. injection G as <-. change (c0 + 0 = 0 + c0). lia.
  - rewrite get_cons in G by lia. rewrite !start_cons by lia.
    replace (k + 1 - 1) with (k - 1 + 1) by lia. rewrite (IH _ G). lia.
Qed.

Lemma sum_cons c cs : sum (c :: cs) = c + sum cs.
Proof. reflexivity. Qed.

Lemma sum_nonneg cs : Forall (fun c => 0 <= c) cs -> 0 <= sum cs.
Proof. induction 1; [cbn; lia|]. rewrite sum_cons. lia. Qed.

Lemma forall_firstn {A} (P : A -> Prop) l n : Forall P l -> Forall P (firstn n l).
Proof. intros H. revert n. induction H; intros [|n]; cbn; auto. Qed.

Lemma sum_app l1 l2 : sum (l1 ++ l2) = sum l1 + sum l2.
Proof. induction l1 as [|c l1 IH]; [reflexivity|]. cbn [app]. rewrite !sum_cons, IH. lia. Qed.

Lemma start_range cs k c : Forall (fun c => 0 <= c) cs -> get cs k = Ok c ->
  0 <= start_of cs k /\ 0 <= c /\ start_of cs k + c <= sum cs.
Proof.
  intros F G. assert (0 <= c) by (eapply Forall_forall; [exact F|eapply get_in; eauto]).
  pose proof (start_next _ _ _ G) as E. unfold start_of in *.
  split; [apply sum_nonneg, forall_firstn, F|]. split; [assumption|].
  rewrite <- E. rewrite <- (firstn_skipn (Z.to_nat (k + 1)) cs) at 2. rewrite sum_app.
  assert (0 <= sum (skipn (Z.to_nat (k + 1)) cs)).
  { apply sum_nonneg. rewrite Forall_forall in *. intros x Hx. apply F.
    rewrite <- (firstn_skipn (Z.to_nat (k + 1)) cs). apply in_or_app. now right. }
  lia.
Qed.

Lemma set3_spec {A} (a : arr3 A) n ny nx i j k v : shape3 n ny nx a ->
  0 <= i < n -> 0 <= j < ny -> 0 <= k < nx ->
  exists a', set3 a i j k v = Ok a' /\ shape3 n ny nx a'
    /\ forall i' j' k', get3 a' i' j' k' = if (i' =? i) && (j' =? j) && (k' =? k) then Ok v else get3 a i' j' k'.
Proof.
  intros [L F] Hi Hj Hk. rewrite Forall_forall in F. unfold set3.
  destruct (get_range a i) as (p & Gp); [lia|]. rewrite Gp. cbn.
  destruct (F p (get_in _ _ _ Gp)) as [Lp Fp]. rewrite Forall_forall in Fp.
  destruct (get_range p j) as (r & Gr); [lia|]. rewrite Gr. cbn.
  pose proof (Fp r (get_in _ _ _ Gr)) as Lr.
  destruct (set_range r k v) as (r' & Er); [lia|]. rewrite Er. cbn.
  destruct (set_range p j r') as (p' & Ep); [lia|]. rewrite Ep. cbn.
  destruct (set_range a i p') as (a' & Ea); [lia|]. rewrite Ea. exists a'. split; [reflexivity|].
  assert (IN : forall {B} (l l' : list B) i x y, set l i x = Ok l' -> In y l' -> y = x \/ In y l).
  { intros B l l' i0 x y E H. unfold set in E. destruct (_ && _); [|discriminate]. injection E as <-.
    revert H. generalize (Z.to_nat i0) as m. clear. induction l as [|b l IH]; intros [|m]; cbn; intuition.
    destruct (IH _ H0); auto. }
  split.
  - split; [rewrite (set_len _ _ _ _ Ea); exact L|]. rewrite Forall_forall. intros q Hq.
    destruct (IN _ _ _ _ _ _ Ea Hq) as [->|Hq']; [|now apply F].
    split; [rewrite (set_len _ _ _ _ Ep); exact Lp|]. rewrite Forall_forall. intros s Hs.
    destruct (IN _ _ _ _ _ _ Ep Hs) as [->|Hs']; [|now apply Fp]. rewrite (set_len _ _ _ _ Er). exact Lr.
  - intros i' j' k'. unfold get3. destruct (Z.eqb_spec i' i) as [->|Ni].
    + rewrite (get_set_same _ _ _ _ Ea), Gp. cbn. destruct (Z.eqb_spec j' j) as [->|Nj].
      * rewrite (get_set_same _ _ _ _ Ep), Gr. cbn. destruct (Z.eqb_spec k' k) as [->|Nk].
        -- apply (get_set_same _ _ _ _ Er).
        -- apply (get_set_other _ _ _ _ _ Er). lia.
      * rewrite (get_set_other _ _ _ _ _ Ep) by lia. reflexivity.
    + rewrite (get_set_other _ _ _ _ _ Ea) by lia. reflexivity.
Qed.

Lemma empty3_spec {A} n ny nx : 0 <= n -> 0 <= ny -> 0 <= nx -> shape3 n ny nx (@empty3 A (n, ny, nx)).
Proof.
  intros. unfold empty3, shape3. rewrite full_len by lia. split; [reflexivity|].
  rewrite Forall_forall. intros p Hp. apply repeat_spec in Hp. subst p. rewrite full_len by lia.
  split; [reflexivity|]. rewrite Forall_forall. intros r Hr. apply repeat_spec in Hr. subst r. now apply full_len.
Qed.

Section ChunkRasters.
Context {A C : Type}.
Variables (r : raster A C) (bcs ycs xcs : list Z).
Hypothesis W : well_shaped (sum bcs) (sum ycs) (sum xcs) r.
Hypothesis B1 : Forall (fun c => c = 1) bcs.
Hypothesis Y0 : Forall (fun c => 0 <= c) ycs.
Hypothesis X0 : Forall (fun c => 0 <= c) xcs.

(* the piece at block (band, row, col) *)
Definition piece (band row col bc yc xc : Z) : raster A C :=
  let bs := (start_of bcs band, start_of bcs band + bc) in
  let ys := (start_of ycs row, start_of ycs row + yc) in
  let xs := (start_of xcs col, start_of xcs col + xc) in
  mkRaster (slice3 (r_data r) bs ys xs) (slice3 (r_mask r) bs ys xs) [1]
    (slice (r_y r) (fst ys) (snd ys)) (slice (r_x r) (fst xs) (snd xs)).

Lemma B0 : Forall (fun c => 0 <= c) bcs.
Proof. eapply Forall_impl; [|exact B1]. cbn; intros; lia. Qed.

(* blocks before (band, row, col) in row-major order are filled *)
Definition filled (band row col : Z) (out : arr3 (option (raster A C))) : Prop :=
  shape3 (len bcs) (len ycs) (len xcs) out
  /\ forall b y x bc yc xc, get bcs b = Ok bc -> get ycs y = Ok yc -> get xcs x = Ok xc ->
     b < band \/ (b = band /\ (y < row \/ (y = row /\ x < col))) ->
     get3 out b y x = Ok (Some (piece b y x bc yc xc)).

Lemma isel_piece band row col bc yc xc :
  get bcs band = Ok bc -> get ycs row = Ok yc -> get xcs col = Ok xc ->
  isel r (start_of bcs band, start_of bcs band + bc) (start_of ycs row, start_of ycs row + yc)
    (start_of xcs col, start_of xcs col + xc) = Ok (piece band row col bc yc xc).
Proof.
  intros Gb Gy Gx. unfold isel.
  pose proof (start_range _ _ _ B0 Gb) as Rb.
  assert (bc = 1) by (eapply (Forall_forall (fun c => c = 1)); [exact B1|eapply get_in; eauto]).
  assert (L : len (slice3 (r_data r) (start_of bcs band, start_of bcs band + bc)
     (start_of ycs row, start_of ycs row + yc) (start_of xcs col, start_of xcs col + xc)) = 1).
  { unfold slice3. rewrite len_map. cbn [fst snd]. rewrite slice_len; [lia|lia|].
    destruct W as ((-> & _) & _). lia. }
  rewrite L. reflexivity.
Qed.

Lemma chunk_rasters_run :
  exists out, get_chunk_rasters r bcs ycs xcs = Ok out /\ filled (len bcs) 0 0 out.
Proof.
  unfold get_chunk_rasters. cbv zeta.
  pose proof (len_nonneg bcs). pose proof (len_nonneg ycs). pose proof (len_nonneg xcs).
  set (I3 := fun k '(out, b, y, x) => b = start_of bcs k /\ y = 0 /\ x = 0 /\ filled k 0 0 out).
  match goal with |- context [foldM ?f (enumerate bcs) ?s] =>
    destruct (foldM_enumerate f I3 bcs s) as ([[[out b] y] x] & E & HI) end.
  - unfold I3. split; [reflexivity|]. split; [reflexivity|]. split; [reflexivity|]. split; [now apply empty3_spec|].
    intros b y x bc yc xc Gb Gy Gx HL. pose proof (get_ok_range _ _ _ Gb). pose proof (get_ok_range _ _ _ Gy).
    pose proof (get_ok_range _ _ _ Gx). lia.
  - intros band bc [[[out b] y] x] Gb (-> & -> & -> & HF).
    pose proof (get_ok_range _ _ _ Gb) as Rb.
    set (I2 := fun k '(out, b, y, x) => b = start_of bcs band /\ y = start_of ycs k /\ x = 0 /\ filled band k 0 out).
    match goal with |- context [foldM ?f (enumerate ycs) ?s] =>
      destruct (foldM_enumerate f I2 ycs s) as ([[[out2 b2] y2] x2] & E2 & HI2) end.
    + unfold I2. auto.
    + intros row yc [[[out1 b1] y1] x1] Gy (-> & -> & -> & HF1).
      pose proof (get_ok_range _ _ _ Gy) as Ry.
      set (I1 := fun k '(out, b, y, x) => b = start_of bcs band /\ y = start_of ycs row
                   /\ x = start_of xcs k /\ filled band row k out).
      match goal with |- context [foldM ?f (enumerate xcs) ?s] =>
        destruct (foldM_enumerate f I1 xcs s) as ([[[out0 b0] y0] x0] & E0 & HI0) end.
      * unfold I1. auto.
      * intros col xc [[[out3 b3] y3] x3] Gx (-> & -> & -> & HF3).
        pose proof (get_ok_range _ _ _ Gx) as Rx.
        rewrite (isel_piece _ _ _ _ _ _ Gb Gy Gx). cbn [rbind].
        destruct HF3 as [S3 F3].
        destruct (set3_spec out3 _ _ _ band row col (Some (piece band row col bc yc xc)) S3 Rb Ry Rx)
          as (out4 & E4 & S4 & G4).
        rewrite E4. cbn [rbind]. eexists. split; [reflexivity|]. cbv beta iota. unfold I1.
        split; [reflexivity|]. split; [reflexivity|]. split; [symmetry; now apply start_next|].
        split; [exact S4|]. intros b y x bc' yc' xc' Gb' Gy' Gx' HL. rewrite G4.
        destruct ((b =? band) && (y =? row) && (x =? col)) eqn:EQ.
        -- assert (b = band /\ y = row /\ x = col) as (-> & -> & ->) by lia. congruence.
        -- apply F3; auto. lia.
      * destruct HI0 as (-> & -> & -> & HF0). rewrite E0. cbn [rbind]. eexists. split; [reflexivity|].
        cbv beta iota. unfold I2.
        split; [reflexivity|]. split; [symmetry; now apply start_next|]. split; [reflexivity|].
        destruct HF0 as [S0 F0]. split; [exact S0|]. intros b y x bc0 yc0 xc0 Gb0 Gy0 Gx0 HL. apply F0; auto.
        pose proof (get_ok_range _ _ _ Gx0). lia.
    + destruct HI2 as (-> & -> & -> & HF2). rewrite E2. cbn [rbind]. eexists. split; [reflexivity|].
      cbv beta iota. unfold I3.
      split; [symmetry; now apply start_next|]. split; [reflexivity|]. split; [reflexivity|].
      destruct HF2 as [S2 F2]. split; [exact S2|]. intros b y x bc0 yc0 xc0 Gb0 Gy0 Gx0 HL. apply F2; auto.
      pose proof (get_ok_range _ _ _ Gy0). pose proof (get_ok_range _ _ _ Gx0). lia.
  - rewrite E. cbn [rbind]. destruct HI as (_ & _ & _ & HF). eauto.
Qed.

Lemma chunk_rasters_spec :
  exists out, get_chunk_rasters r bcs ycs xcs = Ok out
    /\ shape3 (len bcs) (len ycs) (len xcs) out
    /\ forall kb ky kx b0 b1 y0 y1 x0 x1,
       get (chunks_to_array_locations bcs) kb = Ok (b0, b1) ->
       get (chunks_to_array_locations ycs) ky = Ok (y0, y1) ->
       get (chunks_to_array_locations xcs) kx = Ok (x0, x1) ->
       exists p, get3 out kb ky kx = Ok (Some p)
         /\ well_shaped 1 (y1 - y0) (x1 - x0) p
         /\ r_band p = [1]
         /\ (forall i j, 0 <= i < y1 - y0 -> 0 <= j < x1 - x0 ->
              get3 (r_data p) 0 i j = get3 (r_data r) b0 (y0 + i) (x0 + j)
              /\ get3 (r_mask p) 0 i j = get3 (r_mask r) b0 (y0 + i) (x0 + j))
         /\ (forall i, 0 <= i < y1 - y0 -> get (r_y p) i = get (r_y r) (y0 + i))
         /\ (forall j, 0 <= j < x1 - x0 -> get (r_x p) j = get (r_x r) (x0 + j)).
Proof.
  destruct chunk_rasters_run as (out & E & SH & F). exists out. split; [exact E|]. split; [exact SH|].
  assert (LG : forall cs k lo hi, get (chunks_to_array_locations cs) k = Ok (lo, hi) ->
     exists c, get cs k = Ok c /\ lo = start_of cs k /\ hi = start_of cs k + c).
  { intros cs k lo hi G. rewrite locations_eq in G. pose proof (get_ok_range _ _ _ G) as R.
    rewrite locs_len in R. destruct (get_range cs k R) as (c & Gc). exists c.
    rewrite (locs_get _ 0 _ _ Gc) in G. injection G as <- <-. auto. }
  intros kb ky kx b0 b1 y0 y1 x0 x1 Gb Gy Gx.
  apply LG in Gb. destruct Gb as (bc & Gb & -> & ->).
  apply LG in Gy. destruct Gy as (yc & Gy & -> & ->).
  apply LG in Gx. destruct Gx as (xc & Gx & -> & ->).
  pose proof (start_range _ _ _ B0 Gb) as Rb. pose proof (start_range _ _ _ Y0 Gy) as Ry.
  pose proof (start_range _ _ _ X0 Gx) as Rx.
  assert (bc = 1) by (eapply (Forall_forall (fun c => c = 1)); [exact B1|eapply get_in; eauto]). subst bc.
  exists (piece kb ky kx 1 yc xc). pose proof (get_ok_range _ _ _ Gb).
  split; [apply F; auto; lia|].
  destruct W as (D & M & B & Y & X).
  assert (SH1 : forall {T} (a : arr3 T), shape3 (sum bcs) (sum ycs) (sum xcs) a ->
    shape3 1 (start_of ycs ky + yc - start_of ycs ky) (start_of xcs kx + xc - start_of xcs kx)
     (slice3 a (start_of bcs kb, start_of bcs kb + 1) (start_of ycs ky, start_of ycs ky + yc)
        (start_of xcs kx, start_of xcs kx + xc))).
  { intros T a Ha.
    pose proof (shape_slice3 a _ _ _ (start_of bcs kb, start_of bcs kb + 1) (start_of ycs ky, start_of ycs ky + yc)
        (start_of xcs kx, start_of xcs kx + xc) Ha) as Q. cbn [fst snd] in Q.
    replace (start_of bcs kb + 1 - start_of bcs kb) with 1 in Q by lia. apply Q; lia. }
  split.
  { unfold well_shaped, piece. cbn [r_data r_mask r_band r_y r_x fst snd].
    split; [now apply SH1|]. split; [now apply SH1|]. split; [reflexivity|].
    split; apply slice_len; lia. }
  split; [reflexivity|].
  unfold piece. cbn [r_data r_mask r_band r_y r_x fst snd].
  split; [|split].
  - intros i j Hi Hj. rewrite !get_slice3 by (cbn; lia). cbn [fst snd]. rewrite Z.add_0_r. auto.
  - intros i Hi. rewrite get_slice by lia. reflexivity.
  - intros j Hj. rewrite get_slice by lia. reflexivity.
Qed.

End ChunkRasters.

Lemma enumerate_cons {A} (a : A) l : exists l', enumerate (a :: l) = (0, a) :: l'.
Proof.
  unfold enumerate. rewrite len_cons. pose proof (len_nonneg l). rewrite zrange_cons by lia.
  cbn [combine]. eauto.
Qed.

(* several bands in one chunk: assign_coords fails *)
Lemma chunk_rasters_multiband {A C} (r : raster A C) n ny nx bc bcs yc ycs xc xcs :
  well_shaped n ny nx r -> 0 <= bc <= n -> bc <> 1 ->
  get_chunk_rasters r (bc :: bcs) (yc :: ycs) (xc :: xcs) = Err ValueError.
Proof.
  intros (D & _) Hb N1.
  assert (E : forall ys xs, isel r (0, bc) ys xs = Err ValueError).
  { intros. unfold isel.
    assert (L : len (slice3 (r_data r) (0, bc) ys xs) = bc).
    { unfold slice3. rewrite len_map. cbn [fst snd]. rewrite slice_len; [lia|lia|]. rewrite (proj1 D). lia. }
    rewrite L. destruct (bc =? 1) eqn:E; [lia|reflexivity]. }
  unfold get_chunk_rasters.
  destruct (enumerate_cons bc bcs) as (lb & ->). destruct (enumerate_cons yc ycs) as (ly & ->).
  destruct (enumerate_cons xc xcs) as (lx & ->).
  cbn [foldM]. change (0 + bc) with bc. rewrite E. reflexivity.
Qed.

(* ---------------- file names ---------------- *)

Definition dval (l : list Z) : Z := fold_left (fun acc d => 10 * acc + d) l 0.

Lemma dval_from l : forall acc, fold_left (fun acc d => 10 * acc + d) l acc = acc * 10 ^ len l + dval l.
Proof.
  unfold dval. induction l as [|d l IH]; intros acc; cbn [fold_left]; [rewrite len_nil; cbn; lia|].
  rewrite IH, (IH (10 * 0 + d)), len_cons, Z.pow_add_r by (pose proof (len_nonneg l); lia). ring.
Qed.

Lemma dval_cons d l : dval (d :: l) = d * 10 ^ len l + dval l.
Proof.
  transitivity ((10 * 0 + d) * 10 ^ len l + dval l); [exact (dval_from l (10 * 0 + d))|ring].
Qed.

Definition isdig (d : Z) := 0 <= d < 10.

Lemma dval_bound l : Forall isdig l -> 0 <= dval l < 10 ^ len l.
Proof.
  induction 1 as [|d l H F IH]; [cbn; lia|]. rewrite dval_cons, len_cons.
  pose proof (len_nonneg l). rewrite Z.pow_add_r by lia. unfold isdig in H. nia.
Qed.

Lemma dec_loop_spec fuel : forall n acc, 0 <= n < 2 ^ Z.of_nat fuel ->
  exists D, dec_loop fuel n (map digit acc) = map digit (D ++ acc) /\ Forall isdig D /\ dval D = n
    /\ (len D = 1 \/ 10 ^ (len D - 1) <= n) /\ (fuel <> O -> D <> []).
Proof.
  induction fuel as [|fuel IH]; intros n acc Hn.
  - cbn in Hn. exists []. cbn. assert (n = 0) by lia. subst n. repeat split; auto.
    right. cbn. lia.
  - cbn [dec_loop]. destruct (n <? 10) eqn:E.
    + exists [n]. cbn. repeat split; auto; try (unfold dval; cbn; lia).
      * constructor; [unfold isdig; lia|constructor].
      * intros _; discriminate.
    + assert (H10 : n mod 10 = n - 10 * (n / 10)) by (pose proof (Z.div_mod n 10); lia).
      assert (0 <= n mod 10 < 10) by (apply Z.mod_pos_bound; lia).
      destruct (IH (n / 10) (n mod 10 :: acc)) as (D & E1 & F & V & L & NE).
      { split; [apply Z.div_pos; lia|]. apply Z.div_lt_upper_bound; [lia|].
        rewrite Nat2Z.inj_succ, Z.pow_succ_r in Hn by lia. lia. }
      exists (D ++ [n mod 10]). cbn [map] in E1. rewrite E1, <- app_assoc. cbn [app].
      split; [reflexivity|]. split; [apply Forall_app; split; [exact F|constructor; auto]|].
      assert (LD : len (D ++ [n mod 10]) = len D + 1) by (unfold len; rewrite app_length; cbn [length]; lia).
      split; [|split].
      * unfold dval in *. rewrite fold_left_app, V. cbn [fold_left]. lia.
      * rewrite LD. right. replace (len D + 1 - 1) with (len D) by lia.
        destruct L as [L|L]; [rewrite L; lia|].
        destruct (Z.eq_dec (len D) 0) as [Z0|Z0]; [rewrite Z0; cbn; lia|].
        pose proof (len_nonneg D).
        replace (len D) with (1 + (len D - 1)) by lia. rewrite Z.pow_add_r by lia. lia.
      * intros _ HH. destruct D; discriminate HH.
Qed.

Lemma str_of_spec n : 0 <= n -> exists D, str_of n = map digit D /\ Forall isdig D /\ dval D = n
  /\ 1 <= len D /\ (len D = 1 \/ 10 ^ (len D - 1) <= n).
Proof.
  intros Hn. unfold str_of. replace (n <? 0) with false by lia.
  destruct (dec_loop_spec (S (Z.to_nat (Z.log2 n))) n []) as (D & E & F & V & L & NE).
  { split; [lia|]. rewrite Nat2Z.inj_succ. rewrite Z2Nat.id by apply Z.log2_nonneg.
    destruct (Z.eq_dec n 0) as [->|]; [cbn; lia|]. apply Z.log2_spec; lia. }
  exists D. rewrite app_nil_r in E. split; [exact E|]. split; [exact F|]. split; [exact V|].
  split; [|exact L]. destruct D; [exfalso; now apply NE|]. rewrite len_cons. pose proof (len_nonneg D). lia.
Qed.

Lemma width_bound n k : 0 <= k < n -> len (str_of k) <= width n.
Proof.
  intros H. unfold width.
  destruct (str_of_spec k) as (D & -> & F & V & L1 & L2); [lia|].
  destruct (str_of_spec (n - 1)) as (D' & -> & F' & V' & L1' & L2'); [lia|].
  rewrite !len_map. destruct L2 as [L2|L2]; [lia|].
  destruct (Z_le_gt_dec (len D) (len D')); [lia|]. exfalso.
  pose proof (dval_bound D' F') as B. rewrite V' in B.
  assert (10 ^ len D' <= 10 ^ (len D - 1)) by (apply Z.pow_le_mono_r; lia). lia.
Qed.

Lemma zpad_spec n k : 0 <= k < n -> exists D, zpad (width n) k = map digit D /\ Forall isdig D
  /\ dval D = k /\ len D = width n.
Proof.
  intros H. pose proof (width_bound n k H) as WB. unfold zpad.
  destruct (str_of_spec k) as (D & E & F & V & L1 & L2); [lia|]. rewrite E in *. rewrite len_map in *.
  exists (full (width n - len D) 0 ++ D). split.
  - rewrite map_app. f_equal. unfold full. clear. induction (Z.to_nat _); cbn; [reflexivity|]. f_equal. assumption.
  - split; [apply Forall_app; split; auto|split].
    + unfold full. apply Forall_forall. intros x Hx. apply repeat_spec in Hx. subst x. unfold isdig; lia.
    + rewrite <- V. unfold dval. rewrite fold_left_app. f_equal. unfold full. clear.
      induction (Z.to_nat _); cbn; auto.
    + unfold len. rewrite app_length. unfold full. rewrite repeat_length. unfold len in *. lia.
Qed.

Lemma digit_code d : isdig d -> nat_of_ascii (digit d) = (48 + Z.to_nat d)%nat.
Proof. unfold isdig, digit. intros H. apply nat_ascii_embedding. lia. Qed.

Lemma digit_inj d d' : isdig d -> isdig d' -> digit d = digit d' -> d = d'.
Proof.
  intros H H' E. apply (f_equal nat_of_ascii) in E. rewrite !digit_code in E by assumption.
  unfold isdig in *. lia.
Qed.

Lemma str_lt_app p a b : str_lt a b -> str_lt (p ++ a) (p ++ b).
Proof. intros H. induction p; cbn; auto. Qed.

Lemma str_lt_digits D : forall D' a b, Forall isdig D -> Forall isdig D' -> len D = len D' ->
  dval D < dval D' -> str_lt (map digit D ++ a) (map digit D' ++ b).
Proof.
  induction D as [|d D IH]; intros [|d' D'] a b F F' L V; rewrite ?len_cons, ?len_nil in L;
    try (pose proof (len_nonneg D)); try (pose proof (len_nonneg D')); try lia.
  inversion F as [|? ? Fd FD]; subst. inversion F' as [|? ? Fd' FD']; subst.
  rewrite !dval_cons in V. cbn [map app str_lt]. rewrite !digit_code by assumption.
  assert (LL : len D = len D') by lia. rewrite LL in V.
  pose proof (dval_bound D FD). pose proof (dval_bound D' FD'). rewrite LL in H1. unfold isdig in *.
  destruct (Z_lt_ge_dec d d') as [Lt|Ge]; [left; lia|].
  assert (d = d') by nia. subst d'. right. split; [reflexivity|]. apply IH; auto. lia.
Qed.

Lemma dval_inj D : forall D', Forall isdig D -> Forall isdig D' -> len D = len D' -> dval D = dval D' -> D = D'.
Proof.
  induction D as [|d D IH]; intros [|d' D'] F F' L V; rewrite ?len_cons, ?len_nil in L;
    try (pose proof (len_nonneg D)); try (pose proof (len_nonneg D')); try lia; auto.
  inversion F as [|? ? Fd FD]; subst. inversion F' as [|? ? Fd' FD']; subst.
  rewrite !dval_cons in V. assert (LL : len D = len D') by lia. rewrite LL in V.
  pose proof (dval_bound D FD). pose proof (dval_bound D' FD'). rewrite LL in H1. unfold isdig in *.
  assert (d = d') by nia. subst. f_equal. apply IH; auto. lia.
Qed.

(* comparing a padded number and what follows *)
Lemma zpad_lt n k k' a b : 0 <= k < n -> 0 <= k' < n -> k < k' \/ (k = k' /\ str_lt a b) ->
  str_lt (zpad (width n) k ++ a) (zpad (width n) k' ++ b).
Proof.
  intros H H' [L|[-> L]]; [|now apply str_lt_app].
  destruct (zpad_spec n k H) as (D & -> & F & V & LD). destruct (zpad_spec n k' H') as (D' & -> & F' & V' & LD').
  apply str_lt_digits; auto; lia.
Qed.

Lemma name_band_lt prefix ext n ny nx b r c b' r' c' :
  0 <= b < n -> 0 <= b' < n -> 0 <= r < ny -> 0 <= r' < ny -> 0 <= c < nx -> 0 <= c' < nx ->
  b < b' \/ (b = b' /\ (r < r' \/ (r = r' /\ c < c'))) ->
  str_lt (name_band prefix ext (width n) (width ny) (width nx) b r c)
         (name_band prefix ext (width n) (width ny) (width nx) b' r' c').
Proof.
  intros. unfold name_band. apply str_lt_app, str_lt_app. apply zpad_lt; auto.
  destruct H5 as [|[-> H5]]; [now left|right; split; [reflexivity|]]. apply str_lt_app, zpad_lt; auto.
  destruct H5 as [|[-> H5]]; [now left|right; split; [reflexivity|]]. apply str_lt_app, zpad_lt; auto.
Qed.

Lemma name_tile_lt prefix ext ny nx r c r' c' :
  0 <= r < ny -> 0 <= r' < ny -> 0 <= c < nx -> 0 <= c' < nx ->
  r < r' \/ (r = r' /\ c < c') ->
  str_lt (name_tile prefix ext (width ny) (width nx) r c) (name_tile prefix ext (width ny) (width nx) r' c').
Proof.
  intros. unfold name_tile. apply str_lt_app, str_lt_app. apply zpad_lt; auto.
  destruct H3 as [|[-> H5]]; [now left|right; split; [reflexivity|]]. apply str_lt_app, zpad_lt; auto.
Qed.

Lemma str_lt_irrefl a : ~ str_lt a a.
Proof. induction a; cbn; [auto|]. intros [H|[_ H]]; [lia|auto]. Qed.
Lemma str_lt_trans a : forall b c, str_lt a b -> str_lt b c -> str_lt a c.
Proof.
  induction a as [|x a IH]; intros [|y b] [|z c]; cbn; try tauto.
  intros [H|[-> H]] [H'|[-> H']]; try (left; lia). right. split; [reflexivity|eauto].
Qed.

Lemma zrange_sorted n : StronglySorted Z.lt (zrange 0 n).
Proof.
  unfold zrange. generalize (Z.to_nat (n - 0)). intros m. generalize 0%nat. induction m; intros s; cbn; constructor.
  - apply IHm.
  - rewrite Forall_forall. intros x Hx. apply in_map_iff in Hx. destruct Hx as (k & <- & Hk). apply in_seq in Hk. lia.
Qed.

Lemma sorted_app {A} (R : A -> A -> Prop) l l' : StronglySorted R l -> StronglySorted R l' ->
  (forall x y, In x l -> In y l' -> R x y) -> StronglySorted R (l ++ l').
Proof.
  induction 1 as [|a l S IH F]; cbn; intros S' H; [exact S'|]. constructor.
  - apply IH; intuition.
  - apply Forall_app. split; [exact F|]. rewrite Forall_forall. intros y Hy. apply H; auto.
Qed.

Lemma sorted_map {A B} (R : A -> A -> Prop) (R' : B -> B -> Prop) (f : A -> B) l :
  StronglySorted R l -> (forall x y, In x l -> In y l -> R x y -> R' (f x) (f y)) -> StronglySorted R' (map f l).
Proof.
  induction 1 as [|a l S IH F]; cbn; intros H; constructor.
  - apply IH. intros; apply H; auto.
  - rewrite Forall_forall in *. intros y Hy. apply in_map_iff in Hy. destruct Hy as (x & <- & Hx). apply H; auto.
Qed.

Lemma sorted_flat_map {A B} (R : A -> A -> Prop) (R' : B -> B -> Prop) (f : A -> list B) l :
  StronglySorted R l -> (forall a, In a l -> StronglySorted R' (f a)) ->
  (forall a b x y, In a l -> In b l -> R a b -> In x (f a) -> In y (f b) -> R' x y) ->
  StronglySorted R' (flat_map f l).
Proof.
  induction 1 as [|a l S IH F]; cbn; intros H1 H2; [constructor|]. apply sorted_app.
  - apply H1; auto.
  - apply IH; auto. intros; eapply (H2 a0 b); eauto.
  - rewrite Forall_forall in F. intros x y Hx Hy. apply in_flat_map in Hy. destruct Hy as (b & Hb & Hy).
    eapply (H2 a b); auto.
Qed.

Lemma ndindex2_in ny nx r c : In (r, c) (ndindex2 ny nx) <-> 0 <= r < ny /\ 0 <= c < nx.
Proof.
  unfold ndindex2. rewrite in_flat_map. split.
  - intros (x & Hx & H). apply in_map_iff in H. destruct H as (y & [= <- <-] & Hy).
    rewrite zrange_in in *. auto.
  - intros [H1 H2]. exists r. rewrite zrange_in. split; [exact H1|]. apply in_map_iff. exists c.
    rewrite zrange_in. auto.
Qed.
Lemma ndindex3_in n ny nx b r c : In (b, r, c) (ndindex3 n ny nx) <-> 0 <= b < n /\ 0 <= r < ny /\ 0 <= c < nx.
Proof.
  unfold ndindex3. rewrite in_flat_map. split.
  - intros (x & Hx & H). apply in_map_iff in H. destruct H as ([y1 y2] & [= <- <- <-] & Hy).
    rewrite zrange_in in *. rewrite ndindex2_in in Hy. cbn. auto.
  - intros (H1 & H2). exists b. rewrite zrange_in. split; [exact H1|]. apply in_map_iff. exists (r, c).
    rewrite ndindex2_in. auto.
Qed.

Lemma ndindex2_sorted ny nx : StronglySorted lex2 (ndindex2 ny nx).
Proof.
  unfold ndindex2. apply (sorted_flat_map Z.lt).
  - apply zrange_sorted.
  - intros r _. apply (sorted_map Z.lt); [apply zrange_sorted|]. intros x y _ _ H. right. cbn. auto.
  - intros a b x y _ _ H Hx Hy. apply in_map_iff in Hx, Hy. destruct Hx as (? & <- & _), Hy as (? & <- & _).
    left. exact H.
Qed.
Lemma ndindex3_sorted n ny nx : StronglySorted lex3 (ndindex3 n ny nx).
Proof.
  unfold ndindex3. apply (sorted_flat_map Z.lt).
  - apply zrange_sorted.
  - intros r _. apply (sorted_map lex2); [apply ndindex2_sorted|]. intros [x1 x2] [y1 y2] _ _ H. right. cbn. auto.
  - intros a b x y _ _ H Hx Hy. apply in_map_iff in Hx, Hy. destruct Hx as (? & <- & _), Hy as (? & <- & _).
    left. exact H.
Qed.

Lemma save_names_sorted prefix ext per_band n ny nx :
  StronglySorted str_lt (save_names prefix ext per_band n ny nx).
Proof.
  unfold save_names. destruct per_band.
  - apply (sorted_map lex3); [apply ndindex3_sorted|]. intros [[b r] c] [[b' r'] c'] H H' L.
    apply ndindex3_in in H, H'. apply name_band_lt; try tauto; exact L.
  - apply (sorted_map lex2); [apply ndindex2_sorted|]. intros [r c] [r' c'] H H' L.
    apply ndindex2_in in H, H'. apply name_tile_lt; try tauto; exact L.
Qed.

Lemma save_names_nodup prefix ext per_band n ny nx : NoDup (save_names prefix ext per_band n ny nx).
Proof.
  pose proof (save_names_sorted prefix ext per_band n ny nx) as H.
  induction H as [|a l S IH F]; constructor; auto. intros HI. rewrite Forall_forall in F.
  exact (str_lt_irrefl _ (F _ HI)).
Qed.

Lemma name_band_order prefix ext n ny nx p q :
  In p (ndindex3 n ny nx) -> In q (ndindex3 n ny nx) ->
  (str_lt (name_band prefix ext (width n) (width ny) (width nx) (fst (fst p)) (snd (fst p)) (snd p))
          (name_band prefix ext (width n) (width ny) (width nx) (fst (fst q)) (snd (fst q)) (snd q))
   <-> lex3 p q).
Proof.
  destruct p as [[b r] c], q as [[b' r'] c']. rewrite !ndindex3_in. intros Hp Hq. cbn [fst snd]. split.
  - intros L. unfold lex3, lex2. cbn.
    destruct (Z.lt_trichotomy b b') as [|[->|G]]; [now left| |].
    + destruct (Z.lt_trichotomy r r') as [|[->|G]]; [right; tauto| |].
      * destruct (Z.lt_trichotomy c c') as [|[->|G]]; [right; tauto| |].
        -- exfalso. exact (str_lt_irrefl _ L).
        -- exfalso. eapply str_lt_irrefl, str_lt_trans; [exact L|]. apply name_band_lt; try tauto.
      * exfalso. eapply str_lt_irrefl, str_lt_trans; [exact L|]. apply name_band_lt; try tauto.
    + exfalso. eapply str_lt_irrefl, str_lt_trans; [exact L|]. apply name_band_lt; try tauto.
  - unfold lex3, lex2. cbn. intros L. apply name_band_lt; tauto.
Qed.
