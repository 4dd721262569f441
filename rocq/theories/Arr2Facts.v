(* Facts about two-dimensional arrays: an array as the table of a function. *)
From Verif Require Import Base BaseFacts Chunks ChunksSpec ChunksProofs ProximityChunk Arr2.
From Coq Require Import Sorted.
Open Scope Z_scope.

Lemma in_get {A} (l : list A) x : In x l -> exists i, get l i = Ok x.
Proof.
  intros H. apply In_nth_error in H. destruct H as [n Hn]. exists (Z.of_nat n). unfold get.
  destruct (Z.of_nat n <? 0) eqn:E; [lia|]. now rewrite Nat2Z.id, Hn.
Qed.

(* the ny x nx array of the values f i j *)
Definition tab {A} (n : Z) (f : Z -> A) : list A := map f (zrange 0 n).
Definition tab2 {A} (ny nx : Z) (f : Z -> Z -> A) : arr2 A := tab ny (fun i => tab nx (f i)).

Lemma len_tab {A} n (f : Z -> A) : 0 <= n -> len (tab n f) = n.
Proof. intros. unfold tab. rewrite len_map, len_zrange. lia. Qed.
Lemma get_tab {A} n (f : Z -> A) i : 0 <= i < n -> get (tab n f) i = Ok (f i).
Proof. intros. unfold tab. rewrite get_map_eq, get_zrange by lia. cbn. do 2 f_equal. Qed.
Lemma tab_ext {A} n (f g : Z -> A) : (forall i, 0 <= i < n -> f i = g i) -> tab n f = tab n g.
Proof. intros H. unfold tab. apply map_ext_in. intros i Hi. apply H. now apply zrange_in. Qed.
Lemma tab2_ext {A} ny nx (f g : Z -> Z -> A) :
  (forall i j, 0 <= i < ny -> 0 <= j < nx -> f i j = g i j) -> tab2 ny nx f = tab2 ny nx g.
Proof. intros H. apply tab_ext. intros i Hi. apply tab_ext. intros j Hj. now apply H. Qed.
Lemma list_tab {A} n (l : list A) (f : Z -> A) : 0 <= n -> len l = n ->
  (forall i, 0 <= i < n -> get l i = Ok (f i)) -> l = tab n f.
Proof.
  intros Hn L H. apply list_ext. { now rewrite len_tab. }
  intros i x G. pose proof (get_ok_range _ _ _ G). rewrite H in G by lia. now rewrite get_tab by lia.
Qed.
Lemma get2_tab2 {A} ny nx (f : Z -> Z -> A) i j : 0 <= i < ny -> 0 <= j < nx ->
  get2 (tab2 ny nx f) i j = Ok (f i j).
Proof. intros Hi Hj. unfold get2, tab2. rewrite get_tab by lia. cbn [rbind]. now apply get_tab. Qed.

(* every rectangular array is a table *)
Definition rect {A} (ny nx : Z) (a : arr2 A) : Prop := len a = ny /\ Forall (fun r => len r = nx) a.
Lemma rect_tab2 {A} ny nx (f : Z -> Z -> A) : 0 <= ny -> 0 <= nx -> rect ny nx (tab2 ny nx f).
Proof.
  intros Hy Hx. split. { now apply len_tab. }
  apply Forall_forall. intros r Hr. unfold tab2, tab in Hr. apply in_map_iff in Hr. destruct Hr as (i & <- & _).
  now apply len_tab.
Qed.
Lemma rect_get2 {A} ny nx (a : arr2 A) i j : rect ny nx a -> 0 <= i < ny -> 0 <= j < nx ->
  exists x, get2 a i j = Ok x.
Proof.
  intros [L F] Hi Hj. unfold get2. destruct (get_range a i) as [r Er]; [lia|]. rewrite Er. cbn [rbind].
  apply get_range. rewrite Forall_forall in F. rewrite (F r); [lia|]. eapply get_in; eauto.
Qed.
Definition default2 {A} (d : A) (a : arr2 A) (i j : Z) : A :=
  match get2 a i j with Ok x => x | Err _ => d end.
Lemma rect_is_tab2 {A} (d : A) ny nx (a : arr2 A) : rect ny nx a -> 0 <= ny ->
  a = tab2 ny nx (default2 d a).
Proof.
  intros R Hy. pose proof R as [L F]. unfold tab2.
  apply list_tab; [lia|exact L|]. intros i Hi.
  destruct (get_range a i) as [r Er]; [lia|]. rewrite Er. f_equal.
  rewrite Forall_forall in F. pose proof (F r (get_in _ _ _ Er)) as Lr.
  assert (0 <= nx) by (rewrite <- Lr; apply len_nonneg).
  apply list_tab; [lia|exact Lr|]. intros j Hj. destruct (get_range r j) as [x Ex]; [lia|]. rewrite Ex. f_equal.
  unfold default2, get2. rewrite Er. cbn [rbind]. now rewrite Ex.
Qed.

Lemma set2_spec {A} (a : arr2 A) ny nx i j v : rect ny nx a -> 0 <= i < ny -> 0 <= j < nx ->
  exists a', set2 a i j v = Ok a' /\ rect ny nx a'
    /\ forall i' j', get2 a' i' j' = if (i' =? i) && (j' =? j) then Ok v else get2 a i' j'.
Proof.
  intros [L F] Hi Hj. unfold set2. destruct (get_range a i) as [r Er]; [lia|]. rewrite Er. cbn [rbind].
  rewrite Forall_forall in F. pose proof (F r (get_in _ _ _ Er)) as Lr.
  destruct (set_range r j v) as [r' Er']; [lia|]. rewrite Er'. cbn [rbind].
  destruct (set_range a i r') as [a' Ea']; [lia|]. rewrite Ea'. exists a'. split; [reflexivity|].
  split.
  - split; [now rewrite (set_len _ _ _ _ Ea')|]. apply Forall_forall. intros x Hx.
    apply In_nth_error in Hx. destruct Hx as [n Hx].
    assert (G : get a' (Z.of_nat n) = Ok x).
    { unfold get. destruct (Z.of_nat n <? 0) eqn:E; [lia|]. rewrite Nat2Z.id, Hx. reflexivity. }
    destruct (Z.eq_dec (Z.of_nat n) i) as [E|E].
    + rewrite E, (get_set_same _ _ _ _ Ea') in G. injection G as <-. now rewrite (set_len _ _ _ _ Er').
    + rewrite (get_set_other _ _ _ _ _ Ea') in G by lia. apply F. eapply get_in; eauto.
  - intros i' j'. unfold get2. destruct (i' =? i) eqn:EI; cbn [andb].
    + assert (i' = i) by lia. subst. rewrite (get_set_same _ _ _ _ Ea'), Er. cbn [rbind].
      destruct (j' =? j) eqn:EJ.
      * assert (j' = j) by lia. subst. apply (get_set_same _ _ _ _ Er').
      * apply (get_set_other _ _ _ _ _ Er'). lia.
    + rewrite (get_set_other _ _ _ _ _ Ea') by lia. reflexivity.
Qed.

(* a loop over l that stores f i j at (i, j) *)
Lemma fill2 {A} (f : Z -> Z -> A) (step : arr2 A -> Z * Z -> res (arr2 A)) ny nx l :
  (forall i j, In (i, j) l -> 0 <= i < ny /\ 0 <= j < nx) ->
  (forall out i j, In (i, j) l -> rect ny nx out -> step out (i, j) = set2 out i j (f i j)) ->
  forall out, rect ny nx out ->
  exists out', foldM step l out = Ok out' /\ rect ny nx out'
    /\ forall i j, In (i, j) l -> get2 out' i j = Ok (f i j).
Proof.
  induction l as [|[i j] l IH] using rev_ind; intros HR HS out R.
  - exists out. split; [reflexivity|]. split; [exact R|]. intros i j [].
  - destruct IH with (out := out) as (o1 & E1 & R1 & G1); [| |exact R|].
    { intros. apply HR. apply in_or_app. now left. }
    { intros. apply HS; [apply in_or_app; now left|assumption]. }
    rewrite foldM_app, E1. cbn [rbind foldM].
    assert (I : In (i, j) (l ++ [(i, j)])) by (apply in_or_app; right; now left).
    destruct (HR i j I) as (Hi & Hj). rewrite HS by assumption.
    destruct (set2_spec o1 ny nx i j (f i j) R1 Hi Hj) as (o2 & E2 & R2 & G2).
    rewrite E2. cbn [rbind]. exists o2. split; [reflexivity|]. split; [exact R2|].
    intros i' j' HI. rewrite G2. destruct ((i' =? i) && (j' =? j)) eqn:E.
    + assert (i' = i /\ j' = j) as [-> ->] by lia. reflexivity.
    + apply G1. apply in_app_or in HI. destruct HI as [HI|[HI|[]]]; [exact HI|]. injection HI as <- <-. lia.
Qed.

(* nested loops *)
Lemma foldM_flat_map {S A B} (f : S -> B -> res S) (g : A -> list B) l s :
  foldM f (flat_map g l) s = foldM (fun s x => foldM f (g x) s) l s.
Proof.
  revert s. induction l as [|x l IH]; intros s; [reflexivity|]. cbn [flat_map foldM].
  rewrite foldM_app. destruct (foldM f (g x) s); cbn [rbind]; [apply IH|reflexivity].
Qed.
Lemma foldM_map {S A B} (f : S -> B -> res S) (g : A -> B) l s :
  foldM f (map g l) s = foldM (fun s x => f s (g x)) l s.
Proof.
  revert s. induction l as [|x l IH]; intros s; [reflexivity|]. cbn [map foldM].
  destruct (f s (g x)); cbn [rbind]; [apply IH|reflexivity].
Qed.
Lemma foldM_ext {S A} (f g : S -> A -> res S) l s : (forall s x, In x l -> f s x = g s x) ->
  foldM f l s = foldM g l s.
Proof.
  revert s. induction l as [|x l IH]; intros s H; [reflexivity|]. cbn [foldM].
  rewrite H by now left. destruct (g s x); cbn [rbind]; [|reflexivity]. apply IH. intros. apply H. now right.
Qed.
Lemma foldM_nested {S} (f : S -> Z * Z -> res S) (l1 l2 : list Z) s :
  foldM (fun s r => foldM (fun s c => f s (r, c)) l2 s) l1 s
  = foldM f (flat_map (fun r => map (fun c => (r, c)) l2) l1) s.
Proof. rewrite foldM_flat_map. apply foldM_ext. intros s0 r _. now rewrite foldM_map. Qed.

Lemma zrange_in' a b i : In i (zrange a b) <-> a <= i < b.
Proof.
  unfold zrange. rewrite in_map_iff. split.
  - intros (k & <- & Hk). apply in_seq in Hk. lia.
  - intros H. exists (Z.to_nat (i - a)). split; [lia|]. apply in_seq. lia.
Qed.
Lemma zrange_shift a b : zrange a b = map (fun k => a + k) (zrange 0 (b - a)).
Proof.
  unfold zrange. rewrite map_map. replace (Z.to_nat (b - a - 0)) with (Z.to_nat (b - a)) by lia.
  apply map_ext. intros k. lia.
Qed.

Lemma traverse_ok {A B} (f : A -> res B) (g : A -> B) l : (forall x, In x l -> f x = Ok (g x)) ->
  traverse f l = Ok (map g l).
Proof.
  induction l as [|x l IH]; intros H; [reflexivity|]. cbn [traverse map]. rewrite H by now left. cbn [rbind].
  rewrite IH; [reflexivity|]. intros. apply H. now right.
Qed.
Lemma traverse_ext {A B} (f g : A -> res B) l : (forall x, In x l -> f x = g x) -> traverse f l = traverse g l.
Proof.
  induction l as [|x l IH]; intros H; [reflexivity|]. cbn [traverse]. rewrite H by now left.
  rewrite IH; [reflexivity|]. intros. apply H. now right.
Qed.

(* ---------------- the extended array ---------------- *)

Lemma extend_range b n i i' : 0 < n -> extend b n i = Some i' -> 0 <= i' < n.
Proof.
  unfold extend. intros Hn. destruct ((0 <=? i) && (i <? n)) eqn:E.
  - intros [= <-]. lia.
  - apply andb_false_iff in E. rewrite Z.leb_gt, Z.ltb_ge in E.
    assert (SI : forall a b : Z, Some a = Some b -> a = b) by congruence.
    pose proof (Z.mod_pos_bound i (2 * n) ltac:(lia)) as M. pose proof (Z.mod_pos_bound i n Hn).
    destruct b; try discriminate; cbv zeta; intros H'; apply SI in H'; subst i'.
    + destruct (Z.ltb_spec (i mod (2 * n)) n); lia.
    + destruct (Z.ltb_spec i 0); lia.
    + lia.
Qed.
Lemma extend_in b n i : 0 <= i < n -> extend b n i = Some i.
Proof. intros. unfold extend. now replace ((0 <=? i) && (i <? n)) with true by lia. Qed.

(* the extended array as a function *)
Definition cellf {A} (b : boundary) (cval : A) (f : Z -> Z -> A) (ny nx i j : Z) : A :=
  match extend b ny i, extend b nx j with
  | Some i', Some j' => f i' j'
  | _, _ => cval
  end.
Lemma cell_tab {A} b (cval : A) f ny nx i j : 0 < ny -> 0 < nx ->
  cell b cval (tab2 ny nx f) ny nx i j = Ok (cellf b cval f ny nx i j).
Proof.
  intros Hy Hx. unfold cell, cellf. destruct (extend b ny i) as [i'|] eqn:Ei; [|reflexivity].
  destruct (extend b nx j) as [j'|] eqn:Ej; [|reflexivity].
  apply get2_tab2; eapply extend_range; eauto.
Qed.
Lemma window_tab {A} b (cval : A) f ny nx r0 r1 c0 c1 : 0 < ny -> 0 < nx ->
  window b cval (tab2 ny nx f) ny nx r0 r1 c0 c1
  = Ok (tab2 (r1 - r0) (c1 - c0) (fun i j => cellf b cval f ny nx (r0 + i) (c0 + j))).
Proof.
  intros. unfold window.
  rewrite (traverse_ok _ (fun i => map (fun j => cellf b cval f ny nx i j) (zrange c0 c1))).
  - f_equal. unfold tab2, tab. rewrite (zrange_shift r0 r1), map_map. apply map_ext. intros i.
    rewrite (zrange_shift c0 c1), map_map. reflexivity.
  - intros i Hi. apply traverse_ok. intros j Hj. now apply cell_tab.
Qed.

Lemma slice_tab {A} n (f : Z -> A) lo hi : 0 <= lo <= hi -> hi <= n ->
  slice (tab n f) lo hi = tab (hi - lo) (fun i => f (lo + i)).
Proof.
  intros. apply list_tab; [lia| |].
  - rewrite slice_len; [lia|lia|rewrite len_tab; lia].
  - intros i Hi. rewrite get_slice by lia. rewrite get_tab by lia. reflexivity.
Qed.
Lemma trim2_rect {A} (a : arr2 A) ny nx dy dx f : rect ny nx a -> 0 <= dy -> 0 <= dx -> 2 * dy <= ny -> 2 * dx <= nx ->
  (forall i j, dy <= i < ny - dy -> dx <= j < nx - dx -> get2 a i j = Ok (f i j)) ->
  trim2 dy dx a = tab2 (ny - 2 * dy) (nx - 2 * dx) (fun i j => f (dy + i) (dx + j)).
Proof.
  intros R Hdy Hdx Hy Hx H. destruct (Z.eq_dec (ny - 2 * dy) 0) as [Z|NZ].
  { unfold tab2, tab. rewrite Z. unfold trim2. destruct R as [L _]. rewrite L. unfold slice.
    replace (ny - dy - dy) with 0 by lia. reflexivity. }
  pose proof R as [L F].
  destruct (Z.eq_dec (nx - 2 * dx) 0) as [Z0|NZ0].
  - unfold tab2. rewrite Z0. apply list_tab; [lia| |].
    + unfold trim2. rewrite len_map, slice_len; lia.
    + intros i Hi. unfold trim2. rewrite get_map_eq, get_slice by lia.
      destruct (get_range a (dy + i)) as [r Er]; [lia|]. rewrite Er. cbn. f_equal.
      rewrite Forall_forall in F. rewrite (F r) by (eapply get_in; eauto).
      unfold slice. replace (nx - dx - dx) with 0 by lia. reflexivity.
  - apply list_tab; [lia| |].
    + unfold trim2. rewrite len_map, slice_len; lia.
    + intros i Hi. unfold trim2. rewrite get_map_eq, get_slice by lia.
      destruct (get_range a (dy + i)) as [r Er]; [lia|]. rewrite Er. f_equal.
      rewrite Forall_forall in F. pose proof (F r (get_in _ _ _ Er)) as Lr.
      apply list_tab; [lia| |]. { rewrite slice_len; lia. }
      intros j Hj. rewrite get_slice by lia. specialize (H (dy + i) (dx + j)). unfold get2 in H.
      rewrite Er in H. cbn [rbind] in H. apply H; lia.
Qed.

(* ---------------- putting blocks together ---------------- *)

Lemma tab_app {A} n m (f : Z -> A) : 0 <= n -> 0 <= m -> tab n f ++ tab m (fun i => f (n + i)) = tab (n + m) f.
Proof.
  intros Hn Hm. symmetry. rewrite <- (slice_all (tab (n + m) f) (n + m)) by (rewrite len_tab; lia).
  rewrite <- (slice_app _ 0 n (n + m)) by lia. rewrite !slice_tab by lia. f_equal.
  - replace (n - 0) with n by lia. apply tab_ext. intros. f_equal.
  - replace (n + m - n) with m by lia. reflexivity.
Qed.
Lemma hcat_cons {A} (b : arr2 A) t : t <> [] -> hcat (b :: t) = map (fun '(x, y) => x ++ y) (combine b (hcat t)).
Proof. destruct t; [contradiction|reflexivity]. Qed.
Lemma combine_map {A B C} (f : A -> B) (g : A -> C) l : combine (map f l) (map g l) = map (fun x => (f x, g x)) l.
Proof. induction l; cbn; congruence. Qed.

Lemma locs_cons c cs : chunks_to_array_locations (c :: cs) = (0, c) :: map (fun p => (c + fst p, c + snd p)) (chunks_to_array_locations cs).
Proof.
  rewrite !locations_eq. cbn [locs_from]. f_equal. generalize 0. induction cs as [|d cs IH]; intros s; [reflexivity|].
  cbn [locs_from map fst snd]. f_equal; [f_equal; lia|]. rewrite <- IH. f_equal. lia.
Qed.

Lemma hcat_tab {A} ny (xcs : list Z) : Forall (fun c => 0 <= c) xcs -> xcs <> [] -> forall (f : Z -> Z -> A),
  hcat (map (fun p => tab2 ny (snd p - fst p) (fun i j => f i (fst p + j))) (chunks_to_array_locations xcs))
  = tab2 ny (sum xcs) f.
Proof.
  induction xcs as [|c cs IH]; intros F N f; [contradiction|]. inversion F as [|? ? Hc F']; subst.
  rewrite locs_cons. cbn [map fst snd]. rewrite sum_cons.
  destruct cs as [|d cs].
  - cbn [chunks_to_array_locations fold_left snd map hcat]. cbn. replace (c - 0) with c by lia.
    replace (c + 0) with c by lia. apply tab2_ext. intros. f_equal.
  - rewrite hcat_cons. 2:{ rewrite locs_cons. discriminate. }
    rewrite map_map. cbn [fst snd].
    rewrite (map_ext _ (fun p => tab2 ny (snd p - fst p) (fun i j => f i (c + (fst p + j))))).
    2:{ intros p. replace (c + snd p - (c + fst p)) with (snd p - fst p) by lia. apply tab2_ext. intros. f_equal. lia. }
    rewrite (IH F') with (f := fun i j => f i (c + j)) by discriminate.
    unfold tab2 at 1 2. unfold tab at 1 3. rewrite combine_map, map_map. unfold tab2, tab at 3. apply map_ext. intros i.
    replace (c - 0) with c by lia. rewrite <- tab_app; [|exact Hc|now apply sum_nonneg]. f_equal.
Qed.
Lemma vcat_tab {A} nx (ycs : list Z) : Forall (fun c => 0 <= c) ycs -> forall (f : Z -> Z -> A),
  concat (map (fun p => tab2 (snd p - fst p) nx (fun i j => f (fst p + i) j)) (chunks_to_array_locations ycs))
  = tab2 (sum ycs) nx f.
Proof.
  induction ycs as [|c cs IH]; intros F f; [reflexivity|]. inversion F as [|? ? Hc F']; subst.
  rewrite locs_cons. cbn [map fst snd concat]. rewrite sum_cons, map_map. cbn [fst snd].
  rewrite (map_ext _ (fun p => tab2 (snd p - fst p) nx (fun i j => f (c + (fst p + i)) j))).
  2:{ intros p. replace (c + snd p - (c + fst p)) with (snd p - fst p) by lia. apply tab2_ext. intros. f_equal. lia. }
  rewrite (IH F') with (f := fun i j => f (c + i) j).
  replace (c - 0) with c by lia. unfold tab2. rewrite <- (tab_app c (sum cs)); [|exact Hc|now apply sum_nonneg]. f_equal.
Qed.

(* Whatever f computes away from the margins, map_overlap computes everywhere,
   independently of the chunks.  [spec g] is the value f produces at the cell
   around which the array is g. *)
Lemma map_overlap_spec {A B} b (cval : A) ny nx dy dx ycs xcs (f : Z -> Z -> arr2 A -> res (arr2 B))
  (spec : (Z -> Z -> A) -> B) (a : Z -> Z -> A) :
  0 < ny -> 0 < nx -> 0 <= dy <= ny -> 0 <= dx <= nx ->
  Forall (fun c => 0 <= c) ycs -> Forall (fun c => 0 <= c) xcs -> sum ycs = ny -> sum xcs = nx ->
  (forall n m (g : Z -> Z -> A), 2 * dy <= n -> 2 * dx <= m -> exists o, f n m (tab2 n m g) = Ok o /\ rect n m o
     /\ forall i j, dy <= i < n - dy -> dx <= j < m - dx -> get2 o i j = Ok (spec (fun di dj => g (i + di) (j + dj)))) ->
  (forall g g', (forall di dj, - dy <= di <= dy -> - dx <= dj <= dx -> g di dj = g' di dj) -> spec g = spec g') ->
  map_overlap b cval ny nx dy dx ycs xcs f (tab2 ny nx a)
  = Ok (tab2 ny nx (fun i j => spec (fun di dj => cellf b cval a ny nx (i + di) (j + dj)))).
Proof.
  intros Hy Hx Dy Dx Fy Fx Sy Sx Hf Hspec. unfold map_overlap.
  replace ((ny <? dy) || (nx <? dx)) with false by lia.
  set (out := fun i j => spec (fun di dj => cellf b cval a ny nx (i + di) (j + dj))).
  assert (BLK : forall r0 r1 c0 c1, 0 <= r0 <= r1 -> r1 <= ny -> 0 <= c0 <= c1 -> c1 <= nx ->
    (let* w := window b cval (tab2 ny nx a) ny nx (r0 - dy) (r1 + dy) (c0 - dx) (c1 + dx) in
     let* o := f (r1 - r0 + 2 * dy) (c1 - c0 + 2 * dx) w in Ok (trim2 dy dx o))
    = Ok (tab2 (r1 - r0) (c1 - c0) (fun i j => out (r0 + i) (c0 + j)))).
  { intros r0 r1 c0 c1 R0 R1 C0 C1.
    rewrite window_tab by lia. cbn [rbind].
    replace (r1 + dy - (r0 - dy)) with (r1 - r0 + 2 * dy) by lia.
    replace (c1 + dx - (c0 - dx)) with (c1 - c0 + 2 * dx) by lia.
    destruct (Hf (r1 - r0 + 2 * dy) (c1 - c0 + 2 * dx)
      (fun i j => cellf b cval a ny nx (r0 - dy + i) (c0 - dx + j))) as (o & Eo & Ro & Go); [lia|lia|].
    rewrite Eo. cbn [rbind]. f_equal.
    rewrite (trim2_rect o _ _ dy dx
      (fun i j => spec (fun di dj => cellf b cval a ny nx (r0 - dy + (i + di)) (c0 - dx + (j + dj)))) Ro); try lia; [|exact Go].
    replace (r1 - r0 + 2 * dy - 2 * dy) with (r1 - r0) by lia.
    replace (c1 - c0 + 2 * dx - 2 * dx) with (c1 - c0) by lia.
    apply tab2_ext. intros i j Hi Hj. apply Hspec. intros di dj _ _. f_equal; lia. }
  destruct xcs as [|xc xcs0] eqn:EX. { cbn in Sx. lia. }
  rewrite <- EX in *.
  rewrite (traverse_ok _ (fun p => tab2 (snd p - fst p) nx (fun i j => out (fst p + i) j))).
  - cbn [rbind]. f_equal. rewrite <- Sy. now apply vcat_tab.
  - intros [r0 r1] HR. cbn [fst snd].
    destruct (locations_spec ycs Fy) as (_ & CY & _). destruct (consecutive_bounds _ _ _ CY) as [_ BY].
    destruct (in_get _ _ HR) as [kr GR]. pose proof (BY _ _ _ GR) as RA.
    rewrite (traverse_ok _ (fun p => tab2 (r1 - r0) (snd p - fst p) (fun i j => out (r0 + i) (fst p + j)))).
    + cbn [rbind]. f_equal. rewrite (hcat_tab (r1 - r0) xcs Fx) with (f := fun i j => out (r0 + i) j).
      * now rewrite Sx.
      * rewrite EX. discriminate.
    + intros [c0 c1] HC. cbn [fst snd].
      destruct (locations_spec xcs Fx) as (_ & CX & _). destruct (consecutive_bounds _ _ _ CX) as [_ BX].
      destruct (in_get _ _ HC) as [kc GC]. pose proof (BX _ _ _ GC) as CA. apply BLK; lia.
Qed.

(* ---------------- ravel ---------------- *)

Lemma tab_succ {A} n (f : Z -> A) : 0 <= n -> tab (n + 1) f = tab n f ++ [f n].
Proof. intros. unfold tab. rewrite zrange_snoc, map_app by lia. reflexivity. Qed.
Lemma concat_tab2 {A} ny nx (f : Z -> Z -> A) : 0 <= ny -> 0 < nx ->
  concat (tab2 ny nx f) = tab (ny * nx) (fun k => f (k / nx) (k mod nx)).
Proof.
  intros Hy Hx. unfold tab2. pattern ny. apply natlike_ind; [reflexivity| |exact Hy].
  clear ny Hy. intros n Hn IH. unfold Z.succ. rewrite tab_succ by lia. rewrite concat_app, IH. cbn [concat].
  rewrite app_nil_r. replace ((n + 1) * nx) with (n * nx + nx) by lia. rewrite <- tab_app by nia. f_equal.
  apply tab_ext. intros j Hj. rewrite Z.add_comm, Z.div_add, Z.mod_add by lia.
  rewrite Z.div_small, Z.mod_small by lia. f_equal.
Qed.
Lemma concat_tab2_flat {A} ny nx (f : Z -> Z -> A) : concat (tab2 ny nx f) = map (fun p => f (fst p) (snd p)) (ndindex2 ny nx).
Proof.
  unfold tab2, tab, ndindex2. rewrite flat_map_concat_map, concat_map, map_map. f_equal. apply map_ext. intros i.
  rewrite map_map. reflexivity.
Qed.
