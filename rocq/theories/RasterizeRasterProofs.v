(* Proofs about RasterizeRaster.v. *)
From Coq Require Import QArith String Lia ZifyBool ZifyNat.
From Verif Require Import Base BaseFacts Scalars NumFacts Arr2 Arr2Facts Chunks ChunksSpec ChunksProofs ProximityChunk CostPublicProofs FocalSpec FocalValues FocalResults RasterStack AggregateProofs
  Dtypes Raster RasterSpec RasterProofs RasterValues MapBlocks MapBlocksProofs Rasterize RasterizeSpec RasterizeProofs RasterizeRaster RasterizeRasterSpec.
Open Scope Z_scope.

(* ---- the chunks ---- *)
Definition cat_box (k : grid) (y x : Z * Z) : box := Box (k_row k + fst y) (k_row k + snd y) (k_col k + fst x) (k_col k + snd x).
Lemma chunk_row_eq i yc xcs : forall j, chunk_row i yc j xcs = map (fun x => Box i (i + yc) (j + fst x) (j + snd x)) (chunks_to_array_locations xcs).
Proof.
  induction xcs as [|xc t IH]; intros j; [reflexivity|]. cbn [chunk_row]. rewrite locs_cons. cbn [map fst snd]. f_equal; [f_equal; lia|].
  rewrite IH, map_map. apply map_ext. intros x. cbn [fst snd]. f_equal; lia.
Qed.
Lemma chunk_rows_eq j xcs ycs : forall i, chunk_rows i j ycs xcs
  = concat (map (fun y => map (fun x => Box (i + fst y) (i + snd y) (j + fst x) (j + snd x)) (chunks_to_array_locations xcs)) (chunks_to_array_locations ycs)).
Proof.
  induction ycs as [|yc t IH]; intros i; [reflexivity|]. cbn [chunk_rows]. rewrite locs_cons. cbn [map fst snd concat]. f_equal.
  - rewrite chunk_row_eq. apply map_ext. intros x. f_equal; lia.
  - rewrite IH, map_map. f_equal. apply map_ext. intros y. cbn [fst snd]. apply map_ext. intros x. f_equal; lia.
Qed.
Lemma chunk_boxes_eq k : chunk_boxes k = concat (map (fun y => map (cat_box k y) (chunks_to_array_locations (k_xchunks k))) (chunks_to_array_locations (k_ychunks k))).
Proof. unfold chunk_boxes. now rewrite chunk_rows_eq. Qed.
Lemma len_locs cs : len (chunks_to_array_locations cs) = len cs.
Proof. induction cs as [|c cs IH]; [reflexivity|]. now rewrite locs_cons, !len_cons, len_map, IH. Qed.
Lemma total_sum l : total l = ChunksSpec.sum l.
Proof. unfold ChunksSpec.sum. induction l as [|x l IH]; [reflexivity|]. cbn [total fold_right]. now rewrite IH. Qed.

(* ---- collecting the partitions ---- *)
Definition seen (spatial : list region) (parts : list (list gfeature)) (b : box) : list (list gfeature) :=
  map snd (filter (fun p => (fst p : region) b) (combine spatial parts)).
Definition opt {A} (l : list A) : option (list A) := match l with [] => None | _ => Some l end.
Lemma opt_snoc {A} (l : list A) x : (match opt l with None => [] | Some l => l end) ++ [x] = l ++ [x].
Proof. now destruct l. Qed.
Lemma some_snoc {A} (l : list A) x : Some (l ++ [x]) = opt (l ++ [x]).
Proof. now destruct l. Qed.
Lemma foldM_app {S A} (f : S -> A -> res S) l : forall l' s, foldM f (l ++ l') s = let* s := foldM f l s in foldM f l' s.
Proof. induction l as [|x l IH]; intros l' s; cbn [app foldM]; [reflexivity|]. destruct (f s x) as [s'|e]; cbn [rbind]; [apply IH|reflexivity]. Qed.
Lemma tab_set {A} n (f : Z -> A) i x : 0 <= i < n -> set (tab n f) i x = Ok (tab n (fun j => if j =? i then x else f j)).
Proof.
  intros Hi. destruct (set_range (tab n f) i x) as [l E]; [rewrite len_tab; lia|]. rewrite E. f_equal. pose proof (set_len _ _ _ _ E) as L. rewrite len_tab in L by lia.
  apply (list_tab n); [lia|exact L|]. intros j Hj. destruct (j =? i) eqn:Eji.
  - assert (j = i) by lia. subst. apply (get_set_same _ _ _ _ E).
  - rewrite (get_set_other (tab n f) l i j x E) by lia. rewrite get_tab by lia. reflexivity.
Qed.
Lemma combine_snoc {A B} (l : list A) x : forall (l' : list B) y, get l' (len l) = Ok y -> combine (l ++ [x]) l' = combine l l' ++ [(x, y)].
Proof.
  induction l as [|a l IH]; intros l' y G; destruct l' as [|b l']; try (exfalso; exact (get_nil _ _ G)).
  - replace (len (@nil A)) with 0 in G by reflexivity. rewrite get_cons0 in G. injection G as ->. reflexivity.
  - rewrite len_cons, get_cons in G by (pose proof (len_nonneg l); lia). cbn [app combine]. rewrite (IH l' y); [reflexivity|]. rewrite <- G. f_equal. lia.
Qed.
Lemma combine_app_eq {A B} (l : list B) x n : forall z : list A, List.length z = List.length l -> combine (z ++ [n]) (l ++ [x]) = combine z l ++ [(n, x)].
Proof. induction l as [|a l IH]; intros [|b z] E; try discriminate; [reflexivity|]. cbn [app combine]. f_equal. apply IH. now injection E. Qed.
Lemma enumerate_snoc {A} (l : list A) x : MapBlocks.enumerate (l ++ [x]) = MapBlocks.enumerate l ++ [(len l, x)].
Proof.
  unfold MapBlocks.enumerate. rewrite len_app. change (len [x]) with 1. rewrite zrange_snoc by apply len_nonneg.
  assert (E : List.length (zrange 0 (len l)) = List.length l) by (pose proof (len_zrange 0 (len l)) as L; pose proof (len_nonneg l); unfold len in *; lia).
  now apply combine_app_eq.
Qed.
Lemma NoDup_rev_snoc {A} (l : list A) x : NoDup l -> ~ In x l -> NoDup (l ++ [x]).
Proof.
  induction l as [|a l IH]; intros N H; cbn [app]; [constructor; [easy|constructor]|]. inversion N as [|? ? Na Nl]; subst. constructor.
  - intros I. apply in_app_iff in I as [I|[I|[]]]; [now apply Na|]. apply H. now left.
  - apply IH; [exact Nl|]. intros I. apply H. now right.
Qed.
Lemma nodup_enumerate {A} (q : Z * A -> bool) (l : list A) : NoDup (map fst (filter q (MapBlocks.enumerate l))).
Proof.
  induction l as [|x l IH] using rev_ind; [constructor|]. rewrite enumerate_snoc, filter_app, map_app. cbn [filter]. destruct (q (len l, x)); cbn [map]; [|now rewrite app_nil_r].
  apply NoDup_rev_snoc; [exact IH|]. intros H. apply in_map_iff in H as ([i y] & E & H). cbn in E. subst i. apply filter_In in H as [H _]. apply in_enumerate in H. apply get_ok_range in H. lia.
Qed.

Section Collect.
Variables (parts : list (list gfeature)) (boxes : list box) (crs : option Z) (field : option string).
Definition step (out : list (option (list (list feature)))) (m : Z * Z) : res (list (option (list (list feature)))) :=
  let '(ipart, flat) := m in
    let* part := get parts ipart in
    let* b := get boxes flat in
    let* old := get out flat in
    let stack := match old with None => [] | Some l => l end in
    set out flat (Some (stack ++ [map (local crs field b) part])).
Definition box_at (k : Z) : box := nth (Z.to_nat k) boxes (Box 0 0 0 0).
Lemma box_at_get k b : get boxes k = Ok b -> box_at k = b.
Proof. intros G. pose proof (get_ok_range _ _ _ G) as R. rewrite (get_nth (Box 0 0 0 0)) in G by exact R. injection G as <-. reflexivity. Qed.
Lemma inner ip part L : get parts ip = Ok part -> NoDup (map fst L) -> (forall k b, In (k, b) L -> get boxes k = Ok b) -> forall acc,
  foldM step (map (fun b => (ip, fst b)) L) (tab (len boxes) (fun k => opt (acc k)))
  = Ok (tab (len boxes) (fun k => opt (acc k ++ if existsb (Z.eqb k) (map fst L) then [map (local crs field (box_at k)) part] else []))).
Proof.
  intros Gp. induction L as [|[k b] L IH]; intros N G acc; cbn [map foldM].
  - f_equal. apply tab_ext. intros i _. cbn [existsb]. now rewrite app_nil_r.
  - cbn [fst map] in *. inversion N as [|? ? Nk NL]; subst. pose proof (G k b (or_introl eq_refl)) as Gb. pose proof (get_ok_range _ _ _ Gb) as Rk.
    cbn [step]. rewrite Gp, Gb. cbn [rbind]. rewrite get_tab by exact Rk. cbn [rbind]. rewrite opt_snoc, some_snoc, tab_set by exact Rk. cbn [rbind].
    rewrite (tab_ext _ _ (fun j => opt ((fun j => acc j ++ if j =? k then [map (local crs field (box_at j)) part] else []) j))).
    2:{ intros j _. destruct (j =? k) eqn:E; [|now rewrite app_nil_r]. assert (j = k) by lia. subst. now rewrite (box_at_get _ _ Gb). }
    rewrite IH; [|exact NL|intros; apply G; now right]. f_equal. apply tab_ext. intros j _. cbn [existsb]. destruct (j =? k) eqn:E; cbn [orb]; [|now rewrite app_nil_r].
    assert (j = k) by lia. subst. assert (X : existsb (Z.eqb k) (map fst L) = false); [|now rewrite X, app_nil_r].
    destruct (existsb (Z.eqb k) (map fst L)) eqn:X; [|reflexivity]. apply existsb_exists in X as (k' & I & E'). assert (k = k') by lia. now subst.
Qed.
Lemma outer spatial : len spatial <= len parts ->
  foldM step (partition_chunk_matches spatial boxes) (full (len boxes) None)
  = Ok (tab (len boxes) (fun k => opt (map (map (local crs field (box_at k))) (seen spatial parts (box_at k))))).
Proof.
  induction spatial as [|reg spatial IH] using rev_ind; intros L.
  - cbn [partition_chunk_matches MapBlocks.enumerate]. cbn. f_equal. apply list_tab; [apply len_nonneg|apply full_len, len_nonneg|]. intros i Hi. now rewrite get_full by lia.
  - rewrite len_app in L. change (len [reg]) with 1 in L. pose proof (len_nonneg spatial) as NS. destruct (get_range parts (len spatial)) as [p Gp]; [lia|].
    unfold partition_chunk_matches. rewrite enumerate_snoc, map_app, concat_app, foldM_app. unfold partition_chunk_matches in IH. rewrite IH by lia. cbn [rbind map concat fst snd]. rewrite app_nil_r.
    rewrite (inner (len spatial) p); [|exact Gp|apply nodup_enumerate|]. 2:{ intros k b H. apply filter_In in H as [H _]. now apply in_enumerate in H. }
    f_equal. apply tab_ext. intros k Hk. f_equal. unfold seen. rewrite (combine_snoc spatial reg parts p Gp), filter_app, !map_app. f_equal.
    cbn [filter fst]. destruct (get_range boxes k) as [b Gb]; [lia|]. rewrite (box_at_get _ _ Gb).
    assert (E : existsb (Z.eqb k) (map fst (filter (fun b => reg (snd b)) (MapBlocks.enumerate boxes))) = reg b); [|rewrite E; now destruct (reg b)].
    destruct (reg b) eqn:R.
    + apply existsb_exists. exists k. split; [|lia]. apply in_map_iff. exists (k, b). split; [reflexivity|]. apply filter_In. split; [now apply in_enumerate|exact R].
    + destruct (existsb _ _) eqn:E; [|reflexivity]. apply existsb_exists in E as (k' & I & E). assert (k = k') by lia. subst k'. apply in_map_iff in I as ([i b'] & Ei & I). cbn in Ei. subst i.
      apply filter_In in I as [I R']. apply in_enumerate in I. assert (b' = b) by congruence. subst. cbn in R'. congruence.
Qed.
End Collect.
Lemma matches_ok parts boxes crs field spatial : len spatial <= len parts ->
  rasterize_matches (partition_chunk_matches spatial boxes) parts boxes crs field
  = Ok (map (fun b => opt (map (map (local crs field b)) (seen spatial parts b))) boxes).
Proof.
  intros L. unfold rasterize_matches. rewrite (foldM_ext _ (step parts boxes crs field)) by (intros s [? ?] _; reflexivity). rewrite outer by exact L. f_equal. symmetry.
  apply list_tab; [apply len_nonneg|now rewrite len_map|]. intros i Hi. rewrite get_map_eq. destruct (get_range boxes i) as [b G]; [lia|]. now rewrite G, (box_at_get _ _ _ G).
Qed.

(* ---- the tree ---- *)
Lemma pair_up_partitions n : forall l, (List.length l <= n)%nat -> concat (map partitions (pair_up l)) = concat (map partitions l).
Proof.
  induction n as [|n IH]; intros [|a [|b l]] L; try reflexivity; cbn [List.length] in L; try lia. cbn [pair_up map concat partitions]. rewrite IH by lia. now rewrite app_assoc.
Qed.
Lemma pair_up_length n : forall l, (List.length l <= n)%nat -> (2 * List.length (pair_up l) <= List.length l + 1)%nat.
Proof.
  induction n as [|n IH]; intros [|a [|b l]] L; cbn [pair_up List.length] in *; try lia. specialize (IH l ltac:(lia)). lia.
Qed.
Lemma tree_ok n : forall l, l <> [] -> (List.length l <= n)%nat -> exists t, tree n l = Ok t /\ partitions t = concat (map partitions l).
Proof.
  induction n as [|n IH]; intros l N L.
  - destruct l; [contradiction|cbn in L; lia].
  - destruct l as [|a [|b l]]; [contradiction|exists a; cbn; now rewrite app_nil_r|].
    pose proof (pair_up_length _ (a :: b :: l) (le_n _)) as P. cbn [List.length] in P, L.
    destruct (IH (pair_up (a :: b :: l))) as (t & E & F); [discriminate|lia|]. exists t. split; [exact E|]. rewrite F. apply (pair_up_partitions (List.length (a :: b :: l))). lia.
Qed.

(* ---- reshaping and putting together ---- *)
Lemma reshape_ok {A} (h w : Z) (l : list A) : 0 <= h -> 0 <= w -> len l = h * w -> forall F : Z -> A, (forall i, 0 <= i < h * w -> get l i = Ok (F i)) ->
  reshape h w l = tab2 h w (fun i j => F (i * w + j)).
Proof.
  intros Hh Hw L F HF. unfold reshape, tab2, tab at 1. apply map_ext_in. intros i Hi. apply zrange_in in Hi. assert (B : 0 <= i * w /\ i * w + w <= h * w) by nia.
  apply list_tab; [lia|rewrite slice_len; lia|]. intros j Hj. rewrite get_slice by lia. apply HF. nia.
Qed.
Lemma reshape_concat {A} (rows : list (list A)) n : 0 <= n -> Forall (fun r => len r = n) rows -> list_reshape_2d (concat rows) (len rows) n = Ok rows.
Proof.
  intros Hn F. unfold list_reshape_2d.
  assert (X : forall i r, get rows i = Ok r -> forall j, 0 <= j < n -> get (concat rows) (i * n + j) = get r j).
  { clear - Hn F. induction rows as [|r0 rows IH]; intros i r G j Hj; [exfalso; exact (get_nil _ _ G)|]. inversion F as [|? ? L0 F']; subst. cbn [concat]. pose proof (get_ok_range _ _ _ G) as R.
    destruct (Z.eq_dec i 0) as [->|Ni].
    - rewrite get_cons0 in G. injection G as <-. rewrite Z.mul_0_l, Z.add_0_l. apply get_app1. lia.
    - rewrite get_cons in G by lia. rewrite get_app2 by nia. rewrite <- (IH F' (i - 1) r G j Hj). f_equal. lia. }
  assert (T : forall i, In i (zrange 0 (len rows)) -> traverse (fun col => get (concat rows) (i * n + col)) (zrange 0 n) = Ok (nth (Z.to_nat i) rows [])).
  { intros i Hi. apply zrange_in in Hi. destruct (get_range rows i Hi) as [r G]. pose proof G as G'. rewrite (get_nth []) in G' by exact Hi. injection G' as ->.
    pose proof (get_in _ _ _ G) as I. rewrite Forall_forall in F. pose proof (F r I) as Lr.
    destruct r as [|x0 r'].
    - assert (n = 0) by (rewrite <- Lr; reflexivity). subst n. reflexivity.
    - set (r := x0 :: r') in *. rewrite (traverse_ok _ (fun j => nth (Z.to_nat j) r x0)).
      + f_equal. symmetry. apply (list_tab n); [lia|exact Lr|]. intros j Hj. apply get_nth. lia.
      + intros j Hj. apply zrange_in in Hj. rewrite (X i r G j Hj). apply get_nth. lia. }
  rewrite (traverse_ok _ (fun i => nth (Z.to_nat i) rows [])) by exact T. f_equal. symmetry. apply (list_tab (len rows)); [apply len_nonneg|reflexivity|]. intros i Hi. now apply get_nth.
Qed.
Lemma combine_diag {A B} (f : A -> B) (l : list A) : combine l (map f l) = map (fun x => (x, f x)) l.
Proof. induction l; cbn; congruence. Qed.

Section Put.
Variables (ycs xcs : list Z) (ny nx : Z) (k : grid).
Hypothesis (Ey : k_ychunks k = ycs) (Ex : k_xchunks k = xcs) (Cy : cuts ny ycs) (Cx : cuts nx xcs) (Nx : xcs <> []).
Lemma put_together (F : box -> arr2 num) :
  (forall ky y kx x, get (chunks_to_array_locations ycs) ky = Ok y -> get (chunks_to_array_locations xcs) kx = Ok x -> shaped2 (snd y - fst y) (snd x - fst x) (F (cat_box k y x))) ->
  exists G, (let* grid := list_reshape_2d (map F (chunk_boxes k)) (len ycs) (len xcs) in Ok (concat (map (fun row => hcat row) grid))) = Ok (tab2 ny nx G)
  /\ (forall r c, 0 <= r < ny -> 0 <= c < nx -> exists y x, In y (chunks_to_array_locations ycs) /\ In x (chunks_to_array_locations xcs)
       /\ fst y <= r < snd y /\ fst x <= c < snd x /\ G r c = val2 NaN (F (cat_box k y x)) (r - fst y) (c - fst x)).
Proof.
  intros H. destruct (cuts_sum _ _ Cy) as [Fy Sy]. destruct (cuts_sum _ _ Cx) as [Fx Sx].
  set (G := fun r c => let y := snd (loc_of ycs r) in let x := snd (loc_of xcs c) in val2 NaN (F (cat_box k y x)) (r - fst y) (c - fst x)).
  exists G. split.
  - rewrite chunk_boxes_eq, Ey, Ex, concat_map, map_map.
    replace (len ycs) with (len (map (fun y => map F (map (cat_box k y) (chunks_to_array_locations xcs))) (chunks_to_array_locations ycs))) by now rewrite len_map, len_locs.
    rewrite reshape_concat; [|apply len_nonneg|]. 2:{ apply Forall_forall. intros r Hr. apply in_map_iff in Hr as (y & <- & _). now rewrite !len_map, len_locs. }
    cbn [rbind]. apply (f_equal (@Ok (arr2 num))). rewrite map_map. transitivity (concat (map (fun p => tab2 (snd p - fst p) nx (fun i j => G (fst p + i) j)) (chunks_to_array_locations ycs))).
    + f_equal. apply map_ext_in. intros [y0 y1] Hy. apply in_get in Hy as (ky & Gy). rewrite map_map.
      etransitivity; [|rewrite <- Sx; exact (hcat_tab (y1 - y0) xcs Fx Nx (fun i j => G (y0 + i) j))]. f_equal. apply map_ext_in. intros [x0 x1] Hx. apply in_get in Hx as (kx & Gx).
      pose proof (locations_range ycs Fy _ _ (get_in _ _ _ Gy)). pose proof (locations_range xcs Fx _ _ (get_in _ _ _ Gx)). cbn [fst snd] in *.
      specialize (H _ _ _ _ Gy Gx). cbn [fst snd] in H. rewrite (shaped_tab NaN _ _ _ H ltac:(lia)) at 1. apply tab2_ext. intros i j Hi Hj. unfold G.
      rewrite (loc_of_eq ycs (y0 + i) ky (y0, y1) Fy Gy), (loc_of_eq xcs (x0 + j) kx (x0, x1) Fx Gx) by (cbn; lia). cbn [fst snd]. f_equal; lia.
    + rewrite <- Sy. exact (vcat_tab nx ycs Fy G).
  - intros r c Hr Hc. destruct (loc_of_in ycs r Fy ltac:(lia)) as [Gy Ry]. destruct (loc_of_in xcs c Fx ltac:(lia)) as [Gx Rx].
    exists (snd (loc_of ycs r)), (snd (loc_of xcs c)). split; [exact (get_in _ _ _ Gy)|]. split; [exact (get_in _ _ _ Gx)|]. auto.
Qed.
End Put.

(* ---- one chunk ---- *)
Section Chunk.
Variables (crs : option Z) (field : option string) (window : box) (parts : list (list gfeature)) (regs : list region).
Hypothesis CV : Forall2 (covers crs window) parts regs.
Notation ui := (match field with None => true | Some _ => false end).
Definition cell_values (L : list (list gfeature)) (r c : Z) : list num := map (feature_value field) (touching_cell crs L r c).

Lemma burned_value b f : Rasterize.burned ui (local crs field b f) = feature_value field f.
Proof. unfold Rasterize.burned, feature_value. now destruct field. Qed.
Lemma filter_map {A B} (g : A -> B) p l : filter p (map g l) = map g (filter (fun x => p (g x)) l).
Proof. induction l as [|x l IH]; cbn; [reflexivity|]. destruct (p (g x)); cbn; now rewrite IH. Qed.
Lemma index_local w i j : 0 <= j < w -> (i * w + j) / w = i /\ (i * w + j) mod w = j.
Proof. intros H. rewrite Z.add_comm. rewrite Z.div_add, Z.mod_add by lia. rewrite Z.div_small, Z.mod_small by lia. lia. Qed.
Lemma touching_local b L i j : 0 <= j < c1 b - c0 b ->
  touching ui (concat (map (map (local crs field b)) L)) (i * (c1 b - c0 b) + j) = cell_values L (r0 b + i) (c0 b + j).
Proof.
  intros Hj. unfold touching, cell_values, touching_cell. rewrite <- concat_map, filter_map, map_map.
  rewrite (filter_ext _ (fun f => g_touches f crs (r0 b + i) (c0 b + j))).
  - apply map_ext. intros f. apply burned_value.
  - intros f. cbn [touches local]. destruct (index_local (c1 b - c0 b) i j Hj) as [-> ->]. reflexivity.
Qed.
Lemma seen_touching b r c : within b window -> inside r c b -> touching_cell crs (seen regs parts b) r c = touching_cell crs parts r c.
Proof.
  intros W I. unfold touching_cell, seen. revert CV. induction 1 as [|p reg ps rs C _ IH]; [reflexivity|]. cbn [combine filter fst concat].
  assert (X : filter (fun f => g_touches f crs r c) (concat (map snd (filter (fun p0 => (fst p0 : region) b) (combine rs ps)))) = filter (fun f => g_touches f crs r c) (concat ps)) by (apply IH; now inversion CV).
  rewrite filter_app. destruct (reg b) eqn:R; cbn [map snd concat]; [rewrite filter_app; now f_equal|].
  rewrite X. assert (N : filter (fun f => g_touches f crs r c) p = []); [|now rewrite N].
  destruct (filter (fun f => g_touches f crs r c) p) as [|f l] eqn:E; [reflexivity|]. assert (In f (f :: l)) as H by now left. rewrite <- E in H. apply filter_In in H as [H T].
  rewrite (C f b r c H W I T) in R. discriminate.
Qed.
Lemma seen_in b f : In f (concat (seen regs parts b)) -> In f (concat parts).
Proof.
  intros H. apply in_concat in H as (p & Hp & Hf). apply in_map_iff in Hp as ([reg p'] & E & Hp). cbn in E. subst p'. apply filter_In in Hp as [Hp _]. apply in_combine_r in Hp. apply in_concat. eauto.
Qed.

Lemma values_chunk m fill b : is_nan fill = false -> r0 b <= r1 b -> c0 b <= c1 b -> within b window ->
  (forall f, In f (concat parts) -> is_nan (feature_value field f) = false /\ num_eqb (feature_value field f) fill = false) ->
  exists a, process_chunk (Values ui m) fill b (opt (map (map (local crs field b)) (seen regs parts b))) = Ok a /\ shaped2 (r1 b - r0 b) (c1 b - c0 b) a
  /\ forall i j, 0 <= i < r1 b - r0 b -> 0 <= j < c1 b - c0 b -> resolves m fill (cell_values parts (r0 b + i) (c0 b + j)) (val2 NaN a i j).
Proof.
  intros NF Hr Hc W OK. set (h := r1 b - r0 b). set (w := c1 b - c0 b). set (S := map (map (local crs field b)) (seen regs parts b)).
  assert (HH : 0 <= h) by (unfold h; lia). assert (HW : 0 <= w) by (unfold w; lia).
  assert (TS : forall i j, 0 <= i < h -> 0 <= j < w -> touching ui (concat S) (i * w + j) = cell_values parts (r0 b + i) (c0 b + j)).
  { intros i j Hi Hj. unfold S, w. rewrite touching_local by (unfold w in Hj; lia). unfold cell_values. rewrite seen_touching; [reflexivity|exact W|]. unfold inside. unfold h, w in *. lia. }
  unfold process_chunk. fold h w. destruct S as [|s0 S0] eqn:ES.
  - cbn [opt mode_fill]. exists (tab2 h w (fun _ _ => fill)). split; [|split; [apply rect_tab2; lia|]].
    + apply f_equal. apply list_tab; [lia|apply full_len; lia|]. intros i Hi. rewrite get_full by lia. apply f_equal. apply list_tab; [lia|apply full_len; lia|]. intros j Hj. now rewrite get_full by lia.
    + intros i j Hi Hj. rewrite val2_tab by lia. rewrite <- TS by lia. reflexivity.
  - cbn [opt]. rewrite <- ES in *. destruct (tree_ok (List.length S) (map Part S)) as (t & ET & PT); [rewrite ES; discriminate|now rewrite map_length|].
    rewrite ET. cbn [rbind rasterize_chunk].
    assert (PS : partitions t = S). { rewrite PT, map_map. cbn [partitions]. clear. induction S as [|x S IH]; [reflexivity|]. cbn [map concat app]. now rewrite IH. }
    assert (OKS : ok_values ui fill (concat (partitions t))).
    { rewrite PS. intros f Hf. unfold S in Hf. rewrite <- concat_map in Hf. apply in_map_iff in Hf as (g & <- & Hg). rewrite burned_value. apply OK. now apply seen_in in Hg. }
    destruct (steps_fine ui m fill (h * w) t NF ltac:(nia) OKS) as (L & P & R). rewrite PS in R.
    eexists. split; [reflexivity|]. rewrite (reshape_ok h w _ HH HW L (fun i => nth (Z.to_nat i) (reduce_stack ui m fill (h * w) t) NaN)) by (intros i Hi; apply get_nth; lia).
    split; [apply rect_tab2; lia|]. intros i j Hi Hj. rewrite val2_tab by lia. rewrite <- TS by lia. apply R. apply get_nth. rewrite L. nia.
Qed.
Lemma mask_list invert n (l : list (list feature)) : 0 <= n -> mask_chunk invert n l = map (fun i => if xorb (existsb (fun f => touches f i) (concat l)) invert then 1 else 0) (zrange 0 n).
Proof.
  intros Hn. destruct l as [|p ps]; cbn [mask_chunk].
  - cbn. apply list_ext; [rewrite full_len, len_map, len_zrange by lia; lia|]. intros i x G. pose proof (get_ok_range _ _ _ G) as R. rewrite full_len in R by lia. rewrite get_full in G by lia. rewrite get_map_eq, get_zrange by lia. rewrite <- G. now destruct invert.
  - now rewrite mask_fold, mask_onto_tab.
Qed.
Lemma existsb_map' {A B} (g : A -> B) p l : existsb p (map g l) = existsb (fun x => p (g x)) l.
Proof. induction l; cbn; congruence. Qed.
Lemma existsb_filter {A} (p : A -> bool) l : existsb p l = match filter p l with [] => false | _ => true end.
Proof. induction l as [|x l IH]; cbn; [reflexivity|]. destruct (p x); cbn; [reflexivity|exact IH]. Qed.
Definition touched (L : list (list gfeature)) (r c : Z) : bool := match touching_cell crs L r c with [] => false | _ => true end.
Lemma mask_chunk_ok invert fill b : r0 b <= r1 b -> c0 b <= c1 b -> within b window ->
  exists a, process_chunk (Mask invert) fill b (opt (map (map (local crs field b)) (seen regs parts b))) = Ok a /\ shaped2 (r1 b - r0 b) (c1 b - c0 b) a
  /\ forall i j, 0 <= i < r1 b - r0 b -> 0 <= j < c1 b - c0 b -> val2 NaN a i j = of_Z (if xorb (touched parts (r0 b + i) (c0 b + j)) invert then 1 else 0).
Proof.
  intros Hr Hc W. set (h := r1 b - r0 b). set (w := c1 b - c0 b). set (S := map (map (local crs field b)) (seen regs parts b)).
  assert (HH : 0 <= h) by (unfold h; lia). assert (HW : 0 <= w) by (unfold w; lia).
  assert (TS : forall i j, 0 <= i < h -> 0 <= j < w -> existsb (fun f => touches f (i * w + j)) (concat S) = touched parts (r0 b + i) (c0 b + j)).
  { intros i j Hi Hj. unfold S, touched. rewrite <- (seen_touching b) by (try exact W; unfold inside, h, w in *; lia). rewrite <- concat_map, existsb_map'. unfold touching_cell. rewrite existsb_filter.
    rewrite (filter_ext _ (fun f => g_touches f crs (r0 b + i) (c0 b + j))); [reflexivity|]. intros f. cbn [touches local]. fold w. destruct (index_local w i j Hj) as [-> ->]. reflexivity. }
  unfold process_chunk. fold h w. destruct S as [|s0 S0] eqn:ES.
  - cbn [opt mode_fill]. exists (tab2 h w (fun _ _ => of_Z (if invert then 1 else 0))). split; [|split; [apply rect_tab2; lia|]].
    + apply f_equal. apply list_tab; [lia|apply full_len; lia|]. intros i Hi. rewrite get_full by lia. apply f_equal. apply list_tab; [lia|apply full_len; lia|]. intros j Hj. now rewrite get_full by lia.
    + intros i j Hi Hj. rewrite val2_tab by lia. rewrite <- TS by lia. cbn. now destruct invert.
  - cbn [opt]. rewrite <- ES in *. eexists. split; [reflexivity|].
    rewrite mask_list by nia. rewrite map_map.
    rewrite (reshape_ok h w (map (fun i => of_Z (if xorb (existsb (fun f => touches f i) (concat S)) invert then 1 else 0)) (zrange 0 (h * w))) HH HW) with (F := fun i => of_Z (if xorb (existsb (fun f => touches f i) (concat S)) invert then 1 else 0)).
    2:{ rewrite len_map, len_zrange; nia. }
    2:{ intros i Hi. rewrite get_map_eq, get_zrange by lia. now rewrite Z.add_0_l. }
    split; [apply rect_tab2; lia|]. intros i j Hi Hj. rewrite val2_tab by lia. now rewrite TS by lia.
Qed.
End Chunk.

Lemma thick_not_thin k : thick k -> thin_chunk k = false.
Proof.
  intros [Ty Tx]. unfold thin_chunk. rewrite existsb_app. assert (X : forall l, Forall (fun c => 2 <= c) l -> existsb (fun c => c <? 2) l = false).
  { induction 1 as [|c l H _ IH]; [reflexivity|]. cbn [existsb]. rewrite IH. replace (c <? 2) with false by lia. reflexivity. }
  now rewrite !X.
Qed.
(* ---- the whole array ---- *)
Section Whole.
Variables (t : table) (k : grid) (ny nx : Z) (field : option string) (regs : list region).
Hypothesis (GR : grid_of ny nx k) (CV : Forall2 (covers (t_crs t) (grid_box k)) (t_parts t) regs).
Notation ui := (match field with None => true | Some _ => false end).
Notation crs := (t_crs t).

Lemma forall2_len {A B} (R : A -> B -> Prop) l l' : Forall2 R l l' -> len l = len l'.
Proof. induction 1; [reflexivity|]. rewrite !len_cons. lia. Qed.
Lemma box_within y x : In y (chunks_to_array_locations (k_ychunks k)) -> In x (chunks_to_array_locations (k_xchunks k)) ->
  0 <= fst y <= snd y /\ 0 <= fst x <= snd x /\ within (cat_box k y x) (grid_box k).
Proof.
  intros Hy Hx. destruct GR as (Cy & Cx & _). destruct (cuts_sum _ _ Cy) as [Fy Sy]. destruct (cuts_sum _ _ Cx) as [Fx Sx]. destruct y as [y0 y1], x as [x0 x1].
  pose proof (locations_range _ Fy _ _ Hy). pose proof (locations_range _ Fx _ _ Hx). unfold within, cat_box, grid_box. cbn [fst snd r0 r1 c0 c1]. rewrite (total_sum (k_ychunks k)), (total_sum (k_xchunks k)). lia.
Qed.
Lemma array_ok o fill (P : Z -> Z -> num -> Prop) :
  (forall b, r0 b <= r1 b -> c0 b <= c1 b -> within b (grid_box k) ->
    exists a, process_chunk o fill b (opt (map (map (local crs field b)) (seen regs (t_parts t) b))) = Ok a /\ shaped2 (r1 b - r0 b) (c1 b - c0 b) a
    /\ forall i j, 0 <= i < r1 b - r0 b -> 0 <= j < c1 b - c0 b -> P (r0 b + i) (c0 b + j) (val2 NaN a i j)) ->
  exists G, (let* raw := rasterize_matches (partition_chunk_matches regs (chunk_boxes k)) (t_parts t) (chunk_boxes k) crs field in
             chunks_to_array o fill raw (chunk_boxes k) (len (k_ychunks k)) (len (k_xchunks k))) = Ok (tab2 ny nx G)
  /\ forall r c, 0 <= r < ny -> 0 <= c < nx -> P (k_row k + r) (k_col k + c) (G r c).
Proof.
  intros H. pose proof GR as (Cy & Cx & Nx & Px).
  set (PC := fun b => process_chunk o fill b (opt (map (map (local crs field b)) (seen regs (t_parts t) b)))).
  set (F := fun b => match PC b with Ok a => a | Err _ => [] end).
  destruct (put_together (k_ychunks k) (k_xchunks k) ny nx k eq_refl eq_refl Cy Cx Nx F) as (G & E & HG).
  { intros ky y kx x Gy Gx. destruct (box_within y x (get_in _ _ _ Gy) (get_in _ _ _ Gx)) as (Hy & Hx & W).
    destruct (H (cat_box k y x)) as (a & Ea & Sa & _); [cbn; lia|cbn; lia|exact W|]. unfold F, PC. rewrite Ea. cbn [cat_box r0 r1 c0 c1] in Sa.
    replace (k_row k + snd y - (k_row k + fst y)) with (snd y - fst y) in Sa by lia. replace (k_col k + snd x - (k_col k + fst x)) with (snd x - fst x) in Sa by lia. exact Sa. }
  exists G. split.
  - rewrite matches_ok by (rewrite (forall2_len _ _ _ CV); lia). cbn [rbind]. unfold chunks_to_array. rewrite combine_diag.
    rewrite (traverse_ok _ (fun p => F (fst p))).
    + cbn [rbind]. rewrite map_map. cbn [fst]. exact E.
    + intros [b oc] Hb. apply in_map_iff in Hb as (b' & Eb & Hb). injection Eb as -> <-. cbn [fst]. unfold F, PC. rewrite chunk_boxes_eq in Hb. apply in_concat in Hb as (row & Hrow & Hb).
      apply in_map_iff in Hrow as (y & <- & Hy). apply in_map_iff in Hb as (x & <- & Hx). destruct (box_within y x Hy Hx) as (Ry & Rx & W).
      destruct (H (cat_box k y x)) as (a & Ea & _); [cbn; lia|cbn; lia|exact W|]. rewrite Ea. reflexivity.
  - intros r c Hr Hc. destruct (HG r c Hr Hc) as (y & x & Hy & Hx & Ry & Rx & ->). destruct (box_within y x Hy Hx) as (By & Bx & W).
    destruct (H (cat_box k y x)) as (a & Ea & _ & V); [cbn; lia|cbn; lia|exact W|]. unfold F, PC. rewrite Ea. specialize (V (r - fst y) (c - fst x)). cbn [cat_box r0 r1 c0 c1] in V.
    replace (k_row k + fst y + (r - fst y)) with (k_row k + r) in V by lia. replace (k_col k + fst x + (c - fst x)) with (k_col k + c) in V by lia. apply V; lia.
Qed.
Lemma one_band (G : Z -> Z -> num) : [concat (tab2 ny nx G)] = tab2 1 (ny * nx) (fun _ i => G (i / nx) (i mod nx)).
Proof.
  destruct GR as (Cy & _ & _ & Px). destruct (cuts_sum _ _ Cy) as [Fy Sy]. pose proof (sum_nonneg _ Fy). rewrite concat_tab2 by lia. reflexivity.
Qed.
Lemma ny_nonneg : 0 <= ny.
Proof. destruct GR as (Cy & _). destruct (cuts_sum _ _ Cy) as [Fy Sy]. pose proof (sum_nonneg _ Fy). lia. Qed.
Lemma flat_index r c : 0 <= r < ny -> 0 <= c < nx -> in_raster 1 (ny * nx) 0 (r * nx + c) /\ (r * nx + c) / nx = r /\ (r * nx + c) mod nx = c.
Proof. intros Hr Hc. split; [unfold in_raster; nia|]. now apply index_local. Qed.

Lemma aware_values cast fd nv d m : thick k -> t_spatial t = Some regs -> is_nan (scalar_num nv) = false ->
  (forall f, In f (concat (t_parts t)) -> is_nan (feature_value field f) = false /\ num_eqb (feature_value field f) (scalar_num nv) = false) ->
  exists out, rasterize_spatial_aware cast fd t k field (Some nv) d (Values ui m) = Ok out
  /\ wf 1 (ny * nx) out /\ r_dtype out = d /\ r_nv out = Some (scalar_num nv)
  /\ forall r c, 0 <= r < ny -> 0 <= c < nx ->
     let x := map (feature_value field) (touching_cell crs (t_parts t) (k_row k + r) (k_col k + c)) in
     resolves m (scalar_num nv) x (value out 0 (r * nx + c)) /\ null out 0 (r * nx + c) = match x with [] => true | _ => false end.
Proof.
  intros TH SP NF OK. set (fill := scalar_num nv) in *.
  destruct (array_ok (Values ui m) fill (fun r c v => resolves m fill (cell_values crs field (t_parts t) r c) v)) as (G & E & HG).
  { intros b Hr Hc W. exact (values_chunk crs field (grid_box k) (t_parts t) regs CV m fill b NF Hr Hc W OK). }
  unfold rasterize_spatial_aware. rewrite SP, (thick_not_thin k TH). fold fill.
  destruct (rasterize_matches _ _ _ _ _) as [raw|e]; [|discriminate]. cbn [rbind] in E |- *. rewrite E. cbn [rbind]. rewrite one_band, data_to_raster_nomask.
  eexists. split; [reflexivity|]. split; [apply mk_wf; [lia|pose proof ny_nonneg; destruct GR as (_ & _ & _ & ?); nia|discriminate]|]. split; [reflexivity|]. split; [reflexivity|].
  intros r c Hr Hc. set (x := map (feature_value field) (touching_cell crs (t_parts t) (k_row k + r) (k_col k + c))). destruct (flat_index r c Hr Hc) as (HI & E1 & E2). rewrite value_mk, null_mk by exact HI. rewrite E1, E2. specialize (HG r c Hr Hc). cbn beta in HG. unfold cell_values in HG. fold x in HG.
  split; [exact HG|].
  assert (PX : proper fill x). { intros v Hv. unfold x in Hv. apply in_map_iff in Hv as (f & <- & Hf). apply filter_In in Hf as [Hf _]. now apply OK. }
  destruct x as [|v0 l] eqn:EX.
  - cbn in HG. rewrite HG. apply same_value_refl.
  - destruct (resolves_in m fill (v0 :: l) _ ltac:(discriminate) PX HG) as (u & I & Eu).
    assert (N : num_eqb (G r c) fill = false) by (rewrite (num_eqb_congr_l _ u fill Eu); now apply PX). unfold same_value. destruct (G r c), fill; try exact N; try discriminate; reflexivity.
Qed.
Lemma aware_mask cast fd invert d : thick k -> t_spatial t = Some regs ->
  exists out, rasterize_spatial_aware cast fd t k field None d (Mask invert) = Ok out
  /\ wf 1 (ny * nx) out /\ r_dtype out = U8 /\ r_nv out = Some (of_Z 0)
  /\ (forall s, rasterize_spatial_aware cast fd t k field (Some s) d (Mask invert) = set_null_value cast fd out (Some s))
  /\ forall r c, 0 <= r < ny -> 0 <= c < nx ->
     let hit := xorb (match touching_cell crs (t_parts t) (k_row k + r) (k_col k + c) with [] => false | _ => true end) invert in
     value out 0 (r * nx + c) = of_Z (if hit then 1 else 0) /\ null out 0 (r * nx + c) = negb hit.
Proof.
  intros TH SP.
  assert (AO : forall fill, exists G, (let* raw := rasterize_matches (partition_chunk_matches regs (chunk_boxes k)) (t_parts t) (chunk_boxes k) crs field in
             chunks_to_array (Mask invert) fill raw (chunk_boxes k) (len (k_ychunks k)) (len (k_xchunks k))) = Ok (tab2 ny nx G)
       /\ forall r c, 0 <= r < ny -> 0 <= c < nx -> G r c = of_Z (if xorb (touched crs (t_parts t) (k_row k + r) (k_col k + c)) invert then 1 else 0)).
  { intros fill. apply (array_ok (Mask invert) fill (fun r c v => v = of_Z (if xorb (touched crs (t_parts t) r c) invert then 1 else 0))).
    intros b Hr Hc W. exact (mask_chunk_ok crs field (grid_box k) (t_parts t) regs CV invert fill b Hr Hc W). }
  set (V := fun r c => of_Z (if xorb (touched crs (t_parts t) (k_row k + r) (k_col k + c)) invert then 1 else 0)).
  assert (AV : forall fill, (let* raw := rasterize_matches (partition_chunk_matches regs (chunk_boxes k)) (t_parts t) (chunk_boxes k) crs field in
             chunks_to_array (Mask invert) fill raw (chunk_boxes k) (len (k_ychunks k)) (len (k_xchunks k))) = Ok (tab2 ny nx V)).
  { intros fill. destruct (AO fill) as (G & E & HG). rewrite E. f_equal. apply tab2_ext. intros r c Hr Hc. now apply HG. }
  clear AO. unfold rasterize_spatial_aware. rewrite SP, (thick_not_thin k TH).
  destruct (rasterize_matches _ _ _ _ _) as [raw|e]; [|specialize (AV NaN); discriminate]. cbn [rbind] in AV |- *. rewrite AV. cbn [rbind]. rewrite one_band, data_to_raster_nomask. cbn [rbind].
  eexists. split; [reflexivity|]. split; [apply mk_wf; [lia|pose proof ny_nonneg; destruct GR as (_ & _ & _ & ?); nia|discriminate]|]. split; [reflexivity|]. split; [reflexivity|]. split.
  { intros s. rewrite AV. cbn [rbind]. rewrite one_band, data_to_raster_nomask. reflexivity. }
  intros r c Hr Hc. fold (touched crs (t_parts t) (k_row k + r) (k_col k + c)). destruct (flat_index r c Hr Hc) as (HI & E1 & E2). rewrite value_mk, null_mk by exact HI. rewrite E1, E2. unfold V.
  set (hit := xorb _ _).
  split; [reflexivity|]. now destruct hit.
Qed.
End Whole.

(* ---- rasterize ---- *)
Definition marked (t : table) (k : grid) : table := Table (t_parts t) (Some (map (fun _ => boxes_intersect (grid_box k)) (t_parts t))) (t_crs t) (t_columns t).
Lemma meets k b r c : within b (grid_box k) -> inside r c b -> boxes_intersect (grid_box k) b = true.
Proof. unfold within, inside, boxes_intersect. intros. lia. Qed.
Lemma box_covers crs k' k p : within (grid_box k') (grid_box k) -> covers crs (grid_box k') p (boxes_intersect (grid_box k)).
Proof. intros W f b r c _ Wb I _. apply (meets k b r c); [|exact I]. unfold within in *. lia. Qed.
Lemma forall2_map_r {A B} (R : A -> B -> Prop) (g : A -> B) l : (forall x, R x (g x)) -> Forall2 R l (map g l).
Proof. intros H. induction l; constructor; auto. Qed.
Lemma within_refl b : within b b.
Proof. unfold within. lia. Qed.
Lemma crs_eqb_eq a b : crs_eqb a b = true -> a = b.
Proof. destruct a, b; cbn; try discriminate; [|reflexivity]. intros H. f_equal. lia. Qed.

Section Call.
Variables (cast : dtype -> num -> num) (fd : num -> dtype) (sb : option Z -> list gfeature -> region).
Lemma rasterize_start t k aware :
  can_transform t k -> spatial_right t k -> (aware = true -> forall p, In p (t_parts t) -> covers (cells_crs t k) (grid_box k) p (sb (cells_crs t k) p)) ->
  exists gdf regs t', t_parts gdf = t_parts t /\ t_crs gdf = cells_crs t k /\ t_spatial gdf = Some regs /\ Forall2 (covers (t_crs gdf) (grid_box k)) (t_parts gdf) regs
  /\ forall field om mask invert nva name d nv o, check_args t field om mask invert nva = Ok (name, d, nv, o) ->
     rasterize cast fd sb t k field om mask invert nva aware = let* r := rasterize_spatial_aware cast fd gdf k name nv d o in Ok (r, t').
Proof.
  intros CT SR SB.
  set (differs := negb (crs_eqb (t_crs t) (k_crs k)) && (match k_crs k with Some _ => true | None => false end)).
  assert (D : exists g, (if differs then match t_crs t with None => Err ValueError | Some _ => Ok (Table (t_parts t) None (k_crs k) (t_columns t)) end else Ok t) = Ok g
     /\ t_parts g = t_parts t /\ t_crs g = cells_crs t k /\ (forall regs, t_spatial g = Some regs -> Forall2 (covers (t_crs g) (grid_box k)) (t_parts g) regs)).
  { unfold differs. destruct (crs_eqb (t_crs t) (k_crs k)) eqn:E; cbn [negb andb].
    - apply crs_eqb_eq in E. exists t. split; [reflexivity|]. split; [reflexivity|]. assert (C : t_crs t = cells_crs t k) by (unfold cells_crs; destruct (k_crs k); congruence). split; [exact C|]. intros regs S. apply SR; [exact S|now symmetry].
    - unfold can_transform in CT. unfold spatial_right in SR. unfold cells_crs in SR |- *. destruct (k_crs k) as [c|] eqn:K.
      + destruct (t_crs t) as [c'|] eqn:T; [|now specialize (CT eq_refl)]. eexists. split; [reflexivity|]. split; [reflexivity|]. split; [reflexivity|]. intros regs S. discriminate.
      + exists t. split; [reflexivity|]. split; [reflexivity|]. split; [reflexivity|]. intros regs S. now apply SR. }
  destruct D as (g & E & P & C & R).
  assert (U : forall field om mask invert nva name d nv o, check_args t field om mask invert nva = Ok (name, d, nv, o) -> rasterize cast fd sb t k field om mask invert nva aware
    = match t_spatial g with
      | Some _ => let* r := rasterize_spatial_aware cast fd g k name nv d o in Ok (r, t)
      | None => if aware then let* r := rasterize_spatial_aware cast fd (Table (t_parts g) (Some (map (sb (t_crs g)) (t_parts g))) (t_crs g) (t_columns g)) k name nv d o in Ok (r, t)
                else let* r := rasterize_spatial_aware cast fd (Table (t_parts g) (Some (map (fun _ => boxes_intersect (grid_box k)) (t_parts g))) (t_crs g) (t_columns g)) k name nv d o in
                     Ok (r, if differs then t else Table (t_parts g) (Some (map (fun _ => boxes_intersect (grid_box k)) (t_parts g))) (t_crs g) (t_columns g))
      end).
  { intros field om mask invert nva name d nv o CA. unfold rasterize. rewrite CA. cbn [rbind]. fold differs. rewrite E. reflexivity. }
  destruct (t_spatial g) as [regs|] eqn:S.
  - exists g, regs, t. repeat split; auto.
  - destruct aware.
    + eexists (Table (t_parts g) (Some (map (sb (t_crs g)) (t_parts g))) (t_crs g) (t_columns g)), _, t. cbn [t_parts t_crs t_spatial]. repeat split; auto.
      rewrite P, C. clear - SB. specialize (SB eq_refl). induction (t_parts t) as [|p ps IH]; [constructor|]. constructor; [apply SB; now left|]. apply IH. intros q Hq. apply SB. now right.
    + eexists (Table (t_parts g) (Some (map (fun _ => boxes_intersect (grid_box k)) (t_parts g))) (t_crs g) (t_columns g)), _, _. cbn [t_parts t_crs t_spatial]. repeat split; auto.
      apply forall2_map_r. intros p. apply box_covers, within_refl.
Qed.
Lemma check_chosen t field m invert nva d fill : chosen t field nva d fill ->
  exists nv, check_args t field (Some m) false invert nva = Ok (field_of field, d, Some nv, Values (match field_of field with None => true | Some _ => false end) m) /\ scalar_num nv = fill.
Proof.
  intros [H1 H2]. unfold check_args. destruct field as [|name|]; [| |contradiction].
  - subst d. destruct nva as [|s|]; [| |contradiction]; subst fill; eexists; (split; [reflexivity|reflexivity]).
  - rewrite H1. cbn [rbind fst snd field_of]. destruct nva as [|s|]; [| |contradiction]; subst fill; eexists; (split; [reflexivity|reflexivity]).
Qed.
Lemma values_ok t k ny nx field m invert nva aware d fill :
  grid_of ny nx k -> thick k -> can_transform t k -> spatial_right t k -> (aware = true -> forall p, In p (t_parts t) -> covers (cells_crs t k) (grid_box k) p (sb (cells_crs t k) p)) ->
  chosen t field nva d fill -> is_nan fill = false ->
  (forall f, In f (concat (t_parts t)) -> is_nan (feature_value (field_of field) f) = false /\ num_eqb (feature_value (field_of field) f) fill = false) ->
  exists out t', rasterize cast fd sb t k field (Some m) false invert nva aware = Ok (out, t')
  /\ wf 1 (ny * nx) out /\ r_dtype out = d /\ r_nv out = Some fill
  /\ forall r c, 0 <= r < ny -> 0 <= c < nx ->
     let x := map (feature_value (field_of field)) (touching_cell (cells_crs t k) (t_parts t) (k_row k + r) (k_col k + c)) in
     resolves m fill x (value out 0 (r * nx + c)) /\ null out 0 (r * nx + c) = match x with [] => true | _ => false end.
Proof.
  intros GR TH CT SR SB CH NF OK. destruct (check_chosen t field m invert nva d fill CH) as (nv & CA & <-).
  destruct (rasterize_start t k aware CT SR SB) as (gdf & regs & t' & P & C & S & CV & E). apply E in CA. clear E. rename CA into E.
  rewrite <- P in OK. destruct (aware_values gdf k ny nx (field_of field) regs GR CV cast fd nv d m TH S NF OK) as (out & EO & W & D & N & V).
  rewrite P, C in V. exists out, t'. rewrite E, EO. cbn [rbind]. split; [reflexivity|]. auto.
Qed.
Lemma mask_ok t k ny nx field om invert aware :
  grid_of ny nx k -> thick k -> can_transform t k -> spatial_right t k -> (aware = true -> forall p, In p (t_parts t) -> covers (cells_crs t k) (grid_box k) p (sb (cells_crs t k) p)) ->
  exists out t', rasterize cast fd sb t k field om true invert NvNone aware = Ok (out, t')
  /\ wf 1 (ny * nx) out /\ r_dtype out = U8 /\ r_nv out = Some (of_Z 0)
  /\ (forall r c, 0 <= r < ny -> 0 <= c < nx ->
     let hit := xorb (match touching_cell (cells_crs t k) (t_parts t) (k_row k + r) (k_col k + c) with [] => false | _ => true end) invert in
     value out 0 (r * nx + c) = of_Z (if hit then 1 else 0) /\ null out 0 (r * nx + c) = negb hit)
  /\ forall s, rasterize cast fd sb t k field om true invert (NvScalar s) aware = let* out := set_null_value cast fd out (Some s) in Ok (out, t').
Proof.
  intros GR TH CT SR SB.
  destruct (rasterize_start t k aware CT SR SB) as (gdf & regs & t' & P & C & S & CV & E).
  destruct (aware_mask gdf k ny nx None regs GR CV cast fd invert U8 TH S) as (out & EO & W & D & N & X & V).
  exists out, t'. rewrite (E field om true invert NvNone _ _ _ _ eq_refl), EO. cbn [rbind]. split; [reflexivity|]. do 3 (split; [assumption|]). split; [rewrite <- P, <- C; exact V|].
  intros s. rewrite <- (X s). exact (E field om true invert (NvScalar s) _ _ _ _ eq_refl).
Qed.
Lemma mask_value_ok t k ny nx field om invert aware s out t' : cast BOOL NaN = of_Z 1 -> (forall d z, z = 0 \/ z = 1 -> cast d (of_Z z) = of_Z z) -> (forall v, fd v <> BOOL) -> fits s ->
  same_value (of_Z 1) (scalar_num s) = false -> same_value (of_Z 1) (cast U8 (scalar_num s)) = false ->
  grid_of ny nx k -> thick k -> can_transform t k -> spatial_right t k -> (aware = true -> forall p, In p (t_parts t) -> covers (cells_crs t k) (grid_box k) p (sb (cells_crs t k) p)) ->
  rasterize cast fd sb t k field om true invert (NvScalar s) aware = Ok (out, t') ->
  wf 1 (ny * nx) out /\ exists v, r_nv out = Some v /\ (v = scalar_num s \/ v = cast U8 (scalar_num s))
  /\ forall r c, 0 <= r < ny -> 0 <= c < nx ->
     let hit := xorb (match touching_cell (cells_crs t k) (t_parts t) (k_row k + r) (k_col k + c) with [] => false | _ => true end) invert in
     value out 0 (r * nx + c) = (if hit then of_Z 1 else v) /\ null out 0 (r * nx + c) = negb hit.
Proof.
  intros CB C01 FB FS N1 N2 GR TH CT SR SB H. destruct (mask_ok t k ny nx field om invert aware GR TH CT SR SB) as (o & t0 & _ & W & D & N & V & X). rewrite X in H.
  destruct (set_null_value cast fd o (Some s)) as [o'|e] eqn:E; [|discriminate]. cbn [rbind] in H. injection H as -> ->.
  destruct (set_null_value_spec cast fd CB 1 (ny * nx) o s out FB FS W E) as (v & EV & W' & HV & _ & HC).
  { intros b i [Hb Hi]. assert (b = 0) by lia. subst b. destruct GR as (_ & _ & _ & Px).
    specialize (V (i / nx) (i mod nx)). replace (i / nx * nx + i mod nx) with i in V by (pose proof (Z.div_mod i nx); lia).
    pose proof (Z.mod_pos_bound i nx Px). assert (0 <= i / nx < ny) by (split; [apply Z.div_pos; lia|apply Z.div_lt_upper_bound; lia]).
    destruct V as [-> _]; [assumption..|]. apply C01. destruct (xorb _ _); auto. }
  split; [exact W'|]. exists v. split; [exact EV|]. split; [rewrite D in HV; tauto|]. intros r c Hr Hc hit.
  destruct (flat_index ny nx r c Hr Hc) as (HI & _). specialize (V r c Hr Hc). cbn zeta in V. fold hit in V. destruct V as [V1 V2]. destruct (HC _ _ HI) as [H1 H2].
  assert (S1 : same_value (of_Z 1) v = false) by (rewrite D in HV; destruct HV as [->|[_ ->]]; assumption).
  rewrite H2, H1, V1, V2. destruct hit; cbn [negb orb]; [rewrite S1|]; auto.
Qed.

(* the table afterwards *)
Lemma table_after t k field om mask invert nva aware out t' : rasterize cast fd sb t k field om mask invert nva aware = Ok (out, t') ->
  t' = t \/ t_spatial t = None /\ aware = false /\ cells_crs t k = t_crs t /\ t' = marked t k.
Proof.
  unfold rasterize. intros H. destruct (check_args _ _ _ _ _ _) as [[[[name d] nv] o]|]; [|discriminate]. cbn [rbind] in H.
  destruct (negb (crs_eqb (t_crs t) (k_crs k)) && _) eqn:D.
  - destruct (t_crs t); [|discriminate]. cbn [rbind t_spatial t_parts t_crs t_columns] in H. destruct aware; destruct (rasterize_spatial_aware _ _ _ _ _ _ _ _); try discriminate; cbn [rbind] in H; injection H as _ <-; now left.
  - cbn [rbind] in H. destruct (t_spatial t) as [regs|] eqn:S.
    + destruct (rasterize_spatial_aware _ _ _ _ _ _ _ _); [|discriminate]. cbn [rbind] in H. injection H as _ <-. now left.
    + destruct aware.
      * destruct (rasterize_spatial_aware _ _ _ _ _ _ _ _); [|discriminate]. cbn [rbind] in H. injection H as _ <-. now left.
      * destruct (rasterize_spatial_aware _ _ _ _ _ _ _ _); [|discriminate]. cbn [rbind] in H. injection H as _ <-. right. split; [reflexivity|]. split; [reflexivity|]. split; [|reflexivity].
        unfold cells_crs. destruct (k_crs k) as [c|]; [|reflexivity]. rewrite andb_true_r in D. apply negb_false_iff, crs_eqb_eq in D. now symmetry.
Qed.
Lemma again_right t k field om mask invert nva aware out t' k' : rasterize cast fd sb t k field om mask invert nva aware = Ok (out, t') ->
  spatial_right t k' -> (t_spatial t = None -> aware = false -> within (grid_box k') (grid_box k)) -> t_parts t' = t_parts t /\ t_crs t' = t_crs t /\ t_columns t' = t_columns t /\ spatial_right t' k'.
Proof.
  intros H SR W. apply table_after in H as [->|(S & A & C & ->)]; [auto|]. repeat split. intros regs E _. cbn in E. injection E as <-. cbn [marked t_parts t_crs]. apply forall2_map_r. intros p. apply box_covers. auto.
Qed.
(* one row or column in a chunk *)
Lemma thin_refused t k field om mask invert nva aware : ~ thick k -> forall out, rasterize cast fd sb t k field om mask invert nva aware <> Ok out.
Proof.
  intros NT out H.
  assert (T : thin_chunk k = true).
  { destruct (thin_chunk k) eqn:T; [reflexivity|]. exfalso. apply NT. unfold thin_chunk in T. rewrite existsb_app in T. apply orb_false_iff in T as [T1 T2].
    assert (X : forall l, existsb (fun c => c <? 2) l = false -> Forall (fun c => 2 <= c) l).
    { induction l as [|c l IH]; intros E; [constructor|]. cbn [existsb] in E. apply orb_false_iff in E as [E1 E2]. constructor; [lia|now apply IH]. }
    split; now apply X. }
  assert (A : forall g name nv d o r, rasterize_spatial_aware cast fd g k name nv d o <> Ok r).
  { intros g name nv d o r. unfold rasterize_spatial_aware. destruct (t_spatial g); [rewrite T|]; discriminate. }
  unfold rasterize in H. destruct (check_args _ _ _ _ _ _) as [[[[name d] nv] o]|]; [|discriminate]. cbn [rbind] in H.
  match type of H with (let* gdf := ?X in _) = _ => destruct X as [g|]; [|discriminate] end. cbn [rbind] in H.
  destruct (t_spatial g); [|destruct aware]; match type of H with (let* r := rasterize_spatial_aware ?a ?b ?c ?d ?e ?f ?g ?h in _) = _ => destruct (rasterize_spatial_aware a b c d e f g h) eqn:E; [now apply A in E|discriminate] end.
Qed.
End Call.

(* ---- independence ---- *)
Lemma resolves_same m fill x v w : is_nan fill = false -> proper fill x -> resolves m fill x v -> resolves m fill x w -> same_value v w = true.
Proof.
  intros NF PX V W. destruct x as [|a l]; [cbn in V, W; subst; apply same_value_refl|].
  assert (Q : num_eqb v w = true -> same_value v w = true) by (intros Q; unfold same_value; destruct v, w; try exact Q; reflexivity).
  cbn [resolves] in V, W. destruct m; [subst; apply same_value_refl|subst; apply same_value_refl| |]; destruct V as [(u & Iu & Eu) Vl]; destruct W as [(u' & Iu' & Eu') Wl]; apply Q, num_leb_antisym.
  - apply (leb_eqb_r _ _ _ Eu'). now apply Vl.
  - apply (leb_eqb_r _ _ _ Eu). now apply Wl.
  - apply (leb_eqb_l _ _ _ Eu). now apply Wl.
  - apply (leb_eqb_l _ _ _ Eu'). now apply Vl.
Qed.
Lemma resolves_proper fill field parts : (forall f, In f (concat parts) -> is_nan (feature_value field f) = false /\ num_eqb (feature_value field f) fill = false) ->
  forall crs r c, proper fill (map (feature_value field) (touching_cell crs parts r c)).
Proof. intros H crs r c v Hv. apply in_map_iff in Hv as (f & <- & Hf). apply filter_In in Hf as [Hf _]. now apply H. Qed.

(* ---- refusals ---- *)
Lemma refused cast fd sb t k field om mask invert nva aware :
  mask = false -> (match field with FieldName name => lookup name (t_columns t) = None \/ lookup name (t_columns t) = Some None | FieldOther => True | NoField => False end) ->
  rasterize cast fd sb t k field om mask invert nva aware = Err ValueError.
Proof. intros -> H. unfold rasterize, check_args. destruct field as [|name|]; [contradiction| |reflexivity]. destruct H as [-> | ->]; reflexivity. Qed.
Lemma refusals cast fd sb t k field om mask invert nva aware :
  (mask = false -> bad_field t field -> rasterize cast fd sb t k field om mask invert nva aware = Err ValueError)
  /\ (mask = false -> ~ bad_field t field -> nva = NvOther -> rasterize cast fd sb t k field om mask invert nva aware = Err TypeError)
  /\ (mask = false -> nva <> NvOther -> om = None -> rasterize cast fd sb t k field om mask invert nva aware = Err ValueError)
  /\ (mask = true -> nva = NvOther -> rasterize cast fd sb t k field om mask invert nva aware = Err TypeError)
  /\ (nva <> NvOther -> ~ can_transform t k -> rasterize cast fd sb t k field om mask invert nva aware = Err ValueError).
Proof.
  split; [intros; now apply refused|]. split; [|split; [|split]].
  - intros -> B ->. unfold rasterize, check_args. destruct field as [|name|]; [reflexivity| |exfalso; now apply B]. cbn in B. destruct (lookup name (t_columns t)) as [[d|]|]; [reflexivity|tauto|tauto].
  - intros -> N ->. unfold rasterize, check_args. destruct field as [|name|]; [| |reflexivity]; [|destruct (lookup name (t_columns t)) as [[d|]|]; try reflexivity]; destruct nva; try reflexivity; contradiction.
  - intros -> ->. reflexivity.
  - intros N C. unfold can_transform in C. destruct (t_crs t) as [c|] eqn:T; [exfalso; apply C; discriminate|]. destruct (k_crs k) as [c|] eqn:K; [|exfalso; apply C; auto].
    unfold rasterize. rewrite T, K. cbn [crs_eqb negb andb].
    assert (A : (exists p, check_args t field om mask invert nva = Ok p) \/ check_args t field om mask invert nva = Err ValueError).
    { unfold check_args. destruct mask; [destruct nva; try contradiction; eauto|]. destruct field as [|name|]; [| |now right]; [|destruct (lookup name (t_columns t)) as [[d|]|]; try (now right)];
      destruct nva; try contradiction; cbn [rbind]; destruct om; eauto. }
    destruct A as [([[[? ?] ?] ?] & ->)| ->]; reflexivity.
Qed.
Lemma same_results cast fd sb t1 t2 k1 k2 ny nx field m i1 i2 nva a1 a2 d fill :
  grid_of ny nx k1 -> grid_of ny nx k2 -> thick k1 -> thick k2 -> k_row k1 = k_row k2 -> k_col k1 = k_col k2 -> concat (t_parts t1) = concat (t_parts t2) -> t_columns t1 = t_columns t2 -> cells_crs t1 k1 = cells_crs t2 k2 ->
  can_transform t1 k1 -> can_transform t2 k2 -> spatial_right t1 k1 -> spatial_right t2 k2 ->
  (forall p crs, covers crs (grid_box k1) p (sb crs p)) ->
  chosen t1 field nva d fill -> is_nan fill = false ->
  (forall f, In f (concat (t_parts t1)) -> is_nan (feature_value (field_of field) f) = false /\ num_eqb (feature_value (field_of field) f) fill = false) ->
  exists o1 o2 u1 u2, rasterize cast fd sb t1 k1 field (Some m) false i1 nva a1 = Ok (o1, u1) /\ rasterize cast fd sb t2 k2 field (Some m) false i2 nva a2 = Ok (o2, u2)
  /\ r_dtype o1 = r_dtype o2 /\ r_nv o1 = r_nv o2
  /\ forall i, 0 <= i < ny * nx -> same_value (value o1 0 i) (value o2 0 i) = true /\ null o1 0 i = null o2 0 i.
Proof.
  intros G1 G2 T1 T2 ER EC EP EL ES C1 C2 S1 S2 SB CH NF OK.
  assert (GB : grid_box k1 = grid_box k2).
  { unfold grid_box. destruct G1 as (A & B & _), G2 as (A' & B' & _). destruct (cuts_sum _ _ A) as [_ SA], (cuts_sum _ _ A') as [_ SA'], (cuts_sum _ _ B) as [_ SB1], (cuts_sum _ _ B') as [_ SB'].
    rewrite (total_sum (k_ychunks k1)), (total_sum (k_ychunks k2)), (total_sum (k_xchunks k1)), (total_sum (k_xchunks k2)), SA, SA', SB1, SB'. congruence. }
  destruct (values_ok cast fd sb t1 k1 ny nx field m i1 nva a1 d fill G1 T1 C1 S1 ltac:(intros; apply SB) CH NF OK) as (o1 & u1 & E1 & W1 & D1 & N1 & V1).
  assert (CH2 : chosen t2 field nva d fill) by (unfold chosen in *; now rewrite <- EL). assert (OK2 := OK). rewrite EP in OK2.
  destruct (values_ok cast fd sb t2 k2 ny nx field m i2 nva a2 d fill G2 T2 C2 S2 ltac:(intros; rewrite <- GB; apply SB) CH2 NF OK2) as (o2 & u2 & E2 & W2 & D2 & N2 & V2).
  exists o1, o2, u1, u2. split; [exact E1|]. split; [exact E2|]. split; [congruence|]. split; [congruence|]. intros i Hi.
  destruct G1 as (_ & _ & _ & Px). pose proof (Z.mod_pos_bound i nx Px) as M. assert (Q : 0 <= i / nx < ny) by (split; [apply Z.div_pos; lia|apply Z.div_lt_upper_bound; lia]).
  specialize (V1 (i / nx) (i mod nx) Q M). specialize (V2 (i / nx) (i mod nx) Q M). cbn zeta in V1, V2.
  replace (i / nx * nx + i mod nx) with i in V1, V2 by (pose proof (Z.div_mod i nx); lia). unfold touching_cell in V1, V2. rewrite <- ES, <- EP, <- ER, <- EC in V2. destruct V1 as [R1 L1], V2 as [R2 L2].
  split; [|congruence]. eapply resolves_same; [exact NF| |exact R1|exact R2]. exact (resolves_proper fill (field_of field) (t_parts t1) OK (cells_crs t1 k1) (k_row k1 + i / nx) (k_col k1 + i mod nx)).
Qed.
