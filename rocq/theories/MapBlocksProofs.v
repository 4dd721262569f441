(* Proofs about MapBlocks.v. *)
From Coq Require Import Lia ZifyBool ZifyNat.
From Verif Require Import Base BaseFacts Scalars Arr2 Arr2Facts Chunks ChunksSpec ChunksProofs ProximityChunk CostPublicProofs FocalSpec FocalValues FocalResults RasterStack PadProofs AggregateProofs
  Bands BandsSpec BandsProofs BlockArgs BlockArgsProofs MapBlocks MapBlocksSpec.
Open Scope Z_scope.

(* ---- lists ---- *)
Lemma in_enumerate {A} (l : list A) k x : In (k, x) (enumerate l) <-> get l k = Ok x.
Proof.
  unfold enumerate. split.
  - intros H. apply in_get in H as (i & H). pose proof (get_ok_range _ _ _ H) as R. rewrite len_combine' in R by (rewrite len_zrange; pose proof (len_nonneg l); lia). rewrite len_zrange in R.
    pose proof (len_nonneg l). destruct (get_range l i) as [y Y]; [lia|]. rewrite (get_combine' _ _ i (0 + i) y) in H; [|apply get_zrange; lia|exact Y]. injection H as <- <-. now rewrite ?Z.add_0_l.
  - intros G. pose proof (get_ok_range _ _ _ G) as R. apply (get_in _ k). apply get_combine'; [|exact G]. rewrite get_zrange by lia. reflexivity.
Qed.
Lemma map_enumerate {A B} (h : A -> B) l : map (fun p => h (snd p)) (enumerate l) = map h l.
Proof.
  unfold enumerate. rewrite <- (map_map snd h). f_equal. apply list_ext.
  - rewrite len_map, len_combine'; rewrite ?len_zrange; pose proof (len_nonneg l); lia.
  - intros i x G. pose proof (get_ok_range _ _ _ G) as R. rewrite len_map, len_combine' in R by (rewrite len_zrange; pose proof (len_nonneg l); lia). rewrite len_zrange in R. pose proof (len_nonneg l).
    destruct (get_range l i) as [y Y]; [lia|]. rewrite get_map_eq in G. rewrite (get_combine' _ _ i (0 + i) y) in G; [|apply get_zrange; lia|exact Y]. cbn in G. congruence.
Qed.
Lemma bcat_tab {A} (cs : list Z) : Forall (fun c => 0 <= c) cs -> forall (f : Z -> A),
  concat (map (fun p => tab (snd p - fst p) (fun i => f (fst p + i))) (chunks_to_array_locations cs)) = tab (sum cs) f.
Proof.
  induction cs as [|c cs IH]; intros F f; [reflexivity|]. inversion F as [|? ? Hc F']; subst.
  rewrite locs_cons. cbn [map fst snd concat]. rewrite sum_cons, map_map. cbn [fst snd].
  rewrite (map_ext _ (fun p => tab (snd p - fst p) (fun i => f (c + (fst p + i))))).
  2:{ intros p. replace (c + snd p - (c + fst p)) with (snd p - fst p) by lia. apply tab_ext. intros. f_equal. lia. }
  rewrite (IH F') with (f := fun i => f (c + i)).
  replace (c - 0) with c by lia. rewrite <- (tab_app c (sum cs)); [|exact Hc|now apply sum_nonneg]. f_equal.
Qed.

(* ---- assembling ---- *)
Section Assemble.
Context {B : Type}.
Variables (f : list blk -> Z * Z * Z -> res (arr3 B)) (inputs : list blk).
Variables (ycs xcs : list Z) (ny nx : Z).
Hypothesis (Cy : cuts ny ycs) (Cx : cuts nx xcs) (Nx : xcs <> []).

Lemma assemble_bands kb bs n (G : Z -> Z -> Z -> B) :
  (forall ky rs kx cs, get (chunks_to_array_locations ycs) ky = Ok rs -> get (chunks_to_array_locations xcs) kx = Ok cs ->
     f (map (cut_blk bs rs cs) inputs) (kb, ky, kx) = Ok (tab3 n (snd rs - fst rs) (snd cs - fst cs) (fun b i j => G b (fst rs + i) (fst cs + j)))) ->
  (let* rows := traverse (fun '(ky, rs) =>
      let* blocks := traverse (fun '(kx, cs) => f (map (cut_blk bs rs cs) inputs) (kb, ky, kx))
        (enumerate (chunks_to_array_locations xcs)) in
      join hcat n blocks) (enumerate (chunks_to_array_locations ycs)) in
    join (fun bs => concat bs) n rows) = Ok (tab3 n ny nx G).
Proof.
  intros H. destruct (cuts_sum _ _ Cy) as [Fy Sy]. destruct (cuts_sum _ _ Cx) as [Fx Sx].
  rewrite (traverse_ok (B := list (arr2 B)) _ (fun p => tab n (fun o => tab2 (snd (snd p) - fst (snd p)) nx (fun i j => G o (fst (snd p) + i) j)))).
  - cbn [rbind]. rewrite (map_enumerate (fun p => tab n (fun o => tab2 (snd p - fst p) nx (fun i j => G o (fst p + i) j)))).
    rewrite (join_ok (fun bs => concat bs) n (fun o p => tab2 (snd p - fst p) nx (fun i j => G o (fst p + i) j))).
    f_equal. apply tab_ext. intros o _. etransitivity; [exact (vcat_tab nx ycs Fy (G o))|now rewrite Sy].
  - intros [ky rs] Hr. apply in_enumerate in Hr.
    rewrite (traverse_ok (B := arr3 B) _ (fun p => tab3 n (snd rs - fst rs) (snd (snd p) - fst (snd p)) (fun b i j => G b (fst rs + i) (fst (snd p) + j)))).
    + cbn [rbind fst snd]. rewrite (map_enumerate (fun p => tab3 n (snd rs - fst rs) (snd p - fst p) (fun b i j => G b (fst rs + i) (fst p + j)))).
      unfold tab3. rewrite (join_ok hcat n (fun o p => tab2 (snd rs - fst rs) (snd p - fst p) (fun i j => G o (fst rs + i) (fst p + j)))).
      f_equal. apply tab_ext. intros o _. etransitivity; [exact (hcat_tab (snd rs - fst rs) xcs Fx Nx (fun i j => G o (fst rs + i) j))|now rewrite Sx].
    + intros [kx cs] Hc. apply in_enumerate in Hc. cbn [fst snd]. now apply H.
Qed.
End Assemble.

(* the location of an index *)
Definition holds (i : Z) (p : Z * (Z * Z)) : bool := (fst (snd p) <=? i) && (i <? snd (snd p)).
Definition loc_of (cs : list Z) (i : Z) : Z * (Z * Z) :=
  match find (holds i) (enumerate (chunks_to_array_locations cs)) with Some p => p | None => (0, (0, 0)) end.
Lemma loc_of_in cs i : Forall (fun c => 0 <= c) cs -> 0 <= i < sum cs ->
  get (chunks_to_array_locations cs) (fst (loc_of cs i)) = Ok (snd (loc_of cs i)) /\ fst (snd (loc_of cs i)) <= i < snd (snd (loc_of cs i)).
Proof.
  intros F Hi. destruct (locations_unique cs i F Hi) as (k & (lo & hi & G & R) & _). unfold loc_of.
  destruct (find (holds i) (enumerate (chunks_to_array_locations cs))) as [[k' p']|] eqn:E.
  - apply find_some in E as [I H]. apply in_enumerate in I. unfold holds in H. cbn in *. split; [exact I|lia].
  - exfalso. apply in_enumerate in G. pose proof (find_none _ _ E _ G) as N. unfold holds in N. cbn in N. lia.
Qed.
Lemma loc_of_eq cs i k p : Forall (fun c => 0 <= c) cs -> get (chunks_to_array_locations cs) k = Ok p -> fst p <= i < snd p -> loc_of cs i = (k, p).
Proof.
  intros F G R. destruct p as [lo hi]. cbn in R. pose proof (locations_range cs F lo hi (get_in _ _ _ G)) as LR.
  destruct (locations_unique cs i F ltac:(lia)) as (k0 & _ & U).
  destruct (loc_of_in cs i F ltac:(lia)) as [G' R']. destruct (loc_of cs i) as [k' [lo' hi']]. cbn in *.
  assert (k0 = k) by (apply U; eauto). assert (k0 = k') by (apply U; eauto). subst. congruence.
Qed.

Section Whole.
Context {B : Type}.
Variables (d : B) (f : list blk -> Z * Z * Z -> res (arr3 B)) (inputs : list blk) (bcs ycs xcs : list Z) (nb ny nx : Z).
Hypothesis (Cb : cuts nb bcs) (Cy : cuts ny ycs) (Cx : cuts nx xcs) (Nx : xcs <> []).

Lemma dask_blocks :
  (forall kb bs ky rs kx cs, block_at (bcs, ycs, xcs) (kb, ky, kx) bs rs cs ->
     exists a, f (map (cut_blk bs rs cs) inputs) (kb, ky, kx) = Ok a /\ shaped3 (size bs) (size rs) (size cs) a) ->
  exists G, dask_map_blocks f (fun bs => snd bs - fst bs) (bcs, ycs, xcs) inputs = Ok (tab3 nb ny nx G)
  /\ (forall kb bs ky rs kx cs, block_at (bcs, ycs, xcs) (kb, ky, kx) bs rs cs ->
       f (map (cut_blk bs rs cs) inputs) (kb, ky, kx) = Ok (tab3 (size bs) (size rs) (size cs) (fun b i j => G (fst bs + b) (fst rs + i) (fst cs + j)))).
Proof.
  intros H. destruct (cuts_sum _ _ Cb) as [Fb Sb]. destruct (cuts_sum _ _ Cy) as [Fy Sy]. destruct (cuts_sum _ _ Cx) as [Fx Sx].
  set (G := fun b r c => let '(kb, bs) := loc_of bcs b in let '(ky, rs) := loc_of ycs r in let '(kx, cs) := loc_of xcs c in
     match f (map (cut_blk bs rs cs) inputs) (kb, ky, kx) with Ok a => val3 d a (b - fst bs) (r - fst rs) (c - fst cs) | Err _ => d end).
  assert (HG : forall kb bs ky rs kx cs, block_at (bcs, ycs, xcs) (kb, ky, kx) bs rs cs ->
       f (map (cut_blk bs rs cs) inputs) (kb, ky, kx) = Ok (tab3 (size bs) (size rs) (size cs) (fun b i j => G (fst bs + b) (fst rs + i) (fst cs + j)))).
  { intros kb bs ky rs kx cs BA. destruct (H _ _ _ _ _ _ BA) as (a & E & S). rewrite E. f_equal.
    destruct BA as (B1 & B2 & B3). destruct bs as [b0 b1], rs as [r0 r1], cs as [c0 c1].
    pose proof (locations_range bcs Fb _ _ (get_in _ _ _ B1)). pose proof (locations_range ycs Fy _ _ (get_in _ _ _ B2)). pose proof (locations_range xcs Fx _ _ (get_in _ _ _ B3)).
    unfold size in *. cbn [fst snd] in *. rewrite (shaped3_is_tab3 d _ _ _ a S) at 1 by lia. apply tab3_ext. intros b i j Hb Hi Hj. unfold G.
    rewrite (loc_of_eq bcs (b0 + b) kb (b0, b1)), (loc_of_eq ycs (r0 + i) ky (r0, r1)), (loc_of_eq xcs (c0 + j) kx (c0, c1)); try assumption; cbn [fst snd]; try lia.
    rewrite E. f_equal; lia. }
  exists G. split; [|exact HG]. unfold dask_map_blocks.
  rewrite (traverse_ok (B := list (arr2 B)) _ (fun p => tab3 (snd (snd p) - fst (snd p)) ny nx (fun b i j => G (fst (snd p) + b) i j))).
  - cbn [rbind]. f_equal. rewrite (map_enumerate (fun p => tab3 (snd p - fst p) ny nx (fun b i j => G (fst p + b) i j))).
    unfold tab3. etransitivity; [exact (bcat_tab bcs Fb (fun b => tab2 ny nx (G b)))|now rewrite Sb].
  - intros [kb bs] Hb. apply in_enumerate in Hb.
    apply (assemble_bands f inputs ycs xcs ny nx Cy Cx Nx kb bs (snd bs - fst bs) (fun b i j => G (fst bs + b) i j)).
    intros ky rs kx cs Hr Hc. apply HG. now repeat split.
Qed.
End Whole.
Lemma slice3_of_blocks {B} bcs ycs xcs nb ny nx G bs rs cs kb ky kx : cuts nb bcs -> cuts ny ycs -> cuts nx xcs -> block_at (bcs, ycs, xcs) (kb, ky, kx) bs rs cs ->
  slice3 (tab3 nb ny nx (G : Z -> Z -> Z -> B)) bs rs cs = tab3 (size bs) (size rs) (size cs) (fun b i j => G (fst bs + b) (fst rs + i) (fst cs + j)).
Proof.
  intros Cb Cy Cx (B1 & B2 & B3). destruct (cuts_sum _ _ Cb) as [Fb Sb]. destruct (cuts_sum _ _ Cy) as [Fy Sy]. destruct (cuts_sum _ _ Cx) as [Fx Sx]. destruct bs as [b0 b1], rs as [r0 r1], cs as [c0 c1].
  pose proof (locations_range bcs Fb _ _ (get_in _ _ _ B1)). pose proof (locations_range ycs Fy _ _ (get_in _ _ _ B2)). pose proof (locations_range xcs Fx _ _ (get_in _ _ _ B3)).
  unfold slice3, size. cbn [fst snd]. unfold tab3. rewrite slice_tab by lia. unfold tab at 1. rewrite map_map. apply map_ext. intros b.
  unfold tab2. rewrite slice_tab by lia. unfold tab at 1. rewrite map_map. apply map_ext. intros i. now rewrite slice_tab by lia.
Qed.

(* ---- shapes ---- *)
Lemma lists_eqb_refl a : lists_eqb a a = true.
Proof. induction a as [|x a IH]; [reflexivity|]. cbn. destruct (list_eq_dec Z.eq_dec x x); [exact IH|contradiction]. Qed.
Lemma map_const_full {A B} (g : A -> B) l c n : len l = n -> (forall x, In x l -> g x = c) -> map g l = full n c.
Proof.
  intros <- H. unfold full, len. rewrite Nat2Z.id. induction l as [|a l IH]; [reflexivity|]. cbn [map length repeat]. rewrite H by now left. f_equal. apply IH. intros. apply H. now right.
Qed.
Lemma len3_shaped {A} n m k (a : list (list (list A))) : shaped3 n m k a -> len3 a = full n (full m k).
Proof.
  intros [L F]. unfold len3. apply map_const_full; [exact L|]. intros band Hb. rewrite Forall_forall in F. destruct (F band Hb) as [L2 F2].
  apply map_const_full; [exact L2|]. intros row Hr. rewrite Forall_forall in F2. exact (F2 row Hr).
Qed.
Lemma same_shape_ok {A B} n m k (a : list (list (list A))) (b : list (list (list B))) : shaped3 n m k a -> shaped3 n m k b -> same_shape3 a b = true.
Proof. intros H1 H2. unfold same_shape3. rewrite (len3_shaped _ _ _ _ H1), (len3_shaped _ _ _ _ H2). apply lists_eqb_refl. Qed.
Lemma zip3_tab3 {A B} n m k (f : Z -> Z -> Z -> A) (g : Z -> Z -> Z -> B) : zip3 (tab3 n m k f) (tab3 n m k g) = tab3 n m k (fun b i j => (f b i j, g b i j)).
Proof.
  unfold zip3, tab3, tab. rewrite combine_map, map_map. apply map_ext. intros b. unfold tab2, tab. rewrite combine_map, map_map. apply map_ext. intros i. apply combine_map.
Qed.
Lemma map3_tab3 {A B} n m k (h : A -> B) f : map3 h (tab3 n m k f) = tab3 n m k (fun b i j => h (f b i j)).
Proof. unfold map3, tab3. rewrite map_tab. apply tab_ext. intros b _. unfold tab2. rewrite map_tab. apply tab_ext. intros i _. apply map_tab. Qed.

(* ---- the arguments of the wrapper ---- *)
Definition all_inputs (f : func) (rs : list braster) : list blk :=
  map (fun r => BData (b_data r)) rs ++ (if wants_masks f then map (fun r => BMask (b_mask r)) rs else []).
Lemma align_inputs f t rs : map (fun r => BData (b_data r)) (align_to t rs) ++ (if wants_masks f then map (fun r => BMask (b_mask r)) (align_to t rs) else []) = all_inputs f rs.
Proof.
  unfold all_inputs, align_to. rewrite !map_map. f_equal; [|destruct (wants_masks f); [|reflexivity]];
    apply map_ext; intros r; destruct (chunks3_eqb _ _); reflexivity.
Qed.
Lemma wrapper_args_eq f rs bs ys xs nv id : wrapper_args f (map (cut_blk bs ys xs) (all_inputs f rs)) (Ok nv) id
  = run f (data_blocks rs bs ys xs) (mask_blocks f rs bs ys xs) (if wants_out_nv f then Some nv else None) id.
Proof.
  unfold wrapper_args, all_inputs, data_blocks, mask_blocks. rewrite map_app, !map_map. cbn [cut_blk].
  destruct (wants_masks f).
  - rewrite map_map. cbn [cut_blk]. set (a := map _ rs). set (c := map (fun r => BMask _) rs).
    assert (L : Z.to_nat (len (a ++ c) / 2) = length a).
    { unfold len. rewrite app_length. unfold a, c. rewrite !map_length. replace (Z.of_nat (length rs + length rs)) with (Z.of_nat (length rs) * 2) by lia. rewrite Z.div_mul by lia. lia. }
    rewrite L, firstn_app, firstn_all, Nat.sub_diag, skipn_app, skipn_all, Nat.sub_diag. cbn [firstn skipn app]. rewrite app_nil_r.
    destruct (wants_out_nv f); reflexivity.
  - cbn [map]. rewrite app_nil_r. destruct (wants_out_nv f); reflexivity.
Qed.
Lemma wrapper_args_nv f args r nv id : (wants_out_nv f = true -> r = Ok nv) -> wrapper_args f args r id = wrapper_args f args (Ok nv) id.
Proof. intros H. unfold wrapper_args. destruct (wants_out_nv f); [now rewrite H|reflexivity]. Qed.

Lemma chunks3_eqb_refl c : chunks3_eqb c c = true.
Proof. destruct c as [[a b] d]. unfold chunks3_eqb. repeat match goal with |- context [list_eq_dec ?x ?y ?z] => destruct (list_eq_dec x y z); [|contradiction] end. reflexivity. Qed.
Section Main.
Variables (cast : dtype -> num -> num) (auto : list Z * list Z) (f : func) (r0 : braster) (rest : list braster) (nb ny nx : Z).
Variables (dt meta : option dtype) (inf : dtype) (nva : nvarg).
Let rs := r0 :: rest.
Hypothesis (Hb : 0 <= nb) (Hy : 0 <= ny) (Hx : 0 <= nx).
Hypothesis (WF : Forall (raster_of_shape nb ny nx) rs).
Hypothesis (AG : check_dtype_meta_agree dt meta = Ok tt).
Variable nv : option num.
Hypothesis (NV : final_nv dt meta inf nva (b_dtype r0) (b_nv r0) (len rs) = Ok nv).
Let odt := out_data_dtype dt meta inf.
Let onv := if wants_out_nv f then Some nv else None.

Lemma len_align t : len (align_to t rs) = len rs. Proof. unfold align_to. apply len_map. Qed.
Lemma chunks_same t : forallb (fun r => chunks3_eqb (b_chunks r) t) (align_to t rs) = true.
Proof.
  unfold align_to. apply forallb_forall. intros r H. apply in_map_iff in H as (q & <- & _). destruct (chunks3_eqb (b_chunks q) t) eqn:E; [exact E|]. cbn [b_chunks]. apply chunks3_eqb_refl.
Qed.
Lemma shapes_ok : forallb (fun r => same_shape3 (b_data r) (b_data r0)) rs = true.
Proof.
  apply forallb_forall. intros r Hr. rewrite Forall_forall in WF. destruct (WF r Hr) as (S1 & _). destruct (WF r0 (or_introl eq_refl)) as (S2 & _). eapply same_shape_ok; eassumption.
Qed.
Lemma wrapper_nv : wrapper_out_nv false dt meta inf nva (b_dtype r0) (b_nv r0) (len rs) = Ok nv.
Proof. rewrite <- NV. apply wrapper_nv_agrees; auto. Qed.

Lemma map_blocks_blocks :
  (forall id bs ys xs, block_at (b_chunks r0) id bs ys xs ->
     exists d, run f (data_blocks rs bs ys xs) (mask_blocks f rs bs ys xs) onv id = Ok (RData d) /\ shaped3 (size bs) (size ys) (size xs) d) ->
  exists data mask, map_blocks cast auto f rs dt meta inf nva None false = Ok (BRaster odt nv (full nb 1, snd (fst (b_chunks r0)), snd (b_chunks r0)) data mask)
  /\ shaped3 nb ny nx data /\ shaped3 nb ny nx mask
  /\ (forall id bs ys xs, block_at (b_chunks r0) id bs ys xs ->
       run f (data_blocks rs bs ys xs) (mask_blocks f rs bs ys xs) onv id = Ok (RData (slice3 data bs ys xs)))
  /\ (forall b r c v, at3 data b r c v -> exists m, at3 mask b r c m /\ (m = true <-> null_value_here nv v)).
Proof.
  intros H. pose proof WF as WF0. rewrite Forall_forall in WF0. destruct (WF0 r0 (or_introl eq_refl)) as (S0 & _ & CH).
  destruct (b_chunks r0) as [[bcs ycs] xcs] eqn:EC. destruct CH as (Cb & Cy & Cx & Nb & Ny & Nx).
  assert (W : forall id bs ys xs, wrapper f None (map (cut_blk bs ys xs) (all_inputs f rs)) (wrapper_out_nv false dt meta inf nva (b_dtype r0) (b_nv r0) (len rs)) id
     = let* result := run f (data_blocks rs bs ys xs) (mask_blocks f rs bs ys xs) onv id in match result with RPair _ _ => Err TypeError | RData d => Ok d end).
  { intros. unfold wrapper. rewrite wrapper_nv. now rewrite wrapper_args_eq. }
  destruct (dask_blocks NaN (fun args id => wrapper f None args (wrapper_out_nv false dt meta inf nva (b_dtype r0) (b_nv r0) (len rs)) id) (all_inputs f rs) bcs ycs xcs nb ny nx Cb Cy Cx Nx) as (G & E & HG).
  { intros kb bs ky ys kx xs BA. destruct (H _ _ _ _ BA) as (d & R & S). exists d. split; [|exact S]. rewrite W, R. reflexivity. }
  exists (tab3 nb ny nx G), (tab3 nb ny nx (fun b i j => is_null nv (G b i j))). split; [|split; [|split; [|split]]].
  - unfold map_blocks, rs. rewrite AG. cbn [rbind]. fold rs. rewrite shapes_ok. cbn [negb]. rewrite EC, chunks_same, align_inputs, len_align. cbn [negb]. rewrite E. cbn [rbind fst snd].
    rewrite NV. cbn [rbind]. rewrite map3_tab3. replace (len (b_data r0)) with nb by (symmetry; apply S0). reflexivity.
  - now apply shaped3_tab3.
  - now apply shaped3_tab3.
  - intros [[kb ky] kx] bs ys xs BA. pose proof (HG _ _ _ _ _ _ BA) as E2. cbv beta in E2. rewrite W in E2. destruct (H _ _ _ _ BA) as (d & R & _). rewrite R in *. cbn [rbind] in E2. injection E2 as ->.
    now rewrite (slice3_of_blocks bcs ycs xcs nb ny nx G bs ys xs kb ky kx Cb Cy Cx BA).
  - intros b r c v A. destruct A as (band & G1 & row & G2 & G3). unfold tab3 in G1. pose proof (get_ok_range _ _ _ G1) as R1. rewrite len_tab in R1 by lia. rewrite get_tab in G1 by lia. injection G1 as <-.
    unfold tab2 in G2. pose proof (get_ok_range _ _ _ G2) as R2. rewrite len_tab in R2 by lia. rewrite get_tab in G2 by lia. injection G2 as <-.
    pose proof (get_ok_range _ _ _ G3) as R3. rewrite len_tab in R3 by lia. rewrite get_tab in G3 by lia. injection G3 as <-.
    exists (is_null nv (G b r c)). split; [apply (at3_tab3 nb ny nx (fun b i j => is_null nv (G b i j))); lia|].
    unfold is_null, null_value_here. destruct nv as [n|]; [|split; [discriminate|intros (n & [=] & _)]]. destruct (is_nan n) eqn:N.
    + split; [intros I; exists n; split; [reflexivity|left; split; assumption]|intros (n' & [= <-] & [[_ I]|I]); [exact I|]]. destruct n; try discriminate. destruct (G b r c); discriminate.
    + split; [intros I; exists n; split; [reflexivity|right; exact I]|intros (n' & [= <-] & [[I _]|I]); [congruence|exact I]].
Qed.
End Main.

(* ---- cells of blocks ---- *)
Lemma at3_slice {A} nb ny nx (a : list (list (list A))) bs ys xs b i j v : shaped3 nb ny nx a ->
  0 <= fst bs -> snd bs <= nb -> 0 <= fst ys -> snd ys <= ny -> 0 <= fst xs -> snd xs <= nx -> 0 <= b < size bs -> 0 <= i < size ys -> 0 <= j < size xs ->
  at3 (slice3 a bs ys xs) b i j v <-> at3 a (fst bs + b) (fst ys + i) (fst xs + j) v.
Proof.
  intros [L F] B1 B2 Y1 Y2 X1 X2 Hb Hi Hj. unfold size in *. rewrite Forall_forall in F.
  assert (forall band, In band a -> len band = ny /\ forall row, In row band -> len row = nx) as SH.
  { intros band H. destruct (F band H) as [L2 F2]. rewrite Forall_forall in F2. auto. }
  unfold at3, at2, slice3. split.
  - intros (band & G1 & row & G2 & G3). rewrite get_map_eq, get_slice in G1 by lia. destruct (get a (fst bs + b)) as [band0|] eqn:E; [|discriminate]. cbn in G1. injection G1 as <-.
    destruct (SH band0 (get_in _ _ _ E)) as [L2 R]. rewrite get_map_eq, get_slice in G2 by lia. destruct (get band0 (fst ys + i)) as [row0|] eqn:E2; [|discriminate]. cbn in G2. injection G2 as <-.
    pose proof (R row0 (get_in _ _ _ E2)). rewrite get_slice in G3 by lia. eauto.
  - intros (band & G1 & row & G2 & G3). destruct (SH band (get_in _ _ _ G1)) as [L2 R]. pose proof (R row (get_in _ _ _ G2)).
    eexists. split; [rewrite get_map_eq, get_slice, G1 by lia; reflexivity|]. eexists. split; [rewrite get_map_eq, get_slice, G2 by lia; reflexivity|]. now rewrite get_slice by lia.
Qed.
Lemma slice3_shaped {A} nb ny nx (a : list (list (list A))) bs ys xs : shaped3 nb ny nx a ->
  0 <= fst bs <= snd bs -> snd bs <= nb -> 0 <= fst ys <= snd ys -> snd ys <= ny -> 0 <= fst xs <= snd xs -> snd xs <= nx -> shaped3 (size bs) (size ys) (size xs) (slice3 a bs ys xs).
Proof.
  intros [L F] B1 B2 Y1 Y2 X1 X2. unfold size, slice3. split; [rewrite len_map, slice_len; lia|].
  apply Forall_map. apply Forall_forall. intros band H. apply in_slice in H. rewrite Forall_forall in F. destruct (F band H) as [L2 F2].
  split; [rewrite len_map, slice_len; lia|]. apply Forall_map. apply Forall_forall. intros row Hr. apply in_slice in Hr. rewrite Forall_forall in F2. pose proof (F2 row Hr). rewrite slice_len; lia.
Qed.
Lemma at3_range {A} nb ny nx (a : list (list (list A))) b i j v : shaped3 nb ny nx a -> at3 a b i j v -> 0 <= b < nb /\ 0 <= i < ny /\ 0 <= j < nx.
Proof.
  intros [L F] (band & G1 & row & G2 & G3). rewrite Forall_forall in F. destruct (F band (get_in _ _ _ G1)) as [L2 F2]. rewrite Forall_forall in F2. pose proof (F2 row (get_in _ _ _ G2)).
  pose proof (get_ok_range _ _ _ G1). pose proof (get_ok_range _ _ _ G2). pose proof (get_ok_range _ _ _ G3). lia.
Qed.
Lemma block_of bcs ycs xcs nb ny nx b r c : cuts nb bcs -> cuts ny ycs -> cuts nx xcs -> 0 <= b < nb -> 0 <= r < ny -> 0 <= c < nx ->
  exists id bs ys xs, block_at (bcs, ycs, xcs) id bs ys xs /\ fst bs <= b < snd bs /\ fst ys <= r < snd ys /\ fst xs <= c < snd xs.
Proof.
  intros Cb Cy Cx Hb Hr Hc. destruct (cuts_sum _ _ Cb) as [Fb Sb]. destruct (cuts_sum _ _ Cy) as [Fy Sy]. destruct (cuts_sum _ _ Cx) as [Fx Sx].
  destruct (loc_of_in bcs b Fb ltac:(lia)) as [G1 R1]. destruct (loc_of_in ycs r Fy ltac:(lia)) as [G2 R2]. destruct (loc_of_in xcs c Fx ltac:(lia)) as [G3 R3].
  eexists (_, _, _), _, _, _. split; [repeat split; eassumption|auto].
Qed.
Lemma block_range bcs ycs xcs nb ny nx id bs ys xs : cuts nb bcs -> cuts ny ycs -> cuts nx xcs -> block_at (bcs, ycs, xcs) id bs ys xs ->
  0 <= fst bs <= snd bs /\ snd bs <= nb /\ 0 <= fst ys <= snd ys /\ snd ys <= ny /\ 0 <= fst xs <= snd xs /\ snd xs <= nx.
Proof.
  intros Cb Cy Cx BA. destruct id as [[kb ky] kx]. destruct BA as (B1 & B2 & B3). destruct (cuts_sum _ _ Cb) as [Fb Sb]. destruct (cuts_sum _ _ Cy) as [Fy Sy]. destruct (cuts_sum _ _ Cx) as [Fx Sx]. destruct bs as [b0 b1], ys as [y0 y1], xs as [x0 x1].
  pose proof (locations_range bcs Fb _ _ (get_in _ _ _ B1)). pose proof (locations_range ycs Fy _ _ (get_in _ _ _ B2)). pose proof (locations_range xcs Fx _ _ (get_in _ _ _ B3)). cbn [fst snd]. lia.
Qed.
Section Inputs.
Variables (f : func) (rs : list braster) (nb ny nx : Z) (bs ys xs : Z * Z).
Hypothesis (WF : Forall (raster_of_shape nb ny nx) rs).
Hypothesis (R : 0 <= fst bs <= snd bs /\ snd bs <= nb /\ 0 <= fst ys <= snd ys /\ snd ys <= ny /\ 0 <= fst xs <= snd xs /\ snd xs <= nx).
Lemma arguments_ok : arguments f (len rs) (size bs) (size ys) (size xs) (data_blocks rs bs ys xs) (mask_blocks f rs bs ys xs).
Proof.
  rewrite Forall_forall in WF. split; [unfold data_blocks; apply len_map|]. split.
  - unfold data_blocks. apply Forall_map. rewrite Forall_forall. intros r Hr. destruct (WF r Hr) as (S & _). cbn. apply (slice3_shaped nb ny nx); tauto.
  - unfold mask_blocks. destruct (wants_masks f); [|reflexivity]. eexists. split; [reflexivity|]. split; [apply len_map|].
    apply Forall_map. rewrite Forall_forall. intros r Hr. destruct (WF r Hr) as (_ & S & _). cbn. apply (slice3_shaped nb ny nx); tauto.
Qed.
Lemma data_blocks_cells b r c vals : fst bs <= b < snd bs -> fst ys <= r < snd ys -> fst xs <= c < snd xs -> values_at rs b r c vals ->
  Forall2 (fun x v => data_cell x (b - fst bs) (r - fst ys) (c - fst xs) v) (data_blocks rs bs ys xs) vals.
Proof.
  intros Hb Hr Hc V. unfold values_at in V. unfold data_blocks. induction V as [|q v l vals H V IH]; cbn [map]; constructor.
  - inversion WF as [|? ? (S & _) W']; subst. cbn. apply (at3_slice nb ny nx); unfold size; try tauto; try lia.
    replace (fst bs + (b - fst bs)) with b by lia. replace (fst ys + (r - fst ys)) with r by lia. replace (fst xs + (c - fst xs)) with c by lia. exact H.
  - apply IH. now inversion WF.
Qed.
Lemma mask_blocks_cells b r c nulls : fst bs <= b < snd bs -> fst ys <= r < snd ys -> fst xs <= c < snd xs -> nulls_at f rs b r c nulls ->
  masks_cell f (mask_blocks f rs bs ys xs) (b - fst bs) (r - fst ys) (c - fst xs) nulls.
Proof.
  intros Hb Hr Hc V. unfold nulls_at in V. unfold mask_blocks. destruct (wants_masks f); [|now subst]. destruct V as (l & -> & V). cbn [masks_cell].
  induction V as [|q v t vals H V IH]; cbn [map]; constructor.
  - inversion WF as [|? ? (_ & S & _) W']; subst. cbn. apply (at3_slice nb ny nx); unfold size; try tauto; try lia.
    replace (fst bs + (b - fst bs)) with b by lia. replace (fst ys + (r - fst ys)) with r by lia. replace (fst xs + (c - fst xs)) with c by lia. exact H.
  - apply IH. now inversion WF.
Qed.
End Inputs.

Section Cells.
Variables (cast : dtype -> num -> num) (auto : list Z * list Z) (f : func) (r0 : braster) (rest : list braster) (nb ny nx : Z).
Variables (dt meta : option dtype) (inf : dtype) (nva : nvarg).
Let rs := r0 :: rest.
Hypothesis (Hb : 0 <= nb) (Hy : 0 <= ny) (Hx : 0 <= nx).
Hypothesis (WF : Forall (raster_of_shape nb ny nx) rs).
Hypothesis (AG : check_dtype_meta_agree dt meta = Ok tt).
Variable nv : option num.
Hypothesis (NV : final_nv dt meta inf nva (b_dtype r0) (b_nv r0) (len rs) = Ok nv).

Lemma map_blocks_cells g : cellwise f (len rs) (if wants_out_nv f then Some nv else None) g ->
  exists data mask, map_blocks cast auto f rs dt meta inf nva None false
    = Ok (BRaster (out_data_dtype dt meta inf) nv (full nb 1, snd (fst (b_chunks r0)), snd (b_chunks r0)) data mask)
  /\ shaped3 nb ny nx data /\ shaped3 nb ny nx mask
  /\ forall b r c vals nulls, 0 <= b < nb -> 0 <= r < ny -> 0 <= c < nx -> values_at rs b r c vals -> nulls_at f rs b r c nulls ->
       at3 data b r c (g vals nulls) /\ exists m, at3 mask b r c m /\ (m = true <-> null_value_here nv (g vals nulls)).
Proof.
  intros CW. pose proof WF as WF0. rewrite Forall_forall in WF0. destruct (WF0 r0 (or_introl eq_refl)) as (S0 & _ & CH).
  destruct (b_chunks r0) as [[bcs ycs] xcs] eqn:EC. destruct CH as (Cb & Cy & Cx & Nb & Ny & Nx).
  assert (RUN : forall id bs ys xs, block_at (bcs, ycs, xcs) id bs ys xs -> exists d,
     run f (data_blocks rs bs ys xs) (mask_blocks f rs bs ys xs) (if wants_out_nv f then Some nv else None) id = Ok (RData d) /\ shaped3 (size bs) (size ys) (size xs) d
     /\ forall b r c vals nulls, fst bs <= b < snd bs -> fst ys <= r < snd ys -> fst xs <= c < snd xs -> values_at rs b r c vals -> nulls_at f rs b r c nulls ->
          at3 d (b - fst bs) (r - fst ys) (c - fst xs) (g vals nulls)).
  { intros id bs ys xs BA. pose proof (block_range bcs ycs xcs nb ny nx id bs ys xs Cb Cy Cx BA) as R.
    destruct (CW (size bs) (size ys) (size xs) (data_blocks rs bs ys xs) (mask_blocks f rs bs ys xs) id) as (d & E & S & V); try (unfold size; lia).
    - now apply (arguments_ok f rs nb ny nx).
    - exists d. split; [exact E|]. split; [exact S|]. intros b r c vals nulls H1 H2 H3 VA NA. apply V; try (unfold size; lia).
      + now apply (data_blocks_cells rs nb ny nx).
      + now apply (mask_blocks_cells f rs nb ny nx). }
  destruct (map_blocks_blocks cast auto f r0 rest nb ny nx dt meta inf nva Hb Hy Hx WF AG nv NV) as (data & mask & E & SD & SM & BL & NU).
  { intros id bs ys xs BA. rewrite EC in BA. destruct (RUN id bs ys xs BA) as (d & E & S & _). eauto. }
  rewrite EC in E, BL. exists data, mask. split; [exact E|]. split; [exact SD|]. split; [exact SM|].
  intros b r c vals nulls H1 H2 H3 VA NA. assert (A : at3 data b r c (g vals nulls)); [|split; [exact A|now apply NU]].
  destruct (block_of bcs ycs xcs nb ny nx b r c Cb Cy Cx H1 H2 H3) as (id & bs & ys & xs & BA & R1 & R2 & R3).
  pose proof (block_range bcs ycs xcs nb ny nx id bs ys xs Cb Cy Cx BA) as R.
  destruct (RUN id bs ys xs BA) as (d & E2 & S & V). fold rs in BL. rewrite (BL id bs ys xs BA) in E2. injection E2 as <-.
  specialize (V b r c vals nulls R1 R2 R3 VA NA). apply (at3_slice nb ny nx) in V; unfold size; try tauto; try lia.
  replace (fst bs + (b - fst bs)) with b in V by lia. replace (fst ys + (r - fst ys)) with r in V by lia. replace (fst xs + (c - fst xs)) with c in V by lia. exact V.
Qed.
End Cells.

(* ---- an explicit mask ---- *)
Lemma at3_fun {A} (a : list (list (list A))) b i j v w : at3 a b i j v -> at3 a b i j w -> v = w.
Proof. intros (x & G1 & y & G2 & G3) (x' & G1' & y' & G2' & G3'). congruence. Qed.
Lemma at3_zip {A B} n m k (x : list (list (list A))) (y : list (list (list B))) b i j u v : shaped3 n m k x -> shaped3 n m k y -> 0 <= n -> 0 <= m ->
  at3 x b i j u -> at3 y b i j v -> at3 (zip3 x y) b i j (u, v).
Proof.
  intros S1 S2 Hn Hm A1 A2. pose proof (at3_range _ _ _ _ _ _ _ _ S1 A1) as (R1 & R2 & R3).
  pose proof (shaped3_is_tab3 u n m k x S1 Hn Hm) as E1. pose proof (shaped3_is_tab3 v n m k y S2 Hn Hm) as E2.
  pose proof (at3_tab3 n m k (val3 u x) b i j R1 R2 R3) as T1. pose proof (at3_tab3 n m k (val3 v y) b i j R1 R2 R3) as T2.
  rewrite <- E1 in T1. rewrite <- E2 in T2. pose proof (at3_fun _ _ _ _ _ _ A1 T1) as U. pose proof (at3_fun _ _ _ _ _ _ A2 T2) as V.
  rewrite E1, E2, zip3_tab3. pose proof (at3_tab3 n m k (fun b i j => (val3 u x b i j, val3 v y b i j)) b i j R1 R2 R3) as T. cbv beta in T. now rewrite <- U, <- V in T.
Qed.
Lemma zip3_shaped {A B} n m k (x : list (list (list A))) (y : list (list (list B))) (u : A) (v : B) : 0 <= n -> 0 <= m -> 0 <= k -> shaped3 n m k x -> shaped3 n m k y -> shaped3 n m k (zip3 x y).
Proof. intros Hn Hm Hk S1 S2. rewrite (shaped3_is_tab3 u n m k x S1 Hn Hm), (shaped3_is_tab3 v n m k y S2 Hn Hm), zip3_tab3. now apply shaped3_tab3. Qed.
Lemma at3_map3 {A B} (h : A -> B) a b i j v : at3 a b i j v -> at3 (map3 h a) b i j (h v).
Proof. intros (x & G1 & y & G2 & G3). unfold map3. eexists. split; [rewrite get_map_eq, G1; reflexivity|]. eexists. split; [rewrite get_map_eq, G2; reflexivity|]. now rewrite get_map_eq, G3. Qed.
Lemma map3_shaped {A B} (h : A -> B) n m k a : shaped3 n m k a -> shaped3 n m k (map3 h a).
Proof.
  intros [L F]. unfold map3. split; [now rewrite len_map|]. apply Forall_map. eapply Forall_impl; [|exact F]. intros band [L2 F2]. split; [now rewrite len_map|].
  apply Forall_map. eapply Forall_impl; [|exact F2]. intros row H. now rewrite len_map.
Qed.
Definition to_hint (cast : dtype -> num -> num) (dt meta : option dtype) (v : num) : num := match out_dtype_hint dt meta with Some h => cast h v | None => v end.
Section Masked.
Variables (cast : dtype -> num -> num) (auto : list Z * list Z) (f : func) (r0 : braster) (rest : list braster) (nb ny nx : Z).
Variables (dt meta : option dtype) (inf : dtype) (nva : nvarg).
Let rs := r0 :: rest.
Hypothesis (Hb : 0 <= nb) (Hy : 0 <= ny) (Hx : 0 <= nx).
Hypothesis (WF : Forall (raster_of_shape nb ny nx) rs).
Hypothesis (AG : check_dtype_meta_agree dt meta = Ok tt).
Variable nv : option num.
Hypothesis (NV : final_nv dt meta inf nva (b_dtype r0) (b_nv r0) (len rs) = Ok nv).
Hypothesis (OK : wants_out_nv f = false \/ nva <> NvNone \/ out_dtype_hint dt meta <> None).

Lemma map_blocks_masked g : cellwise_masked f (len rs) (if wants_out_nv f then Some nv else None) g ->
  let n := match nv with Some v => v | None => default_null (out_data_dtype dt meta inf) end in
  exists data mask, map_blocks cast auto f rs dt meta inf nva None true
    = Ok (BRaster (out_data_dtype dt meta inf) (Some n) (full nb 1, snd (fst (b_chunks r0)), snd (b_chunks r0)) data mask)
  /\ shaped3 nb ny nx data /\ shaped3 nb ny nx mask
  /\ forall b r c vals nulls v m, 0 <= b < nb -> 0 <= r < ny -> 0 <= c < nx -> values_at rs b r c vals -> nulls_at f rs b r c nulls -> g vals nulls = (v, m) ->
       at3 mask b r c m /\ at3 data b r c (if m then n else to_hint cast dt meta v).
Proof.
  intros CW n. pose proof WF as WF0. rewrite Forall_forall in WF0. destruct (WF0 r0 (or_introl eq_refl)) as (S0 & _ & CH).
  destruct (b_chunks r0) as [[bcs ycs] xcs] eqn:EC. destruct CH as (Cb & Cy & Cx & Nb & Ny & Nx).
  set (onv := wrapper_out_nv true dt meta inf nva (b_dtype r0) (b_nv r0) (len rs)).
  assert (ON : wants_out_nv f = true -> onv = Ok nv).
  { intros W. destruct OK as [O|O]; [congruence|]. unfold onv. rewrite <- NV. apply wrapper_nv_agrees; auto. }
  set (hint := out_dtype_hint dt meta). set (castv := fun d : arr3 num => match hint with Some h => map3 (cast h) d | None => d end).
  assert (W : forall id bs ys xs, wrapper_pair cast f None hint (map (cut_blk bs ys xs) (all_inputs f rs)) onv id
     = let* result := run f (data_blocks rs bs ys xs) (mask_blocks f rs bs ys xs) (if wants_out_nv f then Some nv else None) id in
       match result with RData _ => Err ValueError | RPair d m => if negb (same_shape3 m d) then Err ValueError else Ok (zip3 (castv d) m) end).
  { intros. unfold wrapper_pair. rewrite (wrapper_args_nv f _ onv nv) by assumption. now rewrite wrapper_args_eq. }
  assert (CS : forall n m k d, shaped3 n m k d -> shaped3 n m k (castv d)) by (intros; unfold castv; destruct hint; [now apply map3_shaped|assumption]).
  assert (CA : forall d b i j v, at3 d b i j v -> at3 (castv d) b i j (to_hint cast dt meta v)).
  { intros d b i j v A. unfold castv, to_hint. fold hint. destruct hint; [now apply (at3_map3 (cast d0))|exact A]. }
  assert (RUN : forall id bs ys xs, block_at (bcs, ycs, xcs) id bs ys xs -> exists a,
     wrapper_pair cast f None hint (map (cut_blk bs ys xs) (all_inputs f rs)) onv id = Ok a /\ shaped3 (size bs) (size ys) (size xs) a
     /\ forall b r c vals nulls, fst bs <= b < snd bs -> fst ys <= r < snd ys -> fst xs <= c < snd xs -> values_at rs b r c vals -> nulls_at f rs b r c nulls ->
          at3 a (b - fst bs) (r - fst ys) (c - fst xs) (to_hint cast dt meta (fst (g vals nulls)), snd (g vals nulls))).
  { intros id bs ys xs BA. pose proof (block_range bcs ycs xcs nb ny nx id bs ys xs Cb Cy Cx BA) as R.
    destruct (CW (size bs) (size ys) (size xs) (data_blocks rs bs ys xs) (mask_blocks f rs bs ys xs) id) as (d & o & E & S1 & S2 & V); try (unfold size; lia).
    - now apply (arguments_ok f rs nb ny nx).
    - exists (zip3 (castv d) o). rewrite W, E. cbn [rbind]. rewrite (same_shape_ok _ _ _ _ _ S2 S1). cbn [negb]. split; [reflexivity|].
      split; [apply zip3_shaped; try exact NaN; try exact false; try (unfold size; lia); [now apply CS|assumption]|].
      intros b r c vals nulls H1 H2 H3 VA NA.
      destruct (V (b - fst bs) (r - fst ys) (c - fst xs) vals nulls) as [V1 V2]; try (unfold size; lia).
      { now apply (data_blocks_cells rs nb ny nx). }
      { now apply (mask_blocks_cells f rs nb ny nx). }
      apply (at3_zip (size bs) (size ys) (size xs)); try (unfold size; lia); auto. }
  destruct (dask_blocks (NaN, false) (fun args id => wrapper_pair cast f None hint args onv id) (all_inputs f rs) bcs ycs xcs nb ny nx Cb Cy Cx Nx) as (G & E & HG).
  { intros kb bs ky ys kx xs BA. destruct (RUN _ _ _ _ BA) as (a & E & S & _). eauto. }
  exists (tab3 nb ny nx (fun b i j => if snd (G b i j) then n else fst (G b i j))), (tab3 nb ny nx (fun b i j => snd (G b i j))).
  split; [|split; [now apply shaped3_tab3|split; [now apply shaped3_tab3|]]].
  - unfold map_blocks, rs. rewrite AG. cbn [rbind]. pose proof (shapes_ok r0 rest nb ny nx WF) as SH. pose proof (len_align r0 rest) as LA. pose proof (chunks_same r0 rest) as CS'. fold rs in SH, LA, CS' |- *. rewrite SH. cbn [negb]. rewrite EC, CS', align_inputs, LA. cbn [negb]. fold onv hint. rewrite E. cbn [rbind fst snd].
    rewrite NV. cbn [rbind]. fold n. rewrite !map3_tab3, where3_tab3. replace (len (b_data r0)) with nb by (symmetry; apply S0). reflexivity.
  - intros b r c vals nulls v m H1 H2 H3 VA NA GE.
    destruct (block_of bcs ycs xcs nb ny nx b r c Cb Cy Cx H1 H2 H3) as (id & bs & ys & xs & BA & R1 & R2 & R3).
    destruct (RUN id bs ys xs BA) as (a & E2 & S & V). destruct id as [[kb ky] kx]. rewrite (HG _ _ _ _ _ _ BA) in E2. injection E2 as <-.
    specialize (V b r c vals nulls R1 R2 R3 VA NA). rewrite GE in V. cbn [fst snd] in V.
    assert (EG : G b r c = (to_hint cast dt meta v, m)).
    { pose proof (at3_tab3 (size bs) (size ys) (size xs) (fun b i j => G (fst bs + b) (fst ys + i) (fst xs + j)) (b - fst bs) (r - fst ys) (c - fst xs)) as T. cbv beta in T.
      replace (fst bs + (b - fst bs)) with b in T by lia. replace (fst ys + (r - fst ys)) with r in T by lia. replace (fst xs + (c - fst xs)) with c in T by lia.
      eapply at3_fun; [apply T; unfold size; lia|exact V]. }
    pose proof (at3_tab3 nb ny nx (fun b i j => snd (G b i j)) b r c H1 H2 H3) as T1. pose proof (at3_tab3 nb ny nx (fun b i j => if snd (G b i j) then n else fst (G b i j)) b r c H1 H2 H3) as T2.
    cbv beta in T1, T2. rewrite EG in T1, T2. auto.
Qed.
End Masked.

(* ---- another number of bands ---- *)
Section OutBands.
Context {B : Type}.
Variables (d : B) (f : list blk -> Z * Z * Z -> res (arr3 B)) (inputs : list blk) (ycs xcs : list Z) (nb nout ny nx : Z).
Hypothesis (Cy : cuts ny ycs) (Cx : cuts nx xcs) (Nx : xcs <> []).
Lemma dask_blocks_bands :
  (forall ky rs kx cs, block_at ([nb], ycs, xcs) (0, ky, kx) (0, nb) rs cs ->
     exists a, f (map (cut_blk (0, nb) rs cs) inputs) (0, ky, kx) = Ok a /\ shaped3 nout (size rs) (size cs) a) ->
  0 <= nout ->
  exists G, dask_map_blocks f (fun _ => nout) ([nb], ycs, xcs) inputs = Ok (tab3 nout ny nx G)
  /\ (forall ky rs kx cs, block_at ([nb], ycs, xcs) (0, ky, kx) (0, nb) rs cs ->
       f (map (cut_blk (0, nb) rs cs) inputs) (0, ky, kx) = Ok (tab3 nout (size rs) (size cs) (fun b i j => G b (fst rs + i) (fst cs + j)))).
Proof.
  intros H Ho. destruct (cuts_sum _ _ Cy) as [Fy Sy]. destruct (cuts_sum _ _ Cx) as [Fx Sx].
  set (G := fun b r c => let '(ky, rs) := loc_of ycs r in let '(kx, cs) := loc_of xcs c in
     match f (map (cut_blk (0, nb) rs cs) inputs) (0, ky, kx) with Ok a => val3 d a b (r - fst rs) (c - fst cs) | Err _ => d end).
  assert (HG : forall ky rs kx cs, block_at ([nb], ycs, xcs) (0, ky, kx) (0, nb) rs cs ->
       f (map (cut_blk (0, nb) rs cs) inputs) (0, ky, kx) = Ok (tab3 nout (size rs) (size cs) (fun b i j => G b (fst rs + i) (fst cs + j)))).
  { intros ky rs kx cs BA. destruct (H _ _ _ _ BA) as (a & E & S). rewrite E. f_equal.
    destruct BA as (_ & B2 & B3). destruct rs as [r0 r1], cs as [c0 c1].
    pose proof (locations_range ycs Fy _ _ (get_in _ _ _ B2)). pose proof (locations_range xcs Fx _ _ (get_in _ _ _ B3)).
    unfold size in *. cbn [fst snd] in *. rewrite (shaped3_is_tab3 d _ _ _ a S) at 1 by lia. apply tab3_ext. intros b i j Hb Hi Hj. unfold G.
    rewrite (loc_of_eq ycs (r0 + i) ky (r0, r1)), (loc_of_eq xcs (c0 + j) kx (c0, c1)); try assumption; cbn [fst snd]; try lia.
    rewrite E. f_equal; lia. }
  exists G. split; [|exact HG]. unfold dask_map_blocks.
  change (enumerate (chunks_to_array_locations [nb])) with [(0, (0, nb))]. cbn [traverse].
  rewrite (assemble_bands f inputs ycs xcs ny nx Cy Cx Nx 0 (0, nb) nout G).
  - cbn [rbind concat]. now rewrite app_nil_r.
  - intros ky rs kx cs Hr Hc. apply HG. now repeat split.
Qed.
End OutBands.
Section Bands.
Variables (cast : dtype -> num -> num) (auto : list Z * list Z) (f : func) (r0 : braster) (rest : list braster) (nb nout ny nx : Z).
Variables (dt meta : option dtype) (inf : dtype) (nva : nvarg).
Let rs := r0 :: rest.
Hypothesis (Hb : 0 <= nb) (Hy : 0 <= ny) (Hx : 0 <= nx) (Ho : 1 <= nout).
Hypothesis (Ca : cuts ny (fst auto) /\ cuts nx (snd auto) /\ fst auto <> [] /\ snd auto <> []).
Hypothesis (WF : Forall (raster_of_shape nb ny nx) rs).
Hypothesis (AG : check_dtype_meta_agree dt meta = Ok tt).
Variable nv : option num.
Hypothesis (NV : final_nv dt meta inf nva (b_dtype r0) (b_nv r0) (len rs) = Ok nv).

Lemma columns_cells ys xs r c cols : 0 <= fst ys <= snd ys -> snd ys <= ny -> 0 <= fst xs <= snd xs -> snd xs <= nx ->
  fst ys <= r < snd ys -> fst xs <= c < snd xs -> columns_at rs r c cols ->
  Forall2 (fun x col => len col = nb /\ forall b u, get col b = Ok u -> data_cell x b (r - fst ys) (c - fst xs) u) (data_blocks rs (0, nb) ys xs) cols.
Proof.
  intros Y1 Y2 X1 X2 Hr Hc V. unfold columns_at in V. unfold data_blocks. generalize dependent WF. clear -V Hb Y1 Y2 X1 X2 Hr Hc. intros WF.
  induction V as [|q col l cols [L H] V IH]; cbn [map]; constructor.
  - inversion WF as [|? ? (S & _) W']; subst. split; [rewrite L; apply S|]. intros b u Gu. cbn. pose proof (get_ok_range _ _ _ Gu) as R. destruct S as [LS FS]. assert (LC : len col = nb) by (rewrite L; exact LS). rewrite LC in R.
    apply (at3_slice nb ny nx); unfold size; cbn [fst snd]; try tauto; try lia; try (split; assumption).
    replace (0 + b) with b by lia. replace (fst ys + (r - fst ys)) with r by lia. replace (fst xs + (c - fst xs)) with c by lia. now apply H.
  - apply IH. now inversion WF.
Qed.
Lemma bands_wrapper id ys xs : wrapper f (Some nout) (map (cut_blk (0, nb) ys xs) (all_inputs f rs)) (wrapper_out_nv false dt meta inf nva (b_dtype r0) (b_nv r0) (len rs)) id
     = let* result := run f (data_blocks rs (0, nb) ys xs) (mask_blocks f rs (0, nb) ys xs) (if wants_out_nv f then Some nv else None) id in
       match result with RPair _ _ => Err TypeError | RData d => if negb (len d =? nout) then Err ValueError else Ok d end.
Proof. unfold wrapper. pose proof (wrapper_nv r0 rest dt meta inf nva AG nv NV) as WN. fold rs in WN. rewrite WN. now rewrite wrapper_args_eq. Qed.
Lemma map_blocks_bands g : columnwise f (len rs) (if wants_out_nv f then Some nv else None) nb nout g ->
  exists data mask, map_blocks cast auto f rs dt meta inf nva (Some nout) false
    = Ok (BRaster (out_data_dtype dt meta inf) nv (full nout 1, snd (fst (b_chunks r0)), snd (b_chunks r0)) data mask)
  /\ shaped3 nout ny nx data /\ shaped3 nout ny nx mask
  /\ forall o r c cols v, 0 <= r < ny -> 0 <= c < nx -> columns_at rs r c cols -> get (g cols) o = Ok v ->
       at3 data o r c v /\ exists m, at3 mask o r c m /\ (m = true <-> null_value_here nv v).
Proof.
  intros [GL CW]. destruct Ca as (Cy & Cx & Ny & Nx). pose proof WF as WF0. rewrite Forall_forall in WF0. destruct (WF0 r0 (or_introl eq_refl)) as (S0 & _ & CH).
  destruct auto as [ycs xcs]. cbn [fst snd] in *.
  assert (BR : forall ky ys kx xs, block_at ([nb], ycs, xcs) (0, ky, kx) (0, nb) ys xs -> 0 <= fst ys <= snd ys /\ snd ys <= ny /\ 0 <= fst xs <= snd xs /\ snd xs <= nx).
  { intros ky ys kx xs BA. assert (Cb : cuts nb [nb]) by (split; [repeat constructor; lia|cbn; lia]). pose proof (block_range [nb] ycs xcs nb ny nx _ _ _ _ Cb Cy Cx BA). tauto. }
  assert (RUN : forall ky ys kx xs, block_at ([nb], ycs, xcs) (0, ky, kx) (0, nb) ys xs -> exists d,
     wrapper f (Some nout) (map (cut_blk (0, nb) ys xs) (all_inputs f rs)) (wrapper_out_nv false dt meta inf nva (b_dtype r0) (b_nv r0) (len rs)) (0, ky, kx) = Ok d
     /\ shaped3 nout (size ys) (size xs) d
     /\ forall o r c cols v, fst ys <= r < snd ys -> fst xs <= c < snd xs -> columns_at rs r c cols -> get (g cols) o = Ok v ->
          at3 d o (r - fst ys) (c - fst xs) v).
  { intros ky ys kx xs BA. pose proof (BR ky ys kx xs BA) as R. rewrite bands_wrapper.
    assert (R' : 0 <= fst (0, nb) <= snd (0, nb) /\ snd (0, nb) <= nb /\ 0 <= fst ys <= snd ys /\ snd ys <= ny /\ 0 <= fst xs <= snd xs /\ snd xs <= nx) by (cbn [fst snd]; lia).
    pose proof (arguments_ok f rs nb ny nx (0, nb) ys xs WF R') as DS.
    replace (size (0, nb)) with nb in DS by (unfold size; cbn; lia).
    destruct (CW (size ys) (size xs) (data_blocks rs (0, nb) ys xs) (mask_blocks f rs (0, nb) ys xs) (0, ky, kx)) as (d & E & S & V); try (unfold size; lia); try assumption.
    exists d. rewrite E. cbn [rbind]. replace (len d =? nout) with true by (destruct S as [SL _]; symmetry; apply Z.eqb_eq, SL). cbn [negb]. split; [reflexivity|]. split; [exact S|].
    intros o r c cols v H1 H2 CA GV. apply (V o (r - fst ys) (c - fst xs) cols v); try (unfold size; lia); [|exact GV]. apply columns_cells; try assumption; lia. }
  destruct (dask_blocks_bands NaN (fun args id => wrapper f (Some nout) args (wrapper_out_nv false dt meta inf nva (b_dtype r0) (b_nv r0) (len rs)) id) (all_inputs f rs) ycs xcs nb nout ny nx Cy Cx Nx) as (G & E & HG).
  { intros ky ys kx xs BA. destruct (RUN _ _ _ _ BA) as (d & E & S & _). eauto. }
  { lia. }
  exists (tab3 nout ny nx G), (tab3 nout ny nx (fun b i j => is_null nv (G b i j))). split; [|split; [apply shaped3_tab3; lia|split; [apply shaped3_tab3; lia|]]].
  - unfold map_blocks, rs. rewrite AG. cbn [rbind]. pose proof (shapes_ok r0 rest nb ny nx WF) as SH. pose proof (len_align r0 rest) as LA. pose proof (chunks_same r0 rest) as CS'. fold rs in SH, LA, CS' |- *. rewrite SH. cbn [negb]. replace (nout <? 1) with false by lia.
    replace (len (b_data r0)) with nb by (symmetry; apply S0). rewrite CS', align_inputs, LA. cbn [negb]. cbn [fst snd]. rewrite E. cbn [rbind fst snd]. rewrite NV. cbn [rbind]. now rewrite map3_tab3.
  - intros o r c cols v H2 H3 CA GV. assert (H1 : 0 <= o < nout) by (pose proof (get_ok_range _ _ _ GV); rewrite GL in *; lia).
    assert (Cb : cuts nb [nb]) by (split; [repeat constructor; lia|cbn; lia]). 
    destruct (cuts_sum _ _ Cy) as [Fy Sy]. destruct (cuts_sum _ _ Cx) as [Fx Sx].
    destruct (loc_of_in ycs r Fy ltac:(lia)) as [G2 R2]. destruct (loc_of_in xcs c Fx ltac:(lia)) as [G3 R3]. set (ys := snd (loc_of ycs r)) in *. set (xs := snd (loc_of xcs c)) in *.
    assert (BA : block_at ([nb], ycs, xcs) (0, fst (loc_of ycs r), fst (loc_of xcs c)) (0, nb) ys xs) by (repeat split; assumption).
    destruct (RUN _ _ _ _ BA) as (d & E2 & S & V). rewrite (HG _ _ _ _ BA) in E2. injection E2 as <-. specialize (V o r c cols v R2 R3 CA GV).
    assert (EG : G o r c = v).
    { pose proof (at3_tab3 nout (size ys) (size xs) (fun b i j => G b (fst ys + i) (fst xs + j)) o (r - fst ys) (c - fst xs)) as T. cbv beta in T.
      replace (fst ys + (r - fst ys)) with r in T by lia. replace (fst xs + (c - fst xs)) with c in T by lia. eapply at3_fun; [apply T; unfold size; lia|exact V]. }
    pose proof (at3_tab3 nout ny nx G o r c H1 H2 H3) as T1. pose proof (at3_tab3 nout ny nx (fun b i j => is_null nv (G b i j)) o r c H1 H2 H3) as T2. cbv beta in T2. rewrite EG in T1, T2.
    split; [exact T1|]. exists (is_null nv v). split; [exact T2|].
    unfold is_null, null_value_here. destruct nv as [n|]; [|split; [discriminate|intros (n & [=] & _)]]. destruct (is_nan n) eqn:N.
    + split; [intros I; exists n; split; [reflexivity|left; split; assumption]|intros (n' & [= <-] & [[_ I]|I]); [exact I|]]. destruct n; try discriminate. destruct v; discriminate.
    + split; [intros I; exists n; split; [reflexivity|right; exact I]|intros (n' & [= <-] & [[I _]|I]); [congruence|exact I]].
Qed.
(* blocks with another number of bands than announced *)
Lemma map_blocks_bands_rejected :
  (forall id ys xs, block_at ([nb], fst auto, snd auto) id (0, nb) ys xs -> exists d,
     run f (data_blocks rs (0, nb) ys xs) (mask_blocks f rs (0, nb) ys xs) (if wants_out_nv f then Some nv else None) id = Ok (RData d) /\ len d <> nout) ->
  map_blocks cast auto f rs dt meta inf nva (Some nout) false = Err ValueError.
Proof.
  intros H. destruct Ca as (Cy & Cx & Ny & Nx). pose proof WF as WF0. rewrite Forall_forall in WF0. destruct (WF0 r0 (or_introl eq_refl)) as (S0 & _ & CH).
  destruct auto as [ycs xcs]. cbn [fst snd] in *.
  unfold map_blocks, rs. rewrite AG. cbn [rbind]. pose proof (shapes_ok r0 rest nb ny nx WF) as SH. pose proof (len_align r0 rest) as LA. pose proof (chunks_same r0 rest) as CS'. fold rs in SH, LA, CS' |- *. rewrite SH. cbn [negb]. replace (nout <? 1) with false by lia.
  replace (len (b_data r0)) with nb by (symmetry; apply S0). rewrite CS', align_inputs, LA. cbn [negb]. cbn [fst snd].
  enough (E : dask_map_blocks (fun args id => wrapper f (Some nout) args (wrapper_out_nv false dt meta inf nva (b_dtype r0) (b_nv r0) (len rs)) id) (fun _ => nout) ([nb], ycs, xcs) (all_inputs f rs) = Err ValueError) by now rewrite E.
  unfold dask_map_blocks. change (enumerate (chunks_to_array_locations [nb])) with [(0, (0, nb))]. cbn [traverse].
  destruct ycs as [|y ycs]; [contradiction|]. destruct xcs as [|x xcs]; [contradiction|]. 
  assert (EN : forall c cs, exists t, enumerate (chunks_to_array_locations (c :: cs)) = (0, (0, c)) :: t).
  { intros c cs. rewrite locs_cons. unfold enumerate. rewrite len_cons, zrange_cons by (rewrite len_map; match goal with |- context [len ?l] => pose proof (len_nonneg l) end; lia). eexists. reflexivity. }
  destruct (EN y ycs) as [ty EY]. destruct (EN x xcs) as [tx EX]. rewrite EY, EX. cbn [traverse rbind].
  rewrite bands_wrapper. destruct (H (0, 0, 0) (0, y) (0, x)) as (d & E & L).
  { repeat split; [now rewrite locs_cons|now rewrite locs_cons]. }
  rewrite E. cbn [rbind]. replace (len d =? nout) with false by lia. reflexivity.
Qed.
End Bands.

(* ---- calls that are refused ---- *)
Lemma lists_eqb_eq a : forall b, lists_eqb a b = true -> a = b.
Proof. induction a as [|x a IH]; intros [|y b]; cbn; try discriminate; [reflexivity|]. destruct (list_eq_dec Z.eq_dec x y); [|discriminate]. intros E. subst. f_equal. now apply IH. Qed.
Lemma map_blocks_refused cast auto f dt meta inf nva ob rm :
  map_blocks cast auto f [] dt meta inf nva ob rm = Err ValueError
  /\ (forall d m rs, dt = Some d -> meta = Some m -> dtype_eqb d m = false -> map_blocks cast auto f rs dt meta inf nva ob rm = Err ValueError)
  /\ (forall r0 rest r n m k n' m' k', In r rest -> 0 < n -> 0 < m -> shaped3 n m k (b_data r0) -> shaped3 n' m' k' (b_data r) -> n <> n' \/ m <> m' \/ k <> k' ->
       map_blocks cast auto f (r0 :: rest) dt meta inf nva ob rm = Err ValueError)
  /\ (forall rs k, ob = Some k -> k < 1 -> map_blocks cast auto f rs dt meta inf nva ob rm = Err ValueError).
Proof.
  assert (AG : check_dtype_meta_agree dt meta = Ok tt \/ check_dtype_meta_agree dt meta = Err ValueError).
  { unfold check_dtype_meta_agree. destruct dt, meta; auto. destruct (dtype_eqb d d0); auto. }
  split; [reflexivity|]. split; [|split].
  - intros d m rs -> -> E. destruct rs; [reflexivity|]. cbn [map_blocks check_dtype_meta_agree]. now rewrite E.
  - intros r0 rest r n m k n' m' k' I Hn Hm S1 S2 NE. unfold map_blocks. destruct AG as [->| ->]; [|reflexivity]. cbn [rbind].
    replace (forallb _ (r0 :: rest)) with false; [reflexivity|]. symmetry. apply not_true_is_false. intros F. rewrite forallb_forall in F. specialize (F r (or_intror I)).
    apply lists_eqb_eq in F. unfold len3 in F. destruct S1 as [L1 F1], S2 as [L2 F2].
    assert (EN : n' = n) by (rewrite <- L1, <- L2, <- (len_map (fun band => map (fun row => len row) band) (b_data r)), F; apply len_map).
    destruct (b_data r0) as [|x0 t0]; [unfold len in L1; cbn in L1; lia|]. destruct (b_data r) as [|x t]; [discriminate|]. cbn [map] in F. injection F as F _.
    inversion F1 as [|? ? [B1 R1] _]; subst. inversion F2 as [|? ? [B2 R2] _]; subst.
    assert (EM : len x = len x0) by (rewrite <- (len_map (fun row => len row) x), F; apply len_map).
    destruct x0 as [|y0 u0]; [unfold len in Hm; cbn in Hm; lia|]. destruct x as [|y u]; [discriminate|]. cbn [map] in F. injection F as F _.
    inversion R1; subst. inversion R2; subst. lia.
  - intros rs k -> K. destruct rs as [|r0 rest]; [reflexivity|]. unfold map_blocks. destruct AG as [->| ->]; [|reflexivity]. cbn [rbind].
    destruct (negb _); [reflexivity|]. now replace (k <? 1) with true by lia.
Qed.
