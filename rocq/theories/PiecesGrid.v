(* The pieces of raster_tools, and the grid that combine_grids makes of theirs. *)
From Coq Require Import QArith Qabs Lqa Lia Sorted.
From Coq Require Import ZifyBool.
From Verif Require Import Base BaseFacts Scalars Arr2 Grids Combine CombineSpec CombineProofs Chunks ChunksSpec ChunksProofs Pieces PiecesSpec.
Open Scope Z_scope.

(* ---- quadrants ---- *)
Lemma half n : 2 <= n -> 0 < n / 2 < n.
Proof. intros H. pose proof (Z.div_mod n 2 ltac:(lia)). pose proof (Z.mod_pos_bound n 2 ltac:(lia)). lia. Qed.
Lemma quad_in ny nx : 2 <= ny -> 2 <= nx -> Forall (box_in ny nx) (quad_boxes ny nx).
Proof. intros Hy Hx. pose proof (half ny Hy). pose proof (half nx Hx). unfold quad_boxes. repeat constructor; cbn [y0 y1 x0 x1]; lia. Qed.
Lemma quad_tiling ny nx : 2 <= ny -> 2 <= nx -> tiling ny nx (quad_boxes ny nx).
Proof.
  intros Hy Hx i j Ri Rj. pose proof (half ny Hy). pose proof (half nx Hx).
  assert (U : forall n k, get (quad_boxes ny nx) n = Ok k -> holds k i j -> n = (if i <? ny / 2 then 0 else 2) + (if j <? nx / 2 then 0 else 1)).
  { intros n k G HK. pose proof (get_ok_range _ _ _ G) as R. change (0 <= n < 4) in R. assert (n = 0 \/ n = 1 \/ n = 2 \/ n = 3) as [-> | [-> | [-> | ->]]] by lia; cbn in G; injection G as <-; unfold holds in HK; cbn [y0 y1 x0 x1] in HK;
    destruct (i <? ny / 2) eqn:E1; destruct (j <? nx / 2) eqn:E2; lia. }
  destruct (i <? ny / 2) eqn:E1; destruct (j <? nx / 2) eqn:E2; cbn in U; [exists 0|exists 1|exists 2|exists 3]; (split; [eexists; split; [reflexivity|unfold holds; cbn [y0 y1 x0 x1]; lia]|intros n (k & G & HK); symmetry; eauto]).
Qed.
Lemma quad_pieces (r : Chunks.raster num Q) n ny nx : well_shaped n ny nx r -> 2 <= ny -> 2 <= nx -> Forall2 (piece_of 0 n r) (quad_boxes ny nx) (to_quadrants r ny nx).
Proof.
  intros W Hy Hx. pose proof (half ny Hy). pose proof (half nx Hx).
  assert (Q : forall a b c e, 0 <= a <= b -> b <= ny -> 0 <= c <= e -> e <= nx -> piece_of 0 n r (Box a b c e) (quadrant r (a, b) (c, e))).
  { intros a b c e A1 A2 A3 A4. unfold piece_of. cbn [y0 y1 x0 x1]. split; [exact (well_shaped_slices r n ny nx (a, b) (c, e) W A1 A2 A3 A4)|].
    destruct W as (D & M & _ & LY & LX). pose proof (proj1 D) as LD. split; [|split].
    - intros b' i j Rb Ri Rj. unfold quadrant. cbn [r_data r_mask]. split; rewrite get_slice3; cbn [fst snd]; try lia; reflexivity.
    - intros i Ri. unfold quadrant. cbn [r_y fst snd]. apply get_slice; lia.
    - intros j Rj. unfold quadrant. cbn [r_x fst snd]. apply get_slice; lia. }
  unfold to_quadrants, quad_boxes. cbn [map fst snd]. repeat apply Forall2_cons; try apply Forall2_nil; apply Q; lia.
Qed.

(* ---- chunks ---- *)
Lemma span_get cs k : Forall (fun c => 0 < c) cs -> 0 <= k < len cs -> get (chunks_to_array_locations cs) k = Ok (span cs k) /\ 0 <= fst (span cs k) < snd (span cs k) /\ snd (span cs k) <= sum cs.
Proof.
  intros F R. assert (F0 : Forall (fun c => 0 <= c) cs) by (eapply Forall_impl; [|exact F]; cbn beta; intros; lia). destruct (locations_spec cs F0) as (L & C & S).
  destruct (get_range (chunks_to_array_locations cs) k ltac:(lia)) as ([lo hi] & G). unfold span. rewrite G. split; [reflexivity|]. cbn [fst snd].
  pose proof (S _ _ _ G) as Gc. rewrite Forall_forall in F. pose proof (F _ (get_in _ _ _ Gc)) as P. cbn beta in P.
  destruct (consecutive_bounds _ _ _ C) as [_ B]. specialize (B _ _ _ G). lia.
Qed.

Section ChunkBoxes.
Variables ycs xcs : list Z.
Hypothesis FY : Forall (fun c => 0 < c) ycs.
Hypothesis FX : Forall (fun c => 0 < c) xcs.
Lemma nonneg cs : Forall (fun c => 0 < c) cs -> Forall (fun c => 0 <= c) cs.
Proof. intros F. eapply Forall_impl; [|exact F]. cbn beta. intros a. lia. Qed.
Lemma grid_in : Forall (box_in (sum ycs) (sum xcs)) (grid_boxes ycs xcs).
Proof.
  unfold grid_boxes. apply Forall_forall. intros k H. apply in_map_iff in H. destruct H as ([ky kx] & <- & H). apply ndindex2_in in H. destruct H as [Hy Hx].
  destruct (span_get ycs ky FY Hy) as (_ & Y). destruct (span_get xcs kx FX Hx) as (_ & X). unfold box_in, chunk_box. cbn [y0 y1 x0 x1 fst snd]. lia.
Qed.
Lemma lex_nodup l : StronglySorted lex2 l -> NoDup l.
Proof.
  induction 1 as [|a l S IH F]; [constructor|]. constructor; [|exact IH]. intros I. rewrite Forall_forall in F. specialize (F a I). unfold lex2 in F. lia.
Qed.
Lemma span_unique cs i k k' : Forall (fun c => 0 < c) cs -> 0 <= i < sum cs -> 0 <= k < len cs -> 0 <= k' < len cs -> fst (span cs k) <= i < snd (span cs k) -> fst (span cs k') <= i < snd (span cs k') -> k = k'.
Proof.
  intros F R Rk Rk' H H'. destruct (locations_unique cs i (nonneg cs F) R) as (q & _ & U). destruct (span_get cs k F Rk) as (G & _). destruct (span_get cs k' F Rk') as (G' & _).
  destruct (span cs k) as [lo hi]. destruct (span cs k') as [lo' hi']. cbn [fst snd] in *. rewrite <- (U k ltac:(eauto)), <- (U k' ltac:(eauto)). reflexivity.
Qed.
Lemma span_of cs i : Forall (fun c => 0 < c) cs -> 0 <= i < sum cs -> exists k, 0 <= k < len cs /\ fst (span cs k) <= i < snd (span cs k).
Proof.
  intros F R. destruct (locations_unique cs i (nonneg cs F) R) as (q & (lo & hi & G & H) & _). exists q. pose proof (get_ok_range _ _ _ G). destruct (locations_spec cs (nonneg cs F)) as (L & _). split; [lia|]. unfold span. rewrite G. exact H.
Qed.
Lemma in_get {A} (l : list A) x : In x l -> exists n, get l n = Ok x.
Proof. intros H. apply In_nth_error in H. destruct H as (n & E). exists (Z.of_nat n). unfold get. replace (Z.of_nat n <? 0) with false by lia. now rewrite Nat2Z.id, E. Qed.
Lemma get_unique {A} (l : list A) i j x : NoDup l -> get l i = Ok x -> get l j = Ok x -> i = j.
Proof.
  intros N G G'. pose proof (get_ok_range _ _ _ G). pose proof (get_ok_range _ _ _ G'). unfold get in G, G'. replace (i <? 0) with false in G by lia. replace (j <? 0) with false in G' by lia.
  destruct (nth_error l (Z.to_nat i)) eqn:E; [|discriminate]. destruct (nth_error l (Z.to_nat j)) eqn:E'; [|discriminate]. rewrite NoDup_nth_error in N.
  assert (Z.to_nat i = Z.to_nat j); [|lia]. apply N; [apply nth_error_Some; congruence|congruence].
Qed.
Lemma grid_tiling : tiling (sum ycs) (sum xcs) (grid_boxes ycs xcs).
Proof.
  intros i j Ri Rj. destruct (span_of ycs i FY Ri) as (ky & Ry & Hy). destruct (span_of xcs j FX Rj) as (kx & Rx & Hx).
  assert (I : In (ky, kx) (ndindex2 (len ycs) (len xcs))) by (apply ndindex2_in; auto). destruct (in_get _ _ I) as (n & G). exists n. split.
  - exists (chunk_box ycs xcs (ky, kx)). split; [unfold grid_boxes; now rewrite get_map_eq, G|]. split; assumption.
  - intros n' (k & Gk & H). unfold grid_boxes in Gk. rewrite get_map_eq in Gk. destruct (get (ndindex2 _ _) n') as [[ky' kx']|] eqn:G'; [|discriminate]. cbn [rbind] in Gk. injection Gk as <-.
    pose proof (get_in _ _ _ G') as I'. apply ndindex2_in in I'. destruct I' as [Ry' Rx']. unfold holds, chunk_box in H. cbn [y0 y1 x0 x1 fst snd] in H. destruct H as [H1 H2].
    assert (ky = ky') by (apply (span_unique ycs i); auto). assert (kx = kx') by (apply (span_unique xcs j); auto). subst. eapply get_unique; [apply lex_nodup, ndindex2_sorted|exact G|exact G'].
Qed.
Lemma chunk_pieces bcs (r : Chunks.raster num Q) : well_shaped (sum bcs) (sum ycs) (sum xcs) r -> Forall (fun c => c = 1) bcs ->
  exists out, get_chunk_rasters r bcs ycs xcs = Ok out /\ forall b, 0 <= b < sum bcs ->
  exists ps, Forall2 (fun k p => get3 out b (fst k) (snd k) = Ok (Some p)) (ndindex2 (len ycs) (len xcs)) ps /\ Forall2 (piece_of b 1 r) (grid_boxes ycs xcs) ps.
Proof.
  intros W B1. destruct (chunk_rasters_spec r bcs ycs xcs W B1 (nonneg _ FY) (nonneg _ FX)) as (out & E & _ & P). exists out. split; [exact E|]. intros b Rb.
  assert (LB : forall cs, Forall (fun c => c = 1) cs -> sum cs = len cs) by (induction 1 as [|c cs -> F IH]; [reflexivity|]; rewrite sum_cons, len_cons; lia).
  assert (GB : get (chunks_to_array_locations bcs) b = Ok (b, b + 1)).
  { rewrite (LB _ B1) in Rb. destruct (get_range bcs b Rb) as (c & Gc). rewrite locations_eq, (locs_get _ 0 _ _ Gc). assert (c = 1) by (rewrite Forall_forall in B1; apply B1; exact (get_in _ _ _ Gc)). subst c.
    assert (S : start_of bcs b = b). { unfold start_of. rewrite LB by now apply forall_firstn. unfold len. rewrite firstn_length. unfold len in Rb. lia. }
    rewrite S. reflexivity. }
  assert (X : forall k, In k (ndindex2 (len ycs) (len xcs)) -> exists p, get3 out b (fst k) (snd k) = Ok (Some p) /\ piece_of b 1 r (chunk_box ycs xcs k) p).
  { intros [ky kx] I. apply ndindex2_in in I. destruct I as [Hy Hx]. destruct (span_get ycs ky FY Hy) as (GY & _). destruct (span_get xcs kx FX Hx) as (GX & _).
    unfold chunk_box. cbn [fst snd]. destruct (span ycs ky) as [a c]. destruct (span xcs kx) as [a' c']. destruct (P _ _ _ _ _ _ _ _ _ GB GY GX) as (p & G & WP & _ & PC & PY & PX). exists p. split; [exact G|].
    split; [exact WP|]. split; [|split; [exact PY|exact PX]]. intros b' i j Rb' Ri Rj. assert (b' = 0) by lia. subst b'. rewrite Z.add_0_r. now apply PC. }
  unfold grid_boxes. revert X. generalize (ndindex2 (len ycs) (len xcs)). induction l as [|k l IH]; intros X; [exists []; split; constructor|].
  destruct (X k ltac:(now left)) as (p & G & K). destruct IH as (ps & F1 & F2); [intros; apply X; now right|]. exists (p :: ps). cbn [map]. split; constructor; assumption.
Qed.
End ChunkBoxes.
