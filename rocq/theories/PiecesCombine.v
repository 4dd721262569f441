(* combine_grids on the grids of the pieces. *)
From Coq Require Import QArith Qabs Lqa Lia String.
From Coq Require Import ZifyBool.
From Verif Require Import Base Grids Combine CombineSpec CombineProofs Pieces PiecesSpec.
Open Scope Z_scope.

Definition thick_box (k : box) : Prop := PiecesSpec.y0 k < PiecesSpec.y1 k /\ PiecesSpec.x0 k < PiecesSpec.x1 k.

Section Grid.
Variable reproject_to : grid -> Z -> option Q -> res grid.
Variables (g : grid) (r : Q).
Hypothesis SQ : square r g.
Hypothesis R0 : (0 < r)%Q.
Hypothesis KEEP : forall h q, square q h -> g_crs h = g_crs g -> reproject_to h (g_crs g) (Some q) = Ok h.
Variable ks : list box.
Hypothesis KS : Forall (box_in (g_ny g) (g_nx g)) ks.
Hypothesis TH : Forall thick_box ks.
Hypothesis CV : covering (g_ny g) (g_nx g) ks.

Let q : Q := Qabs (aa (g_affine g)).
Lemma q_eq : (q == r)%Q.
Proof. destruct SQ as (A & _). unfold q. rewrite A. apply Qabs_pos. lra. Qed.
Lemma q_pos : (0 < q)%Q. Proof. rewrite q_eq. exact R0. Qed.
Lemma sub_square k : In k ks -> square q (sub_of g k).
Proof.
  intros I. rewrite Forall_forall in TH. destruct (TH k I) as [T1 T2]. destruct SQ as (A & B & C & D & _). unfold sub_of, subgrid. repeat split; cbn [g_affine aa ab ad ae g_nx g_ny]; rewrite ?q_eq; try assumption; lia.
Qed.
(* the corners of a piece *)
Lemma sub_corner k : (ac (g_affine (sub_of g k)) == ac (g_affine g) + inject_Z (PiecesSpec.x0 k) * q)%Q /\ (af (g_affine (sub_of g k)) == af (g_affine g) - inject_Z (PiecesSpec.y0 k) * q)%Q.
Proof.
  destruct SQ as (A & B & C & D & _). unfold sub_of, subgrid. cbn [g_affine ac af]. rewrite q_eq. split; rewrite ?A, ?B, ?C, ?D; ring.
Qed.
Lemma corner_boxes : (exists k, In k ks /\ PiecesSpec.y0 k = 0 /\ PiecesSpec.x0 k = 0) /\ (exists k, In k ks /\ PiecesSpec.y1 k = g_ny g /\ PiecesSpec.x1 k = g_nx g).
Proof.
  destruct SQ as (_ & _ & _ & _ & NX & NY). rewrite Forall_forall in KS. split.
  - destruct (CV 0 0 ltac:(lia) ltac:(lia)) as (k & I & H1 & H2). exists k. specialize (KS k I). unfold box_in in KS. split; [exact I|lia].
  - destruct (CV (g_ny g - 1) (g_nx g - 1) ltac:(lia) ltac:(lia)) as (k & I & H1 & H2). exists k. specialize (KS k I). unfold box_in in KS. split; [exact I|lia].
Qed.
Lemma sub_whole k : PiecesSpec.y0 k = 0 -> PiecesSpec.x0 k = 0 -> PiecesSpec.y1 k = g_ny g -> PiecesSpec.x1 k = g_nx g -> same_grid (sub_of g k) g.
Proof.
  intros E1 E2 E3 E4. unfold sub_of, subgrid, same_grid. rewrite E1, E2, E3, E4. cbn [g_crs g_ny g_nx g_affine aa ab ac ad ae af]. rewrite !Z.sub_0_r. repeat split; try reflexivity; ring.
Qed.
Lemma inject_small a b : (Qabs (inject_Z a * q - inject_Z b * q) <= tolerance * q)%Q -> a = b.
Proof.
  intros H. assert (E : (inject_Z a * q - inject_Z b * q == inject_Z (a - b) * q)%Q) by (unfold Z.sub; rewrite inject_Z_plus, inject_Z_opp; ring). rewrite E in H. rewrite Qabs_Qmult in H.
  rewrite (Qabs_pos q) in H by (pose proof q_pos; lra). apply Qmult_le_r in H; [|exact q_pos]. change (Qabs (inject_Z (a - b))) with (inject_Z (Z.abs (a - b))) in H. unfold tolerance, inject_Z, Qle in H. cbn [Qnum Qden] in H. lia.
Qed.
Lemma close_same k k' : In k ks -> In k' ks -> grids_close (sub_of g k) (sub_of g k') tolerance = true -> k = k'.
Proof.
  intros I I' H. unfold grids_close in H.
  destruct (negb _ || negb _) eqn:E; [discriminate|]. apply Bool.orb_false_iff in E. destruct E as [_ E]. apply Bool.negb_false_iff in E. apply andb_prop in E. destruct E as [E1 E2].
  change (g_ny (sub_of g k)) with (PiecesSpec.y1 k - PiecesSpec.y0 k) in E1. change (g_ny (sub_of g k')) with (PiecesSpec.y1 k' - PiecesSpec.y0 k') in E1. change (g_nx (sub_of g k)) with (PiecesSpec.x1 k - PiecesSpec.x0 k) in E2. change (g_nx (sub_of g k')) with (PiecesSpec.x1 k' - PiecesSpec.x0 k') in E2.
  cbv zeta in H. cbn [combine forallb] in H. repeat (apply andb_prop in H; let H' := fresh "C" in destruct H as [H' H]).
  destruct (sub_corner k) as [X Y]. destruct (sub_corner k') as [X' Y']. rewrite Qle_bool_iff in *.
  assert (T : ((if Qle_bool (Qabs (aa (g_affine (sub_of g k)))) (Qabs (ae (g_affine (sub_of g k)))) then Qabs (ae (g_affine (sub_of g k))) else Qabs (aa (g_affine (sub_of g k)))) == q)%Q).
  { destruct SQ as (A & _ & _ & D & _). change (aa (g_affine (sub_of g k))) with (aa (g_affine g)). change (ae (g_affine (sub_of g k))) with (ae (g_affine g)). fold q.
    destruct (Qle_bool _ _); [|reflexivity]. rewrite D, q_eq, Qabs_opp. apply Qabs_pos. lra. }
  rewrite T in *.
  assert (EX : PiecesSpec.x0 k = PiecesSpec.x0 k').
  { apply inject_small. eapply Qle_trans; [|exact C1]. apply Qle_lteq. right. apply Qabs_wd. rewrite X, X'. ring. }
  assert (EY : PiecesSpec.y0 k = PiecesSpec.y0 k').
  { apply inject_small. eapply Qle_trans; [|exact C4]. apply Qle_lteq. right. rewrite <- Qabs_opp. apply Qabs_wd. rewrite Y, Y'. ring. }
  destruct k, k'. cbn [PiecesSpec.x0 PiecesSpec.y0 PiecesSpec.x1 PiecesSpec.y1] in *. f_equal; lia.
Qed.
Lemma pieces_grid how : how = None \/ how = Some "union"%string ->
  exists out, combine_grids reproject_to (map (sub_of g) ks) how None None = Ok out /\ same_grid out g.
Proof.
  intros HU. assert (GH : good_how how) by (unfold good_how; tauto).
  destruct corner_boxes as ((ka & Ia & A1 & A2) & (kb & Ib & B1 & B2)). assert (EK : exists k0 rest, ks = k0 :: rest) by (clear -Ia; destruct ks; [destruct Ia|eauto]). destruct EK as (k0 & rest & EK).
  replace (map (sub_of g) ks) with (sub_of g k0 :: map (sub_of g) rest) by (rewrite EK; reflexivity). destruct (are_all_grids_same (sub_of g k0 :: map (sub_of g) rest)) eqn:S.
  - exists (sub_of g k0). destruct (same_ok reproject_to (sub_of g k0) (map (sub_of g) rest) how None None S GH) as [E _]. split; [now apply E|].
    assert (ALL : forall k, In k ks -> k = k0).
    { intros k I. rewrite EK in I. destruct I as [<-|I]; [reflexivity|]. unfold are_all_grids_same in S. rewrite forallb_forall in S. symmetry. apply close_same; [rewrite EK; now left|rewrite EK; now right|]. apply S. now apply in_map. }
    rewrite (ALL _ Ia) in A1, A2. rewrite (ALL _ Ib) in B1, B2. now apply sub_whole.
  - destruct (union_all reproject_to (sub_of g k0) (map (sub_of g) rest) how None None (map (sub_of g) ks)) as (out & b & E & EC & HB & CB & _).
    { exact S. } { exact HU. } { exact q_pos. }
    { rewrite EK. change (sub_of g k0 :: map (sub_of g) rest) with (map (sub_of g) (k0 :: rest)). rewrite <- EK. assert (Z : forall k, In k ks -> reproject_to (sub_of g k) (g_crs g) (Some q) = Ok (sub_of g k) /\ upright (sub_of g k)).
      { intros k I. pose proof (sub_square k I) as Q. split; [now apply KEEP|exact (square_upright q _ q_pos Q)]. }
      clear -Z. induction ks as [|k l IH]; [constructor|]. cbn [map]. constructor; [apply Z; now left|]. apply IH. intros. apply Z. now right. }
    exists out. split; [exact E|]. change (covers_box q out b) in CB.
    pose proof q_pos as QP. pose proof SQ as (SA & SB & SC & SD & NX & NY).
    assert (FULL : forall k x y, In k ks -> on_grid (sub_of g k) x y -> (ac (g_affine g) <= x <= ac (g_affine g) + inject_Z (g_nx g) * q /\ af (g_affine g) - inject_Z (g_ny g) * q <= y <= af (g_affine g))%Q).
    { intros k x y I O. rewrite (square_on q) in O by (auto using sub_square). destruct (sub_corner k) as [X Y]. rewrite X, Y in O. rewrite Forall_forall in KS. destruct (KS k I) as (K1 & K2 & K3 & K4).
      change (g_nx (sub_of g k)) with (PiecesSpec.x1 k - PiecesSpec.x0 k) in O. change (g_ny (sub_of g k)) with (PiecesSpec.y1 k - PiecesSpec.y0 k) in O. unfold Z.sub in O. rewrite !inject_Z_plus, !inject_Z_opp in O.
      assert (M : forall a c, a <= c -> (inject_Z a * q <= inject_Z c * q)%Q) by (intros a c L; apply Qmult_le_compat_r; [now rewrite <- Zle_Qle|lra]).
      pose proof (M 0 (PiecesSpec.x0 k) ltac:(lia)) as M1. pose proof (M 0 (PiecesSpec.y0 k) ltac:(lia)) as M2. pose proof (M (PiecesSpec.x1 k) (g_nx g) ltac:(lia)) as M3. pose proof (M (PiecesSpec.y1 k) (g_ny g) ltac:(lia)) as M4.
      change (inject_Z 0) with 0%Q in M1, M2. destruct O as [[O1 O2] [O3 O4]]. repeat split; lra. }
    destruct HB as [HB1 HB2].
    destruct (HB2 (Bounds (ac (g_affine g)) (af (g_affine g) - inject_Z (g_ny g) * q) (ac (g_affine g) + inject_Z (g_nx g) * q) (af (g_affine g)))%Q) as (L1 & L2 & L3 & L4).
    { intros h x y I O. apply in_map_iff in I. destruct I as (k & <- & I). exact (FULL k x y I O). }
    cbn [Combine.x0 Combine.y0 Combine.x1 Combine.y1] in L1, L2, L3, L4.
    assert (CA : inside b (ac (g_affine g)) (af (g_affine g))).
    { apply (HB1 (sub_of g ka)); [now apply in_map|]. rewrite (square_on q) by (auto using sub_square). destruct (sub_corner ka) as [X Y]. rewrite X, Y, A1, A2. change (inject_Z 0) with 0%Q.
      destruct (sub_square ka Ia) as (_ & _ & _ & _ & N1 & N2). assert (P1 : (0 <= inject_Z (g_nx (sub_of g ka)) * q)%Q) by (apply Qmult_le_0_compat; [rewrite <- (Zle_Qle 0); lia|lra]). assert (P2 : (0 <= inject_Z (g_ny (sub_of g ka)) * q)%Q) by (apply Qmult_le_0_compat; [rewrite <- (Zle_Qle 0); lia|lra]).
      repeat split; lra. }
    assert (CB' : inside b (ac (g_affine g) + inject_Z (g_nx g) * q) (af (g_affine g) - inject_Z (g_ny g) * q)).
    { apply (HB1 (sub_of g kb)); [now apply in_map|]. rewrite (square_on q) by (auto using sub_square). destruct (sub_corner kb) as [X Y]. rewrite X, Y.
      change (g_nx (sub_of g kb)) with (PiecesSpec.x1 kb - PiecesSpec.x0 kb). change (g_ny (sub_of g kb)) with (PiecesSpec.y1 kb - PiecesSpec.y0 kb). rewrite B1, B2. unfold Z.sub. rewrite !inject_Z_plus, !inject_Z_opp.
      destruct (sub_square kb Ib) as (_ & _ & _ & _ & N1 & N2). change (0 < PiecesSpec.x1 kb - PiecesSpec.x0 kb) in N1. change (0 < PiecesSpec.y1 kb - PiecesSpec.y0 kb) in N2.
      assert (M : forall a c, a <= c -> (inject_Z a * q <= inject_Z c * q)%Q) by (intros a c L; apply Qmult_le_compat_r; [now rewrite <- Zle_Qle|lra]).
      pose proof (M (PiecesSpec.x0 kb) (g_nx g) ltac:(lia)). pose proof (M (PiecesSpec.y0 kb) (g_ny g) ltac:(lia)). repeat split; lra. }
    destruct CA as [[CA1 CA2] [CA3 CA4]]. destruct CB' as [[CB1 CB2] [CB3 CB4]].
    destruct (whole_cells q out b (g_nx g) (g_ny g) QP CB NX NY) as (WX & WY & _); [lra|lra|].
    destruct CB as ((O1 & O2 & O3 & O4 & _) & O5 & O6 & _). unfold same_grid. split; [exact EC|]. split; [exact WY|]. split; [exact WX|]. pose proof q_eq as QE. clearbody q. repeat apply conj; try lra.
Qed.
End Grid.
