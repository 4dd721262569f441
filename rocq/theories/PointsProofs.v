(* Proofs about Points.v. *)
From Coq Require Import Reals Lra Lia ZifyBool ZifyNat Sorted.
From Flocq Require Import Core BinarySingleNaN.
From Verif Require Import Base BaseFacts Arr2 Arr2Facts ChunksSpec ChunksProofs ProximityChunk FocalSpec FocalResults RasterStack AggregateProofs VectorsProofs
  Bands BandsSpec BandsProofs Chunks F64 Grids GridsF64 GridsFloat Points PointsSpec.
Open Scope Z_scope.

(* ---- the loop ---- *)
Lemma set_at {A} (d : list A) x j r : set (d ++ j :: r) (len d) x = Ok (d ++ x :: r).
Proof.
  unfold set. replace ((0 <=? len d) && (len d <? len (d ++ j :: r))) with true by (rewrite len_app, len_cons; pose proof (len_nonneg d); pose proof (len_nonneg r); lia).
  f_equal. unfold len. rewrite Nat2Z.id. induction d as [|a d IH]; cbn; [reflexivity|now f_equal].
Qed.
Lemma full_succ {A} n (x : A) : 0 <= n -> full (n + 1) x = x :: full n x.
Proof. intros. unfold full. replace (Z.to_nat (n + 1)) with (S (Z.to_nat n)) by lia. reflexivity. Qed.
Lemma fill_loop {I B} (step : Z * list B -> I -> res (Z * list B)) (keep : I -> bool) (g : I -> B) junk l :
  (forall k out i, In i l -> step (k, out) i = if keep i then let* out := set out k (g i) in Ok (k + 1, out) else Ok (k, out)) ->
  forall d, foldM step l (len d, d ++ full (len (filter keep l)) junk) = Ok (len d + len (filter keep l), d ++ map g (filter keep l)).
Proof.
  induction l as [|i l IH]; intros H d.
  - cbn [foldM filter map]. change (len (@nil I)) with 0. change (full 0 junk) with (@nil B). now rewrite Z.add_0_r.
  - cbn [foldM filter]. rewrite H by now left. destruct (keep i) eqn:E.
    + rewrite len_cons. rewrite (Z.add_comm 1), full_succ by apply len_nonneg. rewrite set_at. cbn [rbind].
      replace (d ++ g i :: full (len (filter keep l)) junk) with ((d ++ [g i]) ++ full (len (filter keep l)) junk) by (now rewrite <- app_assoc).
      replace (len d + 1) with (len (d ++ [g i])) by (rewrite len_app, len_cons; reflexivity).
      rewrite IH by (intros; apply H; now right). cbn [map]. rewrite <- app_assoc. cbn [app]. do 2 f_equal. rewrite len_app. change (len [g i]) with 1. lia.
    + cbn [rbind]. apply IH. intros. apply H. now right.
Qed.
Lemma flat2 {A} ny nx (M : Z -> Z -> A) : concat (tab2 ny nx M) = map (fun rc => M (fst rc) (snd rc)) (ndindex2 ny nx).
Proof.
  unfold tab2, tab, ndindex2. induction (zrange 0 ny) as [|r l IH]; [reflexivity|]. cbn [map concat flat_map]. rewrite map_app, map_map, IH. reflexivity.
Qed.
Lemma flat3 {A} nb ny nx (M : Z -> Z -> Z -> A) : concat (concat (tab3 nb ny nx M)) = map (fun '(b, i, j) => M b i j) (ndindex3 nb ny nx).
Proof.
  unfold tab3, tab, ndindex3. induction (zrange 0 nb) as [|b l IH]; [reflexivity|]. cbn [map concat flat_map].
  rewrite concat_app, map_app, map_map, IH. f_equal. exact (flat2 ny nx (M b)).
Qed.
Lemma filter_split {A} (p : A -> bool) l : len l - len (filter p l) = len (filter (fun x => negb (p x)) l).
Proof. induction l as [|a l IH]; [reflexivity|]. cbn [filter]. destruct (p a); cbn [negb]; rewrite ?len_cons; lia. Qed.
Lemma filter_map_len {A B} (f : A -> B) p l : len (filter p (map f l)) = len (filter (fun x => p (f x)) l).
Proof. induction l as [|a l IH]; [reflexivity|]. cbn [map filter]. destruct (p (f a)); rewrite ?len_cons; lia. Qed.
Lemma get3_tab3 {A} nb ny nx (f : Z -> Z -> Z -> A) b i j : 0 <= b < nb -> 0 <= i < ny -> 0 <= j < nx -> get3 (tab3 nb ny nx f) b i j = Ok (f b i j).
Proof. intros. unfold get3, tab3. rewrite get_tab by lia. cbn [rbind]. unfold tab2. rewrite get_tab by lia. cbn [rbind]. apply get_tab. lia. Qed.
Lemma slice3_tab3 {A} nb ny nx (f : Z -> Z -> Z -> A) b0 b1 r0 r1 c0 c1 : 0 <= b0 <= b1 -> b1 <= nb -> 0 <= r0 <= r1 -> r1 <= ny -> 0 <= c0 <= c1 -> c1 <= nx ->
  slice3 (tab3 nb ny nx f) (b0, b1) (r0, r1) (c0, c1) = tab3 (b1 - b0) (r1 - r0) (c1 - c0) (fun b i j => f (b0 + b) (r0 + i) (c0 + j)).
Proof.
  intros. unfold slice3. cbn [fst snd]. unfold tab3. rewrite slice_tab by lia. unfold tab at 1. rewrite map_map. apply map_ext. intros b.
  unfold tab2. rewrite slice_tab by lia. unfold tab at 1. rewrite map_map. apply map_ext. intros i. now rewrite slice_tab by lia.
Qed.

Section Pts.
Context {A : Type}.
Variables (junk : A * Z * f64 * f64) (xcoord ycoord : Z -> Z -> f64) (t : affine f64) (nb ny nx : Z).
Variables (F : Z -> Z -> Z -> A) (M : Z -> Z -> Z -> bool).
Hypothesis PG : plain_grid t.
Hypothesis CE : centres t ny nx xcoord ycoord.
Hypothesis SB : ny <= 2 ^ 40. Hypothesis SX : nx <= 2 ^ 40.

Lemma index_ok r0 i c0 j : 0 <= r0 -> 0 <= i -> r0 + i < ny -> 0 <= c0 -> 0 <= j -> c0 + j < nx ->
  findex (xcoord c0 j) (ycoord r0 i) t = (r0 + i, c0 + j).
Proof.
  intros. destruct PG as (Fa & Fb & Fc & Fd & Fe & Ff & Eb & Ed & Sa & Se & Hc & Hf). destruct CE as [CX CY].
  destruct (CX c0 j) as [F1 E1]; try lia. destruct (CY r0 i) as [F2 E2]; try lia.
  destruct t as [a b c d e f]. cbn [aa ab ac ad ae af] in *. change (IZR (2 ^ 40)) with 1099511627776%R in *.
  apply (index_f64 a c e f b d _ _ (B2R a) (B2R c) (B2R e) (B2R f) (B2R (xcoord c0 j)) (B2R (ycoord r0 i)) (/ 2)%R (/ 2)%R); try assumption; try (now apply val_of); try (now split); try lia; lra.
Qed.

Lemma extract_ok sb sy sx G N band x y : 0 <= sb -> 0 <= sy -> 0 <= sx -> len band = sb -> len y = sy -> len x = sx ->
  exists bf yf xf, (forall b, 0 <= b < sb -> get band b = Ok (bf b)) /\ (forall i, 0 <= i < sy -> get y i = Ok (yf i)) /\ (forall j, 0 <= j < sx -> get x j = Ok (xf j))
  /\ extract junk (tab3 sb sy sx G) (tab3 sb sy sx N) (sb, sy, sx) band x y
     = Ok (map (fun '(b, i, j) => (G b i j, bf b, xf j, yf i)) (filter (fun '(b, i, j) => negb (N b i j)) (ndindex3 sb sy sx))).
Proof.
  intros Hb Hy Hx Lb Ly Lx.
  assert (DF : forall (T : Type) (l : list T) (d : T) n, len l = n -> forall i, 0 <= i < n -> get l i = Ok (match get l i with Ok v => v | Err _ => d end)).
  { intros T l d n E i Hi. destruct (get_range l i) as [v ->]; [lia|reflexivity]. }
  exists (fun b => match get band b with Ok v => v | _ => 0 end), (fun b => match get y b with Ok v => v | _ => fzero end), (fun b => match get x b with Ok v => v | _ => fzero end).
  split; [apply DF; assumption|]. split; [apply DF; assumption|]. split; [apply DF; assumption|].
  unfold extract. rewrite flat3, len_map, filter_map_len. rewrite <- (len_map (fun x => x) (ndindex3 sb sy sx)), map_id.
  rewrite filter_split.
  replace (len (filter (fun x0 => negb (let '(b, i, j) := x0 in N b i j)) (ndindex3 sb sy sx))) with (len (filter (fun '(b, i, j) => negb (N b i j)) (ndindex3 sb sy sx)))
    by (f_equal; apply filter_ext; intros [[? ?] ?]; reflexivity).
  destruct (len (filter (fun '(b, i, j) => negb (N b i j)) (ndindex3 sb sy sx)) =? 0) eqn:E0.
  - destruct (filter _ (ndindex3 sb sy sx)) as [|z l]; [reflexivity|]. rewrite len_cons in E0. pose proof (len_nonneg l). lia.
  - match goal with |- context [foldM ?st ?l (0, full ?n junk)] =>
      pose proof (fill_loop st (fun '(b, i, j) => negb (N b i j)) (fun '(b, i, j) => (G b i j, match get band b with Ok v => v | _ => 0 end, match get x j with Ok v => v | _ => fzero end, match get y i with Ok v => v | _ => fzero end)) junk l) as FL
    end. assert (PF : forall P Q : Prop, P -> (P -> Q) -> Q) by auto. eapply PF; [|intros HS; specialize (FL HS []); change (len (@nil (A * Z * f64 * f64))) with 0 in FL; cbn [app] in FL; rewrite FL; reflexivity].
    intros k out [[b i] j] Hi. apply ndindex3_in in Hi as (H1 & H2 & H3). rewrite !get3_tab3 by lia. cbn [rbind].
    destruct (N b i j); cbn [negb]; [reflexivity|].
    rewrite (DF Z band 0 sb Lb b H1). cbn [rbind]. rewrite (DF f64 y fzero sy Ly i H2). cbn [rbind]. rewrite (DF f64 x fzero sx Lx j H3). reflexivity.
Qed.

Definition cell_point (r0 c0 b r c : Z) : point A :=
  Point ((b * ny + r) * nx + c) (F b r c) (b + 1) r c (xcoord c0 (c - c0)) (ycoord r0 (r - r0)).
Lemma vectorize_ok b0 b1 r0 r1 c0 c1 : 0 <= b0 <= b1 -> b1 <= nb -> 0 <= r0 <= r1 -> r1 <= ny -> 0 <= c0 <= c1 -> c1 <= nx ->
  vectorize junk xcoord ycoord t nb ny nx (slice3 (tab3 nb ny nx F) (b0, b1) (r0, r1) (c0, c1)) (slice3 (tab3 nb ny nx M) (b0, b1) (r0, r1) (c0, c1)) (b0, b1) (r0, r1) (c0, c1)
  = Ok (map (fun '(b, i, j) => cell_point r0 c0 (b0 + b) (r0 + i) (c0 + j)) (filter (fun '(b, i, j) => negb (M (b0 + b) (r0 + i) (c0 + j))) (ndindex3 (b1 - b0) (r1 - r0) (c1 - c0)))).
Proof.
  intros. rewrite !slice3_tab3 by lia. unfold vectorize. cbn [fst snd].
  destruct (extract_ok (b1 - b0) (r1 - r0) (c1 - c0) (fun b i j => F (b0 + b) (r0 + i) (c0 + j)) (fun b i j => M (b0 + b) (r0 + i) (c0 + j))
    (zrange b0 b1) (map (xcoord c0) (zrange 0 (c1 - c0))) (map (ycoord r0) (zrange 0 (r1 - r0)))) as (bf & yf & xf & GB & GY & GX & E);
    try lia; try (rewrite ?len_map, len_zrange; lia).
  rewrite E. cbn [rbind]. rewrite (traverse_ok (B := point A) (vectorize_point t nb ny nx) (fun '((v, b, x, y) : A * Z * f64 * f64) => let '(row, col) := findex x y t in Point ((b * ny + row) * nx + col) v (b + 1) row col x y)).
  - rewrite map_map. f_equal. apply map_ext_in. intros [[b i] j] Hi. apply filter_In in Hi as [Hi _]. apply ndindex3_in in Hi as (H1' & H2' & H3').
    specialize (GB b H1'). specialize (GY i H2'). specialize (GX j H3'). rewrite get_zrange in GB by lia. rewrite get_map_eq, get_zrange in GY, GX by lia.
    injection GB as <-. injection GY as <-. injection GX as <-. rewrite ?Z.add_0_l. rewrite index_ok by lia. unfold cell_point. do 2 f_equal; f_equal; lia.
  - intros [[[v b] x] y] Hi. apply in_map_iff in Hi as ([[b' i] j] & Ei & Hi). injection Ei as <- <- <- <-. apply filter_In in Hi as [Hi _]. apply ndindex3_in in Hi as (H1' & H2' & H3').
    specialize (GB b' H1'). specialize (GY i H2'). specialize (GX j H3'). rewrite get_zrange in GB by lia. rewrite get_map_eq, get_zrange in GY, GX by lia.
    injection GB as <-. injection GY as <-. injection GX as <-. rewrite ?Z.add_0_l. unfold vectorize_point. rewrite index_ok by lia.
    replace ((0 <=? b0 + b') && (b0 + b' <? nb) && (0 <=? r0 + i) && (r0 + i <? ny) && (0 <=? c0 + j) && (c0 + j <? nx)) with true by lia. reflexivity.
Qed.
End Pts.

(* ---- all chunks together ---- *)
Lemma nodup_app {A} (a b : list A) : NoDup a -> NoDup b -> (forall x, In x a -> In x b -> False) -> NoDup (a ++ b).
Proof.
  intros Na Nb D. induction Na as [|x a Nx Na IH]; [assumption|]. cbn. constructor.
  - rewrite in_app_iff. intros [H|H]; [auto|]. apply (D x); [now left|assumption].
  - apply IH. intros y Hy. apply D. now right.
Qed.
Lemma nodup_key {P E K} (f : P -> list E) (keys : P -> list K) (g : E -> K) l :
  NoDup (flat_map keys l) -> (forall p, In p l -> NoDup (f p)) -> (forall p e, In p l -> In e (f p) -> In (g e) (keys p)) -> NoDup (flat_map f l).
Proof.
  induction l as [|p l IH]; intros ND N1 KE; [constructor|]. cbn [flat_map] in *. 
  assert (ND2 : NoDup (flat_map keys l)) by (clear -ND; induction (keys p) as [|k ks IHk]; [assumption|]; inversion ND; auto).
  apply nodup_app; [apply N1; now left| |].
  { apply IH; [assumption| |]; [intros p' H; apply N1; now right|intros p' z H; apply KE; now right]. }
  intros e H1 H2. apply in_flat_map in H2 as (p' & Hp' & H2).
  assert (K1 : In (g e) (keys p)) by (eapply KE; [now left|assumption]). assert (K2 : In (g e) (flat_map keys l)) by (apply in_flat_map; exists p'; split; [assumption|eapply KE; [now right|assumption]]).
  clear -ND K1 K2. induction (keys p) as [|k ks IHk]; [destruct K1|]. inversion ND as [|? ? Hn ND']; subst. destruct K1 as [->|K1]; [|auto]. apply Hn. apply in_or_app. now right.
Qed.
Lemma zrange_app a b c : a <= b -> b <= c -> zrange a b ++ zrange b c = zrange a c.
Proof. intros. symmetry. apply zrange_join; lia. Qed.
Lemma locations_zrange cs : Forall (fun c => 0 <= c) cs -> flat_map (fun p => zrange (fst p) (snd p)) (chunks_to_array_locations cs) = zrange 0 (sum cs).
Proof.
  intros F. induction F as [|c cs Hc F IH]; [reflexivity|]. rewrite locs_cons, sum_cons. cbn [flat_map fst snd].
  pose proof (sum_nonneg cs F) as N.
  replace (flat_map (fun p => zrange (fst p) (snd p)) (map (fun p => (c + fst p, c + snd p)) (chunks_to_array_locations cs))) with (zrange c (c + sum cs)); [apply zrange_app; lia|].
  assert (SH : forall a b k, map (fun i => k + i) (zrange a b) = zrange (k + a) (k + b)).
  { intros a b k. apply list_ext; [rewrite len_map, !len_zrange; lia|]. intros i x G. pose proof (get_ok_range _ _ _ G) as R. rewrite len_map, len_zrange in R.
    rewrite get_map_eq, get_zrange in G by lia. injection G as <-. rewrite get_zrange by lia. f_equal. lia. }
  replace (zrange c (c + sum cs)) with (map (fun i => c + i) (zrange 0 (sum cs))) by (rewrite SH; f_equal; lia).
  rewrite <- IH. clear -SH. induction (chunks_to_array_locations cs) as [|p l IH]; [reflexivity|]. cbn [flat_map map fst snd]. rewrite map_app, IH, SH. reflexivity.
Qed.
Lemma flat_map_flat_map {A B C} (f : B -> list C) (g : A -> list B) l : flat_map f (flat_map g l) = flat_map (fun x => flat_map f (g x)) l.
Proof. induction l as [|a l IH]; [reflexivity|]. cbn [flat_map]. now rewrite flat_map_app, IH. Qed.
Lemma flat_map_map {A B C} (f : B -> list C) (g : A -> B) l : flat_map f (map g l) = flat_map (fun x => f (g x)) l.
Proof. induction l as [|a l IH]; [reflexivity|]. cbn [flat_map map]. now rewrite IH. Qed.
Lemma sorted_nodup {A} (R : A -> A -> Prop) l : (forall x, ~ R x x) -> StronglySorted R l -> NoDup l.
Proof.
  intros IR S. induction S as [|a l S IH F]; constructor; [|assumption]. intros H. rewrite Forall_forall in F. exact (IR a (F a H)).
Qed.
Lemma ndindex3_nodup n ny nx : NoDup (ndindex3 n ny nx).
Proof. apply (sorted_nodup lex3); [|apply ndindex3_sorted]. intros [[b r] c]. unfold lex3, lex2. cbn [fst snd]. lia. Qed.
Lemma nodup_map_inj {A B} (f : A -> B) l : (forall x y, In x l -> In y l -> f x = f y -> x = y) -> NoDup l -> NoDup (map f l).
Proof.
  intros I N. induction N as [|a l H N IH]; cbn; constructor.
  - intros H'. apply in_map_iff in H' as (y & E & Hy). assert (y = a) by (apply I; [now right|now left|assumption]). now subst.
  - apply IH. intros. apply I; auto; now right.
Qed.
Lemma at3_inv {A : Type} nb ny nx (f : Z -> Z -> Z -> A) b r c x : at3 (tab3 nb ny nx f) b r c x -> 0 <= b < nb /\ 0 <= r < ny /\ 0 <= c < nx /\ x = f b r c.
Proof.
  intros (band & G & row & G1 & G2). unfold tab3 in G. pose proof (get_ok_range _ _ _ G) as R.
  assert (0 <= nb \/ nb < 0) as [Hn|Hn] by lia.
  2:{ exfalso. unfold tab in R. rewrite len_map, len_zrange in R. lia. }
  rewrite len_tab in R by lia. rewrite get_tab in G by lia. injection G as <-. pose proof (get_ok_range _ _ _ G1) as R1. unfold tab2 in *.
  assert (0 <= ny \/ ny < 0) as [Hy|Hy] by lia.
  2:{ exfalso. unfold tab at 1 in R1. rewrite len_map, len_zrange in R1. lia. }
  rewrite len_tab in R1 by lia. rewrite get_tab in G1 by lia. injection G1 as <-. pose proof (get_ok_range _ _ _ G2) as R2.
  assert (0 <= nx \/ nx < 0) as [Hx|Hx] by lia.
  2:{ exfalso. unfold tab in R2. rewrite len_map, len_zrange in R2. lia. }
  rewrite len_tab in R2 by lia. rewrite get_tab in G2 by lia. injection G2 as <-. auto.
Qed.

Section All.
Context {A : Type}.
Variables (junk : A * Z * f64 * f64) (xcoord ycoord : Z -> Z -> f64) (t : affine f64) (nb ny nx : Z).
Variables (F : Z -> Z -> Z -> A) (M : Z -> Z -> Z -> bool).

Definition block_points (blk : (Z * Z) * (Z * Z) * (Z * Z)) : list (point A) :=
  let '((b0, b1), (r0, r1), (c0, c1)) := blk in
  map (fun '(b, i, j) => cell_point xcoord ycoord ny nx F r0 c0 (b0 + b) (r0 + i) (c0 + j))
    (filter (fun '(b, i, j) => negb (M (b0 + b) (r0 + i) (c0 + j))) (ndindex3 (b1 - b0) (r1 - r0) (c1 - c0))).
Definition blocks (bl yl xl : list (Z * Z)) := flat_map (fun bs => flat_map (fun rs => map (fun cs => (bs, rs, cs)) xl) yl) bl.
Definition key (p : point A) : Z * Z * Z := (p_band p - 1, p_row p, p_col p).

Lemma in_blocks bl yl xl bs rs cs : In (bs, rs, cs) (blocks bl yl xl) <-> In bs bl /\ In rs yl /\ In cs xl.
Proof.
  unfold blocks. rewrite in_flat_map. split.
  - intros (bs' & H1 & H2). apply in_flat_map in H2 as (rs' & H3 & H4). apply in_map_iff in H4 as (cs' & E & H5). injection E as -> -> ->. auto.
  - intros (H1 & H2 & H3). exists bs. split; [assumption|]. apply in_flat_map. exists rs. split; [assumption|]. apply in_map_iff. exists cs. auto.
Qed.
Lemma in_block_points b0 b1 r0 r1 c0 c1 p : In p (block_points ((b0, b1), (r0, r1), (c0, c1))) <->
  exists b r c, b0 <= b < b1 /\ r0 <= r < r1 /\ c0 <= c < c1 /\ M b r c = false /\ p = cell_point xcoord ycoord ny nx F r0 c0 b r c.
Proof.
  unfold block_points. rewrite in_map_iff. split.
  - intros ([[b i] j] & <- & H). apply filter_In in H as [H K]. apply ndindex3_in in H as (H1 & H2 & H3).
    exists (b0 + b), (r0 + i), (c0 + j). repeat split; try lia. now apply negb_true_iff.
  - intros (b & r & c & H1 & H2 & H3 & K & ->). exists (b - b0, r - r0, c - c0).
    replace (b0 + (b - b0)) with b by lia. replace (r0 + (r - r0)) with r by lia. replace (c0 + (c - c0)) with c by lia. split; [reflexivity|].
    apply filter_In. split; [apply ndindex3_in; lia|]. replace (b0 + (b - b0)) with b by lia. replace (r0 + (r - r0)) with r by lia. replace (c0 + (c - c0)) with c by lia. now rewrite K.
Qed.
Lemma block_keys_nodup blk : NoDup (map key (block_points blk)).
Proof.
  destruct blk as [[[b0 b1] [r0 r1]] [c0 c1]]. unfold block_points. rewrite map_map. apply nodup_map_inj.
  - intros [[b i] j] [[b' i'] j'] _ _ E. unfold key, cell_point in E. cbn in E. injection E as E1 E2 E3. repeat f_equal; lia.
  - apply NoDup_filter, ndindex3_nodup.
Qed.
Lemma keys_nodup bl yl xl : NoDup (flat_map (fun p => zrange (fst p) (snd p)) bl) -> NoDup (flat_map (fun p => zrange (fst p) (snd p)) yl) -> NoDup (flat_map (fun p => zrange (fst p) (snd p)) xl) ->
  NoDup (map key (concat (map block_points (blocks bl yl xl)))).
Proof.
  intros NB NY NX. rewrite concat_map, map_map, <- flat_map_concat_map. unfold blocks. rewrite flat_map_flat_map.
  assert (IK : forall bs rs cs e, In e (map key (block_points (bs, rs, cs))) -> In (fst (fst e)) (zrange (fst bs) (snd bs)) /\ In (snd (fst e)) (zrange (fst rs) (snd rs)) /\ In (snd e) (zrange (fst cs) (snd cs))).
  { intros [b0 b1] [r0 r1] [c0 c1] e H. apply in_map_iff in H as (p & <- & H). apply in_block_points in H as (b & r & c & H1 & H2 & H3 & _ & ->).
    unfold key, cell_point. cbn [p_band p_row p_col fst snd]. rewrite !zrange_in'. lia. }
  apply (nodup_key _ (fun p => zrange (fst p) (snd p)) (fun e => fst (fst e))); [assumption| |].
  - intros bs _. rewrite flat_map_flat_map. apply (nodup_key _ (fun p => zrange (fst p) (snd p)) (fun e => snd (fst e))); [assumption| |].
    + intros rs _. rewrite flat_map_map. apply (nodup_key _ (fun p => zrange (fst p) (snd p)) (fun e => snd e)); [assumption| |].
      * intros cs _. apply block_keys_nodup.
      * intros cs e _ H. now apply IK in H.
    + intros rs e _ H. rewrite flat_map_map in H. apply in_flat_map in H as (cs & _ & H). now apply IK in H.
  - intros bs e _ H. rewrite flat_map_flat_map in H. apply in_flat_map in H as (rs & _ & H). rewrite flat_map_map in H. apply in_flat_map in H as (cs & _ & H). now apply IK in H.
Qed.
End All.

Lemma index_inj ny nx b r c b' r' c' : 0 <= r < ny -> 0 <= r' < ny -> 0 <= c < nx -> 0 <= c' < nx ->
  (b * ny + r) * nx + c = (b' * ny + r') * nx + c' -> b = b' /\ r = r' /\ c = c'.
Proof.
  intros. assert (c = c' /\ b * ny + r = b' * ny + r') as [-> E].
  { destruct (div_mod_at (b * ny + r) nx c) as [D1 D2]; [lia|]. destruct (div_mod_at (b' * ny + r') nx c') as [D3 D4]; [lia|]. rewrite H3 in D1, D2. lia. }
  destruct (div_mod_at b ny r) as [D1 D2]; [lia|]. destruct (div_mod_at b' ny r') as [D3 D4]; [lia|]. rewrite E in D1, D2. lia.
Qed.

Lemma has_default {A : Type} nb ny nx (data : list (list (list A))) : 0 < nb -> 0 < ny -> 0 < nx -> shaped3 nb ny nx data -> exists d, data = tab3 nb ny nx (val3 d data).
Proof.
  intros PB PY PX Sd. pose proof Sd as [L FD]. destruct data as [|band data]; [unfold len in L; cbn in L; lia|]. inversion FD as [|? ? [L2 F2] FD']; subst.
  destruct band as [|row band]; [unfold len in PY; cbn in PY; lia|]. inversion F2 as [|? ? L3 F3]; subst.
  destruct row as [|d row]; [unfold len in PX; cbn in PX; lia|]. exists d. apply shaped3_is_tab3; try lia. exact Sd.
Qed.
Lemma to_points_spec {A} junk xcoord ycoord t nb ny nx bcs ycs xcs (data : list (list (list A))) mask :
  plain_grid t -> centres t ny nx xcoord ycoord -> 0 <= nb -> 0 <= ny <= 2 ^ 40 -> 0 <= nx <= 2 ^ 40 ->
  cuts nb bcs -> cuts ny ycs -> cuts nx xcs -> shaped3 nb ny nx data -> shaped3 nb ny nx mask ->
  exists parts, to_points junk xcoord ycoord t nb ny nx bcs ycs xcs data mask = Ok parts
  /\ NoDup (map p_index (concat parts))
  /\ (forall p, In p (concat parts) -> exists b, p_band p = b + 1 /\ p_index p = (b * ny + p_row p) * nx + p_col p
        /\ at3 mask b (p_row p) (p_col p) false /\ at3 data b (p_row p) (p_col p) (p_value p)
        /\ (Rabs (B2R (p_x p) - (B2R (aa t) * (IZR (p_col p) + / 2) + B2R (ac t))) <= / 512 * Rabs (B2R (aa t)))%R
        /\ (Rabs (B2R (p_y p) - (B2R (ae t) * (IZR (p_row p) + / 2) + B2R (af t))) <= / 512 * Rabs (B2R (ae t)))%R)
  /\ (forall b r c, at3 mask b r c false -> exists p, In p (concat parts) /\ p_band p = b + 1 /\ p_row p = r /\ p_col p = c).
Proof.
  intros PG CE Hb Hy Hx Cb Cy Cx Sd Sm.
  apply cuts_sum in Cb as [Fb Eb]. apply cuts_sum in Cy as [Fy Ey]. apply cuts_sum in Cx as [Fx Ex].
  pose proof (shaped3_is_tab3 false nb ny nx mask Sm Hb ltac:(lia)) as EM. set (M := val3 false mask) in EM.
  destruct (Z.eq_dec (nb * ny * nx) 0) as [Z0|NZ].
  - (* no cells: nothing to take a value from *)
    assert (NC : forall b r c, 0 <= b < nb -> 0 <= r < ny -> 0 <= c < nx -> False).
    { intros. apply Z.mul_eq_0 in Z0 as [Z0|Z0]; [apply Z.mul_eq_0 in Z0 as [Z0|Z0]|]; lia. }
    exists (map (fun _ => []) (blocks (chunks_to_array_locations bcs) (chunks_to_array_locations ycs) (chunks_to_array_locations xcs))).
    assert (CN : forall (T U : Type) (l : list T), concat (map (fun _ => @nil U) l) = []) by (intros T U l; induction l as [|? l IH]; [reflexivity|exact IH]).
    rewrite !CN. split; [|split; [constructor|split; [intros p []|]]].
    + unfold to_points. apply traverse_ok. intros [[bs rs] cs] H. apply in_blocks in H as (H1 & H2 & H3). destruct bs as [b0 b1], rs as [r0 r1], cs as [c0 c1].
      apply locations_range in H1; [|assumption]. apply locations_range in H2; [|assumption]. apply locations_range in H3; [|assumption].
      unfold vectorize. cbn [fst snd]. rewrite EM, slice3_tab3 by lia. unfold extract. rewrite flat3.
      replace (ndindex3 (b1 - b0) (r1 - r0) (c1 - c0)) with (@nil (Z * Z * Z)); [reflexivity|].
      symmetry. destruct (ndindex3 (b1 - b0) (r1 - r0) (c1 - c0)) as [|[[b r] c] l] eqn:E; [reflexivity|]. exfalso.
      assert (I : In (b, r, c) (ndindex3 (b1 - b0) (r1 - r0) (c1 - c0))) by (rewrite E; now left). apply ndindex3_in in I. apply (NC (b0 + b) (r0 + r) (c0 + c)); lia.
    + intros b r c H. rewrite EM in H. apply at3_inv in H as (? & ? & ? & _). exfalso. eapply NC; eassumption.
  - assert (PB : nb <> 0) by (intros ->; apply NZ; reflexivity). assert (PY : ny <> 0) by (intros ->; apply NZ; now rewrite Z.mul_0_r). assert (PX : nx <> 0) by (intros ->; apply NZ, Z.mul_0_r).
    assert (exists d, data = tab3 nb ny nx (val3 d data)) as [d ED].
    { apply has_default; try assumption; lia. }
    set (F := val3 d data) in ED.
    exists (map (block_points xcoord ycoord ny nx F M) (blocks (chunks_to_array_locations bcs) (chunks_to_array_locations ycs) (chunks_to_array_locations xcs))).
    assert (CH : forall p, In p (concat (map (block_points xcoord ycoord ny nx F M) (blocks (chunks_to_array_locations bcs) (chunks_to_array_locations ycs) (chunks_to_array_locations xcs)))) ->
       exists b r c r0 c0, 0 <= b < nb /\ 0 <= r < ny /\ 0 <= c < nx /\ 0 <= r0 <= r /\ 0 <= c0 <= c /\ M b r c = false /\ p = cell_point xcoord ycoord ny nx F r0 c0 b r c).
    { intros p H. rewrite <- flat_map_concat_map in H. apply in_flat_map in H as ([[[b0 b1] [r0 r1]] [c0 c1]] & H1 & H2). apply in_blocks in H1 as (K1 & K2 & K3).
      apply locations_range in K1; [|assumption]. apply locations_range in K2; [|assumption]. apply locations_range in K3; [|assumption].
      apply in_block_points in H2 as (b & r & c & ? & ? & ? & ? & ->). exists b, r, c, r0, c0. repeat split; try lia; assumption. }
    split; [|split; [|split]].
    + unfold to_points. apply traverse_ok. intros [[bs rs] cs] H. apply in_blocks in H as (H1 & H2 & H3). destruct bs as [b0 b1], rs as [r0 r1], cs as [c0 c1].
      apply locations_range in H1; [|assumption]. apply locations_range in H2; [|assumption]. apply locations_range in H3; [|assumption].
      rewrite EM, ED. apply (vectorize_ok junk xcoord ycoord t nb ny nx F M PG CE); lia.
    + set (ps := concat _) in *.
      assert (NK : NoDup (map key ps)) by (apply keys_nodup; rewrite locations_zrange by assumption; apply nodup_zrange).
      replace (map p_index ps) with (map (fun k => (fst (fst k) * ny + snd (fst k)) * nx + snd k) (map key ps)).
      2:{ rewrite map_map. apply map_ext_in. intros p H. apply CH in H as (b & r & c & r0 & c0 & _ & _ & _ & _ & _ & _ & ->). unfold key, cell_point. cbn. f_equal. lia. }
      apply nodup_map_inj; [|assumption]. intros k k' H H' E. apply in_map_iff in H as (p & <- & H). apply in_map_iff in H' as (p' & <- & H').
      apply CH in H as (b & r & c & r0 & c0 & ? & ? & ? & _ & _ & _ & ->). apply CH in H' as (b' & r' & c' & r0' & c0' & ? & ? & ? & _ & _ & _ & ->).
      unfold key, cell_point in *. cbn in E |- *. apply index_inj in E as (-> & -> & ->); try lia. reflexivity.
    + intros p H. apply CH in H as (b & r & c & r0 & c0 & H1 & H2 & H3 & H4 & H5 & K & ->). exists b. unfold cell_point. cbn [p_band p_row p_col p_value p_x p_y p_index].
      split; [reflexivity|]. split; [reflexivity|]. destruct CE as [CX CY].
      split; [rewrite EM, <- K; apply at3_tab3; assumption|]. split; [rewrite ED at 1; apply at3_tab3; assumption|].
      split; [destruct (CX c0 (c - c0)) as [_ E]; try lia|destruct (CY r0 (r - r0)) as [_ E]; try lia]; [replace (c0 + (c - c0)) with c in E by lia|replace (r0 + (r - r0)) with r in E by lia]; exact E.
    + intros b r c H. rewrite EM in H. apply at3_inv in H as (H1 & H2 & H3 & K).
      assert (LC : forall cs i, Forall (fun c => 0 <= c) cs -> 0 <= i < sum cs -> exists lo hi, In (lo, hi) (chunks_to_array_locations cs) /\ lo <= i < hi).
      { intros cs i FC Hi. assert (I : In i (zrange 0 (sum cs))) by (apply zrange_in; lia). rewrite <- locations_zrange in I by assumption.
        apply in_flat_map in I as ([lo hi] & I1 & I2). apply zrange_in' in I2. eauto. }
      destruct (LC bcs b Fb ltac:(lia)) as (b0 & b1 & IB & B1). destruct (LC ycs r Fy ltac:(lia)) as (r0 & r1 & IR & R1). destruct (LC xcs c Fx ltac:(lia)) as (c0 & c1 & IC & C1).
      exists (cell_point xcoord ycoord ny nx F r0 c0 b r c). split; [|cbn; auto].
      rewrite <- flat_map_concat_map. apply in_flat_map. exists ((b0, b1), (r0, r1), (c0, c1)). split; [apply in_blocks; auto|].
      apply in_block_points. exists b, r, c. auto.
Qed.
