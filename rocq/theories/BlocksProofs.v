From Verif Require Import BaseFacts Chunks ChunksSpec ChunksProofs Blocks BlocksSpec.
From Coq Require Import QArith ZifyBool ZifyNat Sorted.
Open Scope Z_scope.

Lemma compose_translation t x y p q :
  Qpair_eq (apply (compose t (translation x y)) p q) (apply t (p + inject_Z x) (q + inject_Z y)).
Proof. unfold Qpair_eq, apply, compose, translation. cbn. split; ring. Qed.

Lemma Qpair_trans a b c : Qpair_eq a b -> Qpair_eq b c -> Qpair_eq a c.
Proof. unfold Qpair_eq. intros [H1 H2] [H3 H4]. rewrite H1, H2. auto. Qed.

Lemma apply_ext t p q p' q' : (p == p')%Q -> (q == q')%Q -> Qpair_eq (apply t p q) (apply t p' q').
Proof. unfold Qpair_eq, apply. cbn. intros H H'. rewrite H, H'. split; reflexivity. Qed.

(* moving the origin of a geobox *)
Lemma coord_translated ny nx ny' nx' t x y i j :
  Qpair_eq (gb_coord (GeoBox ny nx (compose t (translation x y))) i j)
           (gb_coord (GeoBox ny' nx' t) (y + i) (x + j)).
Proof.
  unfold gb_coord. cbn [gb_affine]. eapply Qpair_trans; [apply compose_translation|].
  apply apply_ext; rewrite inject_Z_plus; ring.
Qed.

Lemma coord_shape ny nx ny' nx' t i j :
  gb_coord (GeoBox ny nx t) i j = gb_coord (GeoBox ny' nx' t) i j.
Proof. reflexivity. Qed.

Lemma Qpair_refl a : Qpair_eq a a.
Proof. split; reflexivity. Qed.

(* ---------------- resize ---------------- *)

Lemma resize_spec parent g dt db dl dr : describes parent g ->
  let w := win_grow (win_of g) dt db dl dr in
  match resize g (Int dt) (Int db) (Int dl) (Int dr) with
  | Ok g' => win_ok w /\ win_of g' = w /\ describes parent g'
             /\ g_band g' = g_band g /\ g_loc g' = g_loc g
             /\ g_parent_affine g' = g_parent_affine g /\ g_parent_shape g' = g_parent_shape g
  | Err e => e = ValueError /\ ~ win_ok w
  end.
Proof.
  intros (Hy & Hx & OK & HC) w. unfold w, win_of, win_grow, win_ok in *. cbn [resize].
  destruct ((gb_ny (g_geobox g) + dt + db <? 0) || (gb_nx (g_geobox g) + dl + dr <? 0)) eqn:E.
  - split; [reflexivity|]. lia.
  - split; [lia|]. split; [reflexivity|]. split; [|repeat split].
    unfold describes, win_of, win_ok. cbn [g_geobox g_rows g_cols gb_ny gb_nx fst snd].
    split; [lia|]. split; [lia|]. split; [lia|]. intros i j.
    destruct (negb (dt =? 0) || negb (dl =? 0)) eqn:E2.
    + eapply Qpair_trans; [apply (coord_translated _ _ (gb_ny (g_geobox g)) (gb_nx (g_geobox g)))|].
      assert (GB : GeoBox (gb_ny (g_geobox g)) (gb_nx (g_geobox g)) (gb_affine (g_geobox g)) = g_geobox g)
        by (now destruct (g_geobox g)).
      rewrite GB. eapply Qpair_trans; [apply HC|].
      replace (fst (g_rows g) - dt + i) with (fst (g_rows g) + (- dt + i)) by lia.
      replace (fst (g_cols g) - dl + j) with (fst (g_cols g) + (- dl + j)) by lia. apply Qpair_refl.
    + replace (fst (g_rows g) - dt + i) with (fst (g_rows g) + i) by lia.
      replace (fst (g_cols g) - dl + j) with (fst (g_cols g) + j) by lia. apply HC.
Qed.

Definition same_origin (g g' : gbi) : Prop :=
  g_band g' = g_band g /\ g_loc g' = g_loc g
  /\ g_parent_affine g' = g_parent_affine g /\ g_parent_shape g' = g_parent_shape g.

Lemma run_op_spec parent g o : describes parent g ->
  match run_op g o with
  | Ok g' => exists w, win_op (win_of g) o = Some w /\ win_ok w /\ win_of g' = w
               /\ describes parent g' /\ same_origin g g'
  | Err e => e = TypeError /\ win_op (win_of g) o = None
             \/ e = ValueError /\ exists w, win_op (win_of g) o = Some w /\ ~ win_ok w
  end.
Proof.
  intros D.
  assert (R : forall dt db dl dr w, win_grow (win_of g) dt db dl dr = w ->
    match resize g (Int dt) (Int db) (Int dl) (Int dr) with
    | Ok g' => exists w0, Some w = Some w0 /\ win_ok w0 /\ win_of g' = w0
               /\ describes parent g' /\ same_origin g g'
    | Err e => e = TypeError /\ Some w = None
             \/ e = ValueError /\ exists w0, Some w = Some w0 /\ ~ win_ok w0
    end).
  { intros dt db dl dr w <-. pose proof (resize_spec parent g dt db dl dr D) as H. cbv zeta in H.
    destruct (resize g _ _ _ _) as [g'|e].
    - destruct H as (H1 & H2 & H3 & H4). exists (win_grow (win_of g) dt db dl dr). auto.
    - destruct H as [H1 H2]. right. eauto. }
  destruct o as [[t|] [b|]|[l|] [r|]|[y|] [[x|]|]|[n|]|[n|]|[y|] [[x|]|]];
    cbn [run_op pad_y pad_x pad shift_y shift_x shift neg];
    unfold pad_y, pad_x, pad, shift_y, shift_x, shift; cbn [neg win_op]; try (left; split; reflexivity);
    apply R; unfold win_grow, win_of; repeat apply (f_equal2 pair); lia.
Qed.

Lemma run_ops_spec parent ops : forall g, describes parent g ->
  (forall g', run_ops g ops = Ok g' ->
     moves (win_of g) ops (win_of g') /\ describes parent g' /\ same_origin g g')
  /\ (forall w, moves (win_of g) ops w -> exists g', run_ops g ops = Ok g' /\ win_of g' = w)
  /\ (forall e, run_ops g ops = Err e -> e = TypeError \/ e = ValueError).
Proof.
  induction ops as [|o ops IH]; intros g D; unfold run_ops; cbn [foldM].
  - split; [|split].
    + intros g' [= <-]. split; [constructor|]. split; [exact D|repeat split].
    + intros w H. inversion H; subst. eauto.
    + intros e H. discriminate H.
  - pose proof (run_op_spec parent g o D) as R. destruct (run_op g o) as [g1|e1]; cbn [rbind].
    + destruct R as (w1 & W1 & OK1 & WE & D1 & S1). destruct (IH g1 D1) as (I1 & I2 & I3).
      fold (run_ops g1 ops). split; [|split].
      * intros g' E. destruct (I1 g' E) as (M & D' & S'). split; [|split; [exact D'|]].
        -- econstructor; [exact W1|exact OK1|]. now rewrite WE in M.
        -- unfold same_origin in *. intuition congruence.
      * intros w M. inversion M as [|w0 o0 ops0 w2 w3 E1 O1 M1]; subst. rewrite W1 in E1. injection E1 as <-.
        destruct (I2 w M1) as (g' & E & W'). eauto.
      * exact I3.
    + split; [|split].
      * intros g' E. discriminate E.
      * intros w M. inversion M as [|w0 o0 ops0 w2 w3 E1 O1 M1]; subst.
        destruct R as [[_ R]|[_ (w' & R & N)]]; rewrite R in E1; [discriminate E1|]. injection E1 as ->. tauto.
      * intros e [= <-]. tauto.
Qed.

(* ---------------- geo_block_infos ---------------- *)

(* a loop that fills each cell of a list of indices once *)
Lemma fill_spec {A} (f : Z * Z * Z -> A) (step : arr3 A -> Z * Z * Z -> res (arr3 A)) n ny nx l :
  (forall out p, step out p = set3 out (fst (fst p)) (snd (fst p)) (snd p) (f p) \/ ~ In p l) ->
  (forall b r c, In (b, r, c) l -> 0 <= b < n /\ 0 <= r < ny /\ 0 <= c < nx) ->
  forall out, shape3 n ny nx out ->
  exists out', foldM step l out = Ok out' /\ shape3 n ny nx out'
    /\ (forall b r c, In (b, r, c) l -> get3 out' b r c = Ok (f (b, r, c)))
    /\ (forall b r c, ~ In (b, r, c) l -> get3 out' b r c = get3 out b r c).
Proof.
  induction l as [|[[b r] c] l IH] using rev_ind; intros HS HR out SH.
  - exists out. split; [reflexivity|]. split; [exact SH|]. split; [intros b r c []|reflexivity].
  - assert (HS' : forall out p, step out p = set3 out (fst (fst p)) (snd (fst p)) (snd p) (f p) \/ ~ In p l).
    { intros o p. destruct (HS o p) as [H|H]; [now left|right]. intros HI. apply H. apply in_or_app. now left. }
    assert (HR' : forall b r c, In (b, r, c) l -> 0 <= b < n /\ 0 <= r < ny /\ 0 <= c < nx).
    { intros. apply HR. apply in_or_app. now left. }
    destruct (IH HS' HR' out SH) as (out1 & E1 & SH1 & G1 & O1).
    rewrite foldM_app, E1. cbn [rbind foldM].
    destruct (HR b r c) as (Hb & Hr & Hc); [apply in_or_app; right; now left|].
    destruct (HS out1 (b, r, c)) as [E|E]; [|exfalso; apply E; apply in_or_app; right; now left].
    cbn [fst snd] in E.
    destruct (set3_spec out1 n ny nx b r c (f (b, r, c)) SH1 Hb Hr Hc) as (out2 & E2 & SH2 & G2).
    rewrite E, E2. cbn [rbind]. exists out2. split; [reflexivity|]. split; [exact SH2|]. split.
    + intros b' r' c' HI. rewrite G2. destruct ((b' =? b) && (r' =? r) && (c' =? c)) eqn:EQ.
      * assert (b' = b /\ r' = r /\ c' = c) as (-> & -> & ->) by lia. reflexivity.
      * apply G1. apply in_app_or in HI. destruct HI as [HI|[HI|[]]]; [exact HI|]. injection HI as <- <- <-. lia.
    + intros b' r' c' HI. rewrite G2. destruct ((b' =? b) && (r' =? r) && (c' =? c)) eqn:EQ.
      * exfalso. assert (b' = b /\ r' = r /\ c' = c) as (-> & -> & ->) by lia. apply HI. apply in_or_app; right; now left.
      * apply O1. intros H. apply HI. apply in_or_app. now left.
Qed.

Lemma window_describes gb rs cs bs loc pa ps :
  fst rs <= snd rs -> fst cs <= snd cs ->
  describes gb (GBI (gb_window gb rs cs) bs rs cs loc pa ps).
Proof.
  intros Hr Hc. unfold describes, win_of, win_ok. cbn. repeat split; try lia;
    intros; destruct gb as [ny nx t]; apply (coord_translated _ _ ny nx t).
Qed.

Lemma geo_block_infos_spec gb nbands bcs ycs xcs :
  Forall (fun c => 0 <= c) bcs -> Forall (fun c => 0 <= c) ycs -> Forall (fun c => 0 <= c) xcs ->
  exists out, geo_block_infos gb nbands bcs ycs xcs = Ok out
    /\ shape3 (len bcs) (len ycs) (len xcs) out
    /\ forall kb ky kx bs rs cs,
       get (chunks_to_array_locations bcs) kb = Ok bs ->
       get (chunks_to_array_locations ycs) ky = Ok rs ->
       get (chunks_to_array_locations xcs) kx = Ok cs ->
       exists g, lookup out (kb, ky, kx) = Ok g
         /\ g_band g = bs /\ g_rows g = rs /\ g_cols g = cs /\ g_loc g = (kb, ky, kx)
         /\ g_parent_affine g = gb_affine gb /\ g_parent_shape g = (nbands, gb_ny gb, gb_nx gb)
         /\ describes gb g.
Proof.
  intros FB FY FX.
  destruct (locations_spec bcs FB) as (LB & CB & _).
  destruct (locations_spec ycs FY) as (LY & CY & _).
  destruct (locations_spec xcs FX) as (LX & CX & _).
  unfold geo_block_infos. cbv zeta.
  set (dflt := fun (l : list (Z * Z)) k => match get l k with Ok p => p | Err _ => (0, 0) end).
  set (f := fun p : Z * Z * Z => let '(bi, yi, xi) := p in
    Some (GBI (gb_window gb (dflt (chunks_to_array_locations ycs) yi) (dflt (chunks_to_array_locations xcs) xi))
           (dflt (chunks_to_array_locations bcs) bi) (dflt (chunks_to_array_locations ycs) yi)
           (dflt (chunks_to_array_locations xcs) xi) (bi, yi, xi) (gb_affine gb) (nbands, gb_ny gb, gb_nx gb))).
  match goal with |- context [foldM ?step ?l ?s] =>
    destruct (fill_spec f step (len bcs) (len ycs) (len xcs) l) with (out := s) as (out & E & SH & G & _) end.
  - intros out [[bi yi] xi]. destruct (in_dec (fun p q : Z * Z * Z => ltac:(repeat decide equality)) (bi, yi, xi)
      (ndindex3 (len bcs) (len ycs) (len xcs))) as [HI|HI]; [left|now right].
    apply ndindex3_in in HI. destruct HI as (H1 & H2 & H3).
    destruct (get_range (chunks_to_array_locations ycs) yi) as (rs & Gr); [lia|].
    destruct (get_range (chunks_to_array_locations xcs) xi) as (cs & Gc); [lia|].
    destruct (get_range (chunks_to_array_locations bcs) bi) as (bs & Gb); [lia|].
    unfold f, dflt. rewrite Gr, Gc, Gb. reflexivity.
  - intros b r c HI. now apply ndindex3_in in HI.
  - apply empty3_spec; apply len_nonneg.
  - exists out. split; [exact E|]. split; [exact SH|]. intros kb ky kx bs rs cs Gb Gy Gx.
    pose proof (get_ok_range _ _ _ Gb). pose proof (get_ok_range _ _ _ Gy). pose proof (get_ok_range _ _ _ Gx).
    assert (HI : In (kb, ky, kx) (ndindex3 (len bcs) (len ycs) (len xcs))) by (apply ndindex3_in; lia).
    specialize (G _ _ _ HI). unfold f, dflt in G. rewrite Gb, Gy, Gx in G.
    unfold lookup. rewrite G. cbn [rbind]. eexists. split; [reflexivity|].
    cbn [g_band g_rows g_cols g_loc g_parent_affine g_parent_shape]. repeat (split; [reflexivity|]).
    destruct rs as [r0 r1], cs as [c0 c1].
    pose proof (proj2 (consecutive_bounds _ _ _ CY) _ _ _ Gy). pose proof (proj2 (consecutive_bounds _ _ _ CX) _ _ _ Gx).
    apply window_describes; cbn; lia.
Qed.

(* ---------------- overlap ---------------- *)

Lemma resolve_spec parent tbl loc g0 bs ay ax :
  lookup tbl loc = Ok g0 -> describes parent g0 ->
  0 <= ay -> 0 <= ax ->
  let ty := ay - gb_ny (g_geobox g0) in
  let tx := ax - gb_nx (g_geobox g0) in
  exists g, resolve_gbi_with_overlap_pad tbl loc (bs, ay, ax) = Ok g
    /\ describes parent g
    /\ win_of g = win_grow (win_of g0) (ty / 2) (ty - ty / 2) (tx / 2) (tx - tx / 2)
    /\ same_origin g0 g.
Proof.
  intros L D Hy Hx ty tx. unfold resolve_gbi_with_overlap_pad. rewrite L. cbn [rbind g_shape].
  unfold g_shape. fold ty tx.
  assert (NY : 0 <= gb_ny (g_geobox g0)) by (destruct D as (D1 & D2 & D3 & _); unfold win_ok, win_of in D3; lia).
  assert (NX : 0 <= gb_nx (g_geobox g0)) by (destruct D as (D1 & D2 & D3 & _); unfold win_ok, win_of in D3; lia).
  assert (S1 : exists g1, (if negb (ty / 2 =? 0) || negb (ty - ty / 2 =? 0)
            then pad_y g0 (Int (ty / 2)) (Int (ty - ty / 2)) else Ok g0) = Ok g1
     /\ describes parent g1 /\ win_of g1 = win_grow (win_of g0) (ty / 2) (ty - ty / 2) 0 0 /\ same_origin g0 g1
     /\ gb_nx (g_geobox g1) = gb_nx (g_geobox g0)).
  { destruct (negb (ty / 2 =? 0) || negb (ty - ty / 2 =? 0)) eqn:E.
    - unfold pad_y. pose proof (resize_spec parent g0 (ty / 2) (ty - ty / 2) 0 0 D) as R. cbv zeta in R.
      destruct (resize g0 _ _ _ _) as [g1|e] eqn:E1.
      + destruct R as (R1 & R2 & R3 & R4). exists g1. split; [reflexivity|]. split; [exact R3|]. split; [exact R2|].
        split; [exact R4|]. destruct R3 as (_ & R3 & _). destruct D as (_ & D2 & _).
        unfold win_of, win_grow in R2. injection R2 as _ _ R2 R2'. lia.
      + exfalso. apply (proj2 R). destruct D as (D1 & D2 & D3 & _). unfold win_ok, win_grow, win_of in *.
        unfold ty in *. lia.
    - exists g0. split; [reflexivity|]. split; [exact D|]. split; [|split; [repeat split|reflexivity]].
      unfold win_grow, win_of. repeat apply (f_equal2 pair); lia. }
  destruct S1 as (g1 & E1 & D1 & W1 & O1 & NX1). rewrite E1. cbn [rbind].
  destruct (negb (tx / 2 =? 0) || negb (tx - tx / 2 =? 0)) eqn:E.
  - unfold pad_x. pose proof (resize_spec parent g1 0 0 (tx / 2) (tx - tx / 2) D1) as R. cbv zeta in R.
    destruct (resize g1 _ _ _ _) as [g2|e] eqn:E2.
    + destruct R as (R1 & R2 & R3 & R4). exists g2. split; [reflexivity|]. split; [exact R3|].
      split; [rewrite R2, W1; unfold win_grow, win_of; repeat apply (f_equal2 pair); lia|].
      unfold same_origin in *. intuition congruence.
    + exfalso. apply (proj2 R). rewrite W1. destruct D1 as (Q1 & Q2 & Q3 & _). rewrite W1 in Q3.
      unfold win_of, win_grow in W1. injection W1 as W1 W2 W3 W4.
      unfold win_ok, win_grow, win_of in *. unfold tx in *. lia.
  - exists g1. split; [reflexivity|]. split; [exact D1|]. split; [|exact O1].
    rewrite W1. unfold win_grow, win_of. repeat apply (f_equal2 pair); lia.
Qed.

(* the window of cells the block really receives *)
Lemma overlap_spec gb nbands bcs ycs xcs padded dy dx kb ky kx bs rs cs :
  Forall (fun c => 0 <= c) bcs -> Forall (fun c => 0 <= c) ycs -> Forall (fun c => 0 <= c) xcs ->
  0 <= fst dy -> 0 <= snd dy -> 0 <= fst dx -> 0 <= snd dx ->
  get (chunks_to_array_locations bcs) kb = Ok bs ->
  get (chunks_to_array_locations ycs) ky = Ok rs ->
  get (chunks_to_array_locations xcs) kx = Ok cs ->
  let t := above padded dy ky in let b := below padded dy (len ycs) ky in
  let l := above padded dx kx in let r := below padded dx (len xcs) kx in
  exists tbl shape g,
    geo_block_infos gb nbands bcs ycs xcs = Ok tbl
    /\ overlapped_shape padded dy dx ycs xcs (kb, ky, kx) (snd bs - fst bs) = Ok shape
    /\ resolve_gbi_with_overlap_pad tbl (kb, ky, kx) shape = Ok g
    /\ g_shape g = shape
    /\ describes gb g
    /\ g_loc g = (kb, ky, kx)
    /\ (win_of g = (fst rs - t, snd rs + b, fst cs - l, snd cs + r)
        <-> (t = b \/ b = t + 1) /\ (l = r \/ r = l + 1)).
Proof.
  intros FB FY FX Hdy1 Hdy2 Hdx1 Hdx2 Gb Gy Gx t b l r.
  destruct (geo_block_infos_spec gb nbands bcs ycs xcs FB FY FX) as (tbl & E & SH & HL).
  destruct (HL _ _ _ _ _ _ Gb Gy Gx) as (g0 & L0 & B0 & R0 & C0 & LO & _ & _ & D0).
  destruct rs as [r0 r1], cs as [c0 c1], bs as [b0 b1]. cbn [fst snd] in *.
  pose proof (proj2 (proj2 (locations_spec ycs FY)) _ _ _ Gy) as GY.
  pose proof (proj2 (proj2 (locations_spec xcs FX)) _ _ _ Gx) as GX.
  pose proof D0 as (Q1 & Q2 & Q3 & _). unfold win_ok, win_of in Q3. rewrite R0, C0 in Q3. cbn [fst snd] in Q3.
  rewrite R0 in Q1. rewrite C0 in Q2. cbn [fst snd] in Q1, Q2.
  assert (0 <= t /\ 0 <= b /\ 0 <= l /\ 0 <= r) as (Ht & Hb & Hl & Hr).
  { unfold t, b, l, r, above, below. repeat split; destruct (_ || _); lia. }
  unfold overlapped_shape. rewrite GY, GX. cbn [rbind]. fold t b l r.
  destruct (resolve_spec gb tbl (kb, ky, kx) g0 (b1 - b0) (r1 - r0 + t + b) (c1 - c0 + l + r) L0 D0)
    as (g & EG & DG & WG & OG); try lia.
  cbv zeta in WG. rewrite Q1, Q2 in WG.
  replace (r1 - r0 + t + b - (r1 - r0)) with (t + b) in WG by lia.
  replace (c1 - c0 + l + r - (c1 - c0)) with (l + r) in WG by lia.
  assert (W0 : win_of g0 = (r0, r1, c0, c1)) by (unfold win_of; now rewrite R0, C0).
  rewrite W0 in WG. cbn [win_grow] in WG.
  exists tbl. eexists. exists g. split; [exact E|]. split; [reflexivity|]. split; [exact EG|].
  split.
  { unfold g_shape. destruct OG as (OB & _). rewrite OB, B0. cbn [fst snd].
    destruct DG as (G1 & G2 & _). rewrite G1, G2. unfold win_of in WG. injection WG as W1 W2 W3 W4.
    rewrite W1, W2, W3, W4. repeat apply (f_equal2 pair); lia. }
  split; [exact DG|]. split; [destruct OG as (_ & OL & _); congruence|].
  rewrite WG. split.
  - intros H. injection H as H1 H2 H3 H4.
    assert (E2 : (t + b) / 2 = t) by lia. assert (E3 : (l + r) / 2 = l) by lia. clear -E2 E3.
    split; [pose proof (Z.div_mod (t + b) 2); pose proof (Z.mod_pos_bound (t + b) 2)
           |pose proof (Z.div_mod (l + r) 2); pose proof (Z.mod_pos_bound (l + r) 2)]; lia.
  - intros [H1 H2].
    assert ((t + b) / 2 = t) by (symmetry; apply (Z.div_unique _ _ _ (b - t)); lia).
    assert ((l + r) / 2 = l) by (symmetry; apply (Z.div_unique _ _ _ (r - l)); lia).
    repeat apply (f_equal2 pair); lia.
Qed.

(* the same depth on both sides, and either padding or a neighbour on both sides *)
Lemma overlap_symmetric gb nbands bcs ycs xcs padded dy dx kb ky kx bs rs cs :
  Forall (fun c => 0 <= c) bcs -> Forall (fun c => 0 <= c) ycs -> Forall (fun c => 0 <= c) xcs ->
  0 <= dy -> 0 <= dx ->
  get (chunks_to_array_locations bcs) kb = Ok bs ->
  get (chunks_to_array_locations ycs) ky = Ok rs ->
  get (chunks_to_array_locations xcs) kx = Ok cs ->
  padded = true \/ (0 < ky < len ycs - 1 /\ 0 < kx < len xcs - 1) ->
  exists tbl shape g,
    geo_block_infos gb nbands bcs ycs xcs = Ok tbl
    /\ overlapped_shape padded (dy, dy) (dx, dx) ycs xcs (kb, ky, kx) (snd bs - fst bs) = Ok shape
    /\ resolve_gbi_with_overlap_pad tbl (kb, ky, kx) shape = Ok g
    /\ g_shape g = shape
    /\ describes gb g
    /\ win_of g = (fst rs - dy, snd rs + dy, fst cs - dx, snd cs + dx).
Proof.
  intros FB FY FX Hy Hx Gb Gy Gx HP.
  destruct (overlap_spec gb nbands bcs ycs xcs padded (dy, dy) (dx, dx) kb ky kx bs rs cs FB FY FX
    Hy Hy Hx Hx Gb Gy Gx) as (tbl & sh & g & E1 & E2 & E3 & E4 & D & _ & W).
  exists tbl, sh, g. do 5 (split; [assumption|]).
  assert (A1 : above padded (dy, dy) ky = dy) by (unfold above; cbn; destruct padded; cbn; [lia|]; destruct (Z.eqb_spec ky 0); cbn; lia).
  assert (A2 : below padded (dy, dy) (len ycs) ky = dy) by (unfold below; cbn; destruct padded; cbn; [lia|]; destruct (Z.eqb_spec ky (len ycs - 1)); cbn; lia).
  assert (A3 : above padded (dx, dx) kx = dx) by (unfold above; cbn; destruct padded; cbn; [lia|]; destruct (Z.eqb_spec kx 0); cbn; lia).
  assert (A4 : below padded (dx, dx) (len xcs) kx = dx) by (unfold below; cbn; destruct padded; cbn; [lia|]; destruct (Z.eqb_spec kx (len xcs - 1)); cbn; lia).
  rewrite A1, A2, A3, A4 in W. apply W. auto.
Qed.
