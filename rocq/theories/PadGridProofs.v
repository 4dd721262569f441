From Coq Require Import QArith Qabs Qround Qminmax Lqa String Lia ZifyBool.
From Verif Require Import Base BaseFacts Scalars Chunks ChunksProofs CostPublicProofs Arr2 Arr2Facts Raster FocalSpec RasterSpec Blocks BlocksSpec Pad PadProofs PadGrid PadGridSpec.
Open Scope Z_scope.

Lemma Qlt_bool_iff p q : Qlt_bool p q = true <-> (p < q)%Q.
Proof. unfold Qlt_bool. rewrite Bool.negb_true_iff. split; intros H; [apply Qnot_le_lt; intros L; apply Qle_bool_iff in L; congruence|destruct (Qle_bool q p) eqn:E; [apply Qle_bool_iff in E; lra|reflexivity]]. Qed.
Lemma inject_sub a b : (inject_Z (a - b) == inject_Z a - inject_Z b)%Q.
Proof. unfold Z.sub. rewrite inject_Z_plus, inject_Z_opp. reflexivity. Qed.
(* one side.  first: the centre of the farthest cell on the other side, which is n cells
   of size s before the edge; the bound is g beyond the edge *)
Lemma ceil_side s g n : (0 < s)%Q -> (0 < g)%Q -> 0 <= n ->
  fills (Fin g) s (Z.max 0 (Qceiling ((g + inject_Z n * s) / s)) - n) /\ n < Z.max 0 (Qceiling ((g + inject_Z n * s) / s)).
Proof.
  intros S G N. set (q := ((g + inject_Z n * s) / s)%Q). assert (EQ : (q == g / s + inject_Z n)%Q) by (unfold q; field; lra).
  assert (P : (0 < g / s)%Q) by (apply Qlt_shift_div_l; lra). pose proof (Qle_ceiling q) as C1. pose proof (Qceiling_lt q) as C2.
  assert (LT : n < Qceiling q) by (rewrite Zlt_Qlt; lra). replace (Z.max 0 (Qceiling q)) with (Qceiling q) by lia. set (m := Qceiling q) in *.
  assert (GS : (g == g / s * s)%Q) by (field; lra).
  split; [|exact LT]. split; [lia|]. split.
  - rewrite inject_sub. assert (X : (g / s <= inject_Z m - inject_Z n)%Q) by lra. rewrite GS. apply Qmult_le_compat_r; [exact X|lra].
  - intros _. rewrite !inject_sub. rewrite inject_sub in C2. assert (X : (inject_Z m - inject_Z n - inject_Z 1 < g / s)%Q) by lra. rewrite GS. apply Qmult_lt_r; [exact S|exact X].
Qed.
Lemma ceil_ext a b : (a == b)%Q -> Qceiling a = Qceiling b.
Proof. intros E. now rewrite E. Qed.
Lemma zero_side s g : (0 < s)%Q -> (g <= 0)%Q -> fills (Fin g) s 0.
Proof. intros S G. split; [lia|]. split; [|lia]. change (inject_Z 0) with 0%Q. lra. Qed.

Section Grid.
Variable g : geobox.
Hypothesis NU : north_up g.
Let rx := af_a (gb_affine g).
Let ry := af_e (gb_affine g).
Lemma coord_x i j : (fst (gb_coord g i j) == west g + (inject_Z j + (1 # 2)) * rx)%Q.
Proof. destruct NU as (_ & _ & B & D & _). unfold gb_coord, apply, west, rx. cbn [fst]. rewrite B. ring. Qed.
Lemma coord_y i j : (snd (gb_coord g i j) == north g + (inject_Z i + (1 # 2)) * ry)%Q.
Proof. destruct NU as (_ & _ & B & D & _). unfold gb_coord, apply, north, ry. cbn [snd]. rewrite D. ring. Qed.

End Grid.
(* one side: the bound v, the edge, n cells of size s up to the edge, the centre far of the
   farthest of them; lim, h, st: as pad_box and pad_xy write them *)
Lemma side_hi (v : num) (edge far s lim h st : Q) n : (0 < s)%Q -> 1 <= n -> (lim == edge + (1 # 2) * s)%Q -> (h == (1 # 2) * s)%Q -> (st == s)%Q -> (far == edge - (inject_Z n - (1 # 2)) * s)%Q -> v <> PInf ->
  (num_ltb (Fin lim) (shift_num v h) = false /\ fills (above v edge) s 0)
  \/ (num_ltb (Fin lim) (shift_num v h) = true /\ exists m, arange far (shift_num v h) st = Ok m /\ n < m /\ fills (above v edge) s (m - n)).
Proof.
  intros S N E1 EH ES E2 NP. destruct v as [q| | |]; try congruence; try (left; split; [reflexivity|split; [lia|reflexivity]]). cbn [shift_num above num_ltb arange].
  destruct (Qlt_bool lim (q + h)) eqn:B.
  - apply Qlt_bool_iff in B. right. split; [reflexivity|]. eexists. split; [reflexivity|].
    assert (EC : ((q + h - far) / st == (q - edge + inject_Z n * s) / s)%Q) by (rewrite E2, EH, ES; field; lra). rewrite (ceil_ext _ _ EC).
    destruct (ceil_side s (q - edge) n) as [F L]; [exact S|lra|lia|]. split; [exact L|exact F].
  - left. split; [reflexivity|]. apply zero_side; [exact S|]. destruct (Qlt_le_dec lim (q + h)) as [X|X]; [apply Qlt_bool_iff in X; congruence|lra].
Qed.
Lemma side_lo (v : num) (edge far s lim h st : Q) n : (0 < s)%Q -> 1 <= n -> (lim == edge - (1 # 2) * s)%Q -> (h == - ((1 # 2) * s))%Q -> (st == - s)%Q -> (far == edge + (inject_Z n - (1 # 2)) * s)%Q -> v <> MInf ->
  (num_ltb (shift_num v h) (Fin lim) = false /\ fills (below v edge) s 0)
  \/ (num_ltb (shift_num v h) (Fin lim) = true /\ exists m, arange far (shift_num v h) st = Ok m /\ n < m /\ fills (below v edge) s (m - n)).
Proof.
  intros S N E1 EH ES E2 NP. destruct v as [q| | |]; try congruence; try (left; split; [reflexivity|split; [lia|reflexivity]]). cbn [shift_num below num_ltb arange].
  destruct (Qlt_bool (q + h) lim) eqn:B.
  - apply Qlt_bool_iff in B. right. split; [reflexivity|]. eexists. split; [reflexivity|].
    assert (EC : ((q + h - far) / st == (edge - q + inject_Z n * s) / s)%Q) by (rewrite E2, EH, ES; field; lra). rewrite (ceil_ext _ _ EC).
    destruct (ceil_side s (edge - q) n) as [F L]; [exact S|lra|lia|]. split; [exact L|exact F].
  - left. split; [reflexivity|]. apply zero_side; [exact S|]. destruct (Qlt_le_dec (q + h) lim) as [X|X]; [apply Qlt_bool_iff in X; congruence|lra].
Qed.

Lemma inject_ge1 n : 1 <= n -> (1 <= inject_Z n)%Q.
Proof. intros. change 1%Q with (inject_Z 1). rewrite <- Zle_Qle. lia. Qed.

Lemma pad_box_ok g b : north_up g -> above (maxy b) 0 <> PInf -> below (miny b) 0 <> PInf -> below (minx b) 0 <> PInf -> above (maxx b) 0 <> PInf ->
  exists top bottom lft rgt g', pad_box_xy g b = Ok (Padding top bottom lft rgt g') /\ extends g g' top bottom lft rgt
  /\ fills (above (maxy b) (north g)) (- af_e (gb_affine g)) top /\ fills (below (miny b) (south g)) (- af_e (gb_affine g)) bottom
  /\ fills (below (minx b) (west g)) (af_a (gb_affine g)) lft /\ fills (above (maxx b) (east g)) (af_a (gb_affine g)) rgt.
Proof.
  intros NU H1 H2 H3 H4. pose proof NU as (RX & RY & B & D & NY & NX).
  assert (V1 : maxy b <> PInf) by (intros E; rewrite E in H1; now apply H1). assert (V2 : miny b <> MInf) by (intros E; rewrite E in H2; now apply H2).
  assert (V3 : minx b <> MInf) by (intros E; rewrite E in H3; now apply H3). assert (V4 : maxx b <> PInf) by (intros E; rewrite E in H4; now apply H4).
  unfold pad_box_xy, pad_xy. cbn [minx miny maxx maxy].
  pose proof (coord_x g NU 0 0) as X0. pose proof (coord_y g NU 0 0) as Y0. pose proof (coord_x g NU (gb_ny g - 1) (gb_nx g - 1)) as X1. pose proof (coord_y g NU (gb_ny g - 1) (gb_nx g - 1)) as Y1.
  destruct (gb_coord g 0 0) as [lf tp]. destruct (gb_coord g (gb_ny g - 1) (gb_nx g - 1)) as [rg bt]. cbn [fst snd] in X0, X1, Y0, Y1.
  set (rx := af_a (gb_affine g)) in *. set (ry := af_e (gb_affine g)) in *. set (ny := gb_ny g) in *. set (nx := gb_nx g) in *.
  assert (AX : (Qabs rx == rx)%Q) by (apply Qabs_pos; lra). assert (AY : (Qabs ry == - ry)%Q) by (apply Qabs_neg; lra).
  assert (SO : (south g == north g + inject_Z ny * ry)%Q) by reflexivity. assert (EA : (east g == west g + inject_Z nx * rx)%Q) by reflexivity.
  rewrite inject_sub in X1, Y1. change (inject_Z 0) with 0%Q in *. change (inject_Z 1) with 1%Q in *.
  (* north *)
  assert (T : exists n1 top1, (if num_ltb (Fin (tp - ry)) (shift_num (maxy b) (Qabs ry * (1 # 2))) then let* n := arange bt (shift_num (maxy b) (Qabs ry * (1 # 2))) (- ry) in Ok (n - ny, n, (bt + (inject_Z n - 1) * - ry)%Q) else Ok (0, ny, tp)) = Ok (n1 - ny, n1, top1)
    /\ fills (above (maxy b) (north g)) (- ry) (n1 - ny) /\ ny <= n1 /\ (top1 == south g + (inject_Z n1 - (1 # 2)) * - ry)%Q).
  { destruct (side_hi (maxy b) (north g) bt (- ry) (tp - ry) (Qabs ry * (1 # 2)) (- ry) ny) as [[E F]|(E & m & A & L & F)]; [lra|lia|rewrite Y0; ring|rewrite AY; ring|reflexivity|rewrite Y1; ring|exact V1| |]; rewrite E.
    - exists ny, tp. split; [do 3 f_equal; lia|]. split; [now replace (ny - ny) with 0 by lia|]. split; [lia|]. rewrite Y0, SO. ring.
    - rewrite A. cbn [rbind]. eexists m, _. split; [reflexivity|]. split; [exact F|]. split; [lia|]. rewrite Y1, SO. ring. }
  destruct T as (n1 & top1 & -> & F1 & L1 & T1). cbn [rbind].
  (* south *)
  assert (T : exists n2, (if num_ltb (shift_num (miny b) (- (Qabs ry * (1 # 2)))) (Fin (bt + ry)) then let* n := arange top1 (shift_num (miny b) (- (Qabs ry * (1 # 2)))) ry in Ok (n - n1, n) else Ok (0, n1)) = Ok (n2 - n1, n2)
    /\ fills (below (miny b) (south g)) (- ry) (n2 - n1) /\ n1 <= n2).
  { destruct (side_lo (miny b) (south g) top1 (- ry) (bt + ry) (- (Qabs ry * (1 # 2))) ry n1) as [[E F]|(E & m & A & L & F)]; [lra|lia|rewrite Y1, SO; ring|rewrite AY; ring|ring|exact T1|exact V2| |]; rewrite E.
    - exists n1. split; [do 2 f_equal; lia|]. split; [now replace (n1 - n1) with 0 by lia|lia].
    - rewrite A. cbn [rbind]. exists m. split; [reflexivity|]. split; [exact F|lia]. }
  destruct T as (n2 & -> & F2 & L2). cbn [rbind].
  (* west *)
  assert (T : exists m1 left1, (if num_ltb (shift_num (minx b) (- (Qabs rx * (1 # 2)))) (Fin (lf - rx)) then let* n := arange rg (shift_num (minx b) (- (Qabs rx * (1 # 2)))) (- rx) in Ok (n - nx, n, (rg + (inject_Z n - 1) * - rx)%Q) else Ok (0, nx, lf)) = Ok (m1 - nx, m1, left1)
    /\ fills (below (minx b) (west g)) rx (m1 - nx) /\ nx <= m1 /\ (left1 == east g - (inject_Z m1 - (1 # 2)) * rx)%Q).
  { destruct (side_lo (minx b) (west g) rg rx (lf - rx) (- (Qabs rx * (1 # 2))) (- rx) nx) as [[E F]|(E & m & A & L & F)]; [lra|lia|rewrite X0; ring|rewrite AX; ring|reflexivity|rewrite X1; ring|exact V3| |]; rewrite E.
    - exists nx, lf. split; [do 3 f_equal; lia|]. split; [now replace (nx - nx) with 0 by lia|]. split; [lia|]. rewrite X0, EA. ring.
    - rewrite A. cbn [rbind]. eexists m, _. split; [reflexivity|]. split; [exact F|]. split; [lia|]. rewrite X1, EA. ring. }
  destruct T as (m1 & left1 & -> & F3 & L3 & T3). cbn [rbind].
  (* east *)
  assert (T : exists m2, (if num_ltb (Fin (rg + rx)) (shift_num (maxx b) (Qabs rx * (1 # 2))) then let* n := arange left1 (shift_num (maxx b) (Qabs rx * (1 # 2))) rx in Ok (n - m1, n) else Ok (0, m1)) = Ok (m2 - m1, m2)
    /\ fills (above (maxx b) (east g)) rx (m2 - m1) /\ m1 <= m2).
  { destruct (side_hi (maxx b) (east g) left1 rx (rg + rx) (Qabs rx * (1 # 2)) rx m1) as [[E F]|(E & m & A & L & F)]; [lra|lia|rewrite X1, EA; ring|rewrite AX; ring|reflexivity|exact T3|exact V4| |]; rewrite E.
    - exists m1. split; [do 2 f_equal; lia|]. split; [now replace (m1 - m1) with 0 by lia|lia].
    - rewrite A. cbn [rbind]. exists m. split; [reflexivity|]. split; [exact F|lia]. }
  destruct T as (m2 & -> & F4 & L4). cbn [rbind].
  do 5 eexists. split; [reflexivity|]. split; [|auto]. unfold extends, north_up. cbn [gb_ny gb_nx gb_affine af_a af_b af_c af_d af_e af_f]. fold rx ry ny nx.
  split; [repeat split; try reflexivity; try lra; lia|]. split; [lia|]. split; [lia|]. split; [reflexivity|]. split; [reflexivity|].
  intros i j. split.
  - rewrite (coord_x g NU). fold rx. unfold gb_coord, apply. cbn [fst gb_affine af_a af_b af_c]. rewrite T3, EA, inject_Z_plus, inject_sub. ring.
  - rewrite (coord_y g NU). fold ry. unfold gb_coord, apply. cbn [snd gb_affine af_d af_e af_f]. rewrite T1, SO, !inject_Z_plus, !inject_sub. ring.
Qed.

Section Main.
Variables (cast : dtype -> num -> num) (open_raster : string -> res praster).
Notation padding_to := (pad_to cast open_raster).
Lemma validate_ok r f : good_fill r f -> exists x, validate_fill_values (len (p_bands r)) (p_nv r) (p_dtype r) f = Ok x.
Proof. destruct f as [|w|vs|]; cbn [good_fill validate_fill_values]; intros H; try contradiction; try (eexists; reflexivity). rewrite H, Z.eqb_refl. cbn [negb]. eexists. reflexivity. Qed.
Definition seq (b : bounds) : target := TSequence (map Number [minx b; miny b; maxx b; maxy b]).

Theorem pad_to_ok r t f b : north_up (p_box r) -> fits r -> good_fill r f -> resolve_bounds open_raster r t = Ok b ->
  minx b <> MInf -> miny b <> MInf -> maxx b <> PInf -> maxy b <> PInf ->
  exists top bottom lft rgt r', padding_to r t f = Ok r' /\ extends (p_box r) (p_box r') top bottom lft rgt
  /\ fills (above (maxy b) (north (p_box r))) (- af_e (gb_affine (p_box r))) top /\ fills (below (miny b) (south (p_box r))) (- af_e (gb_affine (p_box r))) bottom
  /\ fills (below (minx b) (west (p_box r))) (af_a (gb_affine (p_box r))) lft /\ fills (above (maxx b) (east (p_box r))) (af_a (gb_affine (p_box r))) rgt
  /\ padded cast r r' f top lft
  /\ p_dtype r' = p_dtype r /\ p_crs r' = p_crs r /\ p_nv r' = match f with FNone => Some (match p_nv r with Some v => v | None => default_null (p_dtype r) end) | _ => p_nv r end.
Proof.
  intros NU [FB FN] GF RB V1 V2 V3 V4. unfold pad_to. rewrite RB. cbn [rbind]. destruct (validate_ok r f GF) as [x EV]. rewrite EV. cbn [rbind].
  destruct (pad_box_ok (p_box r) b NU) as (top & bottom & lft & rgt & g' & EP & EX & F1 & F2 & F3 & F4); try (destruct (maxy b), (miny b), (minx b), (maxx b); cbn; congruence).
  rewrite EP. cbn [rbind before_y after_y before_x after_x new_box]. pose proof NU as (_ & _ & _ & _ & NY & NX).
  destruct (pad_errors (cast (p_dtype r)) (p_dtype r) (p_nv r) (gb_nx (p_box r)) (p_bands r) top bottom lft rgt) as (_ & _ & OKP).
  destruct (OKP f) as [[bands' nv'] E]; [destruct f; cbn in GF; congruence|intros vs ->; exact GF|]. rewrite E. cbn [rbind].
  destruct F1 as [P1 F1], F2 as [P2 F2], F3 as [P3 F3], F4 as [P4 F4].
  assert (NY0 : 0 <= gb_ny (p_box r)) by lia. assert (NX0 : 0 <= gb_nx (p_box r)) by lia.
  destruct (pad_spec _ _ _ (gb_ny (p_box r)) _ _ _ _ _ _ _ _ _ P1 P2 P3 P4 NY0 NX0 FB FN E) as (LB & EN & CE).
  exists top, bottom, lft, rgt. eexists. split; [reflexivity|]. cbn [p_box p_dtype p_crs p_nv p_bands]. pose proof EX as (_ & EY & EXX & _).
  repeat (split; [first [exact EX|split; assumption]|]). split; [|auto]. unfold padded. cbn [p_box p_bands p_dtype]. rewrite EY, EXX. split; [exact LB|].
  intros k data mask G. destruct (CE k data mask G) as (d' & m' & v & G' & FV & S1 & S2 & OLD & NEW). exists d', m', v. repeat (split; [assumption|]). exact NEW.
Qed.
(* an infinite bound *)
Theorem pad_to_infinite r t f b : north_up (p_box r) -> good_fill r f -> resolve_bounds open_raster r t = Ok b ->
  minx b = MInf \/ miny b = MInf \/ maxx b = PInf \/ maxy b = PInf -> padding_to r t f = Err ValueError.
Proof.
  intros NU GF RB V. unfold pad_to. rewrite RB. cbn [rbind]. destruct (validate_ok r f GF) as [x EV]. rewrite EV. cbn [rbind].
  assert (E : pad_box_xy (p_box r) b = Err ValueError); [|now rewrite E].
  unfold pad_box_xy, pad_xy. cbn [minx miny maxx maxy]. destruct (gb_coord _ 0 0) as [lf tp]. destruct (gb_coord _ _ _) as [rg bt].
  assert (A : forall s v st, (exists n, arange s v st = Ok n) \/ arange s v st = Err ValueError) by (intros s v st; destruct v; cbn [arange]; eauto).
  set (g := p_box r) in *. set (ry := af_e (gb_affine g)). set (rx := af_a (gb_affine g)).
  match goal with |- rbind ?T1 _ = _ => assert (C1 : (exists n1 t1 u1, T1 = Ok (n1, t1, u1) /\ maxy b <> PInf) \/ T1 = Err ValueError) end.
  { destruct (num_ltb _ _) eqn:E; [destruct (A bt (shift_num (maxy b) (Qabs ry * (1 # 2))) (- ry)%Q) as [[n X]|X]; rewrite X; cbn [rbind]; [left; do 3 eexists; split; [reflexivity|intros Y; rewrite Y in X; discriminate]|now right]|].
    left. do 3 eexists. split; [reflexivity|]. intros Y. rewrite Y in E. discriminate. }
  destruct C1 as [(n1 & t1 & u1 & -> & Q1)| ->]; [|reflexivity]. cbn [rbind].
  match goal with |- rbind ?T1 _ = _ => assert (C1 : (exists n1 t1, T1 = Ok (n1, t1) /\ miny b <> MInf) \/ T1 = Err ValueError) end.
  { destruct (num_ltb _ _) eqn:E; [destruct (A u1 (shift_num (miny b) (- (Qabs ry * (1 # 2)))) ry) as [[n X]|X]; rewrite X; cbn [rbind]; [left; do 2 eexists; split; [reflexivity|intros Y; rewrite Y in X; discriminate]|now right]|].
    left. do 2 eexists. split; [reflexivity|]. intros Y. rewrite Y in E. discriminate. }
  destruct C1 as [(n2 & t2 & -> & Q2)| ->]; [|reflexivity]. cbn [rbind].
  match goal with |- rbind ?T1 _ = _ => assert (C1 : (exists n1 t1 u1, T1 = Ok (n1, t1, u1) /\ minx b <> MInf) \/ T1 = Err ValueError) end.
  { destruct (num_ltb _ _) eqn:E; [destruct (A rg (shift_num (minx b) (- (Qabs rx * (1 # 2)))) (- rx)%Q) as [[n X]|X]; rewrite X; cbn [rbind]; [left; do 3 eexists; split; [reflexivity|intros Y; rewrite Y in X; discriminate]|now right]|].
    left. do 3 eexists. split; [reflexivity|]. intros Y. rewrite Y in E. discriminate. }
  destruct C1 as [(n3 & t3 & u3 & -> & Q3)| ->]; [|reflexivity]. cbn [rbind].
  assert (Q4 : maxx b = PInf) by (destruct V as [V|[V|[V|V]]]; congruence). rewrite Q4. reflexivity.
Qed.

(* where the bounds come from *)
Lemma same_bounds r t b f : resolve_bounds open_raster r t = Ok b -> padding_to r t f = padding_to r (seq b) f.
Proof. intros H. unfold pad_to. rewrite H. destruct b. reflexivity. Qed.
Lemma fold_min_le l : forall x, (fold_left Qmin l x <= x)%Q /\ (forall y, In y l -> (fold_left Qmin l x <= y)%Q) /\ exists y, In y (x :: l) /\ (fold_left Qmin l x == y)%Q.
Proof.
  induction l as [|z l IH]; intros x; [split; [apply Qle_refl|]; split; [intros y []|]; exists x; split; [now left|reflexivity]|]. cbn [fold_left]. destruct (IH (Qmin x z)) as (I1 & I2 & y & Iy & E).
  pose proof (Q.le_min_l x z). pose proof (Q.le_min_r x z). split; [lra|]. split; [intros w [<-|Iw]; [lra|now apply I2]|].
  destruct Iy as [<-|Iy]; [|exists y; split; [now right; right|exact E]]. destruct (Q.min_spec x z) as [[_ M]|[_ M]]; eexists; (split; [|exact (Qeq_trans _ _ _ E M)]); cbn; auto.
Qed.
Lemma fold_max_ge l : forall x, (x <= fold_left Qmax l x)%Q /\ (forall y, In y l -> (y <= fold_left Qmax l x)%Q) /\ exists y, In y (x :: l) /\ (fold_left Qmax l x == y)%Q.
Proof.
  induction l as [|z l IH]; intros x; [split; [apply Qle_refl|]; split; [intros y []|]; exists x; split; [now left|reflexivity]|]. cbn [fold_left]. destruct (IH (Qmax x z)) as (I1 & I2 & y & Iy & E).
  pose proof (Q.le_max_l x z). pose proof (Q.le_max_r x z). split; [lra|]. split; [intros w [<-|Iw]; [lra|now apply I2]|].
  destruct Iy as [<-|Iy]; [|exists y; split; [now right; right|exact E]]. destruct (Q.max_spec x z) as [[_ M]|[_ M]]; eexists; (split; [|exact (Qeq_trans _ _ _ E M)]); cbn; auto.
Qed.
Lemma min_corner g (p : Q * Q -> Q) : (forall c, In c (corners g) -> (qmins (map p (corners g)) <= p c)%Q) /\ exists c, In c (corners g) /\ (qmins (map p (corners g)) == p c)%Q.
Proof.
  unfold corners. set (c1 := apply _ _ _). set (c2 := apply _ (inject_Z (gb_nx g)) _). set (c3 := apply _ _ (inject_Z (gb_ny g))). set (c4 := apply _ (inject_Z (gb_nx g)) (inject_Z (gb_ny g))). cbn [map qmins].
  destruct (fold_min_le [p c2; p c3; p c4] (p c1)) as (I1 & I2 & y & Iy & E). split.
  - intros c [<-|[<-|[<-|[<-|[]]]]]; try exact I1; apply I2; cbn; auto.
  - destruct Iy as [<-|[<-|[<-|[<-|[]]]]]; eexists; (split; [|exact E]); cbn; auto.
Qed.
Lemma max_corner g (p : Q * Q -> Q) : (forall c, In c (corners g) -> (p c <= qmaxs (map p (corners g)))%Q) /\ exists c, In c (corners g) /\ (qmaxs (map p (corners g)) == p c)%Q.
Proof.
  unfold corners. set (c1 := apply _ _ _). set (c2 := apply _ (inject_Z (gb_nx g)) _). set (c3 := apply _ _ (inject_Z (gb_ny g))). set (c4 := apply _ (inject_Z (gb_nx g)) (inject_Z (gb_ny g))). cbn [map qmaxs].
  destruct (fold_max_ge [p c2; p c3; p c4] (p c1)) as (I1 & I2 & y & Iy & E). split.
  - intros c [<-|[<-|[<-|[<-|[]]]]]; try exact I1; apply I2; cbn; auto.
  - destruct Iy as [<-|[<-|[<-|[<-|[]]]]]; eexists; (split; [|exact E]); cbn; auto.
Qed.

Lemma extends_edges g g' top bottom lft rgt : north_up g -> extends g g' top bottom lft rgt ->
  (west g' == west g - inject_Z lft * af_a (gb_affine g))%Q /\ (east g' == east g + inject_Z rgt * af_a (gb_affine g))%Q
  /\ (north g' == north g - inject_Z top * af_e (gb_affine g))%Q /\ (south g' == south g + inject_Z bottom * af_e (gb_affine g))%Q.
Proof.
  intros NU (NU' & EY & EX & EA & EE & CO). destruct (CO 0 0) as [CX CY]. rewrite (coord_x g NU), (coord_x g' NU') in CX. rewrite (coord_y g NU), (coord_y g' NU') in CY.
  rewrite inject_Z_plus, EA in CX. rewrite inject_Z_plus, EE in CY. change (inject_Z 0) with 0%Q in *.
  assert (W : (west g' == west g - inject_Z lft * af_a (gb_affine g))%Q) by lra. assert (N : (north g' == north g - inject_Z top * af_e (gb_affine g))%Q) by lra.
  split; [exact W|]. split; [|split; [exact N|]].
  - change (east g') with (west g' + inject_Z (gb_nx g') * af_a (gb_affine g'))%Q. change (east g) with (west g + inject_Z (gb_nx g) * af_a (gb_affine g))%Q. rewrite W, EX, !inject_Z_plus, EA. ring.
  - change (south g') with (north g' + inject_Z (gb_ny g') * af_e (gb_affine g'))%Q. change (south g) with (north g + inject_Z (gb_ny g) * af_e (gb_affine g))%Q. rewrite N, EY, !inject_Z_plus, EE. ring.
Qed.
Lemma fills_edge q s n : (0 < s)%Q -> fills (Fin q) s n -> (q <= inject_Z n * s)%Q /\ (0 <= inject_Z n * s)%Q /\ ((inject_Z n * s == 0)%Q \/ (inject_Z n * s < q + s)%Q) /\ ((q <= 0)%Q -> n = 0).
Proof.
  intros S (P & F & M). split; [exact F|]. assert (P' : (0 <= inject_Z n)%Q) by (change 0%Q with (inject_Z 0); rewrite <- Zle_Qle; lia). split; [apply Qmult_le_0_compat; lra|].
  destruct (Z.eq_dec n 0) as [->|N]; [split; [left; change (inject_Z 0) with 0%Q; ring|auto]|]. specialize (M ltac:(lia)). rewrite inject_sub in M. change (inject_Z 1) with 1%Q in M. split; [right; lra|].
  intros Q0. assert (X : (0 <= (inject_Z n - 1) * s)%Q); [|lra]. apply Qmult_le_0_compat; [|lra]. pose proof (inject_ge1 n ltac:(lia)). lra.
Qed.
(* the result covers the raster and the bounds, with no row or column to spare *)
Theorem pad_covers r t f x0 y0 x1 y1 : north_up (p_box r) -> fits r -> good_fill r f -> resolve_bounds open_raster r t = Ok (Bounds (Fin x0) (Fin y0) (Fin x1) (Fin y1)) ->
  exists r', padding_to r t f = Ok r' /\ let g := p_box r in let g' := p_box r' in let a := af_a (gb_affine g) in let e := af_e (gb_affine g) in
  (west g' <= west g /\ west g' <= x0 /\ (west g' == west g \/ x0 < west g' + a))%Q
  /\ (east g <= east g' /\ x1 <= east g' /\ (east g' == east g \/ east g' - a < x1))%Q
  /\ (south g' <= south g /\ south g' <= y0 /\ (south g' == south g \/ y0 < south g' - e))%Q
  /\ (north g <= north g' /\ y1 <= north g' /\ (north g' == north g \/ north g' + e < y1))%Q
  /\ ((west g <= x0 /\ x1 <= east g /\ south g <= y0 /\ y1 <= north g)%Q -> extends g g' 0 0 0 0 /\ padded cast r r' f 0 0).
Proof.
  intros NU FI GF RB. destruct (pad_to_ok r t f _ NU FI GF RB) as (top & bottom & lft & rgt & r' & E & EX & F1 & F2 & F3 & F4 & PA & _); cbn [minx miny maxx maxy]; try discriminate.
  exists r'. split; [exact E|]. cbn zeta. cbn [minx miny maxx maxy above below] in F1, F2, F3, F4. pose proof NU as (RX & RY & _).
  destruct (extends_edges _ _ _ _ _ _ NU EX) as (W & EA & N & S).
  apply fills_edge in F1 as (A1 & B1 & C1 & D1); [|lra]. apply fills_edge in F2 as (A2 & B2 & C2 & D2); [|lra]. apply fills_edge in F3 as (A3 & B3 & C3 & D3); [|lra]. apply fills_edge in F4 as (A4 & B4 & C4 & D4); [|lra].
  split; [repeat split; try lra; destruct C3; lra|]. split; [repeat split; try lra; destruct C4; lra|]. split; [repeat split; try lra; destruct C2; lra|]. split; [repeat split; try lra; destruct C1; lra|].
  intros (I1 & I2 & I3 & I4). rewrite D1, D2, D3, D4 in EX by lra. rewrite D1, D3 in PA by lra. auto.
Qed.
(* the targets *)
Theorem targets_ok r :
  (forall a b c d, resolve_bounds open_raster r (TSequence [Number a; Number b; Number c; Number d]) = Ok (Bounds a b c d))
  /\ (forall o, crs_differ (p_crs r) (p_crs o) = false -> north_up (p_box o) -> exists w s e n, resolve_bounds open_raster r (TRaster o) = Ok (Bounds (Fin w) (Fin s) (Fin e) (Fin n))
       /\ (w == west (p_box o) /\ s == south (p_box o) /\ e == east (p_box o) /\ n == north (p_box o))%Q)
  /\ (forall p o, open_raster p = Ok o -> resolve_bounds open_raster r (TPath p) = resolve_bounds open_raster r (TRaster o))
  /\ (forall g crs, crs_differ (p_crs r) crs = false -> exists w s e n, resolve_bounds open_raster r (TBox g crs) = Ok (Bounds (Fin w) (Fin s) (Fin e) (Fin n))
       /\ (forall c, In c (corners g) -> (w <= fst c <= e /\ s <= snd c <= n)%Q)
       /\ (exists c, In c (corners g) /\ (w == fst c)%Q) /\ (exists c, In c (corners g) /\ (e == fst c)%Q) /\ (exists c, In c (corners g) /\ (s == snd c)%Q) /\ (exists c, In c (corners g) /\ (n == snd c)%Q)).
Proof.
  split; [reflexivity|]. split; [|split].
  - intros o C (RX & RY & B & D & NY & NX). cbn [resolve_bounds]. rewrite C. unfold bounds_of, apply. do 4 eexists. split; [reflexivity|]. unfold west, east, north, south.
    rewrite !inject_sub, B, D. change (inject_Z 0) with 0%Q. change (inject_Z 1) with 1%Q. repeat split; ring.
  - intros p o E. cbn [resolve_bounds]. now rewrite E.
  - intros g crs C. cbn [resolve_bounds]. rewrite C. do 4 eexists. split; [reflexivity|].
    destruct (min_corner g fst) as [A1 B1]. destruct (min_corner g snd) as [A2 B2]. destruct (max_corner g fst) as [A3 B3]. destruct (max_corner g snd) as [A4 B4]. auto 10.
Qed.
Theorem pad_refused r f :
  (forall o, crs_differ (p_crs r) (p_crs o) = true -> padding_to r (TRaster o) f = Err ValueError)
  /\ (forall g crs, crs_differ (p_crs r) crs = true -> padding_to r (TBox g crs) f = Err ValueError)
  /\ (forall p e, open_raster p = Err e -> padding_to r (TPath p) f = Err e)
  /\ (forall l, len l <> 4 \/ In NotNumber l -> padding_to r (TSequence l) f = Err ValueError)
  /\ padding_to r TOther f = Err TypeError
  /\ (forall t b, resolve_bounds open_raster r t = Ok b -> padding_to r t FOther = Err TypeError /\ forall vs, len vs <> len (p_bands r) -> padding_to r t (FList vs) = Err ValueError).
Proof.
  unfold pad_to. split; [intros o C; cbn [resolve_bounds]; now rewrite C|]. split; [intros g crs C; cbn [resolve_bounds]; now rewrite C|]. split; [intros p e E; cbn [resolve_bounds]; now rewrite E|]. split; [|split; [reflexivity|]].
  - intros l [L|L]; cbn [resolve_bounds]; [now replace (len l =? 4) with false by lia|]. replace (forallb is_number l) with false; [cbn [negb]; now rewrite Bool.orb_true_r|].
    symmetry. apply Bool.not_true_iff_false. intros F. rewrite forallb_forall in F. discriminate (F _ L).
  - intros t b E. rewrite E. cbn [rbind validate_fill_values]. split; [reflexivity|]. intros vs L. now replace (len vs =? len (p_bands r)) with false by lia.
Qed.
End Main.
