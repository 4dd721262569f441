(* Proofs about combining grids. *)
From Coq Require Import QArith Qabs Qround String Lqa Lia.
From Verif Require Import Base Grids Combine CombineSpec.
Open Scope Z_scope.

Lemma qmin_spec a b : (qmin a b <= a /\ qmin a b <= b /\ (qmin a b == a \/ qmin a b == b))%Q.
Proof. unfold qmin. destruct (Qle_bool a b) eqn:E; [apply Qle_bool_iff in E|assert (~ a <= b)%Q by (intros H; apply Qle_bool_iff in H; congruence)]; repeat split; try lra; try (left; reflexivity); right; reflexivity. Qed.
Lemma qmax_spec a b : (a <= qmax a b /\ b <= qmax a b /\ (qmax a b == a \/ qmax a b == b))%Q.
Proof. unfold qmax. destruct (Qle_bool a b) eqn:E; [apply Qle_bool_iff in E|assert (~ a <= b)%Q by (intros H; apply Qle_bool_iff in H; congruence)]; repeat split; try lra; try (left; reflexivity); right; reflexivity. Qed.
Ltac mins := repeat match goal with
  | |- context [qmin ?a ?b] => pose proof (qmin_spec a b); generalize dependent (qmin a b); intros
  | |- context [qmax ?a ?b] => pose proof (qmax_spec a b); generalize dependent (qmax a b); intros
  end.

(* ---- the bounds of a grid ---- *)
Lemma span a z c n x : (~ a == 0)%Q -> (z == 0)%Q -> (0 < n)%Q ->
  let p := (c, a * n + c, z + c, a * n + z + c)%Q in
  ((exists k, 0 <= k <= n /\ a * k + c == x) <-> (let '(p, q, s, t) := p in qmin (qmin p q) (qmin s t)) <= x <= (let '(p, q, s, t) := p in qmax (qmax p q) (qmax s t)))%Q.
Proof.
  intros Na Ez Hn. cbn zeta iota.
  set (lo := qmin (qmin c (a * n + c)) (qmin (z + c) (a * n + z + c))). set (hi := qmax (qmax c (a * n + c)) (qmax (z + c) (a * n + z + c))).
  assert (L : (lo <= c /\ lo <= a * n + c /\ (lo == c \/ lo == a * n + c))%Q).
  { unfold lo. pose proof (qmin_spec c (a * n + c)) as H1. pose proof (qmin_spec (z + c) (a * n + z + c)) as H2. pose proof (qmin_spec (qmin c (a * n + c)) (qmin (z + c) (a * n + z + c))) as H3.
    set (u := qmin c _) in *. set (v := qmin (z + c)%Q _) in *. set (w := qmin u v) in *. generalize dependent (a * n)%Q. intros an; intros. repeat split; try lra. }
  assert (H : (c <= hi /\ a * n + c <= hi /\ (hi == c \/ hi == a * n + c))%Q).
  { unfold hi. pose proof (qmax_spec c (a * n + c)) as H1. pose proof (qmax_spec (z + c) (a * n + z + c)) as H2. pose proof (qmax_spec (qmax c (a * n + c)) (qmax (z + c) (a * n + z + c))) as H3.
    set (u := qmax c _) in *. set (v := qmax (z + c)%Q _) in *. set (w := qmax u v) in *. generalize dependent (a * n)%Q. intros an; intros. repeat split; try lra. }
  clearbody lo hi. clear Ez z. split.
  - intros (k & [K1 K2] & E). assert (D : (0 < a \/ a < 0)%Q) by (destruct (Qlt_le_dec 0 a); [now left|right; lra]). destruct D as [D|D]; split; nra.
  - intros [X1 X2]. exists ((x - c) / a)%Q. assert (E : (a * ((x - c) / a) == x - c)%Q) by (field; exact Na). set (k := ((x - c) / a)%Q) in *. clearbody k. split; [|lra].
    assert (D : (0 < a \/ a < 0)%Q) by (destruct (Qlt_le_dec 0 a); [now left|right; lra]). destruct D as [D|D]; split.
    + assert (a * 0 <= a * k)%Q by nra. apply (Qmult_le_l _ _ a D). assumption.
    + apply (Qmult_le_l _ _ a D). nra.
    + apply (Qmult_le_l _ _ (- a)); [lra|]. nra.
    + apply (Qmult_le_l _ _ (- a)); [lra|]. nra.
Qed.
Lemma bounds_on g x y : upright g -> (on_grid g x y <-> inside (grid_bounds g) x y).
Proof.
  intros (B & D & A & E & NX & NY). unfold on_grid, inside, point.
  assert (HX : (0 < inject_Z (g_nx g))%Q) by (now rewrite (Zlt_Qlt 0) in NX). assert (HY : (0 < inject_Z (g_ny g))%Q) by (now rewrite (Zlt_Qlt 0) in NY).
  pose proof (span (aa (g_affine g)) (ab (g_affine g) * inject_Z (g_ny g)) (ac (g_affine g)) (inject_Z (g_nx g)) x A ltac:(rewrite B; ring) HX) as SX.
  pose proof (span (ae (g_affine g)) (ad (g_affine g) * inject_Z (g_nx g)) (af (g_affine g)) (inject_Z (g_ny g)) y E ltac:(rewrite D; ring) HY) as SY.
  unfold grid_bounds. set (t := g_affine g) in *. set (nx := inject_Z (g_nx g)) in *. set (ny := inject_Z (g_ny g)) in *. cbn zeta iota in SX, SY |- *. cbn [x0 x1 y0 y1 fst snd].
  split.
  - intros (col & row & HC & HR & EX & EY). split.
    + apply SX. exists col. split; [exact HC|]. rewrite <- EX, B. ring.
    + assert (Y : (exists k, 0 <= k <= ny /\ ae t * k + af t == y)%Q) by (exists row; split; [exact HR|rewrite <- EY, D; ring]). apply SY in Y.
      clear - Y D. revert Y. set (p := (ad t * nx)%Q). set (q := (ae t * ny)%Q). set (c := af t).
      assert (P : (p == 0)%Q) by (unfold p; rewrite D; ring). clearbody p q c. intros [Y1 Y2].
      pose proof (qmin_spec c (q + c)) as H1. pose proof (qmin_spec (p + c) (q + p + c)) as H2. pose proof (qmin_spec (qmin c (q + c)) (qmin (p + c) (q + p + c))) as H3.
      pose proof (qmin_spec c (p + c)) as G1. pose proof (qmin_spec (q + c) (p + q + c)) as G2. pose proof (qmin_spec (qmin c (p + c)) (qmin (q + c) (p + q + c))) as G3.
      pose proof (qmax_spec c (q + c)) as J1. pose proof (qmax_spec (p + c) (q + p + c)) as J2. pose proof (qmax_spec (qmax c (q + c)) (qmax (p + c) (q + p + c))) as J3.
      pose proof (qmax_spec c (p + c)) as K1. pose proof (qmax_spec (q + c) (p + q + c)) as K2. pose proof (qmax_spec (qmax c (p + c)) (qmax (q + c) (p + q + c))) as K3.
      repeat match goal with |- context [qmin ?a ?b] => set (qmin a b) in * | |- context [qmax ?a ?b] => set (qmax a b) in * end. split; lra.
  - intros [X Y]. apply SX in X as (col & HC & EX).
    assert (Y' : (exists k, 0 <= k <= ny /\ ae t * k + af t == y)%Q).
    { apply SY. clear - Y D. revert Y. set (p := (ad t * nx)%Q). set (q := (ae t * ny)%Q). set (c := af t).
      assert (P : (p == 0)%Q) by (unfold p; rewrite D; ring). clearbody p q c. intros [Y1 Y2].
      pose proof (qmin_spec c (q + c)) as H1. pose proof (qmin_spec (p + c) (q + p + c)) as H2. pose proof (qmin_spec (qmin c (q + c)) (qmin (p + c) (q + p + c))) as H3.
      pose proof (qmin_spec c (p + c)) as G1. pose proof (qmin_spec (q + c) (p + q + c)) as G2. pose proof (qmin_spec (qmin c (p + c)) (qmin (q + c) (p + q + c))) as G3.
      pose proof (qmax_spec c (q + c)) as J1. pose proof (qmax_spec (p + c) (q + p + c)) as J2. pose proof (qmax_spec (qmax c (q + c)) (qmax (p + c) (q + p + c))) as J3.
      pose proof (qmax_spec c (p + c)) as K1. pose proof (qmax_spec (q + c) (p + q + c)) as K2. pose proof (qmax_spec (qmax c (p + c)) (qmax (q + c) (p + q + c))) as K3.
      repeat match goal with |- context [qmin ?a ?b] => set (qmin a b) in * | |- context [qmax ?a ?b] => set (qmax a b) in * end. split; lra. }
    destruct Y' as (row & HR & EY). exists col, row. split; [exact HC|]. split; [exact HR|]. split; [rewrite <- EX, B; ring|rewrite <- EY, D; ring].
Qed.
Lemma bounds_proper g : upright g -> proper (grid_bounds g).
Proof.
  intros U. assert (P : on_grid g (ac (g_affine g)) (af (g_affine g))).
  { exists 0%Q, 0%Q. pose proof U as (_ & _ & _ & _ & NX & NY). rewrite (Zlt_Qlt 0) in NX. rewrite (Zlt_Qlt 0) in NY. change (inject_Z 0) with 0%Q in *. repeat split; try lra; cbn [point fst snd]; ring. }
  apply bounds_on in P as [X Y]; [|exact U]. split; lra.
Qed.

(* ---- boxes ---- *)
Lemma join_all bs : forall b, let h := fold_left join_bounds bs b in
  (forall c, In c (b :: bs) -> x0 h <= x0 c /\ y0 h <= y0 c /\ x1 c <= x1 h /\ y1 c <= y1 h)%Q
  /\ (forall p, (forall c, In c (b :: bs) -> x0 p <= x0 c /\ y0 p <= y0 c /\ x1 c <= x1 p /\ y1 c <= y1 p) -> x0 p <= x0 h /\ y0 p <= y0 h /\ x1 h <= x1 p /\ y1 h <= y1 p)%Q.
Proof.
  induction bs as [|a bs IH]; intros b; cbn zeta.
  - cbn [fold_left]. split; [|intros p H; apply H; now left]. intros c [<-|[]]. lra.
  - cbn [fold_left]. destruct (IH (join_bounds b a)) as [L G]. cbn zeta in L, G. set (h := fold_left join_bounds bs (join_bounds b a)) in *. 
    pose proof (qmin_spec (x0 b) (x0 a)) as M1. pose proof (qmin_spec (y0 b) (y0 a)) as M2. pose proof (qmax_spec (x1 b) (x1 a)) as M3. pose proof (qmax_spec (y1 b) (y1 a)) as M4.
    split.
    + pose proof (L _ (or_introl eq_refl)) as L0. cbn [join_bounds x0 y0 x1 y1] in L0. intros c [<-|[<-|H]]; [lra|lra|]. apply L. now right.
    + intros p H. apply G. intros c [<-|Hc]; [|apply H; now (right; right)]. cbn [join_bounds x0 y0 x1 y1]. pose proof (H b (or_introl eq_refl)). pose proof (H a (or_intror (or_introl eq_refl))). lra.
Qed.
Lemma meet_two a b : match meet_bounds a b with
  | Some m => proper m /\ forall x y, inside m x y <-> inside a x y /\ inside b x y
  | None => forall x y, ~ (inside a x y /\ inside b x y)
  end.
Proof.
  unfold meet_bounds. pose proof (qmax_spec (x0 a) (x0 b)) as M1. pose proof (qmax_spec (y0 a) (y0 b)) as M2. pose proof (qmin_spec (x1 a) (x1 b)) as M3. pose proof (qmin_spec (y1 a) (y1 b)) as M4.
  set (u := qmax (x0 a) (x0 b)) in *. set (v := qmax (y0 a) (y0 b)) in *. set (w := qmin (x1 a) (x1 b)) in *. set (z := qmin (y1 a) (y1 b)) in *. cbn [x0 y0 x1 y1]. unfold inside.
  destruct (Qle_bool u w) eqn:E1; cbn [andb].
  - apply Qle_bool_iff in E1. destruct (Qle_bool v z) eqn:E2.
    + apply Qle_bool_iff in E2. split; [split; assumption|]. intros x y. cbn [x0 y0 x1 y1]. split; [intros [X Y]; repeat split; lra|intros ([X Y] & X' & Y'); repeat split; lra].
    + assert (~ v <= z)%Q by (intros H; apply Qle_bool_iff in H; congruence). intros x y ([X Y] & X' & Y'). lra.
  - assert (~ u <= w)%Q by (intros H; apply Qle_bool_iff in H; congruence). intros x y ([X Y] & X' & Y'). lra.
Qed.
Lemma meet_ok bs : forall b, proper b -> match meet_all b bs with
  | Some m => proper m /\ forall x y, inside m x y <-> forall c, In c (b :: bs) -> inside c x y
  | None => forall x y, ~ (forall c, In c (b :: bs) -> inside c x y)
  end.
Proof.
  induction bs as [|a bs IH]; intros b P; cbn [meet_all].
  - split; [exact P|]. intros x y. split; [intros H c [<-|[]]; exact H|intros H; apply H; now left].
  - pose proof (meet_two b a) as M. destruct (meet_bounds b a) as [m|].
    + destruct M as [PM M]. specialize (IH m PM). destruct (meet_all m bs) as [n|].
      * destruct IH as [PN IH]. split; [exact PN|]. intros x y. rewrite IH. split.
        -- intros H c [<-|[<-|Hc]]; [apply M, H; now left|apply M, H; now left|apply H; now right].
        -- intros H c [<-|Hc]; [apply M; split; apply H; cbn; tauto|apply H; cbn; tauto].
      * intros x y H. apply (IH x y). intros c [<-|Hc]; [apply M; split; apply H; cbn; tauto|apply H; cbn; tauto].
    + intros x y H. apply (M x y). split; apply H; cbn; tauto.
Qed.

(* ---- the number of cells ---- *)
Lemma cells_ok lo hi r : (0 < r)%Q -> let n := cells_over lo hi r in
  0 < n /\ (hi < lo + (inject_Z n + (1 # 100)) * r)%Q /\ (n = 1 \/ (lo + (inject_Z n - 1) * r < hi)%Q).
Proof.
  intros R. cbn zeta. unfold cells_over. set (w := ((hi - lo) / r)%Q). assert (W : (hi == lo + w * r)%Q) by (unfold w; field; lra). clearbody w.
  assert (K : let n := Z.max 1 (Qceiling (maybe_int w)) in 0 < n /\ (w < inject_Z n + (1 # 100))%Q /\ (n = 1 \/ (inject_Z n - 1 < w)%Q)).
  { cbn zeta. unfold maybe_int. set (k := Qfloor (w + (1 # 2))). destruct (Qle_bool (1 # 100) (Qabs (w - inject_Z k))) eqn:E.
    - pose proof (Qle_ceiling w) as C1. pose proof (Qceiling_lt w) as C2. set (c := Qceiling w) in *. split; [lia|]. destruct (Z.max_spec 1 c) as [[M ->]|[M ->]].
      + split; [lra|]. right. change (c - 1) with (c + -1) in C2. rewrite inject_Z_plus in C2. change (inject_Z (-1)) with (-(1))%Q in C2. lra.
      + split; [|now left]. assert (inject_Z c <= inject_Z 1)%Q by (rewrite <- Zle_Qle; lia). change (inject_Z 1) with 1%Q in *. lra.
    - assert (F : (Qabs (w - inject_Z k) < 1 # 100)%Q) by (apply Qnot_le_lt; intros X; apply Qle_bool_iff in X; congruence). apply Qabs_Qlt_condition in F.
      rewrite Qceiling_Z. split; [lia|]. destruct (Z.max_spec 1 k) as [[M ->]|[M ->]]; [split; [lra|right; lra]|]. split; [|now left].
      assert (inject_Z k <= inject_Z 1)%Q by (rewrite <- Zle_Qle; lia). change (inject_Z 1) with 1%Q in *. lra. }
  cbn zeta in K. set (n := Z.max 1 _) in *. destruct K as (K1 & K2 & K3). split; [exact K1|]. rewrite W. split; [nra|]. destruct K3 as [->|K3]; [now left|right]. nra.
Qed.
Lemma from_bounds_ok b crs r : (0 < r)%Q -> covers_box r (from_bounds b crs r) b.
Proof.
  intros R. unfold covers_box, square, from_bounds. cbn [g_affine g_nx g_ny aa ab ac ad ae af]. destruct (cells_ok (x0 b) (x1 b) r R) as (A & B & C). destruct (cells_ok (y0 b) (y1 b) r R) as (D & E & F).
  set (nx := cells_over (x0 b) (x1 b) r) in *. set (ny := cells_over (y0 b) (y1 b) r) in *.
  repeat split; try assumption; try reflexivity; try lra. destruct F as [F|F]; [now left|right; lra].
Qed.
(* whole numbers of cells *)
Lemma cells_whole lo hi r k : (0 < r)%Q -> 0 < k -> (hi == lo + inject_Z k * r)%Q -> cells_over lo hi r = k.
Proof.
  intros R K H. unfold cells_over. assert (W : ((hi - lo) / r == inject_Z k)%Q) by (rewrite H; field; lra). set (w := ((hi - lo) / r)%Q) in *. clearbody w.
  unfold maybe_int. assert (F : Qfloor (w + (1 # 2)) = k).
  { rewrite W. pose proof (Qfloor_le (inject_Z k + (1 # 2))) as A. pose proof (Qlt_floor (inject_Z k + (1 # 2))) as B. set (f := Qfloor _) in *. rewrite inject_Z_plus in B. change (inject_Z 1) with 1%Q in B.
    assert (X : (inject_Z f < inject_Z (k + 1))%Q) by (rewrite inject_Z_plus; change (inject_Z 1) with 1%Q; lra). rewrite <- Zlt_Qlt in X.
    assert (Y : (inject_Z k < inject_Z (f + 1))%Q) by (rewrite inject_Z_plus; change (inject_Z 1) with 1%Q; lra). rewrite <- Zlt_Qlt in Y. lia. }
  rewrite F. destruct (Qle_bool (1 # 100) (Qabs (w - inject_Z k))) eqn:E.
  - apply Qle_bool_iff in E. rewrite W in E. assert (X : (inject_Z k - inject_Z k == 0)%Q) by ring. rewrite X in E. cbn in E. lra.
  - rewrite Qceiling_Z. lia.
Qed.

(* ---- calls ---- *)
Section Calls.
Variable rp : grid -> Z -> option Q -> res grid.
Lemma reproject_all_ok gs crs r gs' : (0 < r)%Q -> Forall2 (fun g g' => rp g crs (Some r) = Ok g' /\ upright g') gs gs' -> reproject_all rp gs crs r = Ok gs'.
Proof.
  intros R. induction 1 as [|g g' gs gs' [E _] F IH]; [reflexivity|]. cbn [reproject_all]. unfold reproject_grid.
  destruct (Qle_bool r 0) eqn:Q0; [apply Qle_bool_iff in Q0; lra|]. rewrite E. cbn [rbind]. now rewrite IH.
Qed.
Lemma combined first rest how crs res gs' : are_all_grids_same (first :: rest) = false -> good_how how ->
  let c := match crs with Some c => c | None => g_crs first end in
  let r := match res with Some r => r | None => Qabs (aa (g_affine first)) end in
  (0 < r)%Q -> Forall2 (fun g g' => rp g c (Some r) = Ok g' /\ upright g') (first :: rest) gs' ->
  exists b bs, map grid_bounds gs' = b :: bs /\ proper b /\ combine_grids rp (first :: rest) how crs res =
    if match how with Some h => String.eqb h "union" | None => true end then Ok (from_bounds (fold_left join_bounds bs b) c r)
    else match meet_all b bs with Some m => Ok (from_bounds m c r) | None => Err ValueError end.
Proof.
  intros NS GH c r R F. assert (FF : Forall upright gs') by (clear - F; induction F as [|? ? ? ? [_ U] _ IH]; constructor; assumption).
  pose proof (reproject_all_ok _ _ _ _ R F) as EA. inversion F as [|? g' ? gs ? ? E1 E2]; subst gs'. exists (grid_bounds g'), (map grid_bounds gs). split; [reflexivity|].
  split; [apply bounds_proper; now inversion FF|]. unfold combine_grids.
  assert (HH : (match how with Some h => negb (String.eqb h "intersection" || String.eqb h "union") | None => false end) = false) by (destruct GH as [->|[->| ->]]; reflexivity).
  rewrite HH, NS. cbn zeta. fold c r. rewrite EA. cbn [rbind map]. reflexivity.
Qed.
Lemma union_ok first rest how crs res gs' : are_all_grids_same (first :: rest) = false -> how = None \/ how = Some "union"%string ->
  let c := match crs with Some c => c | None => g_crs first end in
  let r := match res with Some r => r | None => Qabs (aa (g_affine first)) end in
  (0 < r)%Q -> Forall2 (fun g g' => rp g c (Some r) = Ok g' /\ upright g') (first :: rest) gs' ->
  exists out b, combine_grids rp (first :: rest) how crs res = Ok out /\ g_crs out = c /\ hull gs' b /\ covers_box r out b.
Proof.
  intros NS GH c r R F. destruct (combined first rest how crs res gs' NS ltac:(unfold good_how; tauto) R F) as (b & bs & EB & PB & EC). fold c r in EC.
  assert (FF : forall g, In g gs' -> upright g) by (apply Forall_forall; clear - F; induction F as [|? ? ? ? [_ U] _ IH]; constructor; assumption).
  assert (U : (match how with Some h => String.eqb h "union" | None => true end) = true) by (destruct GH as [->| ->]; reflexivity). rewrite U in EC.
  exists (from_bounds (fold_left join_bounds bs b) c r), (fold_left join_bounds bs b). split; [exact EC|]. split; [reflexivity|]. split; [|now apply from_bounds_ok].
  destruct (join_all bs b) as [L G]. cbn zeta in L, G. rewrite <- EB in L, G. split.
  - intros g x y Hg Hp. apply bounds_on in Hp as [X Y]; [|now apply FF]. specialize (L (grid_bounds g) (in_map grid_bounds _ _ Hg)). split; lra.
  - intros b' Hb. apply G. intros h Hh. apply in_map_iff in Hh as (g & <- & Hg). pose proof (bounds_proper g (FF g Hg)) as [P1 P2].
    assert (A : inside b' (x0 (grid_bounds g)) (y0 (grid_bounds g))) by (apply (Hb g); [exact Hg|]; apply bounds_on; [now apply FF|]; split; lra).
    assert (B : inside b' (x1 (grid_bounds g)) (y1 (grid_bounds g))) by (apply (Hb g); [exact Hg|]; apply bounds_on; [now apply FF|]; split; lra).
    destruct A, B. lra.
Qed.
Lemma intersection_ok first rest crs res gs' : are_all_grids_same (first :: rest) = false ->
  let c := match crs with Some c => c | None => g_crs first end in
  let r := match res with Some r => r | None => Qabs (aa (g_affine first)) end in
  (0 < r)%Q -> Forall2 (fun g g' => rp g c (Some r) = Ok g' /\ upright g') (first :: rest) gs' ->
  (exists out b, combine_grids rp (first :: rest) (Some "intersection"%string) crs res = Ok out /\ g_crs out = c /\ shared gs' b /\ proper b /\ covers_box r out b)
  \/ combine_grids rp (first :: rest) (Some "intersection"%string) crs res = Err ValueError /\ forall x y, ~ (forall g, In g gs' -> on_grid g x y).
Proof.
  intros NS c r R F. destruct (combined first rest (Some "intersection"%string) crs res gs' NS ltac:(unfold good_how; tauto) R F) as (b & bs & EB & PB & EC). fold c r in EC.
  assert (FF : forall g, In g gs' -> upright g) by (apply Forall_forall; clear - F; induction F as [|? ? ? ? [_ U] _ IH]; constructor; assumption).
  change (String.eqb "intersection" "union") with false in EC. cbv iota in EC.
  assert (IN : forall x y, (forall q, In q (b :: bs) -> inside q x y) <-> forall g, In g gs' -> on_grid g x y).
  { intros x y. rewrite <- EB. split.
    - intros H g Hg. apply bounds_on; [now apply FF|]. apply H. now apply in_map.
    - intros H q Hq. apply in_map_iff in Hq as (g & <- & Hg). apply bounds_on; [now apply FF|]. now apply H. }
  pose proof (meet_ok bs b PB) as M. destruct (meet_all b bs) as [m|].
  - left. destruct M as [PM M]. exists (from_bounds m c r), m. split; [exact EC|]. split; [reflexivity|]. split; [|split; [exact PM|now apply from_bounds_ok]]. intros x y. rewrite M. apply IN.
  - right. split; [exact EC|]. intros x y H. apply (M x y). now apply IN.
Qed.
Lemma same_ok first rest how crs res : are_all_grids_same (first :: rest) = true -> good_how how ->
  (crs = None -> res = None -> combine_grids rp (first :: rest) how crs res = Ok first)
  /\ (crs <> None \/ res <> None -> (forall r, res = Some r -> (0 < r)%Q) -> combine_grids rp (first :: rest) how crs res = rp first (match crs with Some c => c | None => g_crs first end) res).
Proof.
  intros S GH. unfold combine_grids.
  assert (HH : (match how with Some h => negb (String.eqb h "intersection" || String.eqb h "union") | None => false end) = false) by (destruct GH as [->|[->| ->]]; reflexivity).
  rewrite HH, S. cbn zeta. split; [intros -> ->; reflexivity|]. intros N P.
  assert (E : forall g c, reproject_grid rp g c res = rp g c res).
  { intros g c. unfold reproject_grid. destruct res as [r|]; [|reflexivity]. destruct (Qle_bool r 0) eqn:Q0; [|reflexivity]. apply Qle_bool_iff in Q0. specialize (P r eq_refl). lra. }
  destruct crs, res; try apply E. destruct N; congruence.
Qed.
Lemma refused grids how crs res :
  ((forall h, how = Some h -> h <> "union"%string -> h <> "intersection"%string -> combine_grids rp grids how crs res = Err ValueError))
  /\ (good_how how -> grids = [] -> combine_grids rp grids how crs res = Err IndexError)
  /\ (forall r, grids <> [] -> res = Some r -> (r <= 0)%Q -> combine_grids rp grids how crs res = Err ValueError).
Proof.
  split; [|split].
  - intros h -> N1 N2. unfold combine_grids. destruct (String.eqb_spec h "intersection"); [congruence|]. destruct (String.eqb_spec h "union"); [congruence|]. reflexivity.
  - intros [->|[->| ->]] ->; reflexivity.
  - intros r NE -> HR. unfold combine_grids. destruct (match how with Some h => _ | None => _ end); [reflexivity|]. destruct grids as [|g gs]; [congruence|]. cbn zeta.
    assert (E : forall g c, reproject_grid rp g c (Some r) = Err ValueError) by (intros h c; unfold reproject_grid; apply Qle_bool_iff in HR; now rewrite HR).
    destruct (are_all_grids_same (g :: gs)); [destruct crs; apply E|]. cbn [reproject_all]. now rewrite E.
Qed.
End Calls.

(* ---- points ---- *)
Lemma square_upright r g : (0 < r)%Q -> square r g -> upright g.
Proof. intros R (A & B & C & D & E & F). repeat split; try assumption; lra. Qed.
Lemma square_on r g x y : (0 < r)%Q -> square r g -> (on_grid g x y <-> (ac (g_affine g) <= x <= ac (g_affine g) + inject_Z (g_nx g) * r /\ af (g_affine g) - inject_Z (g_ny g) * r <= y <= af (g_affine g))%Q).
Proof.
  intros R (A & B & C & D & NX & NY). unfold on_grid, point. set (t := g_affine g) in *. rewrite (Zlt_Qlt 0) in NX. rewrite (Zlt_Qlt 0) in NY. change (inject_Z 0) with 0%Q in *. set (nx := inject_Z (g_nx g)) in *. set (ny := inject_Z (g_ny g)) in *. cbn [fst snd].
  split.
  - intros (col & row & HC & HR & <- & <-). rewrite A, B, C, D. split; split; nra.
  - intros [X Y]. exists ((x - ac t) / r)%Q, ((af t - y) / r)%Q.
    assert (E1 : (r * ((x - ac t) / r) == x - ac t)%Q) by (field; lra). assert (E2 : (r * ((af t - y) / r) == af t - y)%Q) by (field; lra).
    set (p := ((x - ac t) / r)%Q) in *. set (q := ((af t - y) / r)%Q) in *. clearbody p q. rewrite A, B, C, D.
    repeat split; try nra.
Qed.
Lemma covered_near r g b x y : (0 < r)%Q -> covers_box r g b -> inside b x y -> near ((1 # 100) * r) g x y.
Proof.
  intros R (SQ & EX & EY & BX & BY & _) [X Y]. pose proof SQ as (_ & _ & _ & _ & NX & NY). rewrite (Zlt_Qlt 0) in NX. rewrite (Zlt_Qlt 0) in NY. change (inject_Z 0) with 0%Q in *.
  set (right := (x0 b + inject_Z (g_nx g) * r)%Q). set (bottom := (y1 b - inject_Z (g_ny g) * r)%Q).
  exists (qmin x right), (qmax y bottom). pose proof (qmin_spec x right) as M1. pose proof (qmax_spec y bottom) as M2. set (u := qmin x right) in *. set (v := qmax y bottom) in *. clearbody u v.
  split; [|split].
  - apply (square_on r); [exact R|exact SQ|]. rewrite EX, EY. fold right bottom. assert (x0 b <= right)%Q by (unfold right; nra). assert (bottom <= y1 b)%Q by (unfold bottom; nra). clearbody right bottom. lra.
  - apply Qabs_Qle_condition. unfold right in *. lra.
  - apply Qabs_Qle_condition. unfold bottom in *. lra.
Qed.
Lemma near_covered r g b x y : (0 < r)%Q -> covers_box r g b -> proper b -> on_grid g x y -> exists x' y', inside b x' y' /\ (Qabs (x - x') <= r /\ Qabs (y - y') <= r)%Q.
Proof.
  intros R (SQ & EX & EY & _ & _ & BX & BY) [PX PY] H. apply (square_on r) in H as [X Y]; [|exact R|exact SQ]. rewrite EX in X. rewrite EY in Y.
  assert (BX' : (inject_Z (g_nx g) == 1 \/ x0 b + (inject_Z (g_nx g) - 1) * r < x1 b)%Q) by (destruct BX as [->|BX]; [left; reflexivity|now right]). clear BX.
  assert (BY' : (inject_Z (g_ny g) == 1 \/ y0 b < y1 b - (inject_Z (g_ny g) - 1) * r)%Q) by (destruct BY as [->|BY]; [left; reflexivity|now right]). clear BY.
  set (nx := inject_Z (g_nx g)) in *. set (ny := inject_Z (g_ny g)) in *. clearbody nx ny.
  assert (X' : (x <= x1 b + r)%Q) by (destruct BX' as [B|B]; [rewrite B in X; lra|nra]). assert (Y' : (y0 b - r <= y)%Q) by (destruct BY' as [B|B]; [rewrite B in Y; lra|nra]).
  exists (qmin x (x1 b)), (qmax y (y0 b)). pose proof (qmin_spec x (x1 b)) as M1. pose proof (qmax_spec y (y0 b)) as M2. set (u := qmin x _) in *. set (v := qmax y _) in *. clearbody u v.
  split; [split; lra|]. split; apply Qabs_Qle_condition; lra.
Qed.

Lemma union_all rp first rest how crs res gs' : are_all_grids_same (first :: rest) = false -> how = None \/ how = Some "union"%string ->
  let c := match crs with Some c => c | None => g_crs first end in
  let r := match res with Some r => r | None => Qabs (aa (g_affine first)) end in
  (0 < r)%Q -> Forall2 (fun g g' => rp g c (Some r) = Ok g' /\ upright g') (first :: rest) gs' ->
  exists out b, combine_grids rp (first :: rest) how crs res = Ok out /\ g_crs out = c /\ hull gs' b /\ covers_box r out b
  /\ forall g x y, In g gs' -> on_grid g x y -> near ((1 # 100) * r) out x y.
Proof.
  intros NS GH c r R F. destruct (union_ok rp first rest how crs res gs' NS GH R F) as (out & b & E & C & H & V). exists out, b. do 4 (split; [assumption|]).
  intros g x y Hg Hp. apply (covered_near r out b); [exact R|exact V|]. now apply (proj1 H g).
Qed.
Lemma intersection_all rp first rest crs res gs' : are_all_grids_same (first :: rest) = false ->
  let c := match crs with Some c => c | None => g_crs first end in
  let r := match res with Some r => r | None => Qabs (aa (g_affine first)) end in
  (0 < r)%Q -> Forall2 (fun g g' => rp g c (Some r) = Ok g' /\ upright g') (first :: rest) gs' ->
  ((exists x y, forall g, In g gs' -> on_grid g x y) ->
   exists out b, combine_grids rp (first :: rest) (Some "intersection"%string) crs res = Ok out /\ g_crs out = c /\ shared gs' b /\ covers_box r out b
   /\ (forall x y, (forall g, In g gs' -> on_grid g x y) -> near ((1 # 100) * r) out x y)
   /\ (forall x y, on_grid out x y -> exists x' y', (forall g, In g gs' -> on_grid g x' y') /\ (Qabs (x - x') <= r /\ Qabs (y - y') <= r)%Q))
  /\ ((forall x y, ~ (forall g, In g gs' -> on_grid g x y)) -> combine_grids rp (first :: rest) (Some "intersection"%string) crs res = Err ValueError).
Proof.
  intros NS c r R F. destruct (intersection_ok rp first rest crs res gs' NS R F) as [(out & b & E & C & S & P & V)|[E N]].
  - split.
    + intros _. exists out, b. do 4 (split; [assumption|]). split.
      * intros x y H. apply (covered_near r out b); [exact R|exact V|]. now apply S.
      * intros x y H. destruct (near_covered r out b x y R V P H) as (x' & y' & I & D). exists x', y'. split; [now apply S|exact D].
    + intros N. exfalso. destruct P as [P1 P2]. apply (N (x0 b) (y0 b)). apply S. split; lra.
  - split; [intros (x & y & H); now destruct (N x y)|intros _; exact E].
Qed.
(* a box of whole cells *)
Lemma whole_cells r g b k m : (0 < r)%Q -> covers_box r g b -> 0 < k -> 0 < m -> (x1 b == x0 b + inject_Z k * r)%Q -> (y1 b == y0 b + inject_Z m * r)%Q ->
  g_nx g = k /\ g_ny g = m /\ forall x y, on_grid g x y <-> inside b x y.
Proof.
  intros R (SQ & EX & EY & A & B & C & D) K M X Y. pose proof SQ as (_ & _ & _ & _ & NX & NY).
  assert (N : forall n k, 0 < n -> 0 < k -> (inject_Z k < inject_Z n + (1 # 100))%Q -> n = 1 \/ (inject_Z n - 1 < inject_Z k)%Q -> n = k).
  { intros n q Hn Hq H1 H2. assert (L : (inject_Z q < inject_Z (n + 1))%Q) by (rewrite inject_Z_plus; change (inject_Z 1) with 1%Q; lra). rewrite <- Zlt_Qlt in L.
    destruct H2 as [->|H2]; [lia|]. assert (L2 : (inject_Z n < inject_Z (q + 1))%Q) by (rewrite inject_Z_plus; change (inject_Z 1) with 1%Q; lra). rewrite <- Zlt_Qlt in L2. lia. }
  assert (EN : g_nx g = k). { apply N; [exact NX|exact K| |]; [rewrite X in A; nra|]. destruct C as [C|C]; [now left|right; rewrite X in C; nra]. }
  assert (EM : g_ny g = m). { apply N; [exact NY|exact M| |]; [nra|]. destruct D as [D|D]; [now left|right; nra]. }
  split; [exact EN|]. split; [exact EM|]. intros x y. rewrite (square_on r) by assumption. rewrite EX, EY, EN, EM. unfold inside. rewrite X. split; intros [H1 H2]; split; lra.
Qed.
