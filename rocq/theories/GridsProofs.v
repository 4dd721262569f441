From Coq Require Import QArith Qabs Qround Lqa Lia.
From Verif Require Import Base BaseFacts Arr2Facts Grids.
Open Scope Z_scope.

(* ---- C40 ---- *)
Definition det (t : affine Q) : Q := (aa t * ae t - ab t * ad t)%Q.
(* the point at (row + v, col + u) *)
Definition point (t : affine Q) (row col u v : Q) : Q * Q :=
  ((aa t * (col + u) + ab t * (row + v) + ac t)%Q, (ad t * (col + u) + ae t * (row + v) + af t)%Q).
Lemma floor_between (q : Q) n : (inject_Z n <= q)%Q -> (q < inject_Z (n + 1))%Q -> Qfloor q = n.
Proof.
  intros H1 H2. pose proof (Qfloor_le q) as F1. pose proof (Qlt_floor q) as F2.
  assert (n <= Qfloor q). { rewrite <- (Qfloor_Z n). now apply Qfloor_resp_le. }
  assert (Qfloor q < n + 1). { rewrite Zlt_Qlt. eapply Qle_lt_trans; [exact F1|exact H2]. } lia.
Qed.
Lemma floor_frac n (u q : Q) : (q == inject_Z n + u)%Q -> (0 <= u)%Q -> (u < 1)%Q -> Qfloor q = n.
Proof. intros E H1 H2. apply floor_between; rewrite E, ?inject_Z_plus; change (inject_Z 1) with 1%Q; lra. Qed.
Lemma index_point t row col u v x y : ~ (det t == 0)%Q -> (x == fst (point t (inject_Z row) (inject_Z col) u v))%Q ->
  (y == snd (point t (inject_Z row) (inject_Z col) u v))%Q ->
  (0 <= u)%Q -> (u < 1)%Q -> (0 <= v)%Q -> (v < 1)%Q -> qindex x y t = (row, col).
Proof.
  intros D Ex Ey U1 U2 V1 V2. unfold qindex, xy_to_rowcol, affine_apply, affine_inv, det, point in *. cbn [aa ab ac ad ae af fst snd] in *.
  set (a := aa t) in *. set (b := ab t) in *. set (c := ac t) in *. set (d := ad t) in *. set (e := ae t) in *. set (f := af t) in *.
  f_equal.
  - apply (floor_frac row v); [|assumption..]. rewrite Ex, Ey. field. intros H. apply D. lra.
  - apply (floor_frac col u); [|assumption..]. rewrite Ex, Ey. field. intros H. apply D. lra.
Qed.
Lemma xy_point t row col o : let '(ro, co) := rc_offset Q (0 # 1) (1 # 2) (1 # 1) o in
  (fst (qxy row col t o) == fst (point t row col co ro))%Q /\ (snd (qxy row col t o) == snd (point t row col co ro))%Q.
Proof. destruct o; cbn; split; ring. Qed.
Lemma index_xy t row col o : ~ (det t == 0)%Q -> o = OCenter \/ o = OUl ->
  let '(x, y) := qxy (inject_Z row) (inject_Z col) t o in qindex x y t = (row, col).
Proof.
  intros D O. pose proof (xy_point t (inject_Z row) (inject_Z col) o) as P. destruct (qxy (inject_Z row) (inject_Z col) t o) as [x y] eqn:E.
  destruct O as [-> | ->]; cbn [rc_offset fst snd] in P; destruct P as [P1 P2]; eapply (index_point t row col _ _ x y D P1 P2); reflexivity || lra.
Qed.
(* the other corners belong to the next column and/or row *)
Lemma index_corner t row col o : ~ (det t == 0)%Q ->
  let '(x, y) := qxy (inject_Z row) (inject_Z col) t o in
  qindex x y t = (row + match o with OLl | OLr => 1 | _ => 0 end, col + match o with OUr | OLr => 1 | _ => 0 end).
Proof.
  intros D. pose proof (xy_point t (inject_Z row) (inject_Z col) o) as P. destruct (qxy (inject_Z row) (inject_Z col) t o) as [x y] eqn:E.
  set (dr := match o with OLl | OLr => 1 | _ => 0 end). set (dc := match o with OUr | OLr => 1 | _ => 0 end).
  apply (index_point t (row + dr) (col + dc) (match o with OCenter => 1 # 2 | _ => 0 end) (match o with OCenter => 1 # 2 | _ => 0 end) x y D);
    try (destruct o; reflexivity || lra).
  - rewrite !inject_Z_plus. destruct o; unfold dr, dc; cbn [rc_offset fst snd] in *; destruct P as [P1 P2]; rewrite P1; cbn [point fst snd]; change (inject_Z 1) with 1%Q; change (inject_Z 0) with 0%Q; change (1 # 1) with 1%Q; change (0 # 1) with 0%Q; ring.
  - rewrite !inject_Z_plus. destruct o; unfold dr, dc; cbn [rc_offset fst snd] in *; destruct P as [P1 P2]; rewrite P2; cbn [point fst snd]; change (inject_Z 1) with 1%Q; change (inject_Z 0) with 0%Q; change (1 # 1) with 1%Q; change (0 # 1) with 0%Q; ring.
Qed.
(* and back: the indexed cell contains the point *)
Lemma point_index t x y row col : ~ (det t == 0)%Q -> qindex x y t = (row, col) ->
  exists u v, (0 <= u)%Q /\ (u < 1)%Q /\ (0 <= v)%Q /\ (v < 1)%Q
    /\ (x == fst (point t (inject_Z row) (inject_Z col) u v))%Q /\ (y == snd (point t (inject_Z row) (inject_Z col) u v))%Q.
Proof.
  intros D H. unfold qindex, xy_to_rowcol in H. destruct (affine_apply Q Qplus Qmult (affine_inv Q Qplus Qmult Qdiv Qopp (1 # 1) t) (x, y)) as [qc qr] eqn:E.
  injection H as Hr Hc. exists (qc - inject_Z col)%Q, (qr - inject_Z row)%Q.
  pose proof (Qfloor_le qc) as C1. pose proof (Qlt_floor qc) as C2. pose proof (Qfloor_le qr) as R1. pose proof (Qlt_floor qr) as R2.
  rewrite Hr in R1, R2. rewrite Hc in C1, C2. rewrite inject_Z_plus in C2, R2. change (inject_Z 1) with 1%Q in C2, R2.
  split; [lra|]. split; [lra|]. split; [lra|]. split; [lra|].
  unfold affine_apply, affine_inv, det, point in *. cbn [aa ab ac ad ae af fst snd] in *.
  set (a := aa t) in *. set (b := ab t) in *. set (c := ac t) in *. set (d := ad t) in *. set (e := ae t) in *. set (f := af t) in *.
  injection E as <- <-. split; field; intros H; apply D; lra.
Qed.

(* ---- C43 ---- *)
Definition pixel (g : grid) : Q := let m := Qabs (aa (g_affine g)) in let n := Qabs (ae (g_affine g)) in if Qle_bool m n then n else m.
Definition coeffs (g : grid) : list Q := let t := g_affine g in [aa t; ab t; ac t; ad t; ae t; af t].
Lemma grids_close_iff a b tol : grids_close a b tol = true <->
  g_crs a = g_crs b /\ g_ny a = g_ny b /\ g_nx a = g_nx b /\ Forall2 (fun x y => Qabs (x - y) <= tol * pixel a)%Q (coeffs a) (coeffs b).
Proof.
  unfold grids_close, pixel, coeffs. set (m := (tol * _)%Q). split.
  - destruct (_ || _) eqn:E; [discriminate|]. intros H. cbn [combine forallb] in H. rewrite !andb_true_iff in H.
    split; [lia|]. split; [lia|]. split; [lia|]. repeat constructor; apply Qle_bool_iff; tauto.
  - intros (E1 & E2 & E3 & F). rewrite E1, E2, E3, !Z.eqb_refl. cbn [negb orb andb combine forallb].
    repeat match goal with H : Forall2 _ (_ :: _) (_ :: _) |- _ => inversion H; clear H; subst end.
    rewrite !andb_true_iff. repeat split; apply Qle_bool_iff; assumption.
Qed.
Lemma pixel_nonneg g : (0 <= pixel g)%Q.
Proof. unfold pixel. destruct (Qle_bool _ _); apply Qabs_nonneg. Qed.
Lemma grids_close_refl a tol : (0 <= tol)%Q -> grids_close a a tol = true.
Proof.
  intros T. apply grids_close_iff. split; [reflexivity|]. split; [reflexivity|]. split; [reflexivity|].
  pose proof (pixel_nonneg a) as P.
  assert (Z0 : forall x, (Qabs (x - x) <= tol * pixel a)%Q).
  { intros x. apply Qle_trans with (Qabs 0); [apply Qle_lteq; right; apply Qabs_wd; ring|]. change (Qabs 0) with 0%Q. now apply Qmult_le_0_compat. }
  repeat (apply Forall2_cons; [apply Z0|]). apply Forall2_nil.
Qed.
Lemma Qabs_sum a b c t m n : (Qabs a <= t)%Q -> (Qabs b <= t)%Q -> (Qabs c <= t)%Q -> (0 <= t)%Q -> (Qabs (a * m + b * n + c) <= t * (Qabs m + Qabs n + 1))%Q.
Proof.
  intros A B C T. eapply Qle_trans; [apply Qabs_triangle|]. eapply Qle_trans; [apply Qplus_le_compat; [apply Qabs_triangle|apply Qle_refl]|].
  rewrite !Qabs_Qmult. pose proof (Qabs_nonneg m). pose proof (Qabs_nonneg n).
  assert (Qabs a * Qabs m <= t * Qabs m)%Q by (apply Qmult_le_compat_r; assumption).
  assert (Qabs b * Qabs n <= t * Qabs n)%Q by (apply Qmult_le_compat_r; assumption). lra.
Qed.
Lemma grids_close_displacement a b tol row col : (0 <= tol)%Q -> grids_close a b tol = true ->
  let p := point (g_affine a) row col 0 0 in let q := point (g_affine b) row col 0 0 in
  (Qabs (fst p - fst q) <= tol * pixel a * (Qabs col + Qabs row + 1))%Q
  /\ (Qabs (snd p - snd q) <= tol * pixel a * (Qabs col + Qabs row + 1))%Q.
Proof.
  intros T H. apply grids_close_iff in H. destruct H as (_ & _ & _ & F). unfold coeffs in F.
  repeat match goal with H : Forall2 _ (_ :: _) (_ :: _) |- _ => inversion H; clear H; subst end.
  assert (TP : (0 <= tol * pixel a)%Q) by (pose proof (pixel_nonneg a); apply Qmult_le_0_compat; assumption).
  cbn [point fst snd]. split.
  - setoid_replace (aa (g_affine a) * (col + 0) + ab (g_affine a) * (row + 0) + ac (g_affine a) - (aa (g_affine b) * (col + 0) + ab (g_affine b) * (row + 0) + ac (g_affine b)))%Q
      with ((aa (g_affine a) - aa (g_affine b)) * col + (ab (g_affine a) - ab (g_affine b)) * row + (ac (g_affine a) - ac (g_affine b)))%Q by ring.
    now apply Qabs_sum.
  - setoid_replace (ad (g_affine a) * (col + 0) + ae (g_affine a) * (row + 0) + af (g_affine a) - (ad (g_affine b) * (col + 0) + ae (g_affine b) * (row + 0) + af (g_affine b)))%Q
      with ((ad (g_affine a) - ad (g_affine b)) * col + (ae (g_affine a) - ae (g_affine b)) * row + (af (g_affine a) - af (g_affine b)))%Q by ring.
    now apply Qabs_sum.
Qed.
Lemma all_same_iff gs : are_all_grids_same gs = true <-> match gs with [] => True | g :: gs => Forall (fun h => grids_close g h tolerance = true) gs end.
Proof. destruct gs as [|g gs]; [easy|]. cbn. rewrite forallb_forall, Forall_forall. reflexivity. Qed.

(* ---- C50 ---- *)
Lemma overview_loop_spec ms m : 0 < ms -> forall fuel k acc, 1 <= k -> (forall j, 1 <= j < k -> ms * 2 ^ j <= m) ->
  acc = map (fun j => 2 ^ j) (zrange 1 k) -> Z.log2_up m + 1 < k + Z.of_nat fuel ->
  exists n, overview_loop fuel m ms (2 ^ k) acc = Ok (map (fun j => 2 ^ j) (zrange 1 (n + 1)))
  /\ k - 1 <= n /\ (forall j, 1 <= j <= n -> ms * 2 ^ j <= m) /\ m < ms * 2 ^ (n + 1).
Proof.
  intros Hms. induction fuel as [|fuel IH]; intros k acc Hk HP EA HF.
  - exfalso. destruct (Z.eq_dec k 1) as [->|N]. { pose proof (Z.log2_up_nonneg m). lia. }
    specialize (HP (k - 1) ltac:(lia)). assert (2 ^ (k - 1) <= m) by (pose proof (Z.pow_pos_nonneg 2 (k - 1)); nia).
    pose proof (Z.log2_up_le_mono _ _ H) as L. rewrite Z.log2_up_pow2 in L by lia. lia.
  - cbn [overview_loop]. destruct (ms * 2 ^ k <=? m) eqn:E.
    + replace (2 ^ k * 2) with (2 ^ (k + 1)) by (rewrite Z.pow_add_r by lia; ring).
      destruct (IH (k + 1) (acc ++ [2 ^ k])) as (n & E' & L & P1 & P2).
      * lia.
      * intros j Hj. destruct (Z.eq_dec j k) as [->|]; [lia|apply HP; lia].
      * rewrite EA, !(zrange_shift 1). replace (k + 1 - 1) with (k - 1 + 1) by lia. rewrite zrange_snoc, !map_app by lia. cbn [map]. now replace (1 + (k - 1)) with k by lia.
      * lia.
      * exists n. split; [exact E'|]. split; [lia|]. auto.
    + exists (k - 1). replace (k - 1 + 1) with k by lia. rewrite EA. split; [reflexivity|]. split; [lia|]. split; [|lia]. intros j Hj. apply HP. lia.
Qed.
Lemma overviews height width ms : 0 < ms -> exists n, 0 <= n /\ auto_overview_factors height width ms = Ok (map (fun j => 2 ^ j) (zrange 1 (n + 1)))
  /\ forall j, 1 <= j -> (j <= n <-> ms * 2 ^ j <= height /\ ms * 2 ^ j <= width).
Proof.
  intros Hms. unfold auto_overview_factors. set (m := Z.min height width).
  destruct (overview_loop_spec ms m Hms (S (Z.to_nat (Z.log2_up m))) 1 []) as (n & E & L & P1 & P2).
  - lia. - intros; lia. - reflexivity. - pose proof (Z.log2_up_nonneg m). lia.
  - exists n. split; [lia|]. split; [exact E|]. intros j Hj. split.
    + intros H. specialize (P1 j ltac:(lia)). lia.
    + intros [H1 H2]. destruct (Z_le_gt_dec j n); [assumption|]. exfalso.
      assert (2 ^ (n + 1) <= 2 ^ j) by (apply Z.pow_le_mono_r; lia). nia.
Qed.
