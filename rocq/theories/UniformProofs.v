(* Proofs about uniform costs *)
From Coq Require Import ZArith Bool Reals List Lia Lra.
From Flocq Require Import Core BinarySingleNaN.
From Verif Require Import Base BaseFacts Heap F64 F64Facts F64Exact CostDist CostSpec DijkstraProofs CostProofs CostPublicProofs UniformSpec.
Import ListNotations.
Open Scope Z_scope.

Lemma scaled_half e x k : scaled (e - 1) x (2 * k) -> scaled e x k.
Proof.
  intros [F E]. split; [exact F|]. rewrite E, mult_IZR. replace e with (e - 1 + 1) at 2 by lia. rewrite bpow_plus. change (bpow radix2 1) with 2%R. ring.
Qed.
Lemma scaled_zero e : scaled e fzero 0.
Proof. split; [reflexivity|]. cbn. now rewrite Rmult_0_l. Qed.
Lemma scaled_unique e x y k : scaled e x k -> scaled e y k -> feqb x y = true.
Proof. intros [Fx Ex] [Fy Ey]. unfold feqb. rewrite (Beqb_correct _ _ x y Fx Fy). rewrite Ex, Ey. apply Req_bool_true. reflexivity. Qed.
Lemma finite_between a x b : is_finite a = true -> is_finite b = true -> fleb a x = true -> fleb x b = true -> is_finite x = true.
Proof.
  intros Fa Fb L1 L2. destruct x as [s|[]| |s m e H]; try reflexivity; exfalso.
  - destruct a as [[]|[]| |[] ? ? ?]; discriminate.
  - destruct b as [[]|[]| |[] ? ? ?]; discriminate.
  - destruct a as [[]|[]| |[] ? ? ?]; discriminate.
Qed.
Lemma not_barrier e x k : scaled e x k -> 0 <= k -> f64_barrier x = false.
Proof.
  intros S H. unfold f64_barrier. rewrite (fltb_exact e x fzero k 0 S (scaled_zero e)). replace (k <? 0) with false by lia. destruct S as [F _]. destruct x as [s|s| |s m e0 B]; try discriminate F; try reflexivity; destruct s; reflexivity.
Qed.

Section Uniform.
Variable p : @problem f64.
Variables e ec dx dy W : Z.
Hypothesis HE : p_elev p = None.
Hypothesis HD : p_diag p = false.
Hypothesis HY : scaled e (p_yscale p) dy.
Hypothesis HX : scaled e (p_xscale p) dx.
Hypothesis HC : forall r c, in_grid p r c -> scaled ec (p_cost p r c) W.
Hypothesis Bx : 0 < dx <= 2 ^ 26.
Hypothesis By : 0 < dy <= 2 ^ 26.
Hypothesis BW : 0 <= W.
Hypothesis Be : -500 <= e <= 400.
Hypothesis Bec : -500 <= ec <= 400.
Hypothesis Btot : W * (p_nrows p * dy + p_ncols p * dx) <= 2 ^ 53.
Notation apart := (blocks_apart dy dx).
Notation path := (path f64_barrier fadd p).
Notation legal := (legal f64_barrier p).

Lemma legal_move r c r' c' : legal r c r' c' -> in_grid p r c /\ in_grid p r' c' /\ (r' = r /\ Z.abs (c' - c) = 1 \/ c' = c /\ Z.abs (r' - r) = 1).
Proof. intros (G & G' & (A & B & N & D) & _). specialize (D HD). split; [exact G|]. split; [exact G'|]. lia. Qed.
Lemma cell_passable r c : in_grid p r c -> passable f64_barrier p r c.
Proof. intros G. split; [exact (not_barrier ec _ W (HC r c G) BW)|now rewrite HE]. Qed.
Lemma of_Z_exact k : Z.abs k <= 2 -> scaled 0 (f64_of_Z k) k.
Proof. intros H. apply f64_of_exact; lia. Qed.

Lemma length_exact dr dc : (dr = 0 /\ Z.abs dc = 1 \/ dc = 0 /\ Z.abs dr = 1) -> scaled e (fsqrt (length2 p dr dc)) (Z.abs dr * dy + Z.abs dc * dx).
Proof.
  intros H. apply fsqrt_exact; [|lia|lia]. unfold length2, sq.
  assert (SY : scaled e (fmul (p_yscale p) (f64_of_Z dr)) (dy * dr)). { replace e with (e + 0) by lia. apply fmul_exact; [exact HY|apply of_Z_exact; lia|nia|lia]. }
  assert (SX : scaled e (fmul (p_xscale p) (f64_of_Z dc)) (dx * dc)). { replace e with (e + 0) by lia. apply fmul_exact; [exact HX|apply of_Z_exact; lia|nia|lia]. }
  assert (QY : scaled (e + e) (fmul (fmul (p_yscale p) (f64_of_Z dr)) (fmul (p_yscale p) (f64_of_Z dr))) (dy * dr * (dy * dr))) by (apply fmul_exact; auto; [|lia]; destruct H as [[-> _]|[_ H]]; [lia|]; assert (dr = 1 \/ dr = -1) as [-> | ->] by lia; nia).
  assert (QX : scaled (e + e) (fmul (fmul (p_xscale p) (f64_of_Z dc)) (fmul (p_xscale p) (f64_of_Z dc))) (dx * dc * (dx * dc))) by (apply fmul_exact; auto; [|lia]; destruct H as [[_ H]|[-> _]]; [|lia]; assert (dc = 1 \/ dc = -1) as [-> | ->] by lia; nia).
  replace ((Z.abs dr * dy + Z.abs dc * dx) * (Z.abs dr * dy + Z.abs dc * dx)) with (dy * dr * (dy * dr) + dx * dc * (dx * dc)).
  - apply fadd_exact; [exact QY|exact QX| |lia]. destruct H as [[-> H]|[-> H]]; [assert (dc = 1 \/ dc = -1) as [-> | ->] by lia|assert (dr = 1 \/ dr = -1) as [-> | ->] by lia]; nia.
  - destruct H as [[-> H]|[-> H]]; [assert (dc = 1 \/ dc = -1) as [-> | ->] by lia|assert (dr = 1 \/ dr = -1) as [-> | ->] by lia]; cbn [Z.abs]; ring.
Qed.
Lemma step_exact r c r' c' : legal r c r' c' -> scaled (e + ec) (step_cost fadd p r c r' c') (W * apart r c r' c') /\ 0 <= 2 * (W * apart r c r' c') <= 2 ^ 53.
Proof.
  intros L. destruct (legal_move _ _ _ _ L) as (G & G' & M). unfold blocks_apart.
  set (k := Z.abs (r' - r) * dy + Z.abs (c' - c) * dx). 
  assert (K : 0 <= 2 * (W * k) <= 2 ^ 53).
  { destruct G as [G1 G2], G' as [G1' G2']. unfold k. destruct M as [[-> M]|[-> M]]; rewrite M, Z.sub_diag; cbn [Z.abs].
    - assert (2 <= p_ncols p) by lia. assert (2 * dx <= p_nrows p * dy + p_ncols p * dx) by nia. pose proof (Z.mul_le_mono_nonneg_l _ _ W BW H0). nia.
    - assert (2 <= p_nrows p) by lia. assert (2 * dy <= p_nrows p * dy + p_ncols p * dx) by nia. pose proof (Z.mul_le_mono_nonneg_l _ _ W BW H0). nia. }
  split; [|exact K]. unfold step_cost, move_length. rewrite HE.
  assert (S1 : scaled (e + -1) (fmul (fsqrt (length2 p (r' - r) (c' - c))) fhalf) (k * 1)).
  { apply fmul_exact; [apply length_exact; lia|apply f64_of_exact; lia| |lia]. unfold k. lia. }
  assert (S2 : scaled ec (fadd (p_cost p r c) (p_cost p r' c')) (W + W)).
  { apply fadd_exact; [apply HC, G|apply HC, G'| |lia]. unfold k in K. destruct M as [[-> M]|[-> M]]; nia. }
  apply scaled_half. replace (e + ec - 1) with (e + -1 + ec) by lia. replace (2 * (W * k)) with (k * 1 * (W + W)) by ring. apply fmul_exact; [exact S1|exact S2|lia|lia].
Qed.
Lemma uniform_steps : steps_ok f64_barrier fadd p.
Proof. intros r c r' c' L. destruct (step_exact _ _ _ _ L) as [[F _] _]. destruct (step_cost fadd p r c r' c'); try discriminate F; reflexivity. Qed.

Lemma path_grid sr sc r c acc : path sr sc r c acc -> in_grid p sr sc /\ in_grid p r c /\ p_source p sr sc <> None.
Proof. induction 1 as [l G S|r c acc r' c' P IH L]; [split; [exact G|split; [exact G|congruence]]|]. destruct IH as (A & _ & B). destruct L as (_ & G' & _). auto. Qed.
Lemma apart_bound sr sc r c : in_grid p sr sc -> in_grid p r c -> 0 <= apart sr sc r c /\ apart sr sc r c + dy <= p_nrows p * dy + p_ncols p * dx /\ apart sr sc r c + dx <= p_nrows p * dy + p_ncols p * dx.
Proof. intros [A1 A2] [B1 B2]. unfold blocks_apart. assert (Z.abs (r - sr) <= p_nrows p - 1) by lia. assert (Z.abs (c - sc) <= p_ncols p - 1) by lia. nia. Qed.

Lemma path_lower sr sc r c acc : path sr sc r c acc -> fleb (f64_of (W * apart sr sc r c) (e + ec)) acc = true.
Proof.
  induction 1 as [l G S|r c acc r' c' P IH L].
  - unfold blocks_apart. rewrite !Z.sub_diag. cbn [Z.abs Z.mul Z.add]. rewrite Z.mul_0_r. erewrite fleb_exact; [|apply f64_of_exact; lia|apply scaled_zero]. reflexivity.
  - destruct (path_grid _ _ _ _ _ P) as (GS & G & _). destruct (legal_move _ _ _ _ L) as (_ & G' & M). destruct (step_exact _ _ _ _ L) as [SE SB].
    pose proof (apart_bound _ _ _ _ GS G) as AB. pose proof (apart_bound _ _ _ _ GS G') as AB'.
    assert (ST : apart r c r' c' = dx \/ apart r c r' c' = dy) by (unfold blocks_apart; destruct M as [[-> M]|[-> M]]; rewrite M, Z.sub_diag; cbn [Z.abs]; lia).
    assert (T : apart sr sc r' c' <= apart sr sc r c + apart r c r' c') by (unfold blocks_apart; assert (Z.abs (r' - sr) <= Z.abs (r - sr) + Z.abs (r' - r)) by lia; assert (Z.abs (c' - sc) <= Z.abs (c - sc) + Z.abs (c' - c)) by lia; nia).
    assert (BK : 0 <= W * apart sr sc r c /\ W * apart sr sc r c + W * apart r c r' c' <= 2 ^ 53) by (destruct ST as [-> | ->]; nia).
    assert (S0 : scaled (e + ec) (f64_of (W * apart sr sc r c) (e + ec)) (W * apart sr sc r c)) by (apply f64_of_exact; lia).
    assert (N0 : fnonneg (f64_of (W * apart sr sc r c) (e + ec)) = true) by (unfold fnonneg; rewrite (fleb_exact _ _ _ _ _ (scaled_zero (e + ec)) S0); lia).
    assert (N1 : fnonneg (step_cost fadd p r c r' c') = true) by (unfold fnonneg; rewrite (fleb_exact _ _ _ _ _ (scaled_zero (e + ec)) SE); lia).
    apply fleb_trans with (fadd (f64_of (W * apart sr sc r c) (e + ec)) (step_cost fadd p r c r' c')); [|now apply fadd_mono].
    assert (S1 : scaled (e + ec) (f64_of (W * apart sr sc r' c') (e + ec)) (W * apart sr sc r' c')) by (apply f64_of_exact; nia).
    erewrite fleb_exact; [|exact S1|apply fadd_exact; [exact S0|exact SE|lia|lia]]. nia.
Qed.

Lemma path_upper sr sc l : in_grid p sr sc -> p_source p sr sc = Some l -> forall n r c, in_grid p r c -> Z.abs (r - sr) + Z.abs (c - sc) = Z.of_nat n ->
  exists acc, path sr sc r c acc /\ scaled (e + ec) acc (W * apart sr sc r c).
Proof.
  intros GS SS. induction n as [|n IH]; intros r c G H.
  - assert (r = sr) as -> by lia. assert (c = sc) as -> by lia. exists fzero. split; [econstructor; eauto|]. unfold blocks_apart. rewrite !Z.sub_diag. cbn [Z.abs Z.mul Z.add]. rewrite Z.mul_0_r. apply scaled_zero.
  - assert (exists r1 c1, in_grid p r1 c1 /\ Z.abs (r1 - sr) + Z.abs (c1 - sc) = Z.of_nat n /\ (r = r1 /\ Z.abs (c - c1) = 1 \/ c = c1 /\ Z.abs (r - r1) = 1)
      /\ Z.abs (r - sr) = Z.abs (r1 - sr) + Z.abs (r - r1) /\ Z.abs (c - sc) = Z.abs (c1 - sc) + Z.abs (c - c1)) as (r1 & c1 & G1 & N1 & M & A1 & A2).
    { unfold in_grid in *. destruct (Z.lt_trichotomy r sr) as [?|[?|?]]; [exists (r + 1), c; lia| |exists (r - 1), c; lia]. destruct (Z.lt_trichotomy c sc) as [?|[?|?]]; [exists r, (c + 1); lia|lia|exists r, (c - 1); lia]. }
    destruct (IH r1 c1 G1 N1) as (acc & P & S). assert (L : legal r1 c1 r c).
    { split; [exact G1|]. split; [exact G|]. split; [unfold neighbours; rewrite HD; lia|]. split; now apply cell_passable. }
    exists (fadd acc (step_cost fadd p r1 c1 r c)). split; [now constructor|]. destruct (step_exact _ _ _ _ L) as [SE _].
    assert (EA : apart sr sc r c = apart sr sc r1 c1 + apart r1 c1 r c) by (unfold blocks_apart; rewrite A1, A2; ring).
    pose proof (apart_bound _ _ _ _ GS G) as AB. rewrite EA, Z.mul_add_distr_l. apply fadd_exact; [exact S|exact SE| |lia]. rewrite <- Z.mul_add_distr_l, <- EA. nia.
Qed.
Lemma path_exact sr sc r c : in_grid p sr sc -> in_grid p r c -> p_source p sr sc <> None -> exists acc, path sr sc r c acc /\ scaled (e + ec) acc (W * apart sr sc r c).
Proof.
  intros GS G S. destruct (p_source p sr sc) as [l|] eqn:E; [|congruence]. apply (path_upper sr sc l GS E (Z.to_nat (Z.abs (r - sr) + Z.abs (c - sc)))); [exact G|lia].
Qed.

(* the least cost of a path is that of the taxicab distance *)
Lemma least_exact sr sc r c d : path sr sc r c d -> (forall sr' sc' acc, path sr' sc' r c acc -> fleb d acc = true) ->
  scaled (e + ec) d (W * apart sr sc r c) /\ forall sr' sc', in_grid p sr' sc' -> p_source p sr' sc' <> None -> W * apart sr sc r c <= W * apart sr' sc' r c.
Proof.
  intros P MIN. destruct (path_grid _ _ _ _ _ P) as (GS & G & SS). pose proof (path_lower _ _ _ _ _ P) as LO. destruct (path_exact sr sc r c GS G SS) as (acc & PA & SA). pose proof (MIN _ _ _ PA) as HI.
  pose proof (apart_bound _ _ _ _ GS G) as AB. assert (S0 : scaled (e + ec) (f64_of (W * apart sr sc r c) (e + ec)) (W * apart sr sc r c)) by (apply f64_of_exact; nia).
  assert (SD : scaled (e + ec) d (W * apart sr sc r c)).
  { destruct S0 as [F0 E0], SA as [FA EA]. assert (FD : is_finite d = true) by (exact (finite_between _ _ _ F0 FA LO HI)). split; [exact FD|]. rewrite fleb_finite in LO, HI by assumption.
    rewrite E0 in LO. rewrite EA in HI. revert LO HI. case Rle_bool_spec; [|discriminate]. intros L1 _. case Rle_bool_spec; [|discriminate]. intros L2 _. lra. }
  split; [exact SD|]. intros sr' sc' G' S'. destruct (path_exact sr' sc' r c G' G S') as (acc' & PA' & SA'). pose proof (MIN _ _ _ PA') as L. rewrite (fleb_exact _ _ _ _ _ SD SA') in L. lia.
Qed.
End Uniform.

(* ---- the public function ---- *)
Lemma at_rc_get {A} (d : A) l ncols r c x : get l (r * ncols + c) = Ok x -> at_rc d l ncols r c = x.
Proof. intros H. pose proof (get_ok_range _ _ _ H) as R. rewrite (get_nth d l _ R) in H. unfold at_rc. congruence. Qed.
Lemma get_at_rc {A} (d : A) l nrows ncols r c : len l = nrows * ncols -> 0 <= r < nrows -> 0 <= c < ncols -> get l (r * ncols + c) = Ok (at_rc d l ncols r c).
Proof. intros L Hr Hc. apply get_nth. rewrite L. nia. Qed.
Lemma apart_sym dy dx r c r' c' : blocks_apart dy dx r c r' c' = blocks_apart dy dx r' c' r c.
Proof. unfold blocks_apart. replace (Z.abs (r' - r)) with (Z.abs (r - r')) by lia. replace (Z.abs (c' - c)) with (Z.abs (c - c')) by lia. reflexivity. Qed.

Theorem uniform_taxi costs nrows ncols sources snull xres yres e ec sx sy W :
  0 <= nrows -> 0 <= ncols -> uniform costs (nrows * ncols) ec W -> len sources = nrows * ncols ->
  scaled e xres sx -> scaled e yres sy -> 0 < Z.abs sx <= 2 ^ 26 -> 0 < Z.abs sy <= 2 ^ 26 -> 0 <= W -> -500 <= e <= 400 -> -500 <= ec <= 400 ->
  W * (nrows * Z.abs sy + ncols * Z.abs sx) <= 2 ^ 53 ->
  exists cd tr al mask nv, cost_distance_analysis costs nrows ncols sources snull None (xres, yres) 4 = Ok ((cd, nv), (tr, -1), (al, snull), mask)
  /\ forall r c, 0 <= r < nrows -> 0 <= c < ncols -> exists b d a,
       get mask (r * ncols + c) = Ok b /\ get cd (r * ncols + c) = Ok d /\ get al (r * ncols + c) = Ok a
       /\ (b = true /\ d = nv /\ a = snull /\ (forall sr sc l, 0 <= sr < nrows -> 0 <= sc < ncols -> ~ source_at sources snull ncols sr sc l)
           \/ b = false /\ exists sr sc, (0 <= sr < nrows /\ 0 <= sc < ncols) /\ source_at sources snull ncols sr sc a
              /\ scaled (e + ec) d (W * blocks_apart (Z.abs sy) (Z.abs sx) r c sr sc)
              /\ forall sr' sc' l, 0 <= sr' < nrows -> 0 <= sc' < ncols -> source_at sources snull ncols sr' sc' l ->
                 W * blocks_apart (Z.abs sy) (Z.abs sx) r c sr sc <= W * blocks_apart (Z.abs sy) (Z.abs sx) r c sr' sc').
Proof.
  intros Hr Hc (LD & EM & HU & HN) LS SX SY BX BY BW Be Bec BT.
  assert (WF : well_formed costs (nrows * ncols)).
  { split; [exact LD|]. assert (LF : len (full (nrows * ncols) false) = nrows * ncols) by (unfold len, full; rewrite repeat_length; nia).
    split; [rewrite EM; exact LF|]. split.
    - intros _ i Hi. rewrite EM. rewrite (get_nth false) by (rewrite LF; exact Hi). f_equal. apply nth_repeat.
    - intros nv En Nn. rewrite EM. destruct (HN nv En) as [X|X]; [congruence|]. unfold full. rewrite <- LD. unfold len. rewrite Nat2Z.id. clear - X. induction (r_data costs) as [|x l IH]; [reflexivity|]. cbn [repeat length map].
      rewrite (X 0 x eq_refl). f_equal. apply IH. intros i y G. apply (X (i + 1) y). pose proof (get_ok_range _ _ _ G) as R. unfold get in *. destruct (Z.ltb_spec i 0); [discriminate|]. destruct (Z.ltb_spec (i + 1) 0); [lia|]. replace (Z.to_nat (i + 1)) with (S (Z.to_nat i)) by lia. exact G. }
  set (p := public_problem costs nrows ncols sources snull None (xres, yres) false).
  assert (GM : forall r c, 0 <= r < nrows -> 0 <= c < ncols -> at_rc false (r_mask costs) ncols r c = false) by (intros r c _ _; rewrite EM; unfold at_rc, full; apply nth_repeat).
  assert (HC : forall r c, in_grid p r c -> scaled ec (p_cost p r c) W).
  { intros r c [G1 G2]. cbn [p public_problem p_cost p_nrows p_ncols] in *. rewrite (GM r c G1 G2). apply (HU (r * ncols + c)). apply (get_at_rc fzero _ nrows); assumption. }
  assert (HY : scaled e (p_yscale p) (Z.abs sy)) by (apply fabs_exact; exact SY). assert (HX : scaled e (p_xscale p) (Z.abs sx)) by (apply fabs_exact; exact SX).
  assert (SO : steps_ok f64_barrier fadd p) by (exact (uniform_steps p e ec (Z.abs sx) (Z.abs sy) W eq_refl eq_refl HY HX HC BX BY BW Be Bec BT)).
  assert (POS : forall x s, scaled e x s -> 0 < Z.abs s -> fleb (fabs x) fzero = false).
  { intros x s S P. rewrite (fleb_exact e _ _ (Z.abs s) 0 (fabs_exact _ _ _ S) (scaled_zero e)). lia. }
  assert (SRC : forall r c, 0 <= r < nrows -> 0 <= c < ncols -> forall l, source_at sources snull ncols r c l <-> p_source p r c = Some l).
  { intros r c Hr' Hc' l. unfold source_at. rewrite (get_at_rc 0 sources nrows ncols r c LS Hr' Hc'). cbn [p public_problem p_source]. destruct (Z.eqb_spec (at_rc 0 sources ncols r c) snull) as [E|E]; split.
    - intros [[= <-] X]. congruence.
    - discriminate.
    - intros [[= <-] _]. reflexivity.
    - intros [= <-]. auto. }
  destruct (public_spec costs nrows ncols sources snull None (xres, yres) 4 Hr Hc WF LS ltac:(discriminate) (POS _ _ SX (proj1 BX)) (POS _ _ SY (proj1 BY)) (or_introl eq_refl) SO) as (cd & tr & al & mask & EQ & _ & _ & _ & _ & CELLS).
  change (4 =? 8) with false in CELLS. fold p in CELLS. eexists cd, tr, al, mask, _. split; [exact EQ|]. intros r c Gr Gc. assert (G : in_grid p r c) by (split; assumption).
  destruct (CELLS r c G) as (b & d & t & a & GB & GD & _ & GA & MB & MT & MF). exists b, d, a. split; [exact GB|]. split; [exact GD|]. split; [exact GA|]. rewrite (GM r c Gr Gc) in MB.
  destruct b.
  - left. destruct (MT eq_refl) as (-> & _ & ->). split; [reflexivity|]. split; [reflexivity|]. split; [reflexivity|]. intros sr sc l Hsr Hsc S. apply (SRC sr sc Hsr Hsc) in S.
    destruct (path_exact p e ec (Z.abs sx) (Z.abs sy) W eq_refl eq_refl HY HX HC BX BY BW Be Bec BT sr sc r c (conj Hsr Hsc) G ltac:(congruence)) as (acc & PA & SA). apply proj1 in MB. destruct (MB eq_refl) as [X|X]; [discriminate X|]. rewrite (X _ _ _ PA) in SA. destruct SA as [F _]. discriminate F.
  - right. split; [reflexivity|]. destruct (MF eq_refl) as (FD & CD & _ & _ & sr & sc & SS & P). destruct (path_grid p _ _ _ _ _ P) as ((Hsr & Hsc) & _ & _).
    assert (MIN : forall sr' sc' acc, path f64_barrier fadd p sr' sc' r c acc -> fleb d acc = true) by (destruct CD as [(_ & _ & M)|[-> _]]; [exact M|discriminate FD]).
    destruct (least_exact p e ec (Z.abs sx) (Z.abs sy) W eq_refl eq_refl HY HX HC BX BY BW Be Bec BT sr sc r c d P MIN) as [SD LE].
    exists sr, sc. split; [split; assumption|]. split; [apply (SRC sr sc Hsr Hsc); exact SS|]. rewrite (apart_sym _ _ r c sr sc). split; [exact SD|].
    intros sr' sc' l Hr' Hc' S'. apply (SRC sr' sc' Hr' Hc') in S'. rewrite (apart_sym _ _ r c sr' sc'). apply LE; [split; assumption|congruence].
Qed.
