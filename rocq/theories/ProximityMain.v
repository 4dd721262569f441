From Verif Require Import BaseFacts Proximity ProximityProofs.
From Coq Require Import ZifyBool ZifyNat.
Open Scope Z_scope.

Lemma side_lt v a b : v = 1 \/ v = -1 -> (v * a < v * b <-> (v = 1 /\ a < b) \/ (v = -1 /\ b < a)).
Proof. intros [->| ->]; lia. Qed.
Lemma side_le v a b : v = 1 \/ v = -1 -> (v * a <= v * b <-> (v = 1 /\ a <= b) \/ (v = -1 /\ b <= a)).
Proof. intros [->| ->]; lia. Qed.
Lemma mul_le a b p : 0 < p -> a <= b -> a * p <= b * p.
Proof. nia. Qed.
Lemma mul_lt_inv a b p : 0 < p -> a * p < b * p -> a < b.
Proof. nia. Qed.

Section Main.
Context {A X N P S : Type}.
Variable ar : arith X N P.
Variable target : A -> bool.
Variable second : Z -> Z -> Z -> Z -> res S.
Variables (xc yc : list X).
Variable src : list (list A).
Variables ny nx : Z.
Hypothesis AR : arith_ok ar.
Hypothesis ny_src : len src = ny.
Hypothesis nx_src : forall i row, get src i = Ok row -> len row = nx.
Hypothesis nx_xc : len xc = nx.
Hypothesis ny_yc : len yc = ny.
(* The part of the array that holds raster cells (a chunk is padded). *)
Variables r0 r1 c0 c1 : Z.
Definition inr (i j : Z) : Prop := r0 <= i < r1 /\ c0 <= j < c1.
Variable sec : Z -> Z -> Z -> Z -> S.
Hypothesis second_ok : forall i j ti tj, 0 <= i < ny -> 0 <= j < nx -> tgt target src ti tj ->
  second i j ti tj = Ok (sec i j ti tj).

Notation none := Proximity.none.
Notation cand := Proximity.cand.
Notation tgt := (tgt target src).
Notation ctgt := (ctgt target src).
Notation D := (D ar xc yc).
Notation near_ok := (near_ok target src).
Notation written := (written ar sec).
Notation pixel := (pixel ar target xc yc src).

(* p is the proximity of cell (i, j) according to target c *)
Definition value_of (i j : Z) (c : cand) (p : P) : Prop :=
  (tgt i j /\ c = (j, i) /\ p = pzero ar)
  \/ (~ tgt i j /\ p = psqrt ar (D c i j)
      /\ nle ar (D c i j) (max2 ar) = true /\ nlt ar (D c i j) (max2_2 ar) = true).

Definition cell (i j : Z) (w0 : S) (unset : P) (p : P) (w : S) : Prop :=
  (p = unset /\ w = w0)
  \/ exists c, ctgt c /\ value_of i j c p /\ w = sec i j (snd c) (fst c).

(* moving by one row or column changes the distance m by a fixed length *)
Definition additive (m : cand -> Z -> Z -> Z) : Prop :=
  (exists h, forall i, 0 <= h i
    /\ (forall c j, m c (i + 1) j <= m c i j + h i)
    /\ (forall c j, m c i j <= m c (i + 1) j + h i)
    /\ (forall c j, snd c <= i -> m c (i + 1) j = m c i j + h i)
    /\ (forall c j, i + 1 <= snd c -> m c i j = m c (i + 1) j + h i))
  /\ (exists h, forall j, 0 <= h j
    /\ (forall c i, m c i (j + 1) <= m c i j + h j)
    /\ (forall c i, m c i j <= m c i (j + 1) + h j)
    /\ (forall c i, fst c <= j -> m c i (j + 1) = m c i j + h j)
    /\ (forall c i, j + 1 <= fst c -> m c i j = m c i (j + 1) + h j)).
(* the larger of the distances along the two axes, on a grid of cells p x q *)
Definition maximum (m : cand -> Z -> Z -> Z) : Prop :=
  (exists p q, 0 < p /\ 0 < q /\ forall c i j, m c i j = Z.max (Z.abs (fst c - j) * p) (Z.abs (snd c - i) * q))
  /\ (forall c c' i j, ctgt c -> ctgt c' -> inr i j ->
        nlt ar (D c i j) (D c' i j) = true -> m c i j < m c' i j).

(* An abstract distance m (in integer units) for which the scan is exact. *)
Record regular (m : cand -> Z -> Z -> Z) (B B2 : Z) : Prop := {
  m_bounds : B < B2;
  m_region : forall c, ctgt c -> inr (snd c) (fst c);
  m_nonneg : forall c i j, 0 <= m c i j;
  m_self : forall i j, m (j, i) i j = 0;
  m_order : forall c c' i j, ctgt c -> ctgt c' -> inr i j ->
    nlt ar (D c i j) (D c' i j) = false -> m c' i j <= m c i j;
  m_range : forall c i j, ctgt c -> inr i j -> m c i j < B2 ->
    nlt ar (D c i j) (max2_2 ar) = true;
  m_max : forall c i j, ctgt c -> inr i j -> m c i j <= B ->
    nle ar (D c i j) (max2 ar) = true;
  m_sqrt : forall c c' i j, ctgt c -> ctgt c' -> inr i j ->
    nlt ar (D c' i j) (max2_2 ar) = true ->
    if lt_sqr ar (D c i j) (psqrt ar (D c' i j))
    then m c i j <= m c' i j else m c' i j <= m c i j;
  m_steps : additive m \/ maximum m
}.

Lemma neg_value i j c p : ctgt c -> 0 <= i < ny -> 0 <= j < nx -> value_of i j c p ->
  pneg ar p = false /\ pnonneg ar p = true.
Proof.
  intros TC Hi Hj [(_ & _ & ->)|(_ & -> & _ & L)].
  - split; [apply (neg_zero ar AR)|apply (nonneg_zero ar AR)].
  - destruct (D_dist ar target second xc yc src ny nx ny_src nx_src nx_xc ny_yc c i j TC Hi Hj)
      as (x1 & y1 & x2 & y2 & _ & _ & _ & _ & E). rewrite E in *.
    split; [now apply (neg_sqrt ar AR)|now apply (nonneg_sqrt ar AR)].
Qed.

(* one pass at one cell keeps the cell's description *)
Lemma pixel_cell i j w0 p n pv nxt p' n' q' w :
  0 <= i < ny -> 0 <= j < nx -> near_ok n' ->
  pixel i j p n none pv nxt p' n' q' ->
  cell i j w0 (pminus1 ar) p w -> cell i j w0 (pminus1 ar) p' (written i j p' q' w).
Proof.
  intros Hi Hj HN PX HC. destruct PX as [(T & -> & -> & ->)|(NT & HC' & _ & PX)].
  - right. exists (j, i). split; [exact T|]. split; [left; auto|].
    unfold ProximityProofs.written. rewrite (nonneg_zero ar AR). cbn [fst snd].
    replace (0 <=? j) with true by lia. reflexivity.
  - destruct (_ && _ && _) eqn:EU in PX.
    + destruct PX as [-> ->].
      apply andb_true_iff in EU. destruct EU as [EU _]. apply andb_true_iff in EU.
      destruct EU as [E0 EM].
      assert (TC : ctgt n') by (destruct HN; [lia|assumption]).
      assert (V : value_of i j n' (psqrt ar (D n' i j))).
      { right. destruct HC' as [HC'|(_ & _ & L)]; [lia|]. auto. }
      right. exists n'. split; [exact TC|]. split; [exact V|].
      unfold ProximityProofs.written. rewrite E0.
      destruct (neg_value i j n' _ TC Hi Hj V) as [_ ->]. reflexivity.
    + destruct PX as [-> ->]. unfold ProximityProofs.written. cbn. exact HC.
Qed.

(* ---------------- upper bounds ---------------- *)

Section Exact.
Variable m : cand -> Z -> Z -> Z.
Variables B B2 : Z.
Hypothesis AD : regular m B B2.

(* candidate n at (i, j) is at least as near as t *)
Definition best (i j : Z) (t n : cand) : Prop :=
  inr i j -> m t i j < B2 -> 0 <= fst n /\ m n i j <= m t i j.

(* proximity p at (i, j) is at most the distance of t *)
Definition atmost (i j : Z) (t : cand) (p : P) : Prop :=
  inr i j -> m t i j <= B -> exists c, ctgt c /\ value_of i j c p /\ m c i j <= m t i j.

Lemma pixel_best i j p n q pv nxt p' n' q' t c :
  0 <= i < ny -> 0 <= j < nx ->
  near_ok n' -> pixel i j p n q pv nxt p' n' q' ->
  considered n pv nxt c -> near_ok c -> best i j t c -> best i j t n'.
Proof.
  intros Hi Hj HN PX HC NC HB IR HT. destruct (HB IR HT) as [F L].
  destruct PX as [(T & _ & -> & _)|(NT & _ & HM & _)].
  - cbn [fst]. split; [lia|]. rewrite (m_self _ _ _ AD). apply (m_nonneg _ _ _ AD).
  - assert (TC : ctgt c) by (destruct NC; [lia|assumption]).
    destruct (proj1 HM c HC F) as [F' L'].
    { apply (m_range _ _ _ AD); auto. lia. }
    split; [exact F'|].
    assert (TC' : ctgt n') by (destruct HN; [lia|assumption]).
    pose proof (m_order _ _ _ AD c n' i j TC TC' IR L'). lia.
Qed.

Lemma pixel_self i j p n q pv nxt p' n' q' :
  0 <= j -> tgt i j -> pixel i j p n q pv nxt p' n' q' -> best i j (j, i) n'.
Proof.
  intros Hj T [(_ & _ & -> & _)|(NT & _)]; [|contradiction].
  intros _ _. cbn. split; [exact Hj|lia].
Qed.

(* ctgt n' and best give the bound on the proximity *)
Lemma pixel_atmost i j w0 w p n pv nxt p' n' q' t :
  0 <= i < ny -> 0 <= j < nx ->
  near_ok n' -> pixel i j p n none pv nxt p' n' q' ->
  cell i j w0 (pminus1 ar) p w -> best i j t n' \/ atmost i j t p -> atmost i j t p'.
Proof.
  intros Hi Hj HN PX HC HB IR HT.
  destruct PX as [(T & -> & -> & ->)|(NT & HC' & _ & PX)].
  { exists (j, i). split; [exact T|]. split; [left; auto|].
    rewrite (m_self _ _ _ AD). apply (m_nonneg _ _ _ AD). }
  pose proof (m_bounds _ _ _ AD) as MB.
  destruct (_ && _ && _) eqn:EU in PX; destruct PX as [-> _].
  - apply andb_true_iff in EU. destruct EU as [EU EI]. apply andb_true_iff in EU.
    destruct EU as [E0 EM].
    assert (TC : ctgt n') by (destruct HN; [lia|assumption]).
    exists n'. split; [exact TC|]. split.
    { right. destruct HC' as [HC'|(_ & _ & L)]; [lia|]. auto. }
    destruct HB as [HB|HB]; [apply HB; [exact IR|lia]|].
    destruct (HB IR HT) as (c & Tc & Vc & Lc).
    destruct (neg_value i j c p Tc Hi Hj Vc) as [NP _]. rewrite NP in EI. cbn in EI.
    destruct Vc as [(C & _)|(_ & -> & _ & L2)]; [contradiction|].
    pose proof (m_sqrt _ _ _ AD n' c i j TC Tc IR L2) as Q. rewrite EI in Q. lia.
  - destruct HB as [HB|HB]; [|exact (HB IR HT)].
    destruct (HB IR ltac:(lia)) as [F L].
    assert (TC : ctgt n') by (destruct HN; [lia|assumption]).
    assert (NM : nle ar (D n' i j) (max2 ar) = true) by (apply (m_max _ _ _ AD); auto; lia).
    replace (0 <=? fst n') with true in EU by lia. rewrite NM in EU. cbn [andb] in EU.
    apply orb_false_iff in EU. destruct EU as [E1 E2].
    destruct HC as [[-> _]|(c & Tc & Vc & _)].
    { rewrite (neg_minus1 ar AR) in E1. discriminate. }
    exists c. split; [exact Tc|]. split; [exact Vc|].
    destruct Vc as [(C & _)|(_ & -> & _ & L2)]; [contradiction|].
    pose proof (m_sqrt _ _ _ AD n' c i j TC Tc IR L2) as Q. rewrite E2 in Q. lia.
Qed.

(* one pass over a line: bounds inherited from the line's own candidates *)
Lemma line_keep fwd i s t :
  0 <= i < ny -> line_ok target src nx s -> line_ok target src nx t ->
  (forall j, 0 <= j < nx -> line_rel ar target xc yc src nx fwd i s t j) ->
  forall tg j n n', 0 <= j < nx -> get (l_near s) j = Ok n -> get (l_near t) j = Ok n' ->
    best i j tg n -> best i j tg n'.
Proof.
  intros Hi (_ & _ & _ & HS) (_ & _ & _ & HT) R tg j n n' Hj G G' HB.
  destruct (R j Hj) as (p & n1 & q & p' & n2 & q' & G1 & G2 & G3 & G4 & G5 & G6 & PX).
  rewrite G in G2. injection G2 as <-. rewrite G' in G5. injection G5 as <-.
  assert (N1 : near_ok n) by eauto. assert (N2 : near_ok n') by eauto.
  refine (pixel_best i j _ _ _ _ _ _ _ _ tg n Hi Hj N2 PX _ N1 HB). now left.
Qed.

(* a forward pass carries targets of the row to the right, a backward pass to
   the left *)
Lemma line_row fwd i s t : additive m ->
  0 <= i < ny -> line_ok target src nx s -> line_ok target src nx t ->
  (forall j, 0 <= j < nx -> line_rel ar target xc yc src nx fwd i s t j) ->
  forall c j n', tgt i c -> 0 <= j < nx -> (if fwd then c <= j else j <= c) ->
    get (l_near t) j = Ok n' -> best i j (c, i) n'.
Proof.
  intros AM Hi HLs (LP & LN & LQ & HT) R c j n' T Hj Hd.
  pose proof (tgt_range target second src ny nx ny_src nx_src _ _ T) as [_ Rc].
  destruct (proj2 AM) as (h & Hh).
  (* distance from c, as a natural number *)
  set (k := if fwd then j - c else c - j).
  assert (Hk : 0 <= k) by (unfold k; destruct fwd; lia).
  assert (Ej : j = if fwd then c + k else c - k) by (unfold k; destruct fwd; lia).
  clearbody k. revert j n' Hj Hd Ej. pattern k. apply natlike_ind; [| |exact Hk].
  - intros j n' Hj Hd -> G'. assert (E : (if fwd then c + 0 else c - 0) = c) by (destruct fwd; lia).
    rewrite E in *. destruct (R c Rc) as (p & n1 & q & p' & n2 & q' & G1 & G2 & G3 & G4 & G5 & G6 & PX).
    rewrite G' in G5. injection G5 as <-. eapply pixel_self; eauto. lia.
  - intros k' Hk' IH j n' Hj Hd Ej G'.
    destruct (R j Hj) as (p & n1 & q & p' & n2 & q' & G1 & G2 & G3 & G4 & G5 & G6 & PX).
    rewrite G' in G5. injection G5 as <-.
    set (jp := j - (if fwd then 1 else -1)) in *.
    assert (Hjp : 0 <= jp < nx) by (unfold jp; destruct fwd; lia).
    destruct (get_range (l_near t) jp) as (np & Gp); [lia|].
    assert (BP : best i jp (c, i) np).
    { apply IH; auto; unfold jp; destruct fwd; lia. }
    assert (NP : near_ok np) by eauto.
    assert (CS : considered n1
         (if j =? (if fwd then 0 else nx - 1) then None else oget (l_near t) jp)
         (if j + (if fwd then 1 else -1) =? (if fwd then nx else -1) then None
          else oget (l_near s) (j + (if fwd then 1 else -1))) np).
    { right; left. unfold oget. rewrite Gp.
      replace (j =? (if fwd then 0 else nx - 1)) with false; [reflexivity|].
      destruct fwd; lia. }
    eapply pixel_best; eauto.
    (* the neighbour's candidate, seen from here *)
    intros IR HT'. unfold best in BP.
    assert (IP : inr i jp).
    { pose proof (m_region _ _ _ AD (c, i) T) as [_ IC]. cbn [fst snd] in IC.
      destruct IR as [IR1 IR2]. split; [exact IR1|]. unfold jp. destruct fwd; lia. }
    specialize (BP IP).
    destruct (Hh jp) as (h0 & T1 & T2 & T3 & T4). destruct (Hh j) as (h0' & T1' & T2' & T3' & T4').
    destruct fwd.
    + assert (Ejp : j = jp + 1) by (unfold jp; lia). rewrite Ejp in HT' |- *.
      specialize (T3 (c, i) i ltac:(cbn; lia)). specialize (T1 np i). lia.
    + assert (Ejp : jp = j + 1) by (unfold jp; lia). rewrite Ejp in BP.
      specialize (T4' (c, i) i ltac:(cbn; lia)). specialize (T2' np i). lia.
Qed.

(* The row i is entered with the candidates near0 of the row i - v; the targets
   considered lie in this row or before it. *)
Section Row.
Variable v i : Z.
Hypothesis Hv : v = 1 \/ v = -1.
Hypothesis Hi : 0 <= i < ny.
Variable near0 : list cand.
Hypothesis N0 : len near0 = nx /\ forall j c, get near0 j = Ok c -> near_ok c.
Hypothesis before : forall tg, ctgt tg -> v * snd tg < v * i ->
  forall j n, get near0 j = Ok n -> best (i - v) j tg n.

(* the candidate of the row before is kept or replaced by a nearer one *)
Definition keeps (near : list cand) : Prop := forall j a n, get near0 j = Ok a -> get near j = Ok n ->
  inr i j -> 0 <= fst a -> m a i j < B2 -> 0 <= fst n /\ (n = a \/ m n i j < m a i j \/ m n i j = 0).

Lemma keeps_start : keeps near0.
Proof. intros j a n G1 G2 _ F _. rewrite G1 in G2. injection G2 as <-. auto. Qed.

Lemma keeps_line fwd s t : maximum m -> line_ok target src nx s -> line_ok target src nx t ->
  (forall j, 0 <= j < nx -> line_rel ar target xc yc src nx fwd i s t j) ->
  keeps (l_near s) -> keeps (l_near t).
Proof.
  intros [_ MS] (_ & _ & _ & HS) (_ & _ & _ & HT) R K j a n' Ga Gn' IR Fa La.
  pose proof (get_ok_range _ _ _ Ga) as Hj. rewrite (proj1 N0) in Hj.
  destruct (R j Hj) as (p & n & q & p' & n2 & q' & G1 & G2 & G3 & G4 & G5 & G6 & PX).
  rewrite Gn' in G5. injection G5 as <-.
  destruct (K j a n Ga G2 IR Fa La) as [Fn Kn].
  assert (Ta : ctgt a) by (destruct (proj2 N0 _ _ Ga); [lia|assumption]).
  assert (Tn : ctgt n) by (destruct (HS _ _ G2); [lia|assumption]).
  assert (Ln : m n i j <= m a i j).
  { destruct Kn as [->|[Kn|Kn]]; [lia|lia|]. pose proof (m_nonneg _ _ _ AD a i j). lia. }
  destruct PX as [(T & _ & -> & _)|(NT & _ & [HM TIE] & _)].
  - cbn [fst]. split; [lia|]. right. right. apply (m_self _ _ _ AD).
  - assert (RN : nlt ar (D n i j) (max2_2 ar) = true) by (apply (m_range _ _ _ AD); auto; lia).
    destruct (HM n (or_introl eq_refl) Fn RN) as [F' _]. split; [exact F'|].
    assert (Tn' : ctgt n') by (destruct (HT _ _ Gn'); [lia|assumption]).
    destruct (TIE Fn RN) as [->|LT]; [exact Kn|].
    pose proof (MS n' n i j Tn' Tn IR LT) as L. right. left. lia.
Qed.

(* a pass carries the targets on the side it comes from *)
Lemma line_maximum fwd s t : maximum m -> line_ok target src nx s -> line_ok target src nx t ->
  (forall j, 0 <= j < nx -> line_rel ar target xc yc src nx fwd i s t j) -> keeps (l_near s) ->
  forall tg, ctgt tg -> v * snd tg <= v * i ->
  forall j n', 0 <= j < nx -> (if fwd : bool then fst tg <= j else j <= fst tg) ->
    get (l_near t) j = Ok n' -> best i j tg n'.
Proof.
  intros MX Ls Lt R K tg TT HV j n' Hj Hd.
  pose proof (keeps_line fwd s t MX Ls Lt R K) as Kt.
  destruct (proj1 MX) as (p & q & Hp & Hq & EM).
  pose proof (tgt_range target second src ny nx ny_src nx_src _ _ TT) as [_ Rc].
  pose proof (m_region _ _ _ AD tg TT) as [RT1 RT2].
  set (k := if fwd then j - fst tg else fst tg - j).
  assert (Hk : 0 <= k) by (unfold k; destruct fwd; lia).
  assert (Ej : j = if fwd then fst tg + k else fst tg - k) by (unfold k; destruct fwd; lia).
  clearbody k. set (y := Z.abs (snd tg - i)).
  (* candidates of the row before, and the distance of the target there *)
  assert (PREV : forall j', inr i j' -> 0 <= j' < nx -> 0 < y -> m tg i j' < B2 ->
    exists a, get near0 j' = Ok a /\ 0 <= fst a
      /\ Z.max (Z.abs (fst a - j') * p) (Z.abs (snd a - (i - v)) * q) <= Z.max (Z.abs (fst tg - j') * p) (y * q - q)
      /\ Z.abs (snd a - i) <= Z.abs (snd a - (i - v)) + 1).
  { intros j' IR Hj' Hy LT. destruct (get_range near0 j') as (a & Ga); [rewrite (proj1 N0); exact Hj'|].
    assert (SV : v * snd tg < v * i) by (apply (side_le _ _ _ Hv) in HV; apply (side_lt _ _ _ Hv); unfold y in Hy; lia).
    pose proof (proj1 (side_lt _ _ _ Hv) SV) as SV'.
    assert (IP : inr (i - v) j') by (destruct IR as [I1 I2]; split; [lia|exact I2]).
    assert (EY : Z.abs (snd tg - (i - v)) = y - 1) by (unfold y; lia).
    assert (EQ : m tg (i - v) j' = Z.max (Z.abs (fst tg - j') * p) (y * q - q)) by (rewrite EM, EY; lia).
    assert (EQi : m tg i j' = Z.max (Z.abs (fst tg - j') * p) (y * q)) by (now rewrite EM).
    destruct (before tg TT SV j' a Ga IP) as [Fa La]; [lia|].
    exists a. rewrite EQ, EM in La. split; [exact Ga|]. split; [exact Fa|]. split; [exact La|]. lia. }
  revert j n' Hj Hd Ej. pattern k. apply natlike_ind; [| |exact Hk]; clear k Hk.
  - intros j n' Hj Hd Ej G' IR HT.
    assert (E0 : j = fst tg) by (destruct fwd; lia). clear Ej Hd.
    destruct (Z.eq_dec y 0) as [Y0|Y0].
    + assert (ES : snd tg = i) by (unfold y in Y0; lia).
      destruct (R j Hj) as (p0 & n1 & q0 & p' & n2 & q' & G1 & G2 & G3 & G4 & G5 & G6 & PX).
      rewrite G' in G5. injection G5 as <-. destruct tg as [c r]. cbn [fst snd] in *. subst r c.
      refine (pixel_self i j _ _ _ _ _ _ _ _ _ TT PX IR HT). lia.
    + destruct (PREV j IR Hj ltac:(unfold y in *; lia) HT) as (a & Ga & Fa & La & Va).
      assert (MT : m tg i j = y * q) by (rewrite EM; fold y; rewrite <- E0, Z.sub_diag; cbn; lia).
      replace (Z.abs (fst tg - j)) with 0 in La by lia.
      assert (Hy : 0 < y) by (unfold y in *; lia).
      pose proof (mul_le 1 y q Hq ltac:(lia)) as Y1.
      assert (Wa : Z.abs (snd a - (i - v)) <= y - 1) by (assert (Z.abs (snd a - (i - v)) < y) by (apply (mul_lt_inv _ _ q Hq); lia); lia).
      pose proof (mul_le (Z.abs (snd a - i)) y q Hq ltac:(lia)) as Y2.
      assert (MA : m a i j <= y * q) by (rewrite EM; lia).
      destruct (Kt j a n' Ga G' IR Fa ltac:(lia)) as [Fn Kn]. split; [exact Fn|].
      destruct Kn as [->|[Kn|Kn]]; lia.
  - intros k Hk IH j n' Hj Hd Ej G' IR HT.
    assert (EX : Z.abs (fst tg - j) = k + 1) by (destruct fwd; lia).
    assert (MT : m tg i j = Z.max ((k + 1) * p) (y * q)) by (rewrite EM, EX; reflexivity).
    destruct (Z_lt_ge_dec ((k + 1) * p) (y * q)) as [XY|XY].
    + (* from the row before *)
      pose proof (mul_le 0 (k + 1) p Hp ltac:(lia)) as X0.
      assert (Hy : 0 < y) by (apply (mul_lt_inv _ _ q Hq); lia).
      destruct (PREV j IR Hj Hy HT) as (a & Ga & Fa & La & Va). rewrite EX in La.
      assert (Wa : Z.abs (snd a - (i - v)) < y) by (apply (mul_lt_inv _ _ q Hq); lia).
      pose proof (mul_le (Z.abs (snd a - i)) y q Hq ltac:(lia)) as Y2.
      assert (MA : m a i j <= y * q) by (rewrite EM; lia).
      destruct (Kt j a n' Ga G' IR Fa ltac:(lia)) as [Fn Kn]. split; [exact Fn|].
      destruct Kn as [->|[Kn|Kn]]; lia.
    + (* from the neighbour *)
      set (jp := j - (if fwd then 1 else -1)) in *.
      assert (Hjp : 0 <= jp < nx) by (unfold jp; destruct fwd; lia).
      destruct (get_range (l_near t) jp) as (np & Gp); [rewrite (proj1 (proj2 Lt)); lia|].
      assert (BP : best i jp tg np) by (apply IH; auto; unfold jp; destruct fwd; lia).
      assert (IP : inr i jp) by (destruct IR as [I1 I2]; split; [exact I1|unfold jp; destruct fwd; lia]).
      assert (EXp : Z.abs (fst tg - jp) = k) by (unfold jp; destruct fwd; lia).
      assert (MP : m tg i jp = Z.max (k * p) (y * q)) by (rewrite EM, EXp; reflexivity).
      destruct (BP IP ltac:(lia)) as [Fp Lp]. rewrite MP in Lp.
      assert (Np : near_ok np) by (eapply Lt; eauto).
      assert (HH : Z.abs (fst np - jp) <= k).
      { destruct (Z.eq_dec ((k + 1) * p) (y * q)) as [EQ|NE].
        - pose proof (mul_le 1 (k + 1) p Hp ltac:(lia)) as X0.
          assert (Hy : 0 < y) by (apply (mul_lt_inv _ _ q Hq); lia).
          destruct (PREV jp IP Hjp Hy ltac:(lia)) as (a & Ga & Fa & La & Va). rewrite EXp in La.
          assert (Wa : Z.abs (snd a - (i - v)) < y) by (apply (mul_lt_inv _ _ q Hq); lia).
          assert (Ha : Z.abs (fst a - jp) < k + 1) by (apply (mul_lt_inv _ _ p Hp); lia).
          pose proof (mul_le (Z.abs (snd a - i)) y q Hq ltac:(lia)) as Y2.
          pose proof (mul_le (Z.abs (fst a - jp)) k p Hp ltac:(lia)) as Y3.
          assert (MA : m a i jp <= y * q) by (rewrite EM; lia).
          destruct (Kt jp a np Ga Gp IP Fa ltac:(lia)) as [_ Kn].
          destruct Kn as [->|[Kn|Kn]]; [lia| |]; rewrite EM in Kn;
            (assert (Z.abs (fst np - jp) < k + 1) by (apply (mul_lt_inv _ _ p Hp); lia)); lia.
        - rewrite EM in Lp. assert (Z.abs (fst np - jp) < k + 1) by (apply (mul_lt_inv _ _ p Hp); lia). lia. }
      assert (ML : m np i j <= m tg i j).
      { rewrite MT, EM. rewrite EM in Lp.
        assert (Z.abs (fst np - j) <= k + 1) by (unfold jp in HH; destruct fwd; lia).
        pose proof (mul_le (Z.abs (fst np - j)) (k + 1) p Hp ltac:(lia)). lia. }
      destruct (R j Hj) as (p0 & n1 & q0 & p' & n2 & q' & G1 & G2 & G3 & G4 & G5 & G6 & PX).
      rewrite G' in G5. injection G5 as <-.
      assert (Nn : near_ok n') by (eapply Lt; eauto).
      refine (pixel_best i j _ _ _ _ _ _ _ _ tg np Hi Hj Nn PX _ Np _ IR HT).
      * right; left. unfold oget. fold jp. rewrite Gp.
        replace (j =? (if fwd then 0 else nx - 1)) with false; [reflexivity|]. destruct fwd; lia.
      * intros _ _. auto.
Qed.

(* both passes over a row *)
Lemma row_best first s mid mid' t :
  line_ok target src nx s -> line_ok target src nx mid -> line_ok target src nx mid' -> line_ok target src nx t ->
  l_near s = near0 -> l_near mid' = l_near mid ->
  (forall j, 0 <= j < nx -> line_rel ar target xc yc src nx first i s mid j) ->
  (forall j, 0 <= j < nx -> line_rel ar target xc yc src nx (negb first) i mid' t j) ->
  forall tg, ctgt tg -> v * snd tg <= v * i -> forall j n, get (l_near t) j = Ok n -> best i j tg n.
Proof.
  intros Ls Lm Lm' Lt ES EM R1 R2 tg TT HV j n G.
  pose proof (get_ok_range _ _ _ G) as Hj. rewrite (proj1 (proj2 Lt)) in Hj.
  destruct (get_range (l_near mid) j) as (n1 & G1); [rewrite (proj1 (proj2 Lm)); exact Hj|].
  assert (G1' : get (l_near mid') j = Ok n1) by (rewrite EM; exact G1).
  destruct (m_steps _ _ _ AD) as [AM|MX].
  - destruct (Z.eq_dec (snd tg) i) as [Es|Ns].
    + destruct tg as [c i']. cbn in Es. subst i'.
      assert (SIDE : (if first then c <= j else j <= c) \/ (if negb first then c <= j else j <= c))
        by (destruct first; cbn; lia).
      destruct SIDE as [Hc|Hc].
      * eapply (line_keep (negb first) i mid' t Hi Lm' Lt R2 (c, i) j n1 n Hj G1' G).
        exact (line_row first i s mid AM Hi Ls Lm R1 c j n1 TT Hj Hc G1).
      * exact (line_row (negb first) i mid' t AM Hi Lm' Lt R2 c j n TT Hj Hc G).
    + destruct (get_range near0 j) as (n0 & G0); [rewrite (proj1 N0); exact Hj|].
      eapply (line_keep (negb first) i mid' t Hi Lm' Lt R2 tg j n1 n Hj G1' G).
      eapply (line_keep first i s mid Hi Ls Lm R1 tg j n0 n1 Hj); [rewrite ES; exact G0|exact G1|].
      assert (SV : v * snd tg < v * i) by (apply (side_le _ _ _ Hv) in HV; apply (side_lt _ _ _ Hv); lia).
      pose proof (proj1 (side_lt _ _ _ Hv) SV) as SV'.
      pose proof (before tg TT SV j n0 G0) as HB. destruct (proj1 AM) as (h & Hh).
      intros IR HT. unfold best in HB.
      assert (IP : inr (i - v) j).
      { pose proof (m_region _ _ _ AD tg TT) as [IC _]. destruct IR as [IR1 IR2]. split; [lia|exact IR2]. }
      specialize (HB IP). destruct Hv as [V|V]; rewrite V in *.
      * destruct (Hh (i - 1)) as (h0 & T1 & _ & T3 & _). replace (i - 1 + 1) with i in * by lia.
        specialize (T3 tg j ltac:(lia)). specialize (T1 n0 j). lia.
      * destruct (Hh i) as (h0 & _ & T2 & _ & T4). replace (i - -1) with (i + 1) in * by lia.
        specialize (T4 tg j ltac:(lia)). specialize (T2 n0 j). lia.
  - assert (K1 : keeps (l_near mid)).
    { apply (keeps_line first s mid MX Ls Lm R1). rewrite ES. apply keeps_start. }
    assert (SIDE : (if first then fst tg <= j else j <= fst tg) \/ (if negb first then fst tg <= j else j <= fst tg))
      by (destruct first; cbn; lia).
    destruct SIDE as [Hc|Hc].
    + eapply (line_keep (negb first) i mid' t Hi Lm' Lt R2 tg j n1 n Hj G1' G).
      eapply (line_maximum first s mid MX Ls Lm R1); eauto. rewrite ES. apply keeps_start.
    + eapply (line_maximum (negb first) mid' t MX Lm' Lt R2); eauto. rewrite EM. exact K1.
Qed.
End Row.

End Exact.

(* ---------------- the theorem ---------------- *)

Definition get2 {C} (a : list (list C)) (i j : Z) : res C :=
  let* r := get a i in get r j.

Lemma get2_shaped {C} (a : list (list C)) i j : shaped ny nx a ->
  0 <= i < ny -> 0 <= j < nx -> exists x, get2 a i j = Ok x.
Proof.
  intros [L H] Hi Hj. destruct (get_range a i) as (r & E); [lia|]. unfold get2. rewrite E. cbn.
  apply get_range. rewrite (H _ _ E). lia.
Qed.

Notation compute := (compute_proximity ar target true second xc yc).

(* what is known about cell (i, j) after the downward (ts: rows <= i) or the
   upward pass (all rows) *)
Definition cell_bounds (ts : cand -> Prop) (i j : Z) (p : P) : Prop :=
  (tgt i j -> p = pzero ar)
  /\ forall m B B2, regular m B B2 -> forall t, ctgt t -> ts t -> atmost m B i j t p.

Theorem run_sound nodata prox0 sec0 : shaped ny nx prox0 -> shaped ny nx sec0 ->
  exists prox secondary, compute src ny nx nodata prox0 sec0 = Ok (prox, secondary)
    /\ shaped ny nx prox /\ shaped ny nx secondary
    /\ forall i j w0, 0 <= i < ny -> 0 <= j < nx -> get2 sec0 i j = Ok w0 ->
       exists p w, get2 prox i j = Ok p /\ get2 secondary i j = Ok w
         /\ cell i j w0 nodata p w
         /\ cell_bounds (fun _ => True) i j p.
Proof.
  intros SP0 SS0.
  assert (Hnx : 0 <= nx) by (rewrite <- nx_xc; apply len_nonneg).
  assert (Hny : 0 <= ny) by (rewrite <- ny_src; apply len_nonneg).
  (* candidates before row i, going down / up *)
  set (Nd := fun i near => forall m B B2, regular m B B2 -> forall t, ctgt t -> snd t < i ->
               forall j n, get near j = Ok n -> best m B2 (i - 1) j t n).
  set (Nu := fun i near => forall m B B2, regular m B B2 -> forall t, ctgt t -> i < snd t ->
               forall j n, get near j = Ok n -> best m B2 (i + 1) j t n).
  set (Rd := fun i (prox : list P) (srow : list S) => forall j w0, 0 <= j < nx ->
               get2 sec0 i j = Ok w0 ->
               exists p w, get prox j = Ok p /\ get srow j = Ok w
                 /\ cell i j w0 (pminus1 ar) p w
                 /\ cell_bounds (fun t => snd t <= i) i j p).
  set (Ru := fun i (prox : list P) (srow : list S) => forall j w0, 0 <= j < nx ->
               get2 sec0 i j = Ok w0 ->
               exists p w, get prox j = Ok p /\ get srow j = Ok w
                 /\ cell i j w0 nodata p w /\ cell_bounds (fun _ => True) i j p).
  destruct (compute_rows ar target second xc yc src ny nx ny_src nx_src nx_xc sec second_ok
              nodata prox0 sec0 Nd Nu Rd Ru SP0 SS0) as (prox & secondary & E & S1 & S2 & HR).
  - intros m B B2 AD t TT Ht. pose proof (tgt_range target second src ny nx ny_src nx_src _ _ TT). lia.
  - intros m B B2 AD t TT Ht. pose proof (tgt_range target second src ny nx ny_src nx_src _ _ TT). lia.
  - (* down *)
    intros i row srow near Hrow Hi Hs LN HN HNd.
    destruct (process_both_ok ar target second xc yc src ny nx AR ny_src nx_src nx_xc ny_yc
                sec second_ok row true i (full nx (pminus1 ar)) near srow Hrow Hi)
      as (mid & t & srow' & E & Lm & Lt & LS' & RL & RW);
      [now apply full_len|exact LN|exact (proj2 SS0 _ _ Hs)|exact HN|].
    exists (l_prox t), (l_near t), srow'. split; [exact E|].
    split; [apply Lt|]. split; [apply Lt|]. split; [exact LS'|].
    split; [apply Lt|].
    assert (R1 : forall j, 0 <= j < nx -> line_rel ar target xc yc src nx true i
                   (mkLine (full nx (pminus1 ar)) near (full nx none)) mid j) by (intros; now apply RL).
    assert (R2 : forall j, 0 <= j < nx -> line_rel ar target xc yc src nx false i
                   (mkLine (l_prox mid) (l_near mid) (full nx none)) t j) by (intros; now apply RL).
    assert (L0 : line_ok target src nx (mkLine (full nx (pminus1 ar)) near (full nx none))).
    { unfold line_ok. cbn. rewrite !full_len by exact Hnx. auto. }
    assert (L1 : line_ok target src nx (mkLine (l_prox mid) (l_near mid) (full nx none))).
    { destruct Lm as (Q1 & Q2 & Q3 & Q4). unfold line_ok. cbn. rewrite full_len by exact Hnx. auto. }
    assert (BEST : forall m B B2, regular m B B2 -> forall tg, ctgt tg -> snd tg <= i ->
               forall j n, get (l_near t) j = Ok n -> best m B2 i j tg n).
    { intros m B B2 AD tg TT Ht j n G.
      eapply (row_best m B B2 AD 1 i (or_introl eq_refl) Hi near (conj LN HN)); cycle 1;
        [exact L0|exact Lm|exact L1|exact Lt|reflexivity|reflexivity|exact R1|exact R2|exact TT|lia|exact G|].
      intros tg' T' H' j' n' G'. refine (HNd m B B2 AD tg' T' _ j' n' G'). lia. }
    split.
    + intros m B B2 AD tg TT Ht j n G. replace (i + 1 - 1) with i by lia.
      eapply BEST; eauto. lia.
    + intros j w0 Hj G0.
      unfold get2 in G0. rewrite Hs in G0. cbn [rbind] in G0.
      destruct (R1 j Hj) as (p0 & n0 & q0 & p1 & n1 & q1 & A1 & A2 & A3 & A4 & A5 & A6 & PX1).
      destruct (R2 j Hj) as (p1' & n1' & q1' & p2 & n2 & q2 & B1 & B2 & B3 & B4 & B5 & B6 & PX2).
      cbn [l_prox l_near l_nearest] in A1, A2, A3, B1, B2, B3.
      rewrite get_full in A1 by exact Hj. rewrite get_full in A3 by exact Hj.
      rewrite get_full in B3 by exact Hj.
      injection A1 as <-. injection A3 as <-. injection B3 as <-.
      rewrite A4 in B1. injection B1 as <-. rewrite A5 in B2. injection B2 as <-.
      assert (C0 : cell i j w0 (pminus1 ar) (pminus1 ar) w0) by (left; auto).
      assert (N1 : near_ok n1) by (eapply Lm; eauto).
      assert (N2 : near_ok n2) by (eapply Lt; eauto).
      pose proof (pixel_cell _ _ _ _ _ _ _ _ _ _ _ Hi Hj N1 PX1 C0) as C1.
      pose proof (pixel_cell _ _ _ _ _ _ _ _ _ _ _ Hi Hj N2 PX2 C1) as C2.
      exists p2. eexists. split; [exact B4|]. split; [eapply RW; eauto|]. split; [exact C2|].
      split; [intros T; now destruct PX2 as [(_ & -> & _)|(NT & _)]|].
      intros m B B2' AD tg TT Ht.
      eapply (pixel_atmost m B B2' AD i j w0 _ p1 n1 _ _ p2 n2 q2 tg Hi Hj N2 PX2 C1).
      left. eapply BEST; eauto.
  - (* up *)
    intros i row prox srow near Hrow Hi LP LS HRd LN HN HNu.
    destruct (process_both_ok ar target second xc yc src ny nx AR ny_src nx_src nx_xc ny_yc
                sec second_ok row false i prox near srow Hrow Hi LP LN LS HN)
      as (mid & t & srow' & E & Lm & Lt & LS' & RL & RW).
    exists (l_prox t), (l_near t), srow'. split; [exact E|].
    split; [apply Lt|]. split; [apply Lt|]. split; [exact LS'|].
    split; [apply Lt|].
    assert (R1 : forall j, 0 <= j < nx -> line_rel ar target xc yc src nx false i
                   (mkLine prox near (full nx none)) mid j) by (intros; now apply RL).
    assert (R2 : forall j, 0 <= j < nx -> line_rel ar target xc yc src nx true i
                   (mkLine (l_prox mid) (l_near mid) (full nx none)) t j) by (intros; now apply RL).
    assert (L0 : line_ok target src nx (mkLine prox near (full nx none))).
    { unfold line_ok. cbn. rewrite !full_len by exact Hnx. auto. }
    assert (L1 : line_ok target src nx (mkLine (l_prox mid) (l_near mid) (full nx none))).
    { destruct Lm as (Q1 & Q2 & Q3 & Q4). unfold line_ok. cbn. rewrite full_len by exact Hnx. auto. }
    assert (BEST : forall m B B2, regular m B B2 -> forall tg, ctgt tg -> i <= snd tg ->
               forall j n, get (l_near t) j = Ok n -> best m B2 i j tg n).
    { intros m B B2 AD tg TT Ht j n G.
      eapply (row_best m B B2 AD (-1) i (or_intror eq_refl) Hi near (conj LN HN)); cycle 1;
        [exact L0|exact Lm|exact L1|exact Lt|reflexivity|reflexivity|exact R1|exact R2|exact TT|lia|exact G|].
      intros tg' T' H' j' n' G'. replace (i - -1) with (i + 1) by lia. refine (HNu m B B2 AD tg' T' _ j' n' G'). lia. }
    split.
    + intros m B B2 AD tg TT Ht j n G. replace (i - 1 + 1) with i by lia.
      eapply BEST; eauto. lia.
    + intros j w0 Hj G0.
      destruct (HRd j w0 Hj G0) as (p0 & w & Gp0 & Gw & C0 & BD).
      destruct (R1 j Hj) as (p0' & n0 & q0 & p1 & n1 & q1 & A1 & A2 & A3 & A4 & A5 & A6 & PX1).
      destruct (R2 j Hj) as (p1' & n1' & q1' & p2 & n2 & q2 & B1 & B2 & B3 & B4 & B5 & B6 & PX2).
      cbn [l_prox l_near l_nearest] in A1, A2, A3, B1, B2, B3.
      rewrite get_full in A3 by exact Hj. rewrite get_full in B3 by exact Hj.
      rewrite Gp0 in A1. injection A1 as <-. injection A3 as <-. injection B3 as <-.
      rewrite A4 in B1. injection B1 as <-. rewrite A5 in B2. injection B2 as <-.
      assert (N1 : near_ok n1) by (eapply Lm; eauto).
      assert (N2 : near_ok n2) by (eapply Lt; eauto).
      pose proof (pixel_cell _ _ _ _ _ _ _ _ _ _ _ Hi Hj N1 PX1 C0) as C1.
      pose proof (pixel_cell _ _ _ _ _ _ _ _ _ _ _ Hi Hj N2 PX2 C1) as C2.
      eexists. eexists. split; [rewrite get_map_eq, B4; reflexivity|].
      split; [eapply RW; eauto|].
      assert (AM : forall m B B2, regular m B B2 -> forall tg, ctgt tg -> atmost m B i j tg p2).
      { intros m B B2' AD tg TT.
        destruct (Z_le_gt_dec i (snd tg)) as [Hg|Hg].
        - eapply (pixel_atmost m B B2' AD i j w0 _ p1 n1 _ _ p2 n2 q2 tg Hi Hj N2 PX2 C1).
          left. eapply BEST; eauto.
        - eapply (pixel_atmost m B B2' AD i j w0 _ p1 n1 _ _ p2 n2 q2 tg Hi Hj N2 PX2 C1).
          right. eapply (pixel_atmost m B B2' AD i j w0 _ p0 n0 _ _ p1 n1 q1 tg Hi Hj N1 PX1 C0).
          right. apply (proj2 BD m B B2' AD tg TT). lia. }
      split.
      * destruct C2 as [[-> ->]|(c & Tc & Vc & Ew)].
        -- rewrite (neg_minus1 ar AR). left. auto.
        -- destruct (neg_value i j c p2 Tc Hi Hj Vc) as [-> _]. right. eauto.
      * split.
        { intros T. destruct PX2 as [(_ & -> & _)|(NT & _)]; [|contradiction].
          now rewrite (neg_zero ar AR). }
        intros m B B2' AD tg TT _ IR HB. destruct (AM m B B2' AD tg TT IR HB) as (c & Tc & Vc & Lc).
        destruct (neg_value i j c p2 Tc Hi Hj Vc) as [-> _]. eauto.
  - exists prox, secondary. split; [exact E|]. split; [exact S1|]. split; [exact S2|].
    intros i j w0 Hi Hj G0. destruct (HR i Hi) as (r & s & G1 & G2 & HRu).
    destruct (HRu j w0 Hj G0) as (p & w & Gp & Gw & HC & HB).
    exists p, w. unfold get2. rewrite G1, G2. cbn. auto.
Qed.

End Main.
