(* Proofs about the chunks used with out_bands *)
From Coq Require Import ZArith List Bool Lia.
From Verif Require Import Base BaseFacts BlockArgs BlockBudget BlockBudgetSpec.
Import ListNotations.
Open Scope Z_scope.

Lemma sum_of_total l : sum_of l = total l.
Proof.
  unfold sum_of. assert (G : forall l a, fold_left Z.add l a = a + total l).
  { clear. induction l as [|x l IH]; intros a; cbn [fold_left total]; [lia|]. rewrite IH. lia. }
  now rewrite G.
Qed.
Lemma chunks3_eqb_eq a b : chunks3_eqb a b = true -> a = b.
Proof.
  destruct a as [[a1 a2] a3], b as [[b1 b2] b3]. unfold chunks3_eqb. repeat destruct (list_eq_dec Z.eq_dec _ _); try discriminate. congruence.
Qed.

Section A.
Context {A : Type}.
Implicit Types (r : chunked A).
Definition rechunked (c : chunks3) r r' : Prop := k_shape r' = k_shape r /\ k_itemsize r' = k_itemsize r /\ k_cells r' = k_cells r /\ k_chunks r' = c.
Lemma chunk_all_ok nb ny nx cy cx l : total cy = ny -> total cx = nx -> (forall r, In r l -> k_shape r = (nb, ny, nx)) ->
  exists l', chunk_all ([nb], cy, cx) l = Ok l' /\ Forall2 (rechunked ([nb], cy, cx)) l l'.
Proof.
  intros Ty Tx. induction l as [|r l IH]; intros S; cbn [chunk_all].
  { exists []. split; [reflexivity|constructor]. }
  destruct IH as (l' & E & F); [intros q Iq; apply S; now right|]. rewrite E.
  destruct (chunks3_eqb (k_chunks r) ([nb], cy, cx)) eqn:Q.
  - cbn [rbind]. exists (r :: l'). split; [reflexivity|]. constructor; [|exact F]. apply chunks3_eqb_eq in Q. now repeat split.
  - unfold chunk, fits. rewrite (S r (or_introl eq_refl)), !sum_of_total. cbn [total]. rewrite Ty, Tx.
    replace (nb + 0 =? nb) with true by (symmetry; apply Z.eqb_eq; lia). rewrite !Z.eqb_refl. cbn [andb rbind].
    eexists. split; [reflexivity|]. constructor; [|exact F]. unfold rechunked. cbn [k_shape k_itemsize k_cells k_chunks].
    rewrite (S r (or_introl eq_refl)). now repeat split.
Qed.

Section Budget.
Variables (num den : Z) (auto : auto_chunks).
Hypotheses (AU : auto_within num den auto) (HD : 0 < den) (HN : 0 < num < 2 * den).
Variables (chunk_size nb ny nx size out : Z) (ref : chunked A) (rest : list (chunked A)).
Hypotheses (HC : 0 < chunk_size) (Hb : 0 < nb) (Hy : 0 < ny) (Hx : 0 < nx) (Hs : 0 < size) (Ho : 0 < out).
Hypotheses (SZ : k_itemsize ref = size) (SH : forall r, In r (ref :: rest) -> k_shape r = (nb, ny, nx)).

Lemma limit_pos : 0 < byte_limit chunk_size nb out.
Proof. unfold byte_limit. lia. Qed.
Lemma limit_spec : byte_limit chunk_size nb out = 1 \/ Z.max nb out * byte_limit chunk_size nb out <= chunk_size * nb.
Proof.
  unfold byte_limit. set (m := Z.max nb out). assert (0 < m) by lia. pose proof (Z.mul_div_le (chunk_size * nb) m ltac:(lia)).
  destruct (Z.le_gt_cases 1 (chunk_size * nb / m)); [right; rewrite Z.max_r by lia; lia|left; lia].
Qed.
Lemma limit_small : byte_limit chunk_size nb out <= chunk_size.
Proof.
  destruct limit_spec as [->|L]; [lia|]. pose proof limit_pos. nia.
Qed.
Lemma tile_both h w : 0 < h -> 0 < w -> within num den (byte_limit chunk_size nb out) nb size h w ->
  (forall k, 0 < k <= Z.max nb out -> forall s, 0 < s <= size -> within num den chunk_size k s h w) \/ (h = 1 /\ w = 1).
Proof.
  unfold within. intros Hh Hw W. destruct limit_spec as [E|L].
  - right. rewrite E in W. assert (W2 : nb * h * w * size < 2).
    { apply Z.nle_gt. intros G. assert (2 * den <= den * (nb * h * w * size)) by (rewrite (Z.mul_comm 2); apply Z.mul_le_mono_nonneg_l; lia). lia. }
    replace (nb * h * w * size) with (h * w * (nb * size)) in W2 by ring. assert (1 <= nb * size) by nia. assert (1 <= h * w) by nia. assert (h * w < 2) by nia. nia.
  - left. intros k Hk s Hsz. set (m := Z.max nb out) in *. set (lim := byte_limit chunk_size nb out) in *.
    assert (P : 0 < h * w) by nia.
    assert (B : nb * (den * (m * h * w * size)) <= nb * (num * chunk_size)).
    { apply Z.le_trans with (m * (num * lim)).
      - replace (nb * (den * (m * h * w * size))) with (m * (den * (nb * h * w * size))) by ring. apply Z.mul_le_mono_nonneg_l; lia.
      - replace (m * (num * lim)) with (num * (m * lim)) by ring. replace (nb * (num * chunk_size)) with (num * (chunk_size * nb)) by ring. apply Z.mul_le_mono_nonneg_l; lia. }
    apply Z.mul_le_mono_pos_l in B; [|lia]. eapply Z.le_trans; [|exact B]. apply Z.mul_le_mono_nonneg_l; [lia|].
    replace (k * h * w * s) with (h * w * (k * s)) by ring. replace (m * h * w * size) with (h * w * (m * size)) by ring.
    apply Z.mul_le_mono_nonneg_l; [lia|]. apply Z.mul_le_mono_nonneg; lia.
Qed.

Theorem prepare_budget : exists rs cy cx, prepare auto chunk_size (ref :: rest) out = Ok (rs, ([out], cy, cx))
  /\ parts ny cy /\ parts nx cx /\ Forall2 (rechunked ([nb], cy, cx)) (ref :: rest) rs
  /\ forall h w, In h cy -> In w cx -> (h = 1 /\ w = 1)
     \/ (forall s, 0 < s <= size -> within num den chunk_size nb s h w /\ within num den chunk_size out s h w).
Proof.
  destruct (AU nb ny nx size (k_chunks ref) _ Hb Hy Hx Hs limit_pos) as (cy & cx & E & [Ty Py] & [Tx Px] & W).
  destruct (chunk_all_ok nb ny nx cy cx (ref :: rest) Ty Tx SH) as (rs & C & F).
  exists rs, cy, cx. unfold prepare, align_single_band. rewrite (proj2 (Z.ltb_ge out 1)) by lia.
  rewrite (SH ref (or_introl eq_refl)), SZ, E, C. cbn [rbind]. split.
  - inversion F as [|? r ? ? R F2]. destruct R as (_ & _ & _ & ->). reflexivity.
  - split; [now split|]. split; [now split|]. split; [exact F|]. intros h w Ih Iw. destruct (W h w Ih Iw) as [T|T]; [|now left].
    destruct (tile_both h w (Py h Ih) (Px w Iw) T) as [B|B]; [|now left]. right. intros s Hsz. split; apply B; lia.
Qed.
End Budget.

Theorem align_reduction auto chunk_size nb ny nx (ref : chunked A) rest out :
  0 < chunk_size -> 0 < out <= nb -> k_shape ref = (nb, ny, nx) ->
  align_single_band auto chunk_size (ref :: rest) out = chunk_all (auto (nb, ny, nx) (k_itemsize ref) (k_chunks ref) chunk_size) (ref :: rest).
Proof.
  intros HC Ho SH. unfold align_single_band. rewrite SH. unfold byte_limit. rewrite (Z.max_l nb out) by lia. rewrite Z.div_mul by lia.
  now rewrite Z.max_r by lia.
Qed.
Theorem prepare_refused auto chunk_size (rs : list (chunked A)) out : out < 1 -> prepare auto chunk_size rs out = Err ValueError.
Proof. intros H. unfold prepare. now rewrite (proj2 (Z.ltb_lt out 1)) by lia. Qed.
End A.

(* a way to cut: strips of one row *)
Definition strips (n w : Z) : list Z := repeat w (Z.to_nat (n / w)) ++ (if n mod w =? 0 then [] else [n mod w]).
Lemma total_app a b : total (a ++ b) = total a + total b.
Proof. induction a as [|x a IH]; cbn [app total]; lia. Qed.
Lemma total_repeat w n : total (repeat w n) = w * Z.of_nat n.
Proof. induction n as [|n IH]; cbn [repeat total]; lia. Qed.
Lemma strips_parts n w : 0 < n -> 0 < w -> parts n (strips n w) /\ forall x, In x (strips n w) -> x <= w.
Proof.
  intros Hn Hw. pose proof (Z.mod_pos_bound n w Hw). pose proof (Z.div_mod n w ltac:(lia)). pose proof (Z.div_pos n w ltac:(lia) Hw).
  assert (I : forall x, In x (strips n w) -> 0 < x <= w).
  { intros x Ix. unfold strips in Ix. apply in_app_or in Ix as [Ix|Ix]; [apply repeat_spec in Ix; lia|].
    destruct (n mod w =? 0) eqn:Q; [destruct Ix|]. apply Z.eqb_neq in Q. destruct Ix as [<-|[]]. lia. }
  split; [split|]; [|intros x Ix; now apply I|intros x Ix; now apply I].
  unfold strips. rewrite total_app, total_repeat, Z2Nat.id by lia. destruct (n mod w =? 0) eqn:Q; cbn [total]; [apply Z.eqb_eq in Q|]; lia.
Qed.
Definition strip_auto : auto_chunks := fun '(nb, ny, nx) size _ limit => ([nb], repeat 1 (Z.to_nat ny), strips nx (Z.max 1 (limit / (nb * size)))).
Lemma strip_auto_within : auto_within 1 1 strip_auto.
Proof.
  intros nb ny nx size old limit Hb Hy Hx Hs Hl. set (w0 := Z.max 1 (limit / (nb * size))).
  destruct (strips_parts nx w0 Hx ltac:(lia)) as [P B].
  exists (repeat 1 (Z.to_nat ny)), (strips nx w0). split; [reflexivity|]. split.
  - split; [rewrite total_repeat; lia|]. intros x I. apply repeat_spec in I. lia.
  - split; [exact P|]. intros h w Ih Iw. apply repeat_spec in Ih. subst h. specialize (B w Iw). destruct P as [_ P]. specialize (P w Iw).
    unfold within. assert (0 < nb * size) by nia. pose proof (Z.mul_div_le limit (nb * size) ltac:(lia)).
    destruct (Z.le_gt_cases 1 (limit / (nb * size))); [left|right; lia].
    assert (w <= limit / (nb * size)) by lia. nia.
Qed.
