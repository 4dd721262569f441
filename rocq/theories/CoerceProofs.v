From Coq Require Import QArith Qround Qabs Qpower Lqa.
From Verif Require Import Base BaseFacts Scalars NumFacts Arr2 Arr2Facts Dtypes Raster FocalSpec FocalValues RasterSpec RasterProofs Coerce CoerceSpec.
Open Scope Z_scope.

(* ---------------- rounding ---------------- *)
Lemma rint_near q : (Qabs (q - inject_Z (rint q)) <= 1 # 2)%Q /\ ((Qabs (q - inject_Z (rint q)) == 1 # 2)%Q -> Z.even (rint q) = true).
Proof.
  unfold rint. pose proof (Qfloor_le q) as L. pose proof (Qlt_floor q) as U. rewrite inject_Z_plus in U. change (inject_Z 1) with 1%Q in U.
  set (f := Qfloor q) in *.
  assert (N : (Qabs (q - inject_Z f) == q - inject_Z f)%Q) by (apply Qabs_pos; lra).
  assert (S : (Qabs (q - inject_Z (f + 1)) == inject_Z f + 1 - q)%Q).
  { rewrite inject_Z_plus. change (inject_Z 1) with 1%Q. rewrite Qabs_neg by lra. ring. }
  destruct ((q - inject_Z f) ?= 1 # 2)%Q eqn:C.
  - apply Qeq_alt in C. destruct (Z.even f) eqn:E.
    + split; [lra|now intros].
    + split; [lra|]. intros _. rewrite Z.even_add, E. reflexivity.
  - apply Qlt_alt in C. split; [lra|]. intros H. lra.
  - apply Qgt_alt in C. split; [lra|]. intros H. lra.
Qed.
Lemma dist_one j k : j <> k -> (1 <= Qabs (inject_Z j - inject_Z k))%Q.
Proof.
  intros N. unfold Qminus. rewrite <- inject_Z_opp, <- inject_Z_plus. unfold Qabs, inject_Z, Qle. cbn [Qnum Qden]. lia.
Qed.
Lemma rint_nearest q j : (Qabs (q - inject_Z (rint q)) <= Qabs (q - inject_Z j))%Q
  /\ ((Qabs (q - inject_Z j) == Qabs (q - inject_Z (rint q)))%Q -> j <> rint q -> Z.even (rint q) = true).
Proof.
  destruct (rint_near q) as [H1 H2]. destruct (Z.eq_dec j (rint q)) as [->|N].
  - split; [lra|congruence].
  - pose proof (dist_one _ _ N) as D.
    assert (T : (Qabs (inject_Z j - inject_Z (rint q)) <= Qabs (q - inject_Z (rint q)) + Qabs (q - inject_Z j))%Q).
    { rewrite (Qabs_Qminus q (inject_Z j)).
      setoid_replace (inject_Z j - inject_Z (rint q))%Q with ((q - inject_Z (rint q)) + (inject_Z j - q))%Q by ring. apply Qabs_triangle. }
    split; [lra|]. intros E _. apply H2. lra.
Qed.
Lemma ten_pos n : (0 < inject_Z 10 ^ n)%Q.
Proof. apply Qpower_0_lt. reflexivity. Qed.
Lemma ten_inv n : (inject_Z 10 ^ n * inject_Z 10 ^ (- n) == 1)%Q.
Proof. rewrite Qpower_opp. apply Qmult_inv_r. pose proof (ten_pos n). intros E. rewrite E in H. discriminate. Qed.
Lemma scaled n x j : (Qabs (x - inject_Z j * inject_Z 10 ^ (- n)) == inject_Z 10 ^ (- n) * Qabs (x * inject_Z 10 ^ n - inject_Z j))%Q.
Proof.
  rewrite <- (Qabs_pos (inject_Z 10 ^ (- n))) at 2 by (apply Qlt_le_weak, ten_pos). rewrite <- Qabs_Qmult. apply Qabs_wd.
  pose proof (ten_inv n) as E. set (s := (inject_Z 10 ^ n)%Q) in *. set (u := (inject_Z 10 ^ (- n))%Q) in *.
  setoid_replace (u * (x * s - inject_Z j))%Q with (x * (s * u) - inject_Z j * u)%Q by ring. rewrite E. ring.
Qed.
Lemma round_q_rounds n x : rounds n x (round_q n x).
Proof.
  exists (rint (x * inject_Z 10 ^ n)). set (k := rint _).
  assert (E : (round_q n x == inject_Z k * inject_Z 10 ^ (- n))%Q) by (unfold round_q; fold k; rewrite Qpower_opp; reflexivity).
  split; [exact E|].
  assert (D : (Qabs (x - round_q n x) == inject_Z 10 ^ (- n) * Qabs (x * inject_Z 10 ^ n - inject_Z k))%Q) by (rewrite E; apply scaled).
  split; intros j.
  - rewrite D, scaled. apply Qmult_le_l; [apply ten_pos|]. apply rint_nearest.
  - rewrite D, scaled. intros H N. destruct (rint_nearest (x * inject_Z 10 ^ n) j) as [_ K]. apply K; [|exact N].
    apply Qmult_inj_l in H; [exact H|]. pose proof (ten_pos (- n)) as P. intros Z. rewrite Z in P. discriminate.
Qed.
Lemma rounds_unique n x y y' : rounds n x y -> rounds n x y' -> (y == y')%Q.
Proof.
  intros (k & Ey & L & T) (k' & Ey' & L' & T'). destruct (Z.eq_dec k k') as [<-|N]; [now rewrite Ey, Ey'|]. exfalso.
  assert (E : (Qabs (x - y) == Qabs (x - y'))%Q).
  { apply Qle_antisym; [rewrite Ey'; apply L|rewrite Ey at 1; apply L']. }
  assert (V : Z.even k = true) by (apply (T k'); [now rewrite <- Ey', E|congruence]).
  assert (V' : Z.even k' = true) by (apply (T' k); [now rewrite <- Ey, E|congruence]).
  apply Z.even_spec in V as [a ->]. apply Z.even_spec in V' as [b ->].
  pose proof (L (a + b)) as M. rewrite Ey, scaled, scaled in M. rewrite Ey, Ey', !scaled in E.
  apply Qmult_le_l in M; [|apply ten_pos].
  apply Qmult_inj_l in E; [|pose proof (ten_pos (- n)) as P; intros Z; rewrite Z in P; discriminate].
  set (q := (x * inject_Z 10 ^ n)%Q) in *.
  assert (W : ~ (inject_Z a == inject_Z b)%Q) by (intros Z; apply N; unfold Qeq in Z; cbn in Z; lia).
  rewrite inject_Z_plus in M. rewrite !inject_Z_mult in M. rewrite (inject_Z_mult 2 a) in E. rewrite (inject_Z_mult 2 b) in E. change (inject_Z 2) with 2%Q in *.
  assert (X : (q - 2 * inject_Z a == q - 2 * inject_Z b \/ q - 2 * inject_Z a == - (q - 2 * inject_Z b))%Q).
  { revert E. apply (Qabs_case (q - 2 * inject_Z a) (fun z => z == Qabs (q - 2 * inject_Z b) -> _)%Q); intros A;
    apply (Qabs_case (q - 2 * inject_Z b) (fun z => _ == z -> _)%Q); intros B E; lra. }
  destruct X as [X|X]; [apply W; lra|].
  assert (Y : (q - (inject_Z a + inject_Z b) == 0)%Q) by lra.
  rewrite Y in M. change (Qabs 0) with 0%Q in M. pose proof (Qabs_nonneg (q - 2 * inject_Z a)) as P. pose proof (Qle_Qabs (q - 2 * inject_Z a)) as P1.
  pose proof (Qle_Qabs (- (q - 2 * inject_Z a))) as P2. rewrite Qabs_opp in P2. apply W. lra.
Qed.

Section Cast.
Variable cast : dtype -> num -> num.

Lemma round_mk nb nc d nv v m dec : round cast (mk nb nc d nv v m) dec
  = mk nb nc d nv (fun b c => match nv with Some x => if m b c : bool then x else round_num cast d dec (v b c) | None => round_num cast d dec (v b c) end) m.
Proof.
  unfold round, mk. cbn [r_nv r_dtype r_data r_mask]. destruct nv as [x|]; rewrite map2_tab'; [|reflexivity]. now rewrite fill_tab.
Qed.
Lemma round_ok nb nc r dec : wf nb nc r -> let r' := round cast r dec in
  wf nb nc r' /\ r_dtype r' = r_dtype r /\ r_nv r' = r_nv r
  /\ forall b c, in_raster nb nc b c -> null r' b c = null r b c
     /\ (null r b c = true -> r_nv r = Some (value r' b c))
     /\ (null r b c = false ->
          if is_int_dtype (r_dtype r) && (0 <=? dec) then value r' b c = value r b c
          else match value r b c with
               | Fin x => exists y, rounds dec x y /\ value r' b c = cast (r_dtype r) (Fin y)
               | x => value r' b c = x
               end).
Proof.
  intros W. cbv zeta. destruct (wf_ex _ _ _ W) as (d & nv & v & m & -> & Hb & Hc & HN). rewrite round_mk.
  split; [now apply mk_wf|]. split; [reflexivity|]. split; [reflexivity|]. intros b c HI. cells HI. cbn [r_nv r_dtype mk].
  split; [reflexivity|]. split; intros E.
  - destruct nv as [x|]; [now rewrite E|]. rewrite (HN eq_refl b c HI) in E. discriminate.
  - assert (V : match nv with Some x => if m b c : bool then x else round_num cast d dec (v b c) | None => round_num cast d dec (v b c) end = round_num cast d dec (v b c)).
    { destruct nv; [now rewrite E|reflexivity]. }
    rewrite V. unfold round_num. destruct (is_int_dtype d && (0 <=? dec)); [reflexivity|].
    destruct (v b c) as [q| | |]; try reflexivity. exists (round_q dec q). split; [apply round_q_rounds|reflexivity].
Qed.

Lemma to_null_mask_ok nb nc r : wf nb nc r -> let r' := to_null_mask r in
  wf nb nc r' /\ r_dtype r' = BOOL /\ r_nv r' = None
  /\ forall b c, in_raster nb nc b c -> null r' b c = false /\ value r' b c = of_Z (if null r b c then 1 else 0).
Proof.
  intros W. cbv zeta. destruct (wf_ex _ _ _ W) as (d & nv & v & m & -> & Hb & Hc & HN).
  assert (E : to_null_mask (mk nb nc d nv v m) = mk nb nc BOOL None (fun b c => of_Z (if m b c then 1 else 0)) (fun _ _ => false)).
  { unfold to_null_mask, mk. cbn [r_mask]. now rewrite !map2_tab'. }
  rewrite E. split; [now apply mk_wf|]. split; [reflexivity|]. split; [reflexivity|]. intros b c HI. now cells HI.
Qed.

Lemma nulls_to_nan_ok nb nc r : wf nb nc r -> let r' := nulls_to_nan cast r in
  wf nb nc r' /\ r_nv r' = r_nv r /\ r_dtype r' = promote_dtype_to_float (r_dtype r) /\ is_float_dtype (r_dtype r') = true
  /\ forall b c, in_raster nb nc b c -> null r' b c = null r b c
     /\ value r' b c = if null r b c then NaN else if is_float_dtype (r_dtype r) then value r b c else cast (r_dtype r') (value r b c).
Proof.
  intros W. cbv zeta. destruct (wf_ex _ _ _ W) as (d & nv & v & m & -> & Hb & Hc & HN).
  assert (E : nulls_to_nan cast (mk nb nc d nv v m) = mk nb nc (promote_dtype_to_float d) nv
     (fun b c => if m b c then NaN else if is_float_dtype d then v b c else cast (promote_dtype_to_float d) (v b c)) m).
  { unfold nulls_to_nan, mk. cbn [r_dtype r_nv r_data r_mask].
    destruct d; cbn [promote_dtype_to_float is_float_dtype dtype_eqb bits Z.leb Z.compare Pos.compare Pos.compare_cont]; rewrite ?map2_tab', fill_tab; reflexivity. }
  rewrite E. split; [now apply mk_wf|]. split; [reflexivity|]. split; [reflexivity|]. split; [now destruct d|]. intros b c HI. now cells HI.
Qed.

Section Get.
Variables (P O : Type) (open_path : P -> res raster) (convert : O -> res raster).
Notation get := (get_raster cast P O open_path convert).
Lemma get_ok src strict n r : get src strict n = Ok r <->
  exists s, match src with SRaster t => s = t | SPath p => open_path p = Ok s | SOther o => strict = false /\ convert o = Ok s end
  /\ r = if n && masked s then nulls_to_nan cast s else s.
Proof.
  unfold get_raster. destruct src as [t|p|o]; cbn [rbind].
  - split; [intros [= <-]; eauto|]. now intros (s & -> & ->).
  - destruct (open_path p) as [t|e]; cbn [rbind]; split; [intros [= <-]; eauto| |discriminate|]; now intros (s & [= <-] & ->).
  - destruct strict; cbn [rbind]; [split; [discriminate|]; now intros (s & [[=] _] & _)|].
    destruct (convert o) as [t|[]]; cbn [rbind]; split; try discriminate; try (intros [= <-]; eauto); now intros (s & (_ & [= <-]) & ->).
Qed.
Lemma get_refused strict n :
  (forall p e, open_path p = Err e -> get (SPath p) strict n = Err e)
  /\ (forall o, get (SOther o) true n = Err TypeError)
  /\ (forall o e, convert o = Err e -> e = ValueError \/ e = TypeError -> get (SOther o) false n = Err ValueError)
  /\ (forall o e, convert o = Err e -> e <> ValueError -> e <> TypeError -> get (SOther o) false n = Err e).
Proof.
  unfold get_raster. split; [now intros p e ->|]. split; [reflexivity|]. split.
  - intros o e -> [-> | ->]; reflexivity.
  - intros o e ->. destruct e; congruence || reflexivity.
Qed.
End Get.

Variable float_dtype : num -> dtype.
Lemma replace_null_ok nb nc r s r' : cast BOOL NaN = of_Z 1 -> (forall v, float_dtype v <> BOOL) -> fits s -> wf nb nc r ->
  replace_null cast float_dtype r (Some s) = Ok r' ->
  (forall b c, in_raster nb nc b c -> cast (r_dtype r') (value r b c) = value r b c) ->
  exists v, r_nv r' = Some v /\ wf nb nc r' /\ (v = scalar_num s \/ r_dtype r' = r_dtype r /\ v = cast (r_dtype r) (scalar_num s))
  /\ forall b c, in_raster nb nc b c ->
     (null r b c = true -> value r' b c = v) /\ (null r b c = false -> same_value (value r b c) v = false -> value r' b c = value r b c /\ null r' b c = false).
Proof.
  intros HB0 HF HS W H HC. destruct (set_null_value_spec cast float_dtype HB0 nb nc r s r' HF HS W H HC) as (v & E & W' & D & _ & K).
  exists v. split; [exact E|]. split; [exact W'|]. split; [exact D|]. intros b c HI. destruct (K b c HI) as [E1 E2]. split.
  - intros N. rewrite N in E1. now rewrite E2, E1.
  - intros N S. rewrite N, S in E1. now rewrite E2, E1.
Qed.
End Cast.
