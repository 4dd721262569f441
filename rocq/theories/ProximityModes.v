(* The three modes run the same scan: the proximities do not depend on the mode
   and the secondary array is determined cell by cell by the nearest target. *)
From Verif Require Import BaseFacts Proximity.
From Coq Require Import ZifyBool ZifyNat FinFun.
Open Scope Z_scope.

Lemma foldM_rel {S T A} (f : S -> A -> res S) (g : T -> A -> res T) (R : S -> T -> Prop) l :
  (forall s t a s', In a l -> R s t -> f s a = Ok s' -> exists t', g t a = Ok t' /\ R s' t') ->
  forall s t s', R s t -> foldM f l s = Ok s' -> exists t', foldM g l t = Ok t' /\ R s' t'.
Proof.
  induction l as [|a l IH]; intros H s t s' HR E; cbn in *.
  - injection E as <-. eauto.
  - apply rbind_ok in E. destruct E as (s1 & E1 & E).
    destruct (H s t a s1 (or_introl eq_refl) HR E1) as (t1 & Et & R1). rewrite Et. cbn.
    eapply IH; eauto.
Qed.

Section Erase.
Context {A X N P S : Type}.
Variable ar : arith X N P.
Variable target : A -> bool.
Variables (xc yc : list X).

Lemma erase_pixel row st en sp i s j t q :
  process_pixel ar target true xc yc row st en sp i s j = Ok t ->
  process_pixel ar target false xc yc row st en sp i (mkLine (l_prox s) (l_near s) q) j
    = Ok (mkLine (l_prox t) (l_near t) q).
Proof.
  unfold process_pixel. cbn [l_prox l_near l_nearest]. intros H.
  apply rbind_ok in H. destruct H as (v & E & H). rewrite E. cbn [rbind].
  destruct (target v).
  - apply rbind_ok in H. destruct H as (prox & E1 & H). rewrite E1. cbn [rbind].
    apply rbind_ok in H. destruct H as (near & E2 & H). rewrite E2. cbn [rbind].
    apply rbind_ok in H. destruct H as (nearest & E3 & H). injection H as <-. reflexivity.
  - apply rbind_ok in H. destruct H as (c & E1 & H). rewrite E1. cbn [rbind].
    apply rbind_ok in H. destruct H as (st1 & E2 & H). rewrite E2. cbn [rbind].
    apply rbind_ok in H. destruct H as (st2 & E3 & H). rewrite E3. cbn [rbind].
    apply rbind_ok in H. destruct H as ((d & near) & E4 & H). rewrite E4. cbn [rbind].
    apply rbind_ok in H. destruct H as (c' & E5 & H). rewrite E5. cbn [rbind].
    apply rbind_ok in H. destruct H as (p & E6 & H). rewrite E6. cbn [rbind].
    destruct (_ && _ && _).
    + apply rbind_ok in H. destruct H as (prox & E7 & H). rewrite E7. cbn [rbind].
      apply rbind_ok in H. destruct H as (nearest & E8 & H). injection H as <-. reflexivity.
    + injection H as <-. reflexivity.
Qed.

Lemma erase_line row fwd i s t q :
  process_line ar target true xc yc row fwd i s = Ok t ->
  process_line ar target false xc yc row fwd i (mkLine (l_prox s) (l_near s) q)
    = Ok (mkLine (l_prox t) (l_near t) q).
Proof.
  unfold process_line. intros H.
  eapply (foldM_rel _ (process_pixel ar target false xc yc row _ _ _ i)
    (fun s s' => s' = mkLine (l_prox s) (l_near s) q)) in H.
  - destruct H as (t' & E & ->). exact E.
  - intros s0 t0 a s1 _ -> E. eexists. split; [apply erase_pixel; exact E|reflexivity].
  - reflexivity.
Qed.

Variable second : Z -> Z -> Z -> Z -> res S.

Lemma erase_both row first i prox near srow prox' near' srow' any :
  process_both ar target true second xc yc row first i prox near srow = Ok (prox', near', srow') ->
  process_both ar target false second xc yc row first i prox near any = Ok (prox', near', any).
Proof.
  unfold process_both. intros H.
  apply rbind_ok in H. destruct H as (s1 & E1 & H).
  apply rbind_ok in H. destruct H as (r1 & E2 & H).
  apply rbind_ok in H. destruct H as (s2 & E3 & H).
  apply rbind_ok in H. destruct H as (r2 & E4 & H). injection H as <- <- <-.
  apply (erase_line _ _ _ _ _ (reset_nearest false (len row))) in E1. cbn [l_prox l_near] in E1.
  rewrite E1. cbn [rbind write_secondary l_prox l_near].
  apply (erase_line _ _ _ _ _ (reset_nearest false (len row))) in E3. cbn [l_prox l_near] in E3.
  rewrite E3. reflexivity.
Qed.

(* mode proximity computes the same proximities *)
Theorem erase_compute src ny nx nodata prox0 sec0 sec1 prox sec' :
  compute_proximity ar target true second xc yc src ny nx nodata prox0 sec0 = Ok (prox, sec') ->
  compute_proximity ar target false second xc yc src ny nx nodata prox0 sec1 = Ok (prox, sec1).
Proof.
  unfold compute_proximity. intros H.
  apply rbind_ok in H. destruct H as (s1 & E1 & H).
  apply rbind_ok in H. destruct H as (s2 & E2 & H). injection H as <- <-.
  set (R := fun s s' : @scan P S => s' = mkScan (s_prox s) sec1 (s_near s)).
  destruct (foldM_rel (down_line ar target true second xc yc src nx)
    (down_line ar target false second xc yc src nx) R (zrange 0 ny)) with
    (s := mkScan prox0 sec0 (full nx none)) (t := mkScan prox0 sec1 (full nx none)) (s' := s1)
    as (t1 & F1 & R1); [|reflexivity|exact E1|].
  { intros s t a s' _ -> E. unfold down_line in *. cbn [s_prox s_second s_near].
    apply rbind_ok in E. destruct E as (row & G & E). rewrite G. cbn [rbind].
    apply rbind_ok in E. destruct E as (srow & G1 & E). cbn [second_row rbind].
    apply rbind_ok in E. destruct E as (((p & n) & w) & G2 & E).
    rewrite (erase_both _ _ _ _ _ _ _ _ _ [] G2). cbn [rbind set_second].
    apply rbind_ok in E. destruct E as (sec2 & G3 & E).
    apply rbind_ok in E. destruct E as (px & G4 & E). rewrite G4. cbn [rbind].
    injection E as <-. eexists. split; reflexivity. }
  rewrite F1. cbn [rbind]. rewrite R1. cbn [s_prox s_second].
  destruct (foldM_rel (up_line ar target true second xc yc src nodata)
    (up_line ar target false second xc yc src nodata) R (rev (zrange 0 ny))) with
    (s := mkScan (s_prox s1) (s_second s1) (full nx none))
    (t := mkScan (s_prox s1) sec1 (full nx none)) (s' := s2)
    as (t2 & F2 & R2); [|reflexivity|exact E2|].
  { intros s t a s' _ -> E. unfold up_line in *. cbn [s_prox s_second s_near].
    apply rbind_ok in E. destruct E as (row & G & E). rewrite G. cbn [rbind].
    apply rbind_ok in E. destruct E as (lp & G0 & E). rewrite G0. cbn [rbind].
    apply rbind_ok in E. destruct E as (srow & G1 & E). cbn [second_row rbind].
    apply rbind_ok in E. destruct E as (((p & n) & w) & G2 & E).
    rewrite (erase_both _ _ _ _ _ _ _ _ _ [] G2). cbn [rbind set_second].
    apply rbind_ok in E. destruct E as (sec2 & G3 & E).
    apply rbind_ok in E. destruct E as (px & G4 & E). rewrite G4. cbn [rbind].
    injection E as <-. eexists. split; reflexivity. }
  rewrite F2. cbn [rbind]. rewrite R2. reflexivity.
Qed.

End Erase.

Section Natural.
Context {A X N P S1 S2 : Type}.
Variable ar : arith X N P.
Variable target : A -> bool.
Variables (xc yc : list X).
Variable second1 : Z -> Z -> Z -> Z -> res S1.
Variable second2 : Z -> Z -> Z -> Z -> res S2.
(* values at (i, j) that correspond to each other *)
Variable R : Z -> Z -> S1 -> S2 -> Prop.
Hypothesis second_rel : forall i j ti tj v, second1 i j ti tj = Ok v ->
  exists v', second2 i j ti tj = Ok v' /\ R i j v v'.

Definition row_rel (i : Z) (r : list S1) (r' : list S2) : Prop :=
  len r = len r' /\ forall j v, get r j = Ok v -> exists v', get r' j = Ok v' /\ R i j v v'.
Definition arr_rel (a : list (list S1)) (a' : list (list S2)) : Prop :=
  len a = len a' /\ forall i r, get a i = Ok r -> exists r', get a' i = Ok r' /\ row_rel i r r'.

Lemma set_row_rel i r r' j v v' r1 : row_rel i r r' -> R i j v v' -> set r j v = Ok r1 ->
  exists r1', set r' j v' = Ok r1' /\ row_rel i r1 r1'.
Proof.
  intros [L H] HR E. pose proof (set_ok_range _ _ _ _ E) as Hj.
  destruct (set_range r' j v') as (r1' & E'); [lia|]. exists r1'. split; [exact E'|].
  split; [rewrite (set_len _ _ _ _ E), (set_len _ _ _ _ E'); exact L|].
  intros k w G. destruct (Z.eq_dec k j) as [->|NE].
  - rewrite (get_set_same _ _ _ _ E) in G. injection G as <-.
    rewrite (get_set_same _ _ _ _ E'). eauto.
  - rewrite (get_set_other _ _ _ _ _ E) in G by auto.
    rewrite (get_set_other _ _ _ _ _ E') by auto. auto.
Qed.

Lemma set_arr_rel a a' i r r' a1 : arr_rel a a' -> row_rel i r r' -> set a i r = Ok a1 ->
  exists a1', set a' i r' = Ok a1' /\ arr_rel a1 a1'.
Proof.
  intros [L H] HR E. pose proof (set_ok_range _ _ _ _ E) as Hj.
  destruct (set_range a' i r') as (a1' & E'); [lia|]. exists a1'. split; [exact E'|].
  split; [rewrite (set_len _ _ _ _ E), (set_len _ _ _ _ E'); exact L|].
  intros k w G. destruct (Z.eq_dec k i) as [->|NE].
  - rewrite (get_set_same _ _ _ _ E) in G. injection G as <-.
    rewrite (get_set_same _ _ _ _ E'). eauto.
  - rewrite (get_set_other _ _ _ _ _ E) in G by auto.
    rewrite (get_set_other _ _ _ _ _ E') by auto. auto.
Qed.

Lemma write_rel i s r r' r1 : row_rel i r r' -> write_secondary ar true second1 i s r = Ok r1 ->
  exists r1', write_secondary ar true second2 i s r' = Ok r1' /\ row_rel i r1 r1'.
Proof.
  intros HR E. unfold write_secondary in *.
  eapply foldM_rel; [|exact HR|exact E].
  clear r r' r1 HR E. intros r r' j r1 _ HR E.
  apply rbind_ok in E. destruct E as (q & G1 & E). rewrite G1. cbn [rbind].
  apply rbind_ok in E. destruct E as (p & G2 & E). rewrite G2. cbn [rbind].
  destruct (_ && _).
  - apply rbind_ok in E. destruct E as (v & G3 & E).
    destruct (second_rel _ _ _ _ _ G3) as (v' & G3' & RV). rewrite G3'. cbn [rbind].
    eapply set_row_rel; eauto.
  - injection E as <-. eauto.
Qed.

Lemma both_rel row first i prox near r r' prox' near' r1 : row_rel i r r' ->
  process_both ar target true second1 xc yc row first i prox near r = Ok (prox', near', r1) ->
  exists r1', process_both ar target true second2 xc yc row first i prox near r' = Ok (prox', near', r1')
    /\ row_rel i r1 r1'.
Proof.
  intros HR H. unfold process_both in *.
  apply rbind_ok in H. destruct H as (s1 & E1 & H). rewrite E1. cbn [rbind].
  apply rbind_ok in H. destruct H as (w1 & E2 & H).
  destruct (write_rel _ _ _ _ _ HR E2) as (w1' & E2' & HR1). rewrite E2'. cbn [rbind].
  apply rbind_ok in H. destruct H as (s2 & E3 & H). rewrite E3. cbn [rbind].
  apply rbind_ok in H. destruct H as (w2 & E4 & H).
  destruct (write_rel _ _ _ _ _ HR1 E4) as (w2' & E4' & HR2). rewrite E4'. cbn [rbind].
  injection H as <- <- <-. eauto.
Qed.

Theorem natural_compute src ny nx nodata prox0 sec1 sec2 prox sec1' :
  arr_rel sec1 sec2 ->
  compute_proximity ar target true second1 xc yc src ny nx nodata prox0 sec1 = Ok (prox, sec1') ->
  exists sec2', compute_proximity ar target true second2 xc yc src ny nx nodata prox0 sec2
      = Ok (prox, sec2') /\ arr_rel sec1' sec2'.
Proof.
  intros HA H. unfold compute_proximity in *.
  apply rbind_ok in H. destruct H as (s1 & E1 & H).
  apply rbind_ok in H. destruct H as (s2 & E2 & H). injection H as <- <-.
  set (Q := fun (s : @scan P S1) (s' : @scan P S2) => s_prox s = s_prox s' /\ s_near s = s_near s'
              /\ arr_rel (s_second s) (s_second s')).
  destruct (foldM_rel (down_line ar target true second1 xc yc src nx)
    (down_line ar target true second2 xc yc src nx) Q (zrange 0 ny)) with
    (s := mkScan prox0 sec1 (full nx none)) (t := mkScan prox0 sec2 (full nx none)) (s' := s1)
    as (t1 & F1 & R1 & _ & R3); [|split; [|split]; auto|exact E1|].
  { intros s t a s' _ (Q1 & Q2 & Q3) E. unfold down_line in *. rewrite <- Q1, <- Q2.
    apply rbind_ok in E. destruct E as (row & G & E). rewrite G. cbn [rbind].
    apply rbind_ok in E. destruct E as (srow & G1 & E). cbn [second_row] in *.
    destruct (proj2 Q3 _ _ G1) as (srow' & G1' & RR). rewrite G1'. cbn [rbind].
    apply rbind_ok in E. destruct E as (((p & n) & w) & G2 & E).
    destruct (both_rel _ _ _ _ _ _ _ _ _ _ RR G2) as (w' & G2' & RW). rewrite G2'.
    cbn [rbind set_second] in *.
    apply rbind_ok in E. destruct E as (sec3 & G3 & E).
    destruct (set_arr_rel _ _ _ _ _ _ Q3 RW G3) as (sec3' & G3' & R3). rewrite G3'. cbn [rbind].
    apply rbind_ok in E. destruct E as (px & G4 & E). rewrite G4. cbn [rbind].
    injection E as <-. eexists. split; [reflexivity|]. split; [|split]; auto. }
  rewrite F1. cbn [rbind].
  destruct (foldM_rel (up_line ar target true second1 xc yc src nodata)
    (up_line ar target true second2 xc yc src nodata) Q (rev (zrange 0 ny))) with
    (s := mkScan (s_prox s1) (s_second s1) (full nx none))
    (t := mkScan (s_prox t1) (s_second t1) (full nx none)) (s' := s2)
    as (t2 & F2 & R4 & _ & R6); [|split; [|split]; auto|exact E2|].
  { intros s t a s' _ (Q1 & Q2 & Q3) E. unfold up_line in *. rewrite <- Q1, <- Q2.
    apply rbind_ok in E. destruct E as (row & G & E). rewrite G. cbn [rbind].
    apply rbind_ok in E. destruct E as (lp & G0 & E). rewrite G0. cbn [rbind].
    apply rbind_ok in E. destruct E as (srow & G1 & E). cbn [second_row] in *.
    destruct (proj2 Q3 _ _ G1) as (srow' & G1' & RR). rewrite G1'. cbn [rbind].
    apply rbind_ok in E. destruct E as (((p & n) & w) & G2 & E).
    destruct (both_rel _ _ _ _ _ _ _ _ _ _ RR G2) as (w' & G2' & RW). rewrite G2'.
    cbn [rbind set_second] in *.
    apply rbind_ok in E. destruct E as (sec3 & G3 & E).
    destruct (set_arr_rel _ _ _ _ _ _ Q3 RW G3) as (sec3' & G3' & R3'). rewrite G3'. cbn [rbind].
    apply rbind_ok in E. destruct E as (px & G4 & E). rewrite G4. cbn [rbind].
    injection E as <-. eexists. split; [reflexivity|]. split; [|split]; auto. }
  rewrite F2. cbn [rbind]. rewrite R4. eauto.
Qed.

End Natural.

Section NoData.
Context {A X N P S : Type}.
Variable ar : arith X N P.
Variable target : A -> bool.
Variables (xc yc : list X).
Variable second : Z -> Z -> Z -> Z -> res S.
Variable track : bool.

Lemma up_rel src nd nd' l : NoDup l -> forall s t s',
  len (s_prox s) = len (s_prox t) ->
  (forall i, In i l -> get (s_prox s) i = get (s_prox t) i) ->
  s_near s = s_near t -> s_second s = s_second t ->
  foldM (up_line ar target track second xc yc src nd) l s = Ok s' ->
  exists t', foldM (up_line ar target track second xc yc src nd') l t = Ok t'
    /\ s_second s' = s_second t'.
Proof.
  induction l as [|i l IH]; intros ND s t s' HL HP HN HS E.
  - cbn in *. injection E as <-. eauto.
  - cbn [foldM] in *. apply rbind_ok in E. destruct E as (s1 & E1 & E).
    inversion ND as [|? ? NI ND']; subst. unfold up_line in *.
    rewrite <- (HP i (or_introl eq_refl)), <- HN, <- HS.
    apply rbind_ok in E1. destruct E1 as (row & G & E1). rewrite G. cbn [rbind].
    apply rbind_ok in E1. destruct E1 as (lp & G0 & E1). rewrite G0. cbn [rbind].
    apply rbind_ok in E1. destruct E1 as (srow & G1 & E1). rewrite G1. cbn [rbind].
    apply rbind_ok in E1. destruct E1 as (((p & n) & w) & G2 & E1). rewrite G2. cbn [rbind].
    apply rbind_ok in E1. destruct E1 as (sec2 & G3 & E1). rewrite G3. cbn [rbind].
    apply rbind_ok in E1. destruct E1 as (px & G4 & E1). injection E1 as <-.
    destruct (set_range (s_prox t) i (map (fun p => if pneg ar p then nd' else p) p)) as (px' & G4').
    { rewrite <- HL. eapply set_ok_range; eauto. }
    rewrite G4'. cbn [rbind].
    eapply IH; [exact ND'| | | | |exact E]; cbn [s_prox s_near s_second]; auto.
    + rewrite (set_len _ _ _ _ G4), (set_len _ _ _ _ G4'). exact HL.
    + intros k Hk. assert (i <> k) by congruence.
      rewrite (get_set_other _ _ _ _ _ G4), (get_set_other _ _ _ _ _ G4') by auto.
      apply HP. now right.
Qed.

(* the value for skipped cells of the proximity array has no influence on the
   secondary array *)
Theorem nodata_second src ny nx nd nd' prox0 sec0 prox sec' :
  compute_proximity ar target track second xc yc src ny nx nd prox0 sec0 = Ok (prox, sec') ->
  exists prox', compute_proximity ar target track second xc yc src ny nx nd' prox0 sec0
    = Ok (prox', sec').
Proof.
  unfold compute_proximity. intros H.
  apply rbind_ok in H. destruct H as (s1 & E1 & H). rewrite E1. cbn [rbind].
  apply rbind_ok in H. destruct H as (s2 & E2 & H). injection H as <- <-.
  assert (ND : NoDup (rev (zrange 0 ny))).
  { apply NoDup_rev. unfold zrange. apply Injective_map_NoDup; [|apply seq_NoDup].
    intros a b. lia. }
  destruct (up_rel src nd nd' _ ND _ _ _ eq_refl (fun _ _ => eq_refl) eq_refl eq_refl E2)
    as (t & -> & ->). cbn [rbind]. eauto.
Qed.
End NoData.
