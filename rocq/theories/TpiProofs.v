(* Proofs about the topographic position index. *)
From Coq Require Import QArith.
From Verif Require Import Base BaseFacts Scalars Dtypes ChunksProofs Arr2 Arr2Facts Focal FocalSpec FocalValues FocalResults Raster RasterSpec RasterProofs RasterValues Tpi TpiSpec.
From Coq Require Import ZifyBool.
Open Scope Z_scope.

Lemma at2_val {A} (d : A) a i j x : at2 a i j x -> val2 d a i j = x.
Proof. intros (row & E & G). unfold val2. now rewrite E, G. Qed.
Lemma val2_outside {A} (d : A) ny nx a i j : shaped2 ny nx a -> ~ (0 <= i < ny /\ 0 <= j < nx) -> val2 d a i j = d.
Proof.
  intros [L F] H. unfold val2. destruct (get a i) as [row|] eqn:E; [|reflexivity]. destruct (get row j) as [x|] eqn:G; [|reflexivity]. exfalso. apply H.
  pose proof (get_ok_range _ _ _ E). pose proof (get_ok_range _ _ _ G). rewrite Forall_forall in F. rewrite (F row (get_in _ _ _ E)) in *. lia.
Qed.
Lemma window_ring inner outer : 0 <= inner < outer ->
  exists k, get_focal_window (if inner =? 0 then One outer else Two inner outer) None = Ok k /\ shaped2 (2 * outer - 1) (2 * outer - 1) k
  /\ forall i j p q, under k (2 * outer - 1) (2 * outer - 1) i j p q = ring inner outer i j p q.
Proof.
  intros H. assert (M : (2 * outer - 1 - 1) / 2 = outer - 1) by (symmetry; apply (Z.div_unique _ 2 _ 0); lia).
  assert (FAR : forall i j p q, ~ (0 <= p - i + (outer - 1) < 2 * outer - 1 /\ 0 <= q - j + (outer - 1) < 2 * outer - 1) -> ring inner outer i j p q = false).
  { intros i j p q X. unfold ring. assert ((outer - 1) * (outer - 1) < (p - i) * (p - i) + (q - j) * (q - j)); [|lia].
    remember (p - i) as x. remember (q - j) as y. remember (outer - 1) as r. clear - X H Heqr. assert (C : x < - r \/ r < x \/ y < - r \/ r < y) by lia. assert (0 <= r) by lia. clear X Heqr H. destruct C as [C|[C|[C|C]]]; nia. }
  destruct (Z.eqb_spec inner 0) as [E|E].
  - destruct (circle_window outer ltac:(lia)) as (k & G & S & _ & V). exists k. split; [exact G|]. split; [exact S|]. intros i j p q. unfold under. rewrite M.
    set (a := p - i + (outer - 1)). set (b := q - j + (outer - 1)).
    destruct (Z_lt_dec a 0); [|destruct (Z_lt_dec b 0); [|destruct (Z_le_dec (2 * outer - 1) a); [|destruct (Z_le_dec (2 * outer - 1) b)]]];
      try (rewrite (val2_outside false _ _ _ _ _ S) by lia; symmetry; apply FAR; fold a b; lia).
    destruct (V a b ltac:(lia) ltac:(lia)) as (t & A & T). rewrite (at2_val _ _ _ _ _ A). unfold in_disc in T. unfold ring. rewrite E. cbn [Z.eqb orb]. rewrite andb_true_r.
    replace (a - (outer - 1)) with (p - i) in T by lia. replace (b - (outer - 1)) with (q - j) in T by lia. rewrite !Z.pow_2_r in T.
    destruct t; symmetry; [apply Z.leb_le, T; reflexivity|]. apply Z.leb_gt. apply Z.nle_gt. intros X. apply T in X. discriminate.
  - destruct (annulus_window inner outer ltac:(lia)) as (k & G & S & V). exists k. split; [exact G|]. split; [exact S|]. intros i j p q. unfold under. rewrite M.
    set (a := p - i + (outer - 1)). set (b := q - j + (outer - 1)).
    destruct (Z_lt_dec a 0); [|destruct (Z_lt_dec b 0); [|destruct (Z_le_dec (2 * outer - 1) a); [|destruct (Z_le_dec (2 * outer - 1) b)]]];
      try (rewrite (val2_outside false _ _ _ _ _ S) by lia; symmetry; apply FAR; fold a b; lia).
    destruct (V a b ltac:(lia) ltac:(lia)) as (t & A & T). rewrite (at2_val _ _ _ _ _ A). unfold in_disc in T. unfold ring.
    replace (a - (outer - 1)) with (p - i) in T by lia. replace (b - (outer - 1)) with (q - j) in T by lia.
    replace (a - (outer - inner) - (inner - 1)) with (p - i) in T by lia. replace (b - (outer - inner) - (inner - 1)) with (q - j) in T by lia. rewrite !Z.pow_2_r in T.
    destruct (Z.eqb_spec inner 0) as [|_]; [contradiction|]. cbn [orb].
    set (D := (p - i) * (p - i) + (q - j) * (q - j)) in *. destruct t; [destruct T as [T _]; specialize (T eq_refl); lia|]. destruct T as [_ T].
    destruct (Z.leb_spec D ((outer - 1) * (outer - 1))); [|reflexivity]. destruct (Z.ltb_spec ((inner - 1) * (inner - 1)) D); [|reflexivity]. specialize (T ltac:(lia)). discriminate.
Qed.

Section Tpi.
Variable cast : dtype -> num -> num.
Variable fdt : num -> dtype.
Variable rec : num -> dtype -> num * bool.
Variable other : Z -> list num -> num.
Variable ms : Z.
Variables sub add : num -> num -> num.
Variable junk : Z -> Z -> arr2 num.
Hypothesis ALLOC : allocates junk.

Lemma ring_focal dem ny nx k n inner outer i j : (forall i j p q, under k n n i j p q = ring inner outer i j p q) ->
  focal_values (r_data dem) (val2 false (r_mask dem)) k n n ny nx i j = ring_values dem ny nx inner outer i j.
Proof.
  intros U. unfold focal_values, ring_values. f_equal. unfold value. f_equal. apply filter_ext. intros [p q]. now rewrite U.
Qed.
Lemma drop_nan_ring dem ny nx inner outer i j : drop_nan (ring_values dem ny nx inner outer i j) = ring_values dem ny nx inner outer i j.
Proof.
  unfold drop_nan, ring_values. set (l := map _ _). clearbody l. induction l as [|x l IH]; [reflexivity|]. cbn [filter]. destruct (is_nan x) eqn:E; cbn [negb]; [exact IH|]. cbn [filter]. rewrite E. cbn [negb]. now rewrite IH.
Qed.
Lemma to_i32 d : promote_types d (promote_dtype_to_float d) <> I32.
Proof. destruct d; vm_compute; discriminate. Qed.

(* the sum before it is cast *)
Lemma tpi_sum dem ny nx ycs xcs inner outer : wf ny nx dem -> 0 < nx -> cuts ny ycs -> cuts nx xcs -> 0 <= inner < outer -> outer - 1 <= ny -> outer - 1 <= nx ->
  exists v m, (forall i j, in_raster ny nx i j -> let mean := other ms (ring_values dem ny nx inner outer i j) in
       m i j = (if masked dem then null dem i j || is_nan mean else false) /\ (m i j = false -> v i j = add (sub (value dem i j) mean) (Fin (1 # 2))))
  /\ tpi cast fdt rec other ms sub add junk ny nx ycs xcs dem (Some inner) (Some outer)
     = let* t := astype cast rec (mk ny nx (promote_types (r_dtype dem) (promote_dtype_to_float (r_dtype dem)))
          (if masked dem then Some (default_null (promote_types (r_dtype dem) (promote_dtype_to_float (r_dtype dem)))) else None) v m) I32 None in
       if masked dem then set_null_value cast fdt t (Some (SInt (- 2 ^ 31))) else Ok t.
Proof.
  intros W Px Cy Cx HR HY HX. pose proof W as (Hy & _ & SD & SM & HN). unfold tpi.
  replace (inner <? 0) with false by lia. replace (outer <? 1) with false by lia. replace (outer <=? inner) with false by lia.
  destruct (window_ring inner outer HR) as (k & G & S & U). rewrite G. cbn [rbind]. replace (len k) with (2 * outer - 1) by (symmetry; exact (proj1 S)).
  set (n := 2 * outer - 1) in *. assert (N2 : n / 2 = outer - 1) by (symmetry; apply (Z.div_unique _ 2 _ 1); lia).
  set (fd := promote_dtype_to_float (r_dtype dem)). set (od := promote_types (r_dtype dem) fd).
  set (mean := fun i j => other ms (ring_values dem ny nx inner outer i j)).
  set (mm := fun i j => if masked dem then null dem i j || is_nan (mean i j) else false).
  assert (X : exists b, focal other junk ny nx ycs xcs k n n (SOther ms) false (Band (r_data dem) (if masked dem then Some (r_mask dem) else None)) = Ok b
     /\ wf ny nx (focal_raster fd b) /\ masked (focal_raster fd b) = masked dem
     /\ forall i j, in_raster ny nx i j -> null (focal_raster fd b) i j = mm i j /\ (mm i j = false -> value (focal_raster fd b) i j = mean i j)).
  { destruct (masked dem) eqn:EM.
    - destruct (masked_result other junk n n ny nx ycs xcs k (SOther ms) (r_data dem) (r_mask dem) ALLOC ltac:(lia) ltac:(lia) Hy Px Cy Cx S SD SM ltac:(lia) ltac:(lia)) as (out & m & E & SO & SM' & V).
      exists (Band out (Some m)). split; [exact E|]. split; [|split; [reflexivity|]].
      + split; [exact Hy|]. split; [lia|]. split; [exact SO|]. split; [exact SM'|]. discriminate.
      + intros i j [Hi Hj]. destruct (V i j Hi Hj) as [A B]. cbn [stat_func] in A, B. rewrite (ring_focal dem ny nx k n inner outer i j U), drop_nan_ring in A, B. unfold null, value, focal_raster. cbn [b_mask b_data r_mask r_data].
        rewrite (at2_val _ _ _ _ _ A), (at2_val _ _ _ _ _ B). unfold mm. fold (mean i j). unfold null. split; [reflexivity|]. intros H. apply orb_false_elim in H as [-> _]. reflexivity.
    - destruct (unmasked_result other junk n n ny nx ycs xcs k (SOther ms) false (r_data dem) ALLOC ltac:(lia) ltac:(lia) Hy Px Cy Cx S SD ltac:(lia) ltac:(lia) eq_refl) as (out & E & SO & V).
      exists (Band out None). split; [exact E|]. unfold focal_raster. cbn [b_mask b_data]. pose proof (shaped_tab NaN ny nx out SO ltac:(lia)) as ET.
      assert (EB : map2 (fun _ : num => false) out = tab2 ny nx (fun _ _ => false)) by (rewrite ET; apply map2_tab').
      split; [|split; [reflexivity|]].
      + split; [exact Hy|]. split; [lia|]. split; [exact SO|]. cbn [r_mask]. rewrite EB. split; [apply rect_tab2; lia|]. intros _ i j [Hi Hj]. unfold null. cbn [r_mask]. now rewrite val2_tab.
      + intros i j [Hi Hj]. unfold null, value. cbn [r_mask r_data]. rewrite EB, val2_tab by assumption. split; [reflexivity|]. intros _. rewrite (at2_val _ _ _ _ _ (V i j Hi Hj)). cbn [stat_func]. unfold mean.
        rewrite <- (drop_nan_ring dem), <- (ring_focal dem ny nx k n inner outer i j U). do 2 f_equal. unfold focal_values. f_equal. f_equal. unfold cells.
        apply filter_ext_in. intros [p q] Hpq. f_equal. f_equal. apply in_concat in Hpq as (row & Hrow & Hq). apply in_map_iff in Hrow as (p' & <- & Hp'). apply in_map_iff in Hq as (q' & Eq & Hq'). injection Eq as -> ->.
        apply zrange_in in Hp'. apply zrange_in in Hq'. symmetry. apply HN; [|now split]. unfold masked in EM. now destruct (r_nv dem). }
  destruct X as (b & EF & WB & MB & VB). rewrite EF. cbn [rbind].
  destruct (apply_ufunc_spec ny nx false [(binary sub, od)] [ORaster dem; ORaster (focal_raster fd b)] I ltac:(constructor; [exact W|constructor; [exact WB|constructor]]) (or_introl eq_refl) (or_intror (Z.le_refl 1))) as (rs & E1 & L1 & V1).
  rewrite E1. cbn [rbind]. destruct (V1 0 _ _ eq_refl) as (r1 & G1 & W1 & D1 & N1 & C1). rewrite G1. cbn [rbind].
  destruct (apply_ufunc_spec ny nx false [(binary add, od)] [ORaster r1; OScalar (Fin (1 # 2)) true] I ltac:(constructor; [exact W1|constructor; [exact I|constructor]]) (or_introl eq_refl) (or_intror (Z.le_refl 1))) as (rs2 & E2 & L2 & V2).
  rewrite E2. cbn [rbind]. destruct (V2 0 _ _ eq_refl) as (r2 & G2 & W2 & D2 & N2' & C2). rewrite G2. cbn [rbind].
  assert (M1 : r_nv r1 = if masked dem then Some (default_null od) else None). { rewrite N1. cbn [existsb op_masked]. rewrite MB. now destruct (masked dem). }
  assert (M2 : r_nv r2 = if masked dem then Some (default_null od) else None). { rewrite N2'. cbn [existsb op_masked]. unfold masked at 1. rewrite M1. now destruct (masked dem). }
  exists (value r2), (null r2). split.
  - intros i j IN. cbv zeta. fold (mean i j). destruct (C1 i j IN) as [A1 B1]. destruct (C2 i j IN) as [A2 B2]. cbn [existsb op_null map op_value binary] in *. rewrite !orb_false_r in A1. rewrite !orb_false_r in A2.
    destruct (VB i j IN) as [A3 B3]. rewrite A3 in A1.
    assert (A4 : null r2 i j = mm i j). { rewrite A2, A1. unfold mm. destruct (masked dem) eqn:EM; [now destruct (null dem i j)|]. rewrite orb_false_r. apply HN; [|exact IN]. unfold masked in EM. now destruct (r_nv dem). }
    split; [exact A4|]. intros H. rewrite B2, H. f_equal. assert (HM : mm i j = false) by congruence. rewrite B1. rewrite A2 in H. rewrite H. f_equal. now apply B3.
  - pose proof (wf_mk ny nx r2 W2) as X. rewrite D2, M2 in X. rewrite <- X. reflexivity.
Qed.

Hypothesis MIN : cast I32 (of_Z (- 2 ^ 31)) = of_Z (- 2 ^ 31).
Lemma tpi_masked dem ny nx ycs xcs inner outer : wf ny nx dem -> masked dem = true -> 0 < nx -> cuts ny ycs -> cuts nx xcs -> 0 <= inner < outer -> outer - 1 <= ny -> outer - 1 <= nx ->
  exists out, tpi cast fdt rec other ms sub add junk ny nx ycs xcs dem (Some inner) (Some outer) = Ok out /\ wf ny nx out /\ r_dtype out = I32 /\ r_nv out = Some (of_Z (- 2 ^ 31))
  /\ forall i j, in_raster ny nx i j -> let mean := other ms (ring_values dem ny nx inner outer i j) in let t := cast I32 (add (sub (value dem i j) mean) (Fin (1 # 2))) in
     (null out i j = true <-> null dem i j = true \/ is_nan mean = true \/ num_eqb t (of_Z (- 2 ^ 31)) = true)
     /\ value out i j = if null out i j then of_Z (- 2 ^ 31) else t.
Proof.
  intros W EM Px Cy Cx HR HY HX. destruct (tpi_sum dem ny nx ycs xcs inner outer W Px Cy Cx HR HY HX) as (v & m & V & E). pose proof W as (Hy & _). rewrite E. rewrite EM in *.
  set (od := promote_types _ _) in *. unfold astype. assert (ND : dtype_eqb I32 od = false). { pose proof (to_i32 (r_dtype dem)) as X. fold od in X. destruct od; try reflexivity. congruence. }
  cbn [mk r_dtype r_nv r_data r_mask]. rewrite ND. cbn [andb]. rewrite !map2_tab'. destruct (reconcile rec (default_null od) I32) as [nv w] eqn:ER. rewrite fill_tab. cbn [rbind].
  unfold set_null_value. cbn [null_value_dtype is_float_dtype is_int_dtype r_dtype]. change (int_min I32 <=? - 2 ^ 31) with true. change (- 2 ^ 31 <=? int_max I32) with true. cbn [andb rbind].
  cbn [r_data r_mask r_dtype scalar_num]. rewrite MIN. unfold masked. cbn [r_nv]. unfold mask_from_data. rewrite map2_tab', zip2_tab.
  unfold burn_mask. cbn [r_nv r_dtype r_mask r_data]. rewrite fill_tab.
  set (t := fun i j => cast I32 (v i j)). set (M := fun i j => m i j || num_eqb (if m i j then nv else t i j) (of_Z (- 2 ^ 31))).
  exists (mk ny nx I32 (Some (of_Z (- 2 ^ 31))) (fun i j => if M i j then of_Z (- 2 ^ 31) else if m i j then nv else t i j) M). split; [reflexivity|].
  split; [apply mk_wf; [exact Hy|lia|discriminate]|]. split; [reflexivity|]. split; [reflexivity|]. intros i j IN. cells IN. destruct (V i j IN) as [A B]. cbv zeta.
  set (mean := other ms _) in *. unfold M, t. destruct (m i j) eqn:EMM; cbn [orb].
  - split; [|reflexivity]. split; [|reflexivity]. intros _. symmetry in A. apply orb_prop in A. tauto.
  - rewrite (B eq_refl). symmetry in A. apply orb_false_elim in A as [A1 A2]. rewrite A1, A2. split; [|reflexivity]. intuition discriminate.
Qed.
Lemma tpi_unmasked dem ny nx ycs xcs inner outer : wf ny nx dem -> masked dem = false -> 0 < nx -> cuts ny ycs -> cuts nx xcs -> 0 <= inner < outer -> outer - 1 <= ny -> outer - 1 <= nx ->
  exists out, tpi cast fdt rec other ms sub add junk ny nx ycs xcs dem (Some inner) (Some outer) = Ok out /\ wf ny nx out /\ r_dtype out = I32 /\ r_nv out = None
  /\ forall i j, in_raster ny nx i j -> value out i j = cast I32 (add (sub (value dem i j) (other ms (ring_values dem ny nx inner outer i j))) (Fin (1 # 2))) /\ null out i j = false.
Proof.
  intros W EM Px Cy Cx HR HY HX. destruct (tpi_sum dem ny nx ycs xcs inner outer W Px Cy Cx HR HY HX) as (v & m & V & E). pose proof W as (Hy & _). rewrite E. rewrite EM in *.
  set (od := promote_types _ _) in *. unfold astype. assert (ND : dtype_eqb I32 od = false). { pose proof (to_i32 (r_dtype dem)) as X. fold od in X. destruct od; try reflexivity. congruence. }
  cbn [mk r_dtype r_nv r_data r_mask]. rewrite ND. cbn [andb]. rewrite map2_tab'. cbn [rbind].
  exists (mk ny nx I32 None (fun i j => cast I32 (v i j)) m). split; [reflexivity|].
  assert (F : forall i j, in_raster ny nx i j -> m i j = false) by (intros i j IN; exact (proj1 (V i j IN))).
  split; [apply mk_wf; [exact Hy|lia|now intros _]|]. split; [reflexivity|]. split; [reflexivity|]. intros i j IN. cells IN. destruct (V i j IN) as [A B]. split; [|exact A]. rewrite (B A). reflexivity.
Qed.
Lemma tpi_refused dem ny nx ycs xcs : 
  (forall i o, i = None \/ o = None -> tpi cast fdt rec other ms sub add junk ny nx ycs xcs dem i o = Err TypeError)
  /\ forall i o, i < 0 \/ o <= i -> tpi cast fdt rec other ms sub add junk ny nx ycs xcs dem (Some i) (Some o) = Err ValueError.
Proof.
  split.
  - intros i o [-> | ->]; [reflexivity|]. now destruct i.
  - intros i o H. unfold tpi. destruct (Z.ltb_spec i 0); [reflexivity|]. destruct (Z.ltb_spec o 1); [reflexivity|]. destruct (Z.leb_spec o i); [reflexivity|]. lia.
Qed.
End Tpi.

(* the chunks do not matter *)
Lemma tpi_chunks cast fdt rec other ms sub add junk junk' dem ny nx ycs xcs ycs' xcs' inner outer : allocates junk -> allocates junk' -> cast I32 (of_Z (- 2 ^ 31)) = of_Z (- 2 ^ 31) ->
  wf ny nx dem -> 0 < nx -> cuts ny ycs -> cuts nx xcs -> cuts ny ycs' -> cuts nx xcs' -> 0 <= inner < outer -> outer - 1 <= ny -> outer - 1 <= nx ->
  tpi cast fdt rec other ms sub add junk ny nx ycs xcs dem (Some inner) (Some outer) = tpi cast fdt rec other ms sub add junk' ny nx ycs' xcs' dem (Some inner) (Some outer).
Proof.
  intros AL AL' MIN W Px Cy Cx Cy' Cx' HR HY HX. destruct (masked dem) eqn:EM.
  - destruct (tpi_masked cast fdt rec other ms sub add junk AL MIN dem ny nx ycs xcs inner outer W EM Px Cy Cx HR HY HX) as (o1 & E1 & W1 & D1 & N1 & V1).
    destruct (tpi_masked cast fdt rec other ms sub add junk' AL' MIN dem ny nx ycs' xcs' inner outer W EM Px Cy' Cx' HR HY HX) as (o2 & E2 & W2 & D2 & N2 & V2).
    rewrite E1, E2. f_equal. rewrite (wf_mk ny nx o1 W1), (wf_mk ny nx o2 W2), D1, D2, N1, N2.
    assert (NN : forall i j, in_raster ny nx i j -> null o1 i j = null o2 i j).
    { intros i j IN. destruct (V1 i j IN) as [A _]. destruct (V2 i j IN) as [B _]. destruct (null o1 i j), (null o2 i j); try reflexivity; [symmetry; apply B, A|apply A, B]; reflexivity. }
    apply mk_ext; intros i j IN; [|now apply NN]. destruct (V1 i j IN) as [_ A]. destruct (V2 i j IN) as [_ B]. rewrite A, B. now rewrite (NN i j IN).
  - destruct (tpi_unmasked cast fdt rec other ms sub add junk AL dem ny nx ycs xcs inner outer W EM Px Cy Cx HR HY HX) as (o1 & E1 & W1 & D1 & N1 & V1).
    destruct (tpi_unmasked cast fdt rec other ms sub add junk' AL' dem ny nx ycs' xcs' inner outer W EM Px Cy' Cx' HR HY HX) as (o2 & E2 & W2 & D2 & N2 & V2).
    rewrite E1, E2. f_equal. rewrite (wf_mk ny nx o1 W1), (wf_mk ny nx o2 W2), D1, D2, N1, N2.
    apply mk_ext; intros i j IN; destruct (V1 i j IN) as [A A']; destruct (V2 i j IN) as [B B']; congruence.
Qed.

(* what the number says *)
Lemma trunc_half (x m : Q) : let t := trunc (x - m + (1 # 2)) in
  (t = 0 <-> (- (3 # 2) < x - m)%Q /\ (x - m < 1 # 2)%Q)
  /\ (0 < t -> (inject_Z t - (1 # 2) <= x - m)%Q /\ (x - m < inject_Z t + (1 # 2))%Q)
  /\ (t < 0 -> (inject_Z t - (3 # 2) < x - m)%Q /\ (x - m <= inject_Z t - (1 # 2))%Q).
Proof.
  cbv zeta. set (d := (x - m)%Q). clearbody d. clear. destruct d as [a b]. unfold trunc, Qle, Qlt, inject_Z. cbn -[Z.mul Z.add Z.quot].
  assert (B : 0 < Zpos b) by lia. rewrite ?Pos2Z.inj_mul. set (B' := Zpos b) in *. clearbody B'.
  pose proof (Z.quot_rem' (a * 2 + 1 * B') (B' * 2)) as QR. set (t := Z.quot (a * 2 + 1 * B') (B' * 2)) in *. set (r := Z.rem (a * 2 + 1 * B') (B' * 2)) in *.
  assert (RB : Z.abs r < B' * 2) by (unfold r; pose proof (Z.rem_bound_abs (a * 2 + 1 * B') (B' * 2) ltac:(lia)); lia).
  assert (RS : 0 <= r * (a * 2 + 1 * B')) by (unfold r; apply Z.rem_sign_mul; lia). clearbody t r.
  split; [|split]; [split| |]; intros; try split; nia.
Qed.
Lemma tpi_exact cast fdt rec other ms junk dem ny nx ycs xcs inner outer : allocates junk ->
  (forall q, - 2 ^ 31 <= trunc q < 2 ^ 31 -> cast I32 (Fin q) = of_Z (trunc q)) ->
  wf ny nx dem -> masked dem = true -> 0 < nx -> cuts ny ycs -> cuts nx xcs -> 0 <= inner < outer -> outer - 1 <= ny -> outer - 1 <= nx ->
  exists out, tpi cast fdt rec other ms exact_sub exact_add junk ny nx ycs xcs dem (Some inner) (Some outer) = Ok out
  /\ forall i j x m, in_raster ny nx i j -> null dem i j = false -> value dem i j = Fin x -> other ms (ring_values dem ny nx inner outer i j) = Fin m ->
     - 2 ^ 31 < trunc (x - m + (1 # 2)) < 2 ^ 31 ->
     null out i j = false /\ exists t, value out i j = of_Z t
     /\ (t = 0 <-> (- (3 # 2) < x - m)%Q /\ (x - m < 1 # 2)%Q)
     /\ (0 < t -> (inject_Z t - (1 # 2) <= x - m)%Q /\ (x - m < inject_Z t + (1 # 2))%Q)
     /\ (t < 0 -> (inject_Z t - (3 # 2) < x - m)%Q /\ (x - m <= inject_Z t - (1 # 2))%Q).
Proof.
  intros AL HC W EM Px Cy Cx HR HY HX.
  assert (MIN : cast I32 (of_Z (- 2 ^ 31)) = of_Z (- 2 ^ 31)). { unfold of_Z at 1. rewrite HC; [reflexivity|]. vm_compute. split; [discriminate|reflexivity]. }
  destruct (tpi_masked cast fdt rec other ms exact_sub exact_add junk AL MIN dem ny nx ycs xcs inner outer W EM Px Cy Cx HR HY HX) as (out & E & _ & _ & _ & V).
  exists out. split; [exact E|]. intros i j x m IN NN XV XM RT. destruct (V i j IN) as [A B]. cbv zeta in A, B. rewrite XM, XV in A, B. cbn [exact_sub exact_add] in A, B. rewrite HC in A, B by lia.
  assert (NO : null out i j = false).
  { destruct (null out i j) eqn:EN; [|reflexivity]. destruct (proj1 A eq_refl) as [X|[X|X]]; [congruence|discriminate|]. unfold num_eqb, of_Z in X. cbn in X. apply Qeq_bool_iff in X. unfold Qeq, inject_Z in X. cbn [Qnum Qden] in X. lia. }
  split; [exact NO|]. rewrite NO in B. eexists. split; [exact B|]. apply trunc_half.
Qed.
