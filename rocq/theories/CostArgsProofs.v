(* Proofs about the arguments of the cost distance functions. *)
From Coq Require Import QArith.
From Flocq Require Import Core BinarySingleNaN.
From Coq Require Import ZifyBool ZifyNat.
From Verif Require Import BaseFacts Heap HeapProofs F64 F64Facts Scalars CostSpec CostDist DijkstraProofs CostProofs
  CostPublicProofs CostArgs CostArgsSpec CostArgsFloats.
Open Scope Z_scope.

(* ---- sums that agree on the costs give the same run ---- *)

Section Sums.
Context {C : Type} (barrier : C -> bool) (f h : C -> C -> f64) (g : @args C).
Hypothesis same : forall a b, In a (a_costs g) -> In b (a_costs g) -> barrier a = false -> barrier b = false -> f a b = h a b.

Lemma get_In {A} (l : list A) i x : get l i = Ok x -> In x l.
Proof.
  unfold get. destruct (i <? 0); [discriminate|]. destruct (nth_error l (Z.to_nat i)) eqn:E; [|discriminate].
  intros [= <-]. eapply nth_error_In; eauto.
Qed.

Lemma try_move_ext fm lens t b l r index src cum cost s i : In cost (a_costs g) -> barrier cost = false ->
  try_move barrier f g fm lens t b l r index src cum cost s i = try_move barrier h g fm lens t b l r index src cum cost s i.
Proof.
  intros Hc Bc. unfold try_move.
  destruct (get moves i) as [mv|]; cbn [rbind]; [|reflexivity].
  destruct (_ && _); [reflexivity|].
  destruct (get fm i) as [m|]; cbn [rbind]; [|reflexivity].
  destruct (get lens i) as [ml|]; cbn [rbind]; [|reflexivity].
  destruct (get (dist s) (index + m)) as [d|]; cbn [rbind]; [|reflexivity].
  destruct (negb (feqb d finf)); [reflexivity|].
  destruct (get (a_costs g) (index + m)) as [nc|] eqn:En; cbn [rbind]; [|reflexivity].
  destruct (barrier nc) eqn:Bn; [reflexivity|].
  match goal with |- rbind ?e _ = _ => destruct e as [[q|]|] end; cbn [rbind]; try reflexivity.
  rewrite (same cost nc) by (auto; eapply get_In; eauto). reflexivity.
Qed.

Lemma try_moves_ext F H is : (forall s i, F s i = H s i) -> forall s, try_moves F is s = try_moves H is s.
Proof.
  intros E. induction is as [|i is IH]; intros s; [reflexivity|]. cbn [try_moves]. rewrite E.
  destruct (H s i); cbn [rbind]; [apply IH|reflexivity].
Qed.

Lemma main_step_ext st fm lens s : main_step barrier f g st fm lens s = main_step barrier h g st fm lens s.
Proof.
  unfold main_step. destruct (pop _ _ _ _) as [[[hh cum] index]|]; cbn [rbind]; [|reflexivity].
  destruct (get (alloc s) index) as [src|]; cbn [rbind]; [|reflexivity].
  destruct (set (dist s) index cum) as [d|]; cbn [rbind]; [|reflexivity].
  destruct (get (a_costs g) index) as [cost|] eqn:Ec; cbn [rbind]; [|reflexivity].
  destruct (barrier cost) eqn:Bc; [reflexivity|].
  match goal with |- rbind ?e _ = _ => destruct e as [[]|] end; cbn [rbind]; try reflexivity.
  destruct (get st 0); cbn [rbind]; [|reflexivity]. destruct (get st 1); cbn [rbind]; [|reflexivity].
  apply try_moves_ext. intros s' i. apply try_move_ext; [|exact Bc]. eapply get_In; eauto.
Qed.

Lemma main_loop_ext st fm lens n : forall s, main_loop barrier f g st fm lens n s = main_loop barrier h g st fm lens n s.
Proof.
  induction n as [|n IH]; intros s; cbn [main_loop]; [reflexivity|].
  destruct (_ =? 0); [reflexivity|]. rewrite main_step_ext.
  destruct (main_step barrier h g st fm lens s); cbn [rbind]; [apply IH|reflexivity].
Qed.

Lemma core_ext : core barrier f g = core barrier h g.
Proof.
  unfold core, core_with. destruct (init_heap _ _ _); cbn [rbind]; [|reflexivity].
  destruct (push_sources _ _ _ _); cbn [rbind]; [|reflexivity]. apply main_loop_ext.
Qed.
End Sums.

Lemma numpy_ext {C} (barrier : C -> bool) (f h : C -> C -> f64) costs sources nrows ncols snull elev enull scaling k :
  (forall a b, In a costs -> In b costs -> barrier a = false -> barrier b = false -> f a b = h a b) ->
  cost_distance_numpy barrier f costs sources nrows ncols snull elev enull scaling k
  = cost_distance_numpy barrier h costs sources nrows ncols snull elev enull scaling k.
Proof.
  intros S. unfold cost_distance_numpy. destruct (negb _); [reflexivity|].
  match goal with |- rbind ?e _ = _ => destruct e as [[[el en] ue]|] end; cbn [rbind]; [|reflexivity].
  destruct (_ || _); [reflexivity|]. destruct (negb _); [reflexivity|].
  now rewrite (core_ext barrier f h).
Qed.

Lemma run_ext {C} (barrier : C -> bool) (f h : C -> C -> f64) costs mask nv nrows ncols sources snull elev res k :
  (forall a b, In a costs -> In b costs -> barrier a = false -> barrier b = false -> f a b = h a b) ->
  run barrier f costs mask nv nrows ncols sources snull elev res k = run barrier h costs mask nv nrows ncols sources snull elev res k.
Proof. intros S. unfold run. now rewrite (numpy_ext barrier f h). Qed.

(* ---- the run on prepared arrays ---- *)

Definition run_args {C} (data : list C) (sources : list Z) nrows ncols (resolution : f64 * f64) snull (edata : option (list f64)) k : @args C :=
  mkArgs data sources nrows ncols (fabs (snd resolution), fabs (fst resolution)) snull
    (match edata with Some e => e | None => [] end)
    (match edata with Some _ => fm9999 | None => fzero end)
    (match edata with Some _ => true | None => false end) (k =? 8).

Lemma run_spec {C} (barrier : C -> bool) (csum : C -> C -> f64) data mask nv nrows ncols sources snull edata resolution k p :
  represents (run_args data sources nrows ncols resolution snull edata k) p ->
  csum_ok barrier csum -> steps_ok barrier csum p ->
  len mask = nrows * ncols ->
  (forall e, edata = Some e -> len e = nrows * ncols) ->
  fleb (fabs (fst resolution)) fzero = false -> fleb (fabs (snd resolution)) fzero = false ->
  k = 4 \/ k = 8 ->
  exists o, run barrier csum data mask nv nrows ncols sources snull edata resolution k = Ok o
    /\ solves barrier csum p mask (match nv with Some nv => nv | None => default_null_f64 end) snull o.
Proof.
  intros R CS SO Lk Le Sx Sy Cn. set (g := run_args _ _ _ _ _ _ _ _) in R.
  pose proof R as (R1 & R2 & R3 & R4 & R5 & R6 & _).
  cbn [run_args g a_nrows a_ncols a_costs a_sources] in R1, R2, R5, R6.
  destruct (core_min _ _ g p R CS SO) as (s & E & M).
  assert (EN : cost_distance_numpy barrier csum data sources nrows ncols snull edata
      (match edata with Some _ => fm9999 | None => fzero end)
      (fabs (snd resolution), fabs (fst resolution)) k = Ok (dist s, tb s, alloc s)).
  { unfold cost_distance_numpy. rewrite R5, R6, Z.eqb_refl. cbn [negb fst snd].
    rewrite Sx, Sy. cbn [orb].
    assert (EC : negb ((k =? 4) || (k =? 8)) = false) by lia.
    unfold g, run_args in E.
    destruct edata as [e|].
    - assert (EL : len e =? p_nrows p * p_ncols p = true) by (rewrite (Le e eq_refl); lia).
      rewrite EL. cbn [rbind]. rewrite EC. rewrite E. reflexivity.
    - cbn [rbind]. rewrite EC. rewrite E. reflexivity. }
  unfold run. rewrite EN. cbn [rbind].
  destruct (core_spec _ _ g p R CS SO) as (s' & ord & E' & D & Z0).
  assert (s' = s) by congruence; subst s'.
  pose proof (d_lend _ _ _ _ _ _ _ D) as Ld. pose proof (d_lent _ _ _ _ _ _ _ D) as Lt.
  pose proof (d_lena _ _ _ _ _ _ _ D) as La.
  set (v := match nv with Some nv => nv | None => default_null_f64 end).
  set (m := map _ (combine mask (dist s))).
  rewrite R1, R2 in Lk.
  assert (Lm : len m = p_nrows p * p_ncols p).
  { subst m. unfold len in *. rewrite map_length, combine_length. lia. }
  eexists. split; [reflexivity|]. unfold solves. cbv zeta.
  cbn [o_nv o_traceback_nv o_allocation_nv o_distance o_traceback o_allocation o_mask].
  split; [reflexivity|]. split; [reflexivity|]. split; [reflexivity|].
  split; [rewrite len_where; lia|]. split; [rewrite len_map, len_where; lia|].
  split; [rewrite len_where; lia|]. split; [exact Lm|].
  intros r c G. pose proof (cell_range p r c G) as Rx.
  fold (cell p r c).
  destruct (M r c G) as (d & Gd & Hd).
  destruct (get_range (tb s) (cell p r c)) as [t Gt]; [lia|].
  destruct (get_range (alloc s) (cell p r c)) as [a Ga]; [lia|].
  pose proof (get_nth false mask (cell p r c) ltac:(lia)) as Gn.
  change (nth (Z.to_nat (cell p r c)) mask false) with (at_cell false mask (p_ncols p) r c) in Gn.
  set (null := at_cell false mask (p_ncols p) r c) in *.
  assert (Gm : get m (cell p r c) = Ok (null || negb (is_fin d))).
  { subst m. now rewrite (get_map _ _ _ _ (get_combine _ _ _ _ _ Gn Gd)). }
  set (b := null || negb (is_fin d)) in *.
  exists b, (if b then v else d), ((if b then TRACEBACK_NOT_REACHED else t) + 1), (if b then snull else a).
  split; [exact Gm|]. split; [exact (get_where _ _ _ _ _ _ Gm Gd)|].
  split; [exact (get_map _ _ _ _ (get_where _ _ _ _ _ _ Gm Gt))|].
  split; [exact (get_where _ _ _ _ _ _ Gm Ga)|].
  destruct (core_unreached _ _ g p s R CS SO E r c G) as (U1 & U2 & U3).
  assert (FIN : is_finite d = false <-> d = finf).
  { split; [|intros ->; reflexivity]. intros Hf.
    destruct (feqb d finf) eqn:EF; [now apply feqb_finf|]. apply feqb_finf_false in EF.
    destruct (U3 d Gd EF) as [F _]. congruence. }
  unfold cell_ok. split; [|split].
  - subst b. rewrite is_fin_finite, orb_true_iff, negb_true_iff, FIN. unfold unreachable.
    rewrite <- U1. split; intros [H|H]; auto; right; congruence.
  - intros ->. auto.
  - intros Eb. rewrite Eb. subst b. apply orb_false_iff in Eb. destruct Eb as [En Ef].
    rewrite is_fin_finite in Ef. apply negb_false_iff in Ef.
    assert (Nf : d <> finf) by (intros ->; discriminate).
    split; [exact Ef|].
    split. { destruct Hd as [(_ & A & B)|(A & _)]; [now split|contradiction]. }
    destruct (core_codes _ _ g p s R CS SO E r c G) as (code & Gc & HC).
    assert (code = t) by congruence; subst code.
    assert (HT : surface p (tb s) (fun r c => nth (Z.to_nat (cell p r c)) (tb s) 0)).
    { intros r' c' G'. apply get_nth. rewrite Lt. now apply cell_range. }
    assert (HA : surface p (alloc s) (fun r c => nth (Z.to_nat (cell p r c)) (alloc s) 0)).
    { intros r' c' G'. apply get_nth. rewrite La. now apply cell_range. }
    destruct (core_traceback _ _ g p s _ _ R CS SO E HT HA r c d G Gd Nf)
      as (l & _ & _ & _ & _ & _ & _ & sr & sc & lbl & _ & Sl & Al & P).
    assert (HL : a = lbl).
    { pose proof (HA r c G) as Q. congruence. }
    subst lbl. rewrite HL in *.
    destruct HC as [[-> HS]|[(-> & _ & HI)|(HS & _ & dr & dc & Pt & _)]].
    + split; [lia|]. split; [split; [auto|reflexivity]|]. eauto.
    + exfalso. congruence.
    + apply points_to_range in Pt. split; [lia|]. split; [split; [lia|congruence]|]. eauto.
Qed.

(* steps on flat ground are never NaN *)
Lemma steps_flat {C} (barrier : C -> bool) (csum : C -> C -> f64) (p : problem) : csum_ok barrier csum -> p_elev p = None ->
  usable_scale (p_yscale p) (p_xscale p) = true -> steps_ok barrier csum p.
Proof.
  intros CS EE US r c r' c' L. unfold step_cost, move_length. rewrite EE.
  assert (HL : exists m, In m moves /\ m = (r' - r, c' - c)).
  { destruct L as (_ & _ & (N1 & N2 & N3 & _) & _).
    assert (Hd : r' - r = -1 \/ r' - r = 0 \/ r' - r = 1) by lia.
    assert (He : c' - c = -1 \/ c' - c = 0 \/ c' - c = 1) by lia.
    eexists. split; [|reflexivity].
    destruct Hd as [Hd|[Hd|Hd]]; destruct He as [He|[He|He]]; rewrite Hd, He;
      cbn; try tauto; exfalso; lia. }
  destruct HL as (m & Hm & ->).
  unfold usable_scale in US. rewrite forallb_forall in US. specialize (US _ Hm).
  unfold move_len2 in US. cbn [fst snd] in US. cbv zeta in US.
  apply andb_true_iff in US. destruct US as [U1 U2].
  fold (sq (fmul (p_yscale p) (f64_of_Z (r' - r)))) in U1, U2.
  fold (sq (fmul (p_xscale p) (f64_of_Z (c' - c)))) in U1, U2.
  fold (length2 p (r' - r) (c' - c)) in U1, U2.
  apply fmul_nonzero_ok.
  - rewrite <- is_fin_finite. exact U1.
  - intros s Es. rewrite Es in U2. destruct s; discriminate.
  - destruct L as (_ & _ & _ & (B & _) & (B' & _)).
    apply fnonneg_ok. exact (CS _ _ B B').
Qed.

(* ---- the arguments ---- *)

Lemma wrap64_id z : in_dtype I64 z -> wrap64 z = z.
Proof. unfold in_dtype, wrap64. cbn [int_min int_max]. intros H. rewrite Z.mod_small by lia. lia. Qed.

Lemma shape_eqb_refl s : shape_eqb s s = true.
Proof. destruct s as [[a b] c]. cbn. lia. Qed.

Lemma map_id_on {A} (f : A -> A) l : Forall (fun x => f x = x) l -> map f l = l.
Proof. induction 1 as [|x l H _ IH]; cbn; congruence. Qed.

Lemma int_dtype_lo d z : is_int_dtype d = true -> in_dtype d z -> - 2 ^ 63 <= z.
Proof. unfold in_dtype. destruct d; cbn [is_int_dtype int_min int_max]; try discriminate; lia. Qed.

Lemma trunc_int_of_Z z : in_dtype I64 z -> trunc_int (of_Z z) = z.
Proof.
  unfold in_dtype, trunc_int, of_Z, inject_Z. cbn [int_min int_max Qnum Qden]. intros H.
  rewrite Z.quot_1_r. cbv zeta. destruct (_ && _) eqn:E; [reflexivity|lia].
Qed.

Lemma pairs_of idxs : Forall (fun rc => in_dtype I64 (fst rc) /\ in_dtype I64 (snd rc)) idxs ->
  pairs (map trunc_int (concat (map (fun rc => [of_Z (fst rc); of_Z (snd rc)]) idxs))) = idxs.
Proof.
  induction 1 as [|(r & c) t [A B] _ IH]; [reflexivity|].
  cbn [map concat app pairs fst snd] in *. now rewrite !trunc_int_of_Z, IH.
Qed.

Lemma position_none l : forall k r c, ~ In (r, c) l -> position l k r c = None.
Proof.
  induction l as [|(r' & c') t IH]; intros k r c H; [reflexivity|]. cbn [position].
  destruct ((r =? r') && (c =? c')) eqn:E; [|apply IH; intros Hin; apply H; now right].
  exfalso. apply H. left. f_equal; lia.
Qed.
Lemma position_some l : NoDup l -> forall n k r c, nth_error l n = Some (r, c) -> position l k r c = Some (k + Z.of_nat n).
Proof.
  induction 1 as [|(r' & c') t N1 N2 IH]; intros n k r c H; [destruct n; discriminate|]. cbn [position].
  destruct n as [|n]; cbn [nth_error] in H.
  - injection H as -> ->. rewrite !Z.eqb_refl. cbn [andb]. f_equal. lia.
  - destruct ((r =? r') && (c =? c')) eqn:E.
    + exfalso. apply N1. assert (r = r' /\ c = c') as [<- <-] by lia. eapply nth_error_In; eauto.
    + rewrite (IH n (k + 1) r c H). f_equal. lia.
Qed.

Lemma pair_dec (a b : Z * Z) : {a = b} + {a <> b}.
Proof. decide equality; apply Z.eq_dec. Qed.

(* the prepared arrays say what the argument means *)
Lemma prepared nrows ncols s label snull : 0 <= nrows -> 0 <= ncols -> means nrows ncols s label snull ->
  exists srcs, prepare_sources (1, nrows, ncols) s = Ok (srcs, snull) /\ len srcs = nrows * ncols
    /\ forall r c, 0 <= r < nrows -> 0 <= c < ncols -> exists v, get srcs (r * ncols + c) = Ok v
         /\ label r c = if v =? snull then None else Some v.
Proof.
  intros Hr Hc. destruct 1 as [r l nv (Sh & Lm & OK) ID EC HN HB|idxs ND IN RG].
  - rewrite EC in OK. destruct OK as (Ll & _ & FD & ND). cbn [prepare_sources].
    rewrite Sh, shape_eqb_refl, ID, EC. cbn [negb].
    assert (W : map wrap64 l = l).
    { apply map_id_on. apply Forall_forall. intros z Hz. apply wrap64_id.
      rewrite Forall_forall in FD, HB. split; [|exact (HB z (or_intror Hz))].
      exact (int_dtype_lo _ _ ID (FD z Hz)). }
    rewrite W. exists l. split; [reflexivity|]. split; [exact Ll|].
    intros y x Hy Hx. assert (B : 0 <= y * ncols + x < nrows * ncols) by nia.
    pose proof (get_nth 0 l (y * ncols + x) ltac:(lia)) as G1.
    pose proof (get_nth false (v_mask r) (y * ncols + x) ltac:(lia)) as G2.
    eexists. split; [exact G1|]. unfold raster_label, at_cell.
    specialize (HN _ _ _ G2 G1).
    destruct (nth _ (v_mask r) false).
    + assert (nth (Z.to_nat (y * ncols + x)) l 0 = nv) as -> by now apply HN. now rewrite Z.eqb_refl.
    + destruct (_ =? nv) eqn:E; [|reflexivity]. exfalso. assert (false = true) by (apply HN; lia). discriminate.
  - cbn [prepare_sources].
    destruct (index_sources nrows ncols idxs Hr Hc ND IN) as (srcs & E & L & F1 & F2).
    rewrite pairs_of by exact RG. rewrite E. cbn [rbind]. exists srcs. split; [reflexivity|]. split; [exact L|].
    intros y x Hy Hx.
    destruct (in_dec pair_dec (y, x) idxs) as [H|H].
    + destruct (In_nth_error _ _ H) as [k Hk]. exists (Z.of_nat k). split; [now apply F1|].
      rewrite (position_some idxs ND k 0 y x Hk). destruct (Z.of_nat k =? -1) eqn:E1; [lia|reflexivity].
    + exists (-1). split; [now apply F2|]. now apply position_none.
Qed.

Lemma elev_ok nrows ncols e : rst_ok nrows ncols e -> fillable e (-9999) ->
  exists d, normalize_elev e = Ok d /\ len d = nrows * ncols
    /\ forall r c, 0 <= r < nrows -> 0 <= c < ncols -> get d (r * ncols + c) = Ok (elevation_at e ncols r c).
Proof.
  intros (Sh & Lm & OK) FL. unfold normalize_elev, fillable, elevation_at, at_cell in *.
  destruct (v_cells e) as [l nv|l nv].
  - destruct OK as (Ll & ID & FD & NV). unfold normalize_ints.
    assert (B : forall r c, 0 <= r < nrows -> 0 <= c < ncols -> 0 <= r * ncols + c < nrows * ncols) by (intros; nia).
    destruct nv as [v|].
    + assert (HH : holds (v_dtype e) (-9999) = true).
      { unfold holds, in_dtype in *. destruct FL as [-> |FL]; [reflexivity|]. destruct (v_dtype e); try reflexivity; lia. }
      rewrite HH. cbn [rbind]. eexists. split; [reflexivity|].
      split; [rewrite len_map, len_where by congruence; exact Ll|].
      intros r c Hr Hc. specialize (B r c Hr Hc).
      pose proof (get_nth 0 l (r * ncols + c) ltac:(lia)) as G1.
      pose proof (get_nth false (v_mask e) (r * ncols + c) ltac:(lia)) as G2.
      rewrite (get_map _ _ _ _ (get_where _ (-9999) _ _ _ _ G2 G1)). destruct (nth _ (v_mask e) false); reflexivity.
    + cbn [rbind]. eexists. split; [reflexivity|]. split; [rewrite len_map; exact Ll|].
      intros r c Hr Hc. specialize (B r c Hr Hc).
      pose proof (get_nth 0 l (r * ncols + c) ltac:(lia)) as G1.
      pose proof (get_nth false (v_mask e) (r * ncols + c) ltac:(lia)) as G2.
      rewrite (NV _ B) in G2. injection G2 as <-. exact (get_map _ _ _ _ G1).
  - destruct OK as (Ll & ID & NV). eexists. split; [reflexivity|].
    assert (W : well_formed (mkRaster1 l (v_mask e) nv) (nrows * ncols)).
    { split; [exact Ll|]. split; [exact Lm|]. cbn [r_null r_mask r_data]. split.
      - intros ->. exact NV.
      - intros v -> Hv. now apply NV. }
    split; [now apply normalize_len|]. intros r c Hr Hc.
    rewrite (normalize_get _ (nrows * ncols)) by (auto; nia). reflexivity.
Qed.

Section Call.
Variables (nrows ncols : Z) (costs : rst) (sources : sources_arg) (elevation : option rst) (resolution : f64 * f64) (k : Z).
Variables (label : Z -> Z -> option Z) (snull : Z).
Hypothesis Hr : 0 <= nrows.
Hypothesis Hc : 0 <= ncols.
Hypothesis OK : rst_ok nrows ncols costs.
Hypothesis EOK : forall e, elevation = Some e -> rst_ok nrows ncols e /\ fillable e (-9999).
Hypothesis SRC : means nrows ncols sources label snull.
Hypothesis Sx : fleb (fabs (fst resolution)) fzero = false.
Hypothesis Sy : fleb (fabs (snd resolution)) fzero = false.
Hypothesis Cn : k = 4 \/ k = 8.

Lemma elev_arg : exists edata,
  match elevation with None => Ok None | Some e => let* d := normalize_elev e in Ok (Some d) end = Ok edata
  /\ (forall e, edata = Some e -> len e = nrows * ncols)
  /\ match elevation, edata with
     | None, None => True
     | Some e, Some d => len d = nrows * ncols /\ forall r c, 0 <= r < nrows -> 0 <= c < ncols -> get d (r * ncols + c) = Ok (elevation_at e ncols r c)
     | _, _ => False
     end.
Proof.
  destruct elevation as [e|].
  - destruct (EOK e eq_refl) as [A B]. destruct (elev_ok nrows ncols e A B) as (d & E & L & F).
    rewrite E. cbn [rbind]. exists (Some d). split; [reflexivity|]. split; [intros ? [= <-]; exact L|]. now split.
  - exists None. split; [reflexivity|]. split; [discriminate|exact I].
Qed.

Lemma args_represent {C} (data : list C) (cost : Z -> Z -> C) srcs edata :
  len data = nrows * ncols -> (forall r c, 0 <= r < nrows -> 0 <= c < ncols -> get data (r * ncols + c) = Ok (cost r c)) ->
  len srcs = nrows * ncols ->
  (forall r c, 0 <= r < nrows -> 0 <= c < ncols -> exists v, get srcs (r * ncols + c) = Ok v
         /\ label r c = if v =? snull then None else Some v) ->
  match elevation, edata with
  | None, None => True
  | Some e, Some d => len d = nrows * ncols /\ forall r c, 0 <= r < nrows -> 0 <= c < ncols -> get d (r * ncols + c) = Ok (elevation_at e ncols r c)
  | _, _ => False
  end ->
  represents (run_args data srcs nrows ncols resolution snull edata k)
    (the_problem cost label nrows ncols elevation resolution k).
Proof.
  intros L1 G1 L2 G2 EL. unfold represents, run_args, the_problem, in_grid, cell.
  cbn [a_nrows a_ncols a_costs a_sources a_scaling a_diag a_snull a_elev a_enull
       a_use_elev p_nrows p_ncols p_yscale p_xscale p_diag p_cost p_source p_elev p_enull].
  repeat (split; [reflexivity || exact Hr || exact Hc || exact L1 || exact L2|]).
  split; [intros r c [A B]; now apply G1|]. split; [intros r c [A B]; now apply G2|].
  destruct elevation as [e|], edata as [d|]; cbn [option_map] in *; try contradiction; [|reflexivity].
  destruct EL as [L G]. split; [reflexivity|]. split; [reflexivity|]. split; [exact L|].
  intros r c [A B]. now apply G.
Qed.

Lemma analysis_unfold : exists srcs edata,
  len srcs = nrows * ncols
  /\ (forall r c, 0 <= r < nrows -> 0 <= c < ncols -> exists v, get srcs (r * ncols + c) = Ok v
         /\ label r c = if v =? snull then None else Some v)
  /\ (forall e, edata = Some e -> len e = nrows * ncols)
  /\ match elevation, edata with
     | None, None => True
     | Some e, Some d => len d = nrows * ncols /\ forall r c, 0 <= r < nrows -> 0 <= c < ncols -> get d (r * ncols + c) = Ok (elevation_at e ncols r c)
     | _, _ => False
     end
  /\ analysis costs sources elevation resolution k =
     match v_cells costs with
     | Ints l nv =>
        let* data := normalize_ints (v_dtype costs) l (v_mask costs) nv (-1) in
        run int_barrier (int_sum (v_dtype costs)) data (v_mask costs) (option_map f64_of_Z nv)
          nrows ncols srcs snull edata resolution k
     | Floats l nv =>
        run f64_barrier (float_sum (v_dtype costs)) (normalize_raster_data (mkRaster1 l (v_mask costs) nv) fminus1)
          (v_mask costs) nv nrows ncols srcs snull edata resolution k
     end.
Proof.
  destruct (prepared nrows ncols sources label snull Hr Hc SRC) as (srcs & ES & LS & GS).
  destruct elev_arg as (edata & EE & LE & GE).
  exists srcs, edata. split; [exact LS|]. split; [exact GS|]. split; [exact LE|]. split; [exact GE|].
  pose proof OK as (Sh & _). unfold analysis. rewrite Sh, ES. rewrite Z.eqb_refl. cbn [negb].
  assert (CK : match elevation with
     | Some e => let '(eb, _, _) := v_shape e in
         if negb (eb =? 1) then Err ValueError
         else if negb (shape_eqb (1, nrows, ncols) (v_shape e)) then Err ValueError else Ok tt
     | None => Ok tt end = Ok tt).
  { destruct elevation as [e|]; [|reflexivity]. destruct (EOK e eq_refl) as [(She & _) _].
    rewrite She, shape_eqb_refl. reflexivity. }
  rewrite CK. cbn [rbind]. rewrite EE. cbn [rbind].
  destruct (v_cells costs); [|reflexivity]. reflexivity.
Qed.

Lemma call_ints l nv : v_cells costs = Ints l nv -> fillable costs (-1) ->
  Forall (fun z => z < 2 ^ 62) l ->
  let p := the_problem (int_cost l (v_mask costs) ncols) label nrows ncols elevation resolution k in
  steps_ok blocks exact_sum p ->
  exists o, analysis costs sources elevation resolution k = Ok o
    /\ solves blocks exact_sum p (v_mask costs) (match nv with Some v => f64_of_Z v | None => default_null_f64 end) snull o.
Proof.
  intros EC FL SM p SO. destruct analysis_unfold as (srcs & edata & LS & GS & LE & GE & ->).
  rewrite EC. pose proof OK as (Sh & Lm & OK'). rewrite EC in OK'. destruct OK' as (Ll & ID & FD & NV).
  assert (ND : exists data, normalize_ints (v_dtype costs) l (v_mask costs) nv (-1) = Ok data
     /\ len data = nrows * ncols
     /\ (forall z, In z data -> z = -1 \/ In z l)
     /\ forall r c, 0 <= r < nrows -> 0 <= c < ncols -> get data (r * ncols + c) = Ok (int_cost l (v_mask costs) ncols r c)).
  { unfold normalize_ints, fillable, int_cost, at_cell in *. rewrite EC in FL.
    assert (B : forall r c, 0 <= r < nrows -> 0 <= c < ncols -> 0 <= r * ncols + c < nrows * ncols) by (intros; nia).
    destruct nv as [v|].
    - assert (HH : holds (v_dtype costs) (-1) = true).
      { unfold holds, in_dtype in *. destruct FL as [-> |FL]; [reflexivity|]. destruct (v_dtype costs); try reflexivity; lia. }
      rewrite HH. eexists. split; [reflexivity|]. split; [rewrite len_where by congruence; exact Ll|]. split.
      + intros z Hz. unfold where_scalar in Hz. apply in_map_iff in Hz. destruct Hz as ((b & x) & <- & Hin).
        apply in_combine_r in Hin. cbn. destruct b; auto.
      + intros r c A C. specialize (B r c A C).
        pose proof (get_nth 0 l (r * ncols + c) ltac:(lia)) as G1.
        pose proof (get_nth false (v_mask costs) (r * ncols + c) ltac:(lia)) as G2.
        exact (get_where _ (-1) _ _ _ _ G2 G1).
    - eexists. split; [reflexivity|]. split; [exact Ll|]. split; [auto|].
      intros r c A C. specialize (B r c A C).
      pose proof (get_nth 0 l (r * ncols + c) ltac:(lia)) as G1.
      pose proof (get_nth false (v_mask costs) (r * ncols + c) ltac:(lia)) as G2.
      rewrite (NV _ B) in G2. injection G2 as <-. exact G1. }
  destruct ND as (data & EN & Ld & SUB & GD). rewrite EN. cbn [rbind].
  rewrite (run_ext int_barrier _ exact_sum).
  - destruct (run_spec blocks exact_sum data (v_mask costs) (option_map f64_of_Z nv) nrows ncols srcs snull edata resolution k p)
      as (o & EO & S); auto using exact_sum_ok.
    + now apply args_represent.
    + exists o. split; [exact EO|]. destruct nv; exact S.
  - intros a b Ha Hb Ba Bb. unfold int_barrier in *. rewrite Forall_forall in SM.
    assert (a < 2 ^ 62) by (destruct (SUB _ Ha) as [-> |Ia]; [lia|auto]).
    assert (b < 2 ^ 62) by (destruct (SUB _ Hb) as [-> |Ib]; [lia|auto]).
    unfold int_sum, exact_sum. destruct (v_dtype costs); try reflexivity.
    + rewrite Z.mod_small by lia. reflexivity.
    + rewrite wrap64_id; [reflexivity|]. unfold in_dtype. cbn [int_min int_max]. lia.
Qed.

Lemma call_floats l nv : v_cells costs = Floats l nv ->
  let p := the_problem (float_cost l (v_mask costs) ncols) label nrows ncols elevation resolution k in
  steps_ok f64_barrier (float_sum (v_dtype costs)) p ->
  exists o, analysis costs sources elevation resolution k = Ok o
    /\ solves f64_barrier (float_sum (v_dtype costs)) p (v_mask costs)
         (match nv with Some v => v | None => default_null_f64 end) snull o.
Proof.
  intros EC p SO. destruct analysis_unfold as (srcs & edata & LS & GS & LE & GE & ->).
  rewrite EC. pose proof OK as (Sh & Lm & OK'). rewrite EC in OK'. destruct OK' as (Ll & ID & NV).
  assert (W : well_formed (mkRaster1 l (v_mask costs) nv) (nrows * ncols)).
  { split; [exact Ll|]. split; [exact Lm|]. cbn [r_null r_mask r_data]. split.
    - intros ->. exact NV.
    - intros v -> Hv. now apply NV. }
  apply run_spec; auto using float_sum_ok.
  apply args_represent; auto.
  - now apply normalize_len.
  - intros r c A C. rewrite (normalize_get _ (nrows * ncols)) by (auto; nia). reflexivity.
Qed.
End Call.

(* ---- what is refused ---- *)

Lemma refused_bands costs sources elevation resolution k nb nr nc :
  v_shape costs = (nb, nr, nc) -> nb <> 1 -> analysis costs sources elevation resolution k = Err ValueError.
Proof. intros Sh H. unfold analysis. rewrite Sh. destruct (negb (nb =? 1)) eqn:E; [reflexivity|lia]. Qed.

Lemma shape_eqb_false a b : a <> b -> shape_eqb a b = false.
Proof.
  destruct a as [[a0 a1] a2], b as [[b0 b1] b2]. intros H. cbn. apply not_true_is_false. intros E. apply H.
  f_equal; [f_equal|]; lia.
Qed.

Lemma refused_elevation costs sources e resolution k :
  v_shape e <> v_shape costs -> analysis costs sources (Some e) resolution k = Err ValueError.
Proof.
  intros H. unfold analysis. destruct (v_shape costs) as [[nb nr] nc] eqn:Sh.
  destruct (negb (nb =? 1)); [reflexivity|]. destruct (v_shape e) as [[eb er] ec] eqn:She.
  destruct (negb (eb =? 1)); [reflexivity|]. rewrite shape_eqb_false by congruence. reflexivity.
Qed.

(* the checks of the sources come after those of costs and elevation *)
Lemma refused_sources nrows ncols costs sources elevation resolution k e :
  rst_ok nrows ncols costs -> (forall e, elevation = Some e -> rst_ok nrows ncols e) ->
  prepare_sources (1, nrows, ncols) sources = Err e ->
  analysis costs sources elevation resolution k = Err e.
Proof.
  intros (Sh & _) EO H. unfold analysis. rewrite Sh, Z.eqb_refl, H. cbn [negb].
  destruct elevation as [el|]; [|reflexivity]. destruct (EO el eq_refl) as (She & _).
  rewrite She, shape_eqb_refl. reflexivity.
Qed.

Lemma bad_sources nrows ncols s e : bad nrows ncols s e -> prepare_sources (1, nrows, ncols) s = Err e.
Proof.
  destruct 1 as [r H|r Sh H|r Sh ID l EC|sh items H|idxs IN RG|]; cbn [prepare_sources].
  - rewrite shape_eqb_false by exact H. reflexivity.
  - rewrite Sh, shape_eqb_refl, H. reflexivity.
  - rewrite Sh, shape_eqb_refl, ID, EC. reflexivity.
  - destruct sh as [|a [|b t]]; try reflexivity.
    destruct b as [|[q|[q|q|]|]|q]; try reflexivity. destruct t; [|reflexivity]. elim (H a). reflexivity.
  - rewrite pairs_of by exact RG. rewrite index_sources_rejected by exact IN. reflexivity.
  - reflexivity.
Qed.

Lemma parts costs sources elevation resolution k :
  match analysis costs sources elevation resolution k with
  | Ok o => cda_cost_distance costs sources elevation resolution k = Ok (o_distance o, o_mask o, o_nv o)
            /\ cda_traceback costs sources elevation resolution k = Ok (o_traceback o, o_mask o, o_traceback_nv o)
            /\ cda_allocation costs sources elevation resolution k = Ok (o_allocation o, o_mask o, o_allocation_nv o)
  | Err e => cda_cost_distance costs sources elevation resolution k = Err e
             /\ cda_traceback costs sources elevation resolution k = Err e
             /\ cda_allocation costs sources elevation resolution k = Err e
  end.
Proof.
  unfold cda_cost_distance, cda_traceback, cda_allocation.
  destruct (analysis costs sources elevation resolution k) as [o|e]; cbn [rbind]; auto.
Qed.
