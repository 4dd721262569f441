(* The public cost_distance_analysis: masks, null values, source labels. *)
From Verif Require Import BaseFacts Heap HeapProofs F64 F64Facts CostDist CostSpec
  DijkstraProofs CostProofs.
From Flocq Require Import Core BinarySingleNaN.
From Coq Require Import ZifyBool ZifyNat.
Open Scope Z_scope.

(* ---------------- reading the inputs as surfaces ---------------- *)

Definition at_rc {A} (d : A) (l : list A) (ncols r c : Z) : A :=
  nth (Z.to_nat (r * ncols + c)) l d.

(* A consistent raster of n cells: the mask agrees with the null value. *)
Definition well_formed (rs : raster1) (n : Z) : Prop :=
  len (r_data rs) = n /\ len (r_mask rs) = n
  /\ (r_null rs = None -> forall i, 0 <= i < n -> get (r_mask rs) i = Ok false)
  /\ (forall nv, r_null rs = Some nv -> fisnan nv = true ->
        r_mask rs = map fisnan (r_data rs)).

(* The problem that cost_distance_analysis is documented to solve: null cost
   cells are barriers (cost -1), null elevation cells are not traversable. *)
Definition public_problem (costs : raster1) (nrows ncols : Z) (sources : list Z)
  (snull : Z) (elevation : option raster1) (resolution : f64 * f64) (diag : bool)
  : @problem f64 :=
  mkProblem nrows ncols
    (fun r c => if at_rc false (r_mask costs) ncols r c then fminus1
                else at_rc fzero (r_data costs) ncols r c)
    (fun r c => let v := at_rc 0 sources ncols r c in
                if v =? snull then None else Some v)
    (option_map (fun e r c => if at_rc false (r_mask e) ncols r c then fm9999
                              else at_rc fzero (r_data e) ncols r c) elevation)
    (match elevation with Some _ => fm9999 | None => fzero end)
    (fabs (snd resolution)) (fabs (fst resolution)) diag.

Lemma get_nth {A} (d : A) l i : 0 <= i < len l -> get l i = Ok (nth (Z.to_nat i) l d).
Proof.
  intros H. unfold get. destruct (i <? 0) eqn:E; [lia|].
  rewrite (nth_error_nth' l d); [reflexivity|]. unfold len in H. lia.
Qed.

Lemma get_combine {A B} (a : list A) : forall (b : list B) i x y,
  get a i = Ok x -> get b i = Ok y -> get (combine a b) i = Ok (x, y).
Proof.
  unfold get. intros b i x y. destruct (i <? 0); [discriminate|].
  generalize (Z.to_nat i) as n. clear i. revert b.
  induction a as [|a0 a IH]; intros [|b0 b] [|n]; cbn; try discriminate.
  - congruence.
  - apply IH.
Qed.

Lemma get_where {A} mask (x : A) data i b v : get mask i = Ok b -> get data i = Ok v ->
  get (where_scalar mask x data) i = Ok (if b then x else v).
Proof.
  intros H1 H2. unfold where_scalar.
  now rewrite (get_map _ _ _ _ (get_combine _ _ _ _ _ H1 H2)).
Qed.

Lemma len_map {A B} (f : A -> B) l : len (map f l) = len l.
Proof. unfold len. now rewrite map_length. Qed.

Lemma len_where {A} mask (x : A) data : len mask = len data ->
  len (where_scalar mask x data) = len data.
Proof. unfold where_scalar, len. rewrite map_length, combine_length. lia. Qed.

Lemma normalize_len rs n missing : well_formed rs n ->
  len (normalize_raster_data rs missing) = n.
Proof.
  intros (L1 & L2 & _ & _). unfold normalize_raster_data.
  destruct (r_null rs) as [nv|]; [|exact L1].
  destruct (negb (fisnan nv)); [rewrite len_where; congruence|].
  destruct (negb (fisnan missing)); [now rewrite len_map|exact L1].
Qed.

Lemma normalize_get rs n missing i : well_formed rs n -> fisnan missing = false ->
  0 <= i < n ->
  get (normalize_raster_data rs missing) i
  = Ok (if nth (Z.to_nat i) (r_mask rs) false then missing
        else nth (Z.to_nat i) (r_data rs) fzero).
Proof.
  intros (L1 & L2 & W1 & W2) Hm Hi. unfold normalize_raster_data.
  pose proof (get_nth fzero (r_data rs) i ltac:(lia)) as Gd.
  pose proof (get_nth false (r_mask rs) i ltac:(lia)) as Gm.
  destruct (r_null rs) as [nv|] eqn:EN.
  - destruct (fisnan nv) eqn:E; cbn [negb].
    + rewrite Hm. cbn [negb]. rewrite (get_map _ _ _ _ Gd).
      rewrite (W2 nv eq_refl E) in Gm |- *.
      rewrite (get_map _ _ _ _ Gd) in Gm. injection Gm as <-. reflexivity.
    + now rewrite (get_where _ _ _ _ _ _ Gm Gd).
  - rewrite (W1 eq_refl i Hi) in Gm. injection Gm as <-. exact Gd.
Qed.

Lemma public_represents costs nrows ncols sources snull elevation resolution diag :
  0 <= nrows -> 0 <= ncols -> well_formed costs (nrows * ncols) ->
  len sources = nrows * ncols ->
  (forall e, elevation = Some e -> well_formed e (nrows * ncols)) ->
  represents
    (mkArgs (normalize_raster_data costs fminus1) sources nrows ncols
       (fabs (snd resolution), fabs (fst resolution)) snull
       (match elevation with Some e => normalize_raster_data e fm9999 | None => [] end)
       (match elevation with Some _ => fm9999 | None => fzero end)
       (match elevation with Some _ => true | None => false end) diag)
    (public_problem costs nrows ncols sources snull elevation resolution diag).
Proof.
  intros Hr Hc W Ls We. unfold represents.
  cbn [a_nrows a_ncols a_costs a_sources a_scaling a_diag a_snull a_elev a_enull
       a_use_elev public_problem p_nrows p_ncols p_yscale p_xscale p_diag p_cost
       p_source p_elev p_enull].
  assert (RNG : forall r c, 0 <= r < nrows /\ 0 <= c < ncols ->
            0 <= r * ncols + c < nrows * ncols) by (intros; nia).
  split; [reflexivity|]. split; [reflexivity|]. split; [exact Hr|]. split; [exact Hc|].
  split; [now apply normalize_len|]. split; [exact Ls|]. split; [reflexivity|].
  split; [reflexivity|]. unfold in_grid, cell, at_rc; cbn [p_nrows p_ncols public_problem].
  split; [|split].
  - intros r c G. now rewrite (normalize_get costs (nrows * ncols)) by auto.
  - intros r c G. eexists. split; [apply get_nth|reflexivity].
    rewrite Ls. now apply RNG.
  - destruct elevation as [e|]; cbn [option_map]; [|reflexivity].
    split; [reflexivity|]. split; [reflexivity|].
    split; [apply normalize_len; auto|].
    intros r c G. now rewrite (normalize_get e (nrows * ncols)) by auto.
Qed.

(* ---------------- the public function ---------------- *)

Definition public_cell (p : @problem f64) (null : bool) (nv : f64) (snull : Z)
  (r c : Z) (masked : bool) (d : f64) (t a : Z) : Prop :=
  (masked = true <-> null = true
      \/ forall sr sc acc, path f64_barrier fadd p sr sc r c acc -> acc = finf)
  /\ (masked = true -> d = nv /\ t = -1 /\ a = snull)
  /\ (masked = false ->
        is_finite d = true /\ is_cost_distance f64_barrier fadd p r c d /\ 0 <= t <= 8
        /\ (t = 0 <-> p_source p r c <> None)
        /\ exists sr sc, p_source p sr sc = Some a
             /\ path f64_barrier fadd p sr sc r c d).

Definition agree {A B} (l1 : list A) (l2 : list B) := length l1 = length l2.

Lemma is_fin_finite x : is_fin x = is_finite x.
Proof. destruct x as [s|[]| |s m e H]; reflexivity. Qed.

Lemma points_to_range code d : points_to code = Some d -> 0 <= code <= 7.
Proof.
  unfold points_to. intros H.
  repeat match type of H with context [match ?x with _ => _ end] => destruct x end;
    try discriminate; lia.
Qed.

Theorem public_spec costs nrows ncols sources snull elevation resolution connectivity :
  0 <= nrows -> 0 <= ncols -> well_formed costs (nrows * ncols) ->
  len sources = nrows * ncols ->
  (forall e, elevation = Some e -> well_formed e (nrows * ncols)) ->
  fleb (fabs (fst resolution)) fzero = false ->
  fleb (fabs (snd resolution)) fzero = false ->
  connectivity = 4 \/ connectivity = 8 ->
  let p := public_problem costs nrows ncols sources snull elevation resolution
             (connectivity =? 8) in
  steps_ok f64_barrier fadd p ->
  exists cd tr al mask,
    cost_distance_analysis costs nrows ncols sources snull elevation resolution connectivity
      = Ok ((cd, match r_null costs with Some nv => nv | None => default_null_f64 end),
            (tr, -1), (al, snull), mask)
    /\ len cd = nrows * ncols /\ len tr = nrows * ncols /\ len al = nrows * ncols
    /\ len mask = nrows * ncols
    /\ forall r c, in_grid p r c -> exists b d t a,
         get mask (cell p r c) = Ok b /\ get cd (cell p r c) = Ok d
         /\ get tr (cell p r c) = Ok t /\ get al (cell p r c) = Ok a
         /\ public_cell p (at_rc false (r_mask costs) ncols r c)
              (match r_null costs with Some nv => nv | None => default_null_f64 end)
              snull r c b d t a.
Proof.
  intros Hr Hc W Ls We Sx Sy Cn p SO.
  pose proof (public_represents costs nrows ncols sources snull elevation resolution
                (connectivity =? 8) Hr Hc W Ls We) as R.
  fold p in R. set (g := mkArgs _ _ _ _ _ _ _ _ _ _) in R.
  pose proof f64_csum_ok as CS.
  destruct (core_min _ _ g p R CS SO) as (s & E & M).
  assert (EN : cost_distance_numpy f64_barrier fadd (normalize_raster_data costs fminus1)
      sources nrows ncols snull
      (match elevation with Some e => Some (normalize_raster_data e fm9999) | None => None end)
      (match elevation with Some _ => fm9999 | None => fzero end)
      (fabs (snd resolution), fabs (fst resolution)) connectivity
    = Ok (dist s, tb s, alloc s)).
  { unfold cost_distance_numpy. rewrite (normalize_len costs _ _ W), Ls, Z.eqb_refl.
    cbn [negb fst snd]. rewrite Sx, Sy. cbn [orb].
    assert (EC : negb ((connectivity =? 4) || (connectivity =? 8)) = false) by lia.
    destruct elevation as [e|].
    - rewrite (normalize_len e _ _ (We e eq_refl)), Z.eqb_refl. cbn [rbind].
      rewrite EC. fold g. rewrite E. reflexivity.
    - cbn [rbind]. rewrite EC. fold g. rewrite E. reflexivity. }
  unfold cost_distance_analysis.
  replace (match elevation with
    | Some e => (Some (normalize_raster_data e fm9999), fm9999)
    | None => (None, fzero) end)
    with (match elevation with Some e => Some (normalize_raster_data e fm9999) | None => None end,
          match elevation with Some _ => fm9999 | None => fzero end)
    by (destruct elevation; reflexivity).
  rewrite EN. cbn [rbind].
  destruct (core_spec _ _ g p R CS SO) as (s' & ord & E' & D & Z0).
  assert (s' = s) by congruence; subst s'.
  pose proof W as (L1 & L2 & _).
  pose proof (d_lend _ _ _ _ _ _ _ D) as Ld. pose proof (d_lent _ _ _ _ _ _ _ D) as Lt.
  pose proof (d_lena _ _ _ _ _ _ _ D) as La.
  change (p_nrows p) with nrows in *. change (p_ncols p) with ncols in *.
  set (nv := match r_null costs with Some nv => nv | None => default_null_f64 end).
  set (mask := map _ (combine (r_mask costs) (dist s))).
  assert (Lm : len mask = nrows * ncols).
  { subst mask. unfold len in *. rewrite map_length, combine_length. lia. }
  exists (where_scalar mask nv (dist s)), (map (fun t => t + 1) (where_scalar mask TRACEBACK_NOT_REACHED (tb s))),
    (where_scalar mask snull (alloc s)), mask.
  split; [reflexivity|].
  split; [rewrite len_where; lia|]. split; [rewrite len_map, len_where; lia|].
  split; [rewrite len_where; lia|]. split; [exact Lm|].
  intros r c G. pose proof (cell_range p r c G) as Rx.
  change (p_nrows p) with nrows in *. change (p_ncols p) with ncols in *.
  destruct (M r c G) as (d & Gd & Hd).
  destruct (get_range (tb s) (cell p r c)) as [t Gt]; [lia|].
  destruct (get_range (alloc s) (cell p r c)) as [a Ga]; [lia|].
  pose proof (get_nth false (r_mask costs) (cell p r c) ltac:(lia)) as Gn.
  change (nth (Z.to_nat (cell p r c)) (r_mask costs) false)
    with (at_rc false (r_mask costs) ncols r c) in Gn.
  set (null := at_rc false (r_mask costs) ncols r c) in *.
  assert (Gm : get mask (cell p r c) = Ok (null || negb (is_fin d))).
  { subst mask. now rewrite (get_map _ _ _ _ (get_combine _ _ _ _ _ Gn Gd)). }
  set (b := null || negb (is_fin d)) in *.
  exists b, (if b then nv else d), ((if b then TRACEBACK_NOT_REACHED else t) + 1),
    (if b then snull else a).
  split; [exact Gm|]. split; [exact (get_where _ _ _ _ _ _ Gm Gd)|].
  split; [exact (get_map _ _ _ _ (get_where _ _ _ _ _ _ Gm Gt))|].
  split; [exact (get_where _ _ _ _ _ _ Gm Ga)|].
  destruct (core_unreached _ _ g p s R CS SO E r c G) as (U1 & U2 & U3).
  assert (FIN : is_finite d = false <-> d = finf).
  { split; [|intros ->; reflexivity]. intros Hf.
    destruct (feqb d finf) eqn:EF; [now apply feqb_finf|]. apply feqb_finf_false in EF.
    destruct (U3 d Gd EF) as [F _]. congruence. }
  unfold public_cell. split; [|split].
  - subst b. rewrite is_fin_finite, orb_true_iff, negb_true_iff, FIN.
    rewrite <- U1. split; intros [H|H]; auto; right; congruence.
  - intros ->. auto.
  - intros Eb. rewrite Eb. subst b. apply orb_false_iff in Eb. destruct Eb as [En Ef].
    rewrite is_fin_finite in Ef. apply negb_false_iff in Ef.
    split; [exact Ef|]. split; [exact Hd|].
    assert (Nf : d <> finf) by (intros ->; discriminate).
    destruct (core_codes _ _ g p s R CS SO E r c G) as (code & Gc & HC).
    assert (code = t) by congruence; subst code.
    assert (HT : surface p (tb s) (fun r c => nth (Z.to_nat (cell p r c)) (tb s) 0)).
    { intros r' c' G'. apply get_nth. rewrite Lt. now apply cell_range. }
    assert (HA : surface p (alloc s) (fun r c => nth (Z.to_nat (cell p r c)) (alloc s) 0)).
    { intros r' c' G'. apply get_nth. rewrite La. now apply cell_range. }
    destruct (core_traceback _ _ g p s _ _ R CS SO E HT HA r c d G Gd Nf)
      as (l & _ & _ & _ & _ & _ & _ & sr & sc & lbl & _ & Sl & Al & P).
    assert (a = lbl).
    { pose proof (HA r c G) as Q. congruence. }
    subst lbl. rewrite H in *.
    destruct HC as [[-> HS]|[(-> & _ & HI)|(HS & _ & dr & dc & Pt & _)]].
    + split; [lia|]. split; [split; [auto|reflexivity]|]. eauto.
    + exfalso. congruence.
    + apply points_to_range in Pt. split; [lia|]. split; [split; [lia|congruence]|]. eauto.
Qed.

Theorem public_bad_connectivity costs nrows ncols sources snull elevation resolution k :
  len sources = len (normalize_raster_data costs fminus1) ->
  k <> 4 -> k <> 8 ->
  cost_distance_analysis costs nrows ncols sources snull elevation resolution k
    = Err ValueError.
Proof.
  intros L H4 H8. unfold cost_distance_analysis, cost_distance_numpy.
  destruct elevation as [e|]; rewrite L, Z.eqb_refl; cbn [negb rbind];
    [destruct (_ =? _); cbn [rbind]; [|reflexivity]|];
    destruct (_ || _); cbn [rbind]; try reflexivity;
    (destruct (negb ((k =? 4) || (k =? 8))) eqn:E; [reflexivity|lia]).
Qed.

(* ---------------- index sources ---------------- *)

Lemma has_duplicates_spec l : has_duplicates l = false <-> NoDup l.
Proof.
  induction l as [|(r & c) l IH]; cbn; [split; [constructor|reflexivity]|].
  rewrite orb_false_iff, IH. split.
  - intros [H1 H2]. constructor; [|exact H2]. intros Hin.
    assert (T : existsb (fun rc' => (r =? fst rc') && (c =? snd rc')) l = true).
    { apply existsb_exists. exists (r, c). split; [exact Hin|]. cbn. lia. }
    congruence.
  - intros N. inversion N as [|? ? N1 N2]; subst. split; [|exact N2].
    destruct (existsb _ l) eqn:E; [|reflexivity].
    apply existsb_exists in E. destruct E as ((r' & c') & Hin & E). cbn in E.
    assert (r' = r /\ c' = c) as [-> ->] by lia. contradiction.
Qed.

Lemma label_sources_spec nrows ncols idxs : forall label srcs,
  0 <= ncols -> len srcs = nrows * ncols -> NoDup idxs ->
  (forall r c, In (r, c) idxs -> 0 <= r < nrows /\ 0 <= c < ncols) ->
  exists srcs', label_sources ncols idxs label srcs = Ok srcs'
    /\ len srcs' = nrows * ncols
    /\ forall r c, 0 <= r < nrows -> 0 <= c < ncols ->
        get srcs' (r * ncols + c)
        = match find (fun k => match nth_error idxs k with
                               | Some (r', c') => (r =? r') && (c =? c')
                               | None => false end) (seq 0 (length idxs)) with
          | Some k => Ok (label + Z.of_nat k)
          | None => get srcs (r * ncols + c)
          end.
Proof.
  induction idxs as [|(r0 & c0) idxs IH]; intros label srcs Hc L ND HB.
  - exists srcs. cbn. auto.
  - cbn [label_sources]. inversion ND as [|? ? N1 N2]; subst.
    destruct (HB r0 c0 (or_introl eq_refl)) as [B1 B2].
    destruct (set_range srcs (r0 * ncols + c0) label) as [srcs1 S1]; [nia|].
    rewrite S1. cbn [rbind].
    destruct (IH (label + 1) srcs1 Hc) as (srcs2 & E2 & L2 & F2); auto.
    { now rewrite (set_len _ _ _ _ S1). }
    { intros r c Hin. apply HB. now right. }
    exists srcs2. split; [exact E2|]. split; [exact L2|].
    intros r c Br Bc. rewrite F2 by assumption.
    cbn [length seq find nth_error].
    assert (SH : forall n i, find (fun k => match nth_error ((r0, c0) :: idxs) k with
                               | Some (r', c') => (r =? r') && (c =? c')
                               | None => false end) (seq (S i) n)
                 = option_map S (find (fun k => match nth_error idxs k with
                               | Some (r', c') => (r =? r') && (c =? c')
                               | None => false end) (seq i n))).
    { induction n as [|n IHn]; intros i; [reflexivity|].
      cbn [seq find nth_error]. destruct (match nth_error idxs i with
                               | Some (r', c') => (r =? r') && (c =? c')
                               | None => false end); [reflexivity|apply IHn]. }
    cbn [nth_error] in SH. rewrite SH.
    destruct ((r =? r0) && (c =? c0)) eqn:E0.
    + assert (r = r0 /\ c = c0) as [-> ->] by lia.
      destruct (find _ (seq 0 (length idxs))) as [k|] eqn:EF.
      * exfalso. apply find_some in EF. destruct EF as [_ EF].
        destruct (nth_error idxs k) as [(r' & c')|] eqn:EK; [|discriminate].
        assert (r' = r0 /\ c' = c0) as [-> ->] by lia.
        apply N1. eapply nth_error_In; eauto.
      * rewrite (get_set_same _ _ _ _ S1). f_equal. lia.
    + destruct (find _ (seq 0 (length idxs))) as [k|] eqn:EF; cbn [option_map].
      * f_equal. lia.
      * apply (get_set_other _ _ _ _ _ S1). intros EQ.
        assert (r = r0) by nia. assert (c = c0) by nia. lia.
Qed.

(* Labels are the positions in the sequence; every other cell is no source. *)
Theorem index_sources nrows ncols idxs :
  0 <= nrows -> 0 <= ncols -> NoDup idxs ->
  (forall r c, In (r, c) idxs -> 0 <= r < nrows /\ 0 <= c < ncols) ->
  exists srcs, sources_of_indices nrows ncols idxs = Ok srcs
    /\ len srcs = nrows * ncols
    /\ (forall k r c, nth_error idxs k = Some (r, c) ->
          get srcs (r * ncols + c) = Ok (Z.of_nat k))
    /\ (forall r c, 0 <= r < nrows -> 0 <= c < ncols -> ~ In (r, c) idxs ->
          get srcs (r * ncols + c) = Ok (-1)).
Proof.
  intros Hr Hc ND HB. unfold sources_of_indices.
  apply has_duplicates_spec in ND as ND'. rewrite ND'.
  assert (CK : check_indices nrows ncols idxs = true).
  { apply forallb_forall. intros (r & c) Hin. specialize (HB r c Hin). cbn. lia. }
  rewrite CK. cbn [negb].
  destruct (label_sources_spec nrows ncols idxs 0 (full (nrows * ncols) (-1)))
    as (srcs & E & L & F); auto.
  { apply full_len. nia. }
  exists srcs. split; [exact E|]. split; [exact L|]. split.
  - intros k r c Hk.
    assert (Hin : In (r, c) idxs) by (eapply nth_error_In; eauto).
    destruct (HB r c Hin) as [B1 B2]. rewrite F by assumption.
    destruct (find _ (seq 0 (length idxs))) as [k'|] eqn:EF.
    + apply find_some in EF. destruct EF as [_ EF].
      destruct (nth_error idxs k') as [(r' & c')|] eqn:EK; [|discriminate].
      assert (r' = r /\ c' = c) as [-> ->] by lia.
      assert (k' = k).
      { eapply (proj1 (NoDup_nth_error idxs) ND); [|congruence].
        apply nth_error_Some. congruence. }
      subst. f_equal.
    + exfalso.
      assert (Hs : In k (seq 0 (length idxs))).
      { apply in_seq. split; [lia|]. apply nth_error_Some. congruence. }
      pose proof (find_none _ _ EF k Hs) as Hc'. cbv beta in Hc'. rewrite Hk in Hc'. lia.
  - intros r c B1 B2 Nin. rewrite F by assumption.
    destruct (find _ (seq 0 (length idxs))) as [k'|] eqn:EF.
    + exfalso. apply find_some in EF. destruct EF as [_ EF].
      destruct (nth_error idxs k') as [(r' & c')|] eqn:EK; [|discriminate].
      assert (r' = r /\ c' = c) as [-> ->] by lia.
      apply Nin. eapply nth_error_In; eauto.
    + apply get_full. nia.
Qed.

Theorem index_sources_rejected nrows ncols idxs :
  (~ NoDup idxs \/ exists r c, In (r, c) idxs /\ ~ (0 <= r < nrows /\ 0 <= c < ncols)) ->
  sources_of_indices nrows ncols idxs = Err ValueError.
Proof.
  intros H. unfold sources_of_indices.
  destruct (has_duplicates idxs) eqn:E; [reflexivity|].
  destruct (check_indices nrows ncols idxs) eqn:CK; [|reflexivity].
  exfalso. destruct H as [H|(r & c & Hin & H)].
  - apply H. now apply has_duplicates_spec.
  - apply H. unfold check_indices in CK. rewrite forallb_forall in CK.
    specialize (CK _ Hin). cbn in CK. lia.
Qed.

(* ---------------- when steps are never NaN ---------------- *)

Lemma fmul_nonzero_ok x y : is_finite x = true -> (forall s, x <> B754_zero s) ->
  fok y = true -> fok (fmul x y) = true.
Proof.
  intros Fx Nx Oy.
  destruct x as [s|[]| |s m e H]; try discriminate Fx; [now elim (Nx s)|].
  destruct y as [s'|[]| |s' m' e' H']; try discriminate Oy; try reflexivity.
  pose proof (@Bmult_correct 53 1024 f64_prec f64_emax mode_NE
                (B754_finite s m e H) (B754_finite s' m' e' H')) as C.
  fold (fmul (B754_finite s m e H) (B754_finite s' m' e' H')) in C.
  set (z := fmul _ _) in *. clearbody z.
  match type of C with if ?b then _ else _ => destruct b end.
  - destruct C as (_ & C & _). cbn in C. now apply finite_fok.
  - destruct z; cbn in C |- *; try reflexivity. discriminate.
Qed.

(* Half the length of each of the eight moves is a positive finite number. *)
Definition usable_scale (yscale xscale : f64) : bool :=
  forallb (fun m =>
     let h := fmul (fsqrt (move_len2 (yscale, xscale) m)) fhalf in
     is_fin h && negb (feqb h fzero)) moves.

Theorem steps_ok_flat (p : @problem f64) : p_elev p = None ->
  usable_scale (p_yscale p) (p_xscale p) = true -> steps_ok f64_barrier fadd p.
Proof.
  intros EE US r c r' c' L. unfold step_cost, move_length. rewrite EE.
  assert (HL : exists m, In m moves /\ m = (r' - r, c' - c)).
  { destruct L as (_ & _ & (N1 & N2 & N3 & _) & _).
    assert (Hd : r' - r = -1 \/ r' - r = 0 \/ r' - r = 1) by lia.
    assert (He : c' - c = -1 \/ c' - c = 0 \/ c' - c = 1) by lia.
    eexists. split; [|reflexivity].
    destruct Hd as [Hd|[Hd|Hd]]; destruct He as [He|[He|He]]; rewrite Hd, He;
      cbn; try tauto; exfalso; lia. }
  destruct HL as (m & Hm & ->).
  unfold usable_scale in US. rewrite forallb_forall in US. specialize (US _ Hm).
  unfold move_len2 in US. cbn [fst snd] in US. cbv zeta in US.
  apply andb_true_iff in US. destruct US as [U1 U2].
  fold (sq (fmul (p_yscale p) (f64_of_Z (r' - r)))) in U1, U2.
  fold (sq (fmul (p_xscale p) (f64_of_Z (c' - c)))) in U1, U2.
  fold (length2 p (r' - r) (c' - c)) in U1, U2.
  apply fmul_nonzero_ok.
  - rewrite <- is_fin_finite. exact U1.
  - intros s Es. rewrite Es in U2. destruct s; discriminate.
  - destruct L as (_ & _ & _ & (B & _) & (B' & _)).
    apply fnonneg_ok. exact (f64_csum_ok _ _ B B').
Qed.
