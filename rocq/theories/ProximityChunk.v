From Verif Require Import BaseFacts F64 F64Facts F64Exact Proximity ProximityProofs ProximityMain
  ProximityModes ProximitySpec.
From Coq Require Import ZifyBool ZifyNat.
Open Scope Z_scope.

(* ---------------- float arithmetic ---------------- *)

Lemma fltb_trans a b c : fltb a b = true -> fltb b c = true -> fltb a c = true.
Proof.
  intros H1 H2.
  assert (Oa : fok a = true) by (destruct a, b; cbn in *; auto; discriminate).
  assert (Ob : fok b = true) by (destruct b, c; cbn in *; auto; discriminate).
  assert (Oc : fok c = true) by (destruct b, c; cbn in *; auto; discriminate).
  rewrite fleb_fltb in * by assumption.
  destruct (fleb c a) eqn:E; [|reflexivity].
  destruct (fleb_total a b Oa Ob) as [L|L].
  - rewrite (fleb_trans _ _ _ E L) in H2. discriminate H2.
  - rewrite L in H1. discriminate H1.
Qed.

Lemma fltb_irrefl a : fltb a a = false.
Proof.
  destruct (fok a) eqn:O.
  - rewrite fleb_fltb, fleb_refl by assumption. reflexivity.
  - destruct a; try discriminate O. reflexivity.
Qed.

Lemma fltb_fleb x y : fltb x y = true -> fleb x y = true.
Proof.
  intros H.
  assert (Ox : fok x = true) by (destruct x, y; cbn in *; auto; discriminate).
  assert (Oy : fok y = true) by (destruct x, y; cbn in *; auto; discriminate).
  destruct (fleb_total x y Ox Oy) as [L|L]; [exact L|].
  rewrite fleb_fltb in H by assumption. rewrite L in H. discriminate H.
Qed.

Lemma fltb_zero x : fnonneg x = true -> fltb x fzero = false.
Proof.
  intros H. destruct (fltb x fzero) eqn:E; [|reflexivity].
  rewrite fleb_fltb in E; [|now apply fnonneg_ok|reflexivity].
  unfold fnonneg in H. rewrite H in E. discriminate E.
Qed.

(* squared distances are NaN or non-negative *)
Definition sq_nonneg (dist : f64 -> f64 -> f64 -> f64 -> f64) : Prop :=
  forall x1 y1 x2 y2, fok (dist x1 y1 x2 y2) = true -> fnonneg (dist x1 y1 x2 y2) = true.

Lemma fsqr_nonneg x : fok (fmul x x) = true -> fnonneg (fmul x x) = true.
Proof.
  intros HN. destruct x as [s|s| |s m e H]; try discriminate HN; try (destruct s; reflexivity).
  apply fnonneg_sign. split; [exact HN|]. right.
  pose proof (@BinarySingleNaN.Bmult_correct 53 1024 f64_prec f64_emax BinarySingleNaN.mode_NE
                (BinarySingleNaN.B754_finite s m e H) (BinarySingleNaN.B754_finite s m e H)) as C.
  fold (fmul (BinarySingleNaN.B754_finite s m e H) (BinarySingleNaN.B754_finite s m e H)) in C.
  set (z := fmul _ _) in *. clearbody z. cbn [BinarySingleNaN.Bsign] in C.
  rewrite xorb_nilpotent in C.
  match type of C with if ?b then _ else _ => destruct b end.
  - destruct C as (_ & _ & C). apply C. unfold fok in HN. now apply negb_true_iff in HN.
  - destruct z; cbn in C |- *; try discriminate. injection C as ->. reflexivity.
Qed.

Lemma fadd_ok x y : fok (fadd x y) = true -> fok x = true /\ fok y = true.
Proof.
  destruct x as [s|[]| |s m e H]; destruct y as [s'|[]| |s' m' e' H']; intros HN;
    lazymatch goal with
    | H : fok (fadd BinarySingleNaN.B754_nan _) = true |- _ => discriminate H
    | H : fok (fadd _ BinarySingleNaN.B754_nan) = true |- _ => discriminate H
    | _ => split; reflexivity
    end.
Qed.

Lemma metric_nonneg hav k : sq_nonneg (metric_dist_sqr hav k).
Proof.
  intros x1 y1 x2 y2. destruct k; cbn [metric_dist_sqr];
    unfold euclidean_dist_sqr, taxi_dist_sqr, chebyshev_dist_sqr; cbv zeta;
    try apply fsqr_nonneg.
  intros H. destruct (fadd_ok _ _ H) as [H1 H2].
  apply fadd_nonneg; now apply fsqr_nonneg.
Qed.

Lemma fsqrt_ok d : fnonneg d = true -> fok (fsqrt d) = true.
Proof.
  intros H. destruct (fnonneg_cases d H) as [->|[F P]]; [reflexivity|].
  apply finite_fok. now apply fsqrt_finite.
Qed.

Section F64.
Variable st : store.
Variable dist : f64 -> f64 -> f64 -> f64 -> f64.
Variable M : f64.
Hypothesis RO : rounding (st_round st).
Hypothesis SQ : sq_nonneg dist.

Lemma round_nonneg x : fnonneg x = true -> fnonneg (st_round st x) = true.
Proof.
  intros H. unfold fnonneg in *. rewrite <- (round_zero _ RO). now apply (round_mono _ RO).
Qed.

Lemma f64_arith_ok : arith_ok (f64_arith st dist M).
Proof.
  assert (K : forall x1 y1 x2 y2,
    fltb (dist x1 y1 x2 y2) (fmul (fmul M M) (f64_of_Z 2)) = true ->
    fnonneg (st_round st (fsqrt (dist x1 y1 x2 y2))) = true).
  { intros x1 y1 x2 y2 H. apply round_nonneg. apply fsqrt_nonneg. apply fsqrt_ok.
    apply SQ. eapply fltb_nan_l; eauto. }
  constructor; cbn.
  - apply fltb_irrefl.
  - apply fltb_trans.
  - reflexivity.
  - reflexivity.
  - reflexivity.
  - reflexivity.
  - intros. apply fltb_zero. now apply K.
  - intros. now apply K.
Qed.
End F64.

(* ---------------- chunks ---------------- *)

Lemma len_zrange a b : len (zrange a b) = Z.max 0 (b - a).
Proof. unfold zrange, len. rewrite map_length, seq_length. lia. Qed.

Lemma get_zrange a b i : 0 <= i < b - a -> get (zrange a b) i = Ok (a + i).
Proof.
  intros H. unfold zrange. rewrite get_map_eq. unfold get. destruct (i <? 0) eqn:E; [lia|].
  assert (L : (Z.to_nat i < length (seq 0 (Z.to_nat (b - a))))%nat) by (rewrite seq_length; lia).
  rewrite (nth_error_nth' _ 0%nat L), seq_nth by (rewrite seq_length in L; exact L).
  f_equal. lia.
Qed.

Lemma len_pad {A} (b : A) l lo hi : len (pad_axis b l lo hi) = Z.max 0 (hi - lo).
Proof. unfold pad_axis. now rewrite len_map, len_zrange. Qed.

Lemma get_pad {A} (b : A) l lo hi i : 0 <= i < hi - lo ->
  get (pad_axis b l lo hi) i = Ok (match get l (lo + i) with Ok x => x | Err _ => b end).
Proof. intros H. unfold pad_axis. now rewrite get_map_eq, get_zrange. Qed.

Lemma get_trim {B} (a : list (list B)) ny nx dy dx i j x :
  grid ny nx a -> 0 <= dy -> 0 <= dx ->
  0 <= i < ny - 2 * dy -> 0 <= j < nx - 2 * dx ->
  get2 a (dy + i) (dx + j) = Ok x -> at2 (trim dy dx a) i j x.
Proof.
  intros [L H] Hdy Hdx Hi Hj G. unfold get2 in G. apply rbind_ok in G. destruct G as (row & G1 & G2).
  pose proof (H _ _ G1) as Lr.
  exists (slice row dx (len row - dx)). split.
  - unfold trim. rewrite get_map_eq, get_slice by lia. now rewrite G1.
  - rewrite get_slice by lia. exact G2.
Qed.

Lemma trim_grid {B} (a : list (list B)) ny nx dy dx :
  grid ny nx a -> 0 <= dy -> 0 <= dx -> 2 * dy <= ny -> 2 * dx <= nx ->
  grid (ny - 2 * dy) (nx - 2 * dx) (trim dy dx a).
Proof.
  intros [L H] Hdy Hdx Hy Hx. unfold trim. split; [rewrite len_map, slice_len; lia|].
  intros i row G. rewrite get_map_eq in G. apply rbind_ok in G. destruct G as (r & G & E).
  injection E as <-.
  assert (R : 0 <= i < ny - 2 * dy).
  { pose proof (get_ok_range _ _ _ G) as R. rewrite slice_len in R; lia. }
  rewrite get_slice in G by lia. pose proof (H _ _ G). rewrite slice_len; lia.
Qed.

Section Chunk.
Context {A : Type}.
Variable target : A -> bool.
Variable boundary : A.
Hypothesis boundary_not_target : target boundary = false.
Variable bearing : f64 -> f64 -> f64 -> f64 -> f64.
Variables (xc yc : list f64) (src : list (list A)).
Variables ny nx : Z.
Hypothesis SRC : grid ny nx src.
Hypothesis XC : len xc = nx.
Hypothesis YC : len yc = ny.
Variable depth : Z * Z.
Hypothesis depth_pos : 0 <= fst depth /\ 0 <= snd depth.
Variable k : chunk.
Hypothesis k_in : 0 <= k_r0 k <= k_r1 k /\ k_r1 k <= ny /\ 0 <= k_c0 k <= k_c1 k /\ k_c1 k <= nx.

Notation csrc := (chunk_src boundary src depth k).
Notation cxc := (chunk_xc xc depth k).
Notation cyc := (chunk_yc yc depth k).
Notation kny := (k_ny depth k).
Notation knx := (k_nx depth k).
(* index shift from the padded chunk to the raster *)
Notation oi := (k_r0 k - fst depth).
Notation oj := (k_c0 k - snd depth).

Lemma kny_eq : kny = k_r1 k + fst depth - oi. Proof. unfold k_ny. lia. Qed.
Lemma knx_eq : knx = k_c1 k + snd depth - oj. Proof. unfold k_nx. lia. Qed.

Lemma csrc_shape : grid kny knx csrc.
Proof.
  split.
  - unfold chunk_src, pad_block. rewrite len_map, len_zrange. rewrite kny_eq. lia.
  - intros i row G. unfold chunk_src, pad_block in G. rewrite get_map_eq in G.
    destruct (get (zrange _ _) i) eqn:E; [|discriminate]. injection G as <-.
    rewrite len_pad, knx_eq. lia.
Qed.

Lemma cxc_len : len cxc = knx.
Proof. unfold chunk_xc. rewrite len_pad, knx_eq. lia. Qed.
Lemma cyc_len : len cyc = kny.
Proof. unfold chunk_yc. rewrite len_pad, kny_eq. lia. Qed.

Lemma get_err {B} (l : list B) i : ~ 0 <= i < len l -> exists e, get l i = Err e.
Proof.
  intros H. destruct (get l i) eqn:E; [|eauto]. apply get_ok_range in E. contradiction.
Qed.

(* cells of the padded chunk *)
Lemma csrc_get i j : 0 <= i < kny -> 0 <= j < knx ->
  exists row v, get csrc i = Ok row /\ get row j = Ok v
    /\ (holds src (oi + i) (oj + j) v \/ (v = boundary /\ forall w, ~ holds src (oi + i) (oj + j) w)).
Proof.
  intros Hi Hj. rewrite kny_eq in Hi. rewrite knx_eq in Hj.
  unfold chunk_src, pad_block. rewrite get_map_eq, get_zrange by lia.
  eexists. eexists. split; [reflexivity|]. split; [apply get_pad; lia|].
  unfold holds. destruct (get src (oi + i)) as [r|e] eqn:E1.
  - destruct (get r (oj + j)) as [v|e] eqn:E2.
    + left. eauto.
    + right. split; [reflexivity|]. intros w (r' & G1 & G2).
      injection G1 as <-. rewrite E2 in G2. discriminate G2.
  - right. split.
    + unfold get at 1. destruct (oj + j <? 0); [reflexivity|].
      destruct (Z.to_nat (oj + j)); reflexivity.
    + intros w (r' & G1 & G2). discriminate G1.
Qed.

Lemma tgt_chunk i j : tgt target csrc i j <->
  (0 <= i < kny /\ 0 <= j < knx) /\ exists v, target_at target src (oi + i) (oj + j) v.
Proof.
  pose proof csrc_shape as SH. split.
  - intros (row & v & G1 & G2 & T).
    assert (R : 0 <= i < kny /\ 0 <= j < knx).
    { pose proof (get_ok_range _ _ _ G1). pose proof (get_ok_range _ _ _ G2).
      rewrite (proj1 SH) in *. rewrite (proj2 SH _ _ G1) in *. auto. }
    split; [exact R|].
    destruct (csrc_get i j (proj1 R) (proj2 R)) as (row' & v' & G1' & G2' & HV).
    rewrite G1 in G1'. injection G1' as <-. rewrite G2 in G2'. injection G2' as <-.
    destruct HV as [HV|(-> & _)]; [|congruence]. exists v. now split.
  - intros ((Hi & Hj) & v & HV & T).
    destruct (csrc_get i j Hi Hj) as (row & v' & G1 & G2 & HV').
    exists row, v'. split; [exact G1|]. split; [exact G2|].
    destruct HV' as [(r & A1 & A2)|(_ & N)]; [|exfalso; eapply N; eauto].
    destruct HV as (r' & B1 & B2). rewrite A1 in B1. injection B1 as <-.
    rewrite A2 in B2. injection B2 as <-. exact T.
Qed.

Lemma holds_range i j v : holds src i j v -> 0 <= i < ny /\ 0 <= j < nx.
Proof.
  intros (row & G1 & G2). pose proof (get_ok_range _ _ _ G1). pose proof (get_ok_range _ _ _ G2).
  rewrite (proj1 SRC) in *. rewrite (proj2 SRC _ _ G1) in *. auto.
Qed.

Lemma cxc_get j : 0 <= j < knx -> 0 <= oj + j < nx -> get cxc j = get xc (oj + j).
Proof.
  intros Hj Hr. rewrite knx_eq in Hj. unfold chunk_xc. rewrite get_pad by lia.
  destruct (get_range xc (oj + j)) as (x & E); [lia|]. now rewrite E.
Qed.
Lemma cyc_get i : 0 <= i < kny -> 0 <= oi + i < ny -> get cyc i = get yc (oi + i).
Proof.
  intros Hj Hr. rewrite kny_eq in Hj. unfold chunk_yc. rewrite get_pad by lia.
  destruct (get_range yc (oi + i)) as (x & E); [lia|]. now rewrite E.
Qed.

Section Run.
Variable ar : arith f64 f64 f64.
Hypothesis AR : arith_ok ar.

(* The reference run stores the target itself. *)
Definition second_ref (i j ti tj : Z) : res (option (Z * Z)) :=
  if (0 <=? i) && (i <? kny) && (0 <=? j) && (j <? knx)
     && (0 <=? ti) && (ti <? kny) && (0 <=? tj) && (tj <? knx)
  then Ok (Some (ti, tj)) else Err IndexError.

Notation cell_ref := (cell ar target cxc cyc csrc (fun _ _ ti tj => Some (ti, tj))).
Notation bounds := (cell_bounds ar target cxc cyc csrc oi).

Lemma shaped_full {B} (x : B) : shaped kny knx (full kny (full knx x)).
Proof.
  assert (0 <= kny) by (unfold k_ny; lia). assert (0 <= knx) by (unfold k_nx; lia).
  split; [now apply full_len|]. intros i row G. pose proof (get_ok_range _ _ _ G) as R.
  rewrite full_len in R by assumption. rewrite get_full in G by assumption.
  injection G as <-. now apply full_len.
Qed.

Lemma get2_full {B} (x : B) i j : 0 <= i < kny -> 0 <= j < knx ->
  get2 (full kny (full knx x)) i j = Ok x.
Proof. intros Hi Hj. unfold get2. rewrite get_full by assumption. cbn. now apply get_full. Qed.

Lemma ref_run r0 r1 c0 c1 nodata junk : shaped kny knx junk ->
  exists prox secondary,
    compute_proximity ar target true second_ref cxc cyc csrc kny knx nodata junk
      (full kny (full knx None)) = Ok (prox, secondary)
    /\ shaped kny knx prox /\ shaped kny knx secondary
    /\ forall i j, 0 <= i < kny -> 0 <= j < knx ->
       exists p w, get2 prox i j = Ok p /\ get2 secondary i j = Ok w
         /\ cell_ref i j None nodata p w
         /\ cell_bounds ar target cxc cyc csrc r0 r1 c0 c1 (fun _ => True) i j p.
Proof.
  intros SJ.
  destruct (run_sound ar target second_ref cxc cyc csrc kny knx AR (proj1 csrc_shape)
    (proj2 csrc_shape) cxc_len cyc_len r0 r1 c0 c1 (fun _ _ ti tj => Some (ti, tj))) with
    (nodata := nodata) (prox0 := junk) (sec0 := full kny (full knx (@None (Z * Z))))
    as (prox & secondary & E & S1 & S2 & H); [|exact SJ|apply shaped_full|].
  { intros i j ti tj Hi Hj T. apply tgt_chunk in T. unfold second_ref.
    destruct T as ((T1 & T2) & _).
    replace ((0 <=? i) && (i <? kny) && (0 <=? j) && (j <? knx)
     && (0 <=? ti) && (ti <? kny) && (0 <=? tj) && (tj <? knx)) with true by lia. reflexivity. }
  exists prox, secondary. split; [exact E|]. split; [exact S1|]. split; [exact S2|].
  intros i j Hi Hj. apply H; auto. now apply get2_full.
Qed.

(* A run whose secondary is a function [g] of the target. *)
Lemma other_run {S2 : Type} (second2 : Z -> Z -> Z -> Z -> res S2) (w0 : S2) nodata nodata' junk prox secondary :
  (forall i j ti tj, 0 <= i < kny -> 0 <= j < knx -> 0 <= ti < kny -> 0 <= tj < knx ->
     exists v, second2 i j ti tj = Ok v) ->
  compute_proximity ar target true second_ref cxc cyc csrc kny knx nodata junk
      (full kny (full knx None)) = Ok (prox, secondary) ->
  exists prox' sec2, compute_proximity ar target true second2 cxc cyc csrc kny knx nodata' junk
      (full kny (full knx w0)) = Ok (prox', sec2)
    /\ (nodata = nodata' -> prox = prox')
    /\ (shaped kny knx secondary -> grid kny knx sec2)
    /\ forall i j w, 0 <= i < kny -> 0 <= j < knx -> get2 secondary i j = Ok w ->
       exists w', get2 sec2 i j = Ok w'
         /\ match w with None => w' = w0 | Some (ti, tj) => second2 i j ti tj = Ok w' end.
Proof.
  intros HS E.
  set (R := fun i j (w : option (Z * Z)) (w' : S2) =>
    match w with None => w' = w0 | Some (ti, tj) => second2 i j ti tj = Ok w' end).
  assert (NC : exists sec2, compute_proximity ar target true second2 cxc cyc csrc kny knx nodata junk
      (full kny (full knx w0)) = Ok (prox, sec2) /\ arr_rel R secondary sec2).
  { eapply (natural_compute ar target cxc cyc second_ref second2 R); [| |exact E].
    - intros i j ti tj v H. unfold second_ref in H.
      destruct (_ && _) eqn:EB in H; [|discriminate]. injection H as <-.
      destruct (HS i j ti tj) as (v' & Ev); try lia. exists v'. now split.
    - assert (0 <= kny) by (unfold k_ny; lia). assert (0 <= knx) by (unfold k_nx; lia).
      split; [now rewrite !full_len|]. intros i r G.
      pose proof (get_ok_range _ _ _ G) as Hi. rewrite full_len in Hi by assumption.
      rewrite get_full in G by assumption. injection G as <-. rewrite get_full by assumption.
      eexists. split; [reflexivity|]. split; [now rewrite !full_len|].
      intros j v G. pose proof (get_ok_range _ _ _ G) as Hj. rewrite full_len in Hj by assumption.
      rewrite get_full in G by assumption. injection G as <-. rewrite get_full by assumption.
      eexists. split; reflexivity. }
  destruct NC as (sec2 & E2 & AR2).
  assert (EX : exists prox', compute_proximity ar target true second2 cxc cyc csrc kny knx nodata' junk
      (full kny (full knx w0)) = Ok (prox', sec2)) by (eapply nodata_second; exact E2).
  destruct EX as (prox' & E3).
  exists prox', sec2. split; [exact E3|]. split.
  - intros ->. rewrite E2 in E3. now injection E3.
  - split.
    { intros [L HR]. destruct AR2 as [AL AR2]. split; [congruence|].
      intros i r' G. pose proof (get_ok_range _ _ _ G) as Hi.
      destruct (get_range secondary i) as (r & Gr); [lia|].
      destruct (AR2 _ _ Gr) as (r2 & G2 & LR & _). rewrite G in G2. injection G2 as <-.
      rewrite <- LR. eauto. }
    intros i j w Hi Hj G. unfold get2 in G. apply rbind_ok in G. destruct G as (r & G1 & G2).
    destruct AR2 as [_ AR2]. destruct (AR2 _ _ G1) as (r' & G1' & _ & RR).
    destruct (RR _ _ G2) as (w' & G2' & RW). exists w'. unfold get2. rewrite G1'. cbn. auto.
Qed.

Lemma prox_run nodata junk prox secondary :
  compute_proximity ar target true second_ref cxc cyc csrc kny knx nodata junk
      (full kny (full knx None)) = Ok (prox, secondary) ->
  run_proximity ar target boundary xc yc src depth k junk nodata
    = Ok (trim (fst depth) (snd depth) prox).
Proof.
  intros E.
  destruct (other_run (fun _ _ _ _ => Ok tt) tt nodata nodata junk prox secondary) as
    (prox' & sec2 & E2 & EP & _ & _); [eauto|exact E|]. rewrite <- (EP eq_refl) in E2.
  unfold run_proximity.
  rewrite (erase_compute _ _ _ _ _ _ _ _ _ _ _ [[tt]] _ _ E2). reflexivity.
Qed.

End Run.

(* ---------------- all three outputs ---------------- *)

Variable st : store.
Variable dist : f64 -> f64 -> f64 -> f64 -> f64.
Variable M : f64.
Hypothesis RO : rounding (st_round st).
Hypothesis SQ : sq_nonneg dist.
Hypothesis HM : fleb (f64_of 1 (-511)) M = true.
Notation ar := (f64_arith st dist M).

Lemma value_proximity i j c p : 0 <= i < kny -> 0 <= j < knx ->
  0 <= oi + i < ny -> 0 <= oj + j < nx -> ctgt target csrc c ->
  value_of ar target cxc cyc csrc i j c p ->
  proximity_to target xc yc src dist (st_round st) M (oi + i) (oj + j) (oi + snd c) (oj + fst c) p.
Proof.
  intros Hi Hj Hi' Hj' TC V. destruct V as [(T & -> & ->)|(NT & -> & L1 & L2)].
  - left. auto.
  - right. split.
    { intros v TV. apply NT. apply tgt_chunk. split; [auto|]. eauto. }
    destruct (D_dist ar target (fun _ _ _ _ => Ok tt) cxc cyc csrc kny knx (proj1 csrc_shape)
      (proj2 csrc_shape) cxc_len cyc_len c i j TC Hi Hj)
      as (x1 & y1 & x2 & y2 & G1 & G2 & G3 & G4 & E).
    apply tgt_chunk in TC. destruct TC as ((R1 & R2) & v & TV).
    pose proof (holds_range _ _ _ (proj1 TV)) as [R3 R4].
    rewrite cxc_get in G1 by assumption. rewrite cyc_get in G2 by assumption.
    rewrite cxc_get in G3 by assumption. rewrite cyc_get in G4 by assumption.
    exists x1, y1, x2, y2. rewrite E in *. unfold centre. cbn [nle nlt f64_arith max2 max2_2 psqrt] in *.
    split; [auto|]. split; [auto|]. split; [reflexivity|]. apply (round_mono _ RO).
    apply sqrt_le_max; auto. apply SQ. eapply fleb_ok_l; eauto.
Qed.

(* C10 and C11 at once *)
Theorem chunk_run_shapes {O} (cast : A -> O) nodata nodata_alloc (nodata2 : O) nodata3 to_dir junk :
  grid kny knx junk ->
  exists prox alloc dir,
    run_proximity ar target boundary xc yc src depth k junk nodata = Ok prox
    /\ run_allocation ar target boundary xc yc src depth k cast junk nodata_alloc nodata2 = Ok alloc
    /\ run_direction ar target boundary bearing xc yc src depth k to_dir junk nodata3 = Ok dir
    /\ (grid (k_r1 k - k_r0 k) (k_c1 k - k_c0 k) prox
        /\ grid (k_r1 k - k_r0 k) (k_c1 k - k_c0 k) alloc
        /\ grid (k_r1 k - k_r0 k) (k_c1 k - k_c0 k) dir)
    /\ forall i j, k_r0 k <= i < k_r1 k -> k_c0 k <= j < k_c1 k ->
       exists p a d, at2 prox (i - k_r0 k) (j - k_c0 k) p
         /\ at2 alloc (i - k_r0 k) (j - k_c0 k) a
         /\ at2 dir (i - k_r0 k) (j - k_c0 k) d
         /\ ((p = nodata /\ a = nodata2 /\ d = nodata3)
             \/ exists ti tj v, target_at target src ti tj v
                  /\ proximity_to target xc yc src dist (st_round st) M i j ti tj p
                  /\ a = cast v
                  /\ exists b, direction_to xc yc (direction bearing) i j ti tj b /\ d = to_dir b).
Proof.
  intros SJ.
  pose proof (f64_arith_ok st dist M RO SQ) as AR.
  destruct (ref_run ar AR 0 0 0 0 nodata junk SJ) as (prox & secondary & E & S1 & S2 & HC).
  assert (GETR : forall {B} (l : list B) i, 0 <= i < len l -> exists x, get l i = Ok x)
    by (intros; now apply get_range).
  destruct (other_run ar (second_alloc boundary src depth k cast) nodata2 nodata nodata_alloc junk
              prox secondary) as (pa & alloc & Ea & _ & SA & Ha); [|exact E|].
  { intros i j ti tj _ _ Hti Htj. unfold second_alloc.
    destruct (csrc_get ti tj Hti Htj) as (row & v & G1 & G2 & _). rewrite G1. cbn. rewrite G2. cbn. eauto. }
  destruct (other_run ar (fun i j ti tj => let* d := second_dir bearing xc yc depth k i j ti tj in Ok (to_dir d))
              nodata3 nodata nodata3 junk prox secondary) as (pd & dir & Ed & _ & SD & Hd); [|exact E|].
  { intros i j ti tj Hi Hj Hti Htj. unfold second_dir.
    destruct (get_range cxc j) as (x1 & ->); [rewrite cxc_len; lia|].
    destruct (get_range cyc i) as (y1 & ->); [rewrite cyc_len; lia|].
    destruct (get_range cxc tj) as (x2 & ->); [rewrite cxc_len; lia|].
    destruct (get_range cyc ti) as (y2 & ->); [rewrite cyc_len; lia|]. cbn. eauto. }
  exists (trim (fst depth) (snd depth) prox), (trim (fst depth) (snd depth) alloc),
    (trim (fst depth) (snd depth) dir).
  split; [now apply (prox_run ar nodata junk prox secondary)|].
  split; [unfold run_allocation; rewrite Ea; reflexivity|].
  split; [unfold run_direction; rewrite Ed; reflexivity|].
  specialize (SA S2). specialize (SD S2).
  split.
  { replace (k_r1 k - k_r0 k) with (kny - 2 * fst depth) by (unfold k_ny; lia).
    replace (k_c1 k - k_c0 k) with (knx - 2 * snd depth) by (unfold k_nx; lia).
    split; [|split]; apply trim_grid; try assumption; try apply depth_pos; unfold k_ny, k_nx; lia. }
  intros i j Hi Hj.
  set (i' := fst depth + (i - k_r0 k)). set (j' := snd depth + (j - k_c0 k)).
  assert (Hi' : 0 <= i' < kny) by (unfold i', k_ny; lia).
  assert (Hj' : 0 <= j' < knx) by (unfold j', k_nx; lia).
  assert (Ei : oi + i' = i) by (unfold i'; lia). assert (Ej : oj + j' = j) by (unfold j'; lia).
  destruct (HC i' j' Hi' Hj') as (p & w & Gp & Gw & CE & _).
  destruct (Ha i' j' w Hi' Hj' Gw) as (a & Ga & Va).
  destruct (Hd i' j' w Hi' Hj' Gw) as (d & Gd & Vd).
  exists p, a, d.
  split; [eapply get_trim; [exact S1|apply depth_pos|apply depth_pos|unfold k_ny; lia|unfold k_nx; lia|exact Gp]|].
  split; [eapply get_trim; [exact SA|apply depth_pos|apply depth_pos|unfold k_ny; lia|unfold k_nx; lia|exact Ga]|].
  split; [eapply get_trim; [exact SD|apply depth_pos|apply depth_pos|unfold k_ny; lia|unfold k_nx; lia|exact Gd]|].
  destruct CE as [(-> & ->)|(c & TC & V & ->)]; [left; auto|right].
  pose proof TC as TC'. apply tgt_chunk in TC. destruct TC as ((R1 & R2) & v & TV).
  pose proof (holds_range _ _ _ (proj1 TV)) as [R3 R4].
  exists (oi + snd c), (oj + fst c), v. split; [exact TV|].
  split; [rewrite <- Ei, <- Ej; apply value_proximity; auto; lia|].
  split.
  - unfold second_alloc in Va.
    destruct (csrc_get (snd c) (fst c) R1 R2) as (row & v' & G1 & G2 & HV). rewrite G1 in Va. cbn in Va.
    rewrite G2 in Va. cbn in Va. injection Va as <-. f_equal.
    destruct TV as [(r & A1 & A2) _]. destruct HV as [(r' & B1 & B2)|(_ & N)].
    + rewrite A1 in B1. injection B1 as <-. rewrite A2 in B2. now injection B2.
    + exfalso. eapply N. exists r. eauto.
  - unfold second_dir in Vd. rewrite cxc_get in Vd by lia. rewrite cyc_get in Vd by lia.
    rewrite (cxc_get (fst c)) in Vd by lia. rewrite (cyc_get (snd c)) in Vd by lia.
    apply rbind_ok in Vd. destruct Vd as (b & Vb & Vd). injection Vd as <-.
    apply rbind_ok in Vb. destruct Vb as (x1 & X1 & Vb).
    apply rbind_ok in Vb. destruct Vb as (y1 & Y1 & Vb).
    apply rbind_ok in Vb. destruct Vb as (x2 & X2 & Vb).
    apply rbind_ok in Vb. destruct Vb as (y2 & Y2 & Vb). injection Vb as <-.
    rewrite Ei in *. rewrite Ej in *.
    exists (direction bearing x1 y1 x2 y2). split; [|reflexivity].
    exists x1, y1, x2, y2. unfold centre. auto.
Qed.

Theorem chunk_run {O} (cast : A -> O) nodata nodata_alloc (nodata2 : O) nodata3 to_dir junk :
  grid kny knx junk ->
  exists prox alloc dir,
    run_proximity ar target boundary xc yc src depth k junk nodata = Ok prox
    /\ run_allocation ar target boundary xc yc src depth k cast junk nodata_alloc nodata2 = Ok alloc
    /\ run_direction ar target boundary bearing xc yc src depth k to_dir junk nodata3 = Ok dir
    /\ forall i j, k_r0 k <= i < k_r1 k -> k_c0 k <= j < k_c1 k ->
       exists p a d, at2 prox (i - k_r0 k) (j - k_c0 k) p
         /\ at2 alloc (i - k_r0 k) (j - k_c0 k) a
         /\ at2 dir (i - k_r0 k) (j - k_c0 k) d
         /\ ((p = nodata /\ a = nodata2 /\ d = nodata3)
             \/ exists ti tj v, target_at target src ti tj v
                  /\ proximity_to target xc yc src dist (st_round st) M i j ti tj p
                  /\ a = cast v
                  /\ exists b, direction_to xc yc (direction bearing) i j ti tj b /\ d = to_dir b).
Proof.
  intros SJ. destruct (chunk_run_shapes cast nodata nodata_alloc nodata2 nodata3 to_dir junk SJ) as (prox & alloc & dir & H1 & H2 & H3 & _ & H4).
  exists prox, alloc, dir. auto.
Qed.


(* ---------------- upper bounds ---------------- *)

(* the part of the padded chunk that lies in the raster *)
Notation rr0 := (Z.max 0 (- oi)).
Notation rr1 := (Z.min kny (ny - oi)).
Notation cc0 := (Z.max 0 (- oj)).
Notation cc1 := (Z.min knx (nx - oj)).
Notation inr := (inr rr0 rr1 cc0 cc1).

Lemma inr_iff i j : inr i j <->
  (0 <= i < kny /\ 0 <= j < knx) /\ 0 <= oi + i < ny /\ 0 <= oj + j < nx.
Proof. unfold ProximityMain.inr. lia. Qed.

Lemma ctgt_inr c : ctgt target csrc c -> inr (snd c) (fst c).
Proof.
  intros T. apply tgt_chunk in T. destruct T as (R & v & TV).
  apply inr_iff. split; [exact R|]. eapply holds_range. apply TV.
Qed.

(* distances between a target and a cell of the raster *)
Lemma D_raster c i j : ctgt target csrc c -> inr i j ->
  exists x1 y1 x2 y2, centre xc yc (oi + snd c) (oj + fst c) x1 y1
    /\ centre xc yc (oi + i) (oj + j) x2 y2
    /\ D ar cxc cyc c i j = dist x1 y1 x2 y2.
Proof.
  intros TC HI. pose proof (ctgt_inr c TC) as HC. apply inr_iff in HI. apply inr_iff in HC.
  destruct (D_dist ar target (fun _ _ _ _ => Ok tt) cxc cyc csrc kny knx (proj1 csrc_shape)
      (proj2 csrc_shape) cxc_len cyc_len c i j TC (proj1 (proj1 HI)) (proj2 (proj1 HI)))
      as (x1 & y1 & x2 & y2 & G1 & G2 & G3 & G4 & E).
  rewrite cxc_get in G1 by apply HC. rewrite cyc_get in G2 by apply HC.
  rewrite cxc_get in G3 by apply HI. rewrite cyc_get in G4 by apply HI.
  exists x1, y1, x2, y2. unfold centre. auto.
Qed.

Lemma chunk_prox nodata junk : grid kny knx junk ->
  exists prox, run_proximity ar target boundary xc yc src depth k junk nodata = Ok prox
    /\ forall i j, k_r0 k <= i < k_r1 k -> k_c0 k <= j < k_c1 k ->
       exists p, at2 prox (i - k_r0 k) (j - k_c0 k) p
         /\ (p = nodata \/ exists c, ctgt target csrc c
               /\ value_of ar target cxc cyc csrc (i - oi) (j - oj) c p)
         /\ cell_bounds ar target cxc cyc csrc rr0 rr1 cc0 cc1 (fun _ => True) (i - oi) (j - oj) p.
Proof.
  intros SJ. pose proof (f64_arith_ok st dist M RO SQ) as AR.
  destruct (ref_run ar AR rr0 rr1 cc0 cc1 nodata junk SJ) as (prox & secondary & E & S1 & S2 & HC).
  exists (trim (fst depth) (snd depth) prox).
  split; [now apply (prox_run ar nodata junk prox secondary)|].
  intros i j Hi Hj.
  assert (Hi' : 0 <= i - oi < kny) by (unfold k_ny; lia).
  assert (Hj' : 0 <= j - oj < knx) by (unfold k_nx; lia).
  destruct (HC _ _ Hi' Hj') as (p & w & Gp & Gw & CE & BD).
  exists p. split; [|split; [|exact BD]].
  - eapply get_trim; [exact S1|apply depth_pos|apply depth_pos|unfold k_ny; lia|unfold k_nx; lia|].
    replace (fst depth + (i - k_r0 k)) with (i - oi) by lia.
    replace (snd depth + (j - k_c0 k)) with (j - oj) by lia. exact Gp.
  - destruct CE as [(-> & _)|(c & TC & V & _)]; eauto.
Qed.

(* (ti, tj) is in the padded chunk *)
Definition in_window (ti tj : Z) : Prop :=
  oi <= ti < k_r1 k + fst depth /\ oj <= tj < k_c1 k + snd depth.

Lemma window_ctgt ti tj v : target_at target src ti tj v -> in_window ti tj ->
  ctgt target csrc (tj - oj, ti - oi).
Proof.
  intros TV [W1 W2]. apply tgt_chunk. cbn [fst snd]. rewrite kny_eq, knx_eq. split; [lia|].
  exists v. replace (oi + (ti - oi)) with ti by lia. now replace (oj + (tj - oj)) with tj by lia.
Qed.

(* Without a limit on the distance no cell is skipped. *)
Theorem chunk_complete nodata junk ti0 tj0 v0 :
  M = finf ->
  (forall ti tj v i j x1 y1 x2 y2, target_at target src ti tj v ->
     centre xc yc ti tj x1 y1 -> centre xc yc i j x2 y2 -> fltb (dist x1 y1 x2 y2) finf = true) ->
  grid kny knx junk -> target_at target src ti0 tj0 v0 -> in_window ti0 tj0 ->
  exists prox, run_proximity ar target boundary xc yc src depth k junk nodata = Ok prox
    /\ forall i j, k_r0 k <= i < k_r1 k -> k_c0 k <= j < k_c1 k ->
       exists p ti tj v, at2 prox (i - k_r0 k) (j - k_c0 k) p
         /\ target_at target src ti tj v
         /\ proximity_to target xc yc src dist (st_round st) M i j ti tj p.
Proof.
  intros EM FIN SJ T0 W0.
  destruct (chunk_prox nodata junk SJ) as (prox & E & H). exists prox. split; [exact E|].
  intros i j Hi Hj. destruct (H i j Hi Hj) as (p & Gp & _ & BD). exists p.
  assert (F2 : forall c i j, ctgt target csrc c -> inr i j ->
    fltb (D ar cxc cyc c i j) finf = true).
  { intros c i' j' TC HI. destruct (D_raster c i' j' TC HI) as (x1 & y1 & x2 & y2 & C1 & C2 & ->).
    apply tgt_chunk in TC. destruct TC as (_ & v & TV). eapply FIN; eauto. }
  assert (AD : regular ar target cxc cyc csrc rr0 rr1 cc0 cc1 (fun _ _ _ => 0) 0 1).
  { constructor.
    - lia.
    - intros c. apply ctgt_inr.
    - lia.
    - lia.
    - lia.
    - intros c i' j' TC HI _.
      change (fltb (D ar cxc cyc c i' j') (fmul (fmul M M) (f64_of_Z 2)) = true).
      replace (fmul (fmul M M) (f64_of_Z 2)) with finf by (rewrite EM; reflexivity). now apply F2.
    - intros c i' j' TC HI _.
      change (fleb (D ar cxc cyc c i' j') (fmul M M) = true).
      replace (fmul M M) with finf by (rewrite EM; reflexivity). apply fltb_fleb. now apply F2.
    - intros c c' i' j' _ _ _ _. destruct (lt_sqr _ _ _); lia.
    - left. split; exists (fun _ => 0); intros; repeat split; intros; cbn beta; lia. }
  pose proof (window_ctgt _ _ _ T0 W0) as TC0.
  assert (IJ : inr (i - oi) (j - oj)).
  { apply inr_iff. rewrite kny_eq, knx_eq. lia. }
  destruct (proj2 BD _ _ _ AD _ TC0 I IJ ltac:(lia)) as (c & TC & V & _).
  apply inr_iff in IJ.
  pose proof (value_proximity (i - oi) (j - oj) c p ltac:(lia) ltac:(lia) ltac:(lia) ltac:(lia) TC V) as PV.
  replace (oi + (i - oi)) with i in PV by lia. replace (oj + (j - oj)) with j in PV by lia.
  apply tgt_chunk in TC. destruct TC as (_ & v & TV).
  exists (oi + snd c), (oj + fst c), v. auto.
Qed.

End Chunk.
