(* C94: the sum of float rasters in mosaic. *)
From Coq Require Import ZArith Reals Lra Lia List Permutation.
From Flocq Require Import Core BinarySingleNaN.
From Verif Require Import Base F64 GridsFloat Mosaic MosaicSpec MosaicSum MosaicSumSpec MosaicSumProofs.
Import ListNotations.
Open Scope Z_scope.

(* Full statement: for every null value, every band of the result holds the sum of the
   values that are not null, up to one rounding for each raster and null exactly where
   there are none.  Proved for null values that are not finite (NaN and the
   infinities), for every number of rasters and every order of addition, in every
   binary float format, as long as the values are finite and do not overflow. *)
Theorem C94_sum_partial : forall prec emax (HP : Prec_gt_0 prec) (HE : Prec_lt_emax prec emax) (nodata : binary_float prec emax) order,
  (forall l, l <> [] -> Permutation (leaves (order l)) l) -> is_finite nodata = false ->
  forall srcs, srcs <> [] ->
  exists out, mosaic_fsum nodata order srcs = Ok out /\ is_nbands srcs (length out)
  /\ forall i v, nth_error out i = Some v ->
     let l := band_values nodata srcs i in
     let values := valid (smissing nodata) l in
     (forall w, In w values -> is_finite w = true) -> no_overflow (length l) values ->
     (smissing nodata v = true <-> values = []) /\ (values = [] -> v = nodata)
     /\ (values <> [] -> sum_within (length l) values v).
Proof. intros prec emax HP HE nodata order O NF srcs N. exact (bands_sum prec emax HP HE nodata order O NF srcs N). Qed.
Print Assumptions C94_sum_partial.

(* Whole numbers whose sum of absolute values fits the precision are added exactly. *)
Theorem C94_whole_partial : forall prec emax (HP : Prec_gt_0 prec) (HE : Prec_lt_emax prec emax) (nodata : binary_float prec emax) order,
  (forall l, l <> [] -> Permutation (leaves (order l)) l) -> is_finite nodata = false ->
  forall srcs, srcs <> [] ->
  exists out, mosaic_fsum nodata order srcs = Ok out /\ is_nbands srcs (length out)
  /\ forall i v, nth_error out i = Some v ->
     let values := valid (smissing nodata) (band_values nodata srcs i) in
     whole_numbers values -> (smissing nodata v = true <-> values = []) /\ (values <> [] -> sum_exact values v).
Proof. intros prec emax HP HE nodata order O NF srcs N. exact (bands_exact prec emax HP HE nodata order O NF srcs N). Qed.
Print Assumptions C94_whole_partial.

(* Up to six rasters the value is the sum for every null value. *)
Theorem C94_few_partial : forall prec emax (HP : Prec_gt_0 prec) (HE : Prec_lt_emax prec emax) (nodata : binary_float prec emax) order srcs,
  (forall l, l <> [] -> Permutation (leaves (order l)) l) -> (length srcs <= 6)%nat ->
  exists v, single_band nodata (paint_fsum nodata order) srcs = Ok v
  /\ let values := valid (smissing nodata) srcs in
     ((forall w, In w values -> is_finite w = true) -> no_overflow (length srcs) values ->
      (values = [] -> v = nodata) /\ (values <> [] -> sum_within (length srcs) values v)).
Proof. intros prec emax HP HE nodata order srcs O L. exact (few_sum prec emax HP HE nodata order srcs O L). Qed.
Print Assumptions C94_few_partial.

(* what counts as missing above: the null value itself; NaN only if that is NaN *)
Theorem C94_missing : forall prec emax (nodata v : binary_float prec emax), smissing nodata v = true <-> is_null_value nodata v.
Proof. exact missing_null. Qed.
Print Assumptions C94_missing.

(* ---- examples, in double precision ---- *)
Fixpoint comb {A} (x : A) (l : list A) : sum_tree A := match l with [] => One x | y :: t => Plus (One x) (comb y t) end.
Definition ex_order (l : list f64) : sum_tree f64 := match l with [] => One fnan | x :: t => comb x t end.
Lemma ex_order_ok : forall l, l <> [] -> Permutation (leaves (ex_order l)) l.
Proof.
  intros [|x l] N; [congruence|]. cbn [ex_order]. clear N. revert x. induction l as [|y l IH]; intros x; cbn [comb leaves app]; [reflexivity|].
  constructor. apply IH.
Qed.
Definition z (n : Z) : f64 := f64_of_Z n.
Definition ex_mosaic (nodata : f64) (srcs : list (list f64)) : res (list f64) :=
  @mosaic_fsum 53 1024 f64_prec f64_emax nodata ex_order srcs.
Definition seen (r : res (list f64)) : res (list SpecFloat.spec_float) := match r with Ok l => Ok (map B2SF l) | Err e => Err e end.
Definition same (r : res (list f64)) (l : list f64) : Prop := seen r = Ok (map B2SF l).
Example C94_example : same (ex_mosaic fnan [[z 1; z 2]; [fnan; z 3]; [f64_of 1 (-1)]; [fnan; fnan; fnan]; [z 4; fnan]; [z 5]; [z 6]; [z 7]; [z 8]; [z 9]]) [f64_of 81 (-1); z 5; fnan].
Proof. vm_compute. reflexivity. Qed.
Example C94_hypotheses : (forall w, In w [z 1; z 2; z 3] -> is_finite w = true) /\ no_overflow 4 [z 1; z 2; z 3].
Proof.
  split; [intros w [<-|[<-|[<-|[]]]]; vm_compute; reflexivity|]. unfold no_overflow, sum_abs, rsum. cbn [map fold_right].
  assert (V : forall n, n <> 0 -> Z.abs n <= 2 ^ 53 -> B2R (z n) = IZR n) by (intros n N0 H; apply (sized_of_Z n N0 H)).
  rewrite !V by (lia || (vm_compute; discriminate)). rewrite !Rabs_pos_eq by lra.
  assert (U : (0 < unit_roundoff 53 <= 1)%R) by (split; [apply bpow_gt_0|apply (bpow_le radix2 (-53) 0); lia]).
  assert (Q : ((1 + unit_roundoff 53) ^ 4 <= 2 ^ 4)%R) by (apply pow_incr; lra).
  apply Rle_lt_trans with (bpow radix2 7); [change (bpow radix2 7) with 128%R; nra|apply bpow_lt; lia].
Qed.

(* With a finite null value a partial sum may be taken for null: 1 + 4 + 5 = 10. *)
Theorem C94_null_refuted :
  ~ (forall (nodata : f64) (order : list f64 -> sum_tree f64) srcs, (forall l, l <> [] -> Permutation (leaves (order l)) l) ->
     (forall w, In w (valid (smissing nodata) srcs) -> is_finite w = true) -> no_overflow (length srcs) (valid (smissing nodata) srcs) ->
     exists v, single_band nodata (@paint_fsum 53 1024 f64_prec f64_emax nodata order) srcs = Ok v
     /\ (smissing nodata v = true <-> valid (smissing nodata) srcs = [])).
Proof.
  intros H. destruct (H (z 3) ex_order [z 1; z 2] ex_order_ok) as (v & E & N).
  - assert (M : valid (smissing (z 3)) [z 1; z 2] = [z 1; z 2]) by reflexivity. rewrite M. intros w [<-|[<-|[]]]; vm_compute; reflexivity.
  - assert (M : valid (smissing (z 3)) [z 1; z 2] = [z 1; z 2]) by reflexivity. rewrite M. cbn [length].
    destruct C94_hypotheses as [_ NO]. eapply no_overflow_le; [| |exact NO]; [lia|].
    change [z 1; z 2; z 3] with ([z 1; z 2] ++ [z 3]). rewrite (abs_app 53 1024). pose proof (sum_abs_pos 53 1024 [z 3]). lra.
  - assert (S : smissing (z 3) v = true).
    { pose proof (f_equal (fun r : res f64 => match r with Ok w => smissing (z 3) w | Err _ => false end) E) as F. cbn beta iota in F. rewrite <- F. vm_compute. reflexivity. }
    apply N in S. discriminate.
Qed.
Print Assumptions C94_null_refuted.
Theorem C94_partial_sum_refuted :
  same (ex_mosaic (z 10) (map (fun v => [v]) [z 7; z 10; z 10; z 1; z 4; z 5; z 10])) [z 7].
Proof. vm_compute. reflexivity. Qed.
Print Assumptions C94_partial_sum_refuted.
(* Infinities of both signs give NaN: a null cell though values are valid. *)
Theorem C94_infinity_refuted :
  ~ (forall srcs, exists v, single_band fnan (@paint_fsum 53 1024 f64_prec f64_emax fnan ex_order) srcs = Ok v
     /\ (smissing fnan v = true <-> valid (smissing fnan) srcs = [])).
Proof.
  intros H. destruct (H [finf; fopp finf]) as (v & E & N). vm_compute in E. injection E as <-. destruct N as [N _].
  specialize (N eq_refl). discriminate.
Qed.
Print Assumptions C94_infinity_refuted.
