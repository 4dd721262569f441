(* C92: the arguments of the cost distance functions. *)
From Coq Require Import QArith Reals.
From Flocq Require Import Core BinarySingleNaN.
From Coq Require Import ZifyBool ZifyNat.
From Verif Require Import BaseFacts F64 F64Facts Scalars CostSpec CostDist CostProofs CostPublicProofs
  CostArgs CostArgsSpec CostArgsFloats CostArgsProofs.
Open Scope Z_scope.

(* integer costs of any width, sources from a raster or from indices: the outputs are the
   least costs with exact sums of costs *)
Theorem C92_integers : forall nrows ncols costs sources elevation resolution k label snull l nv,
  0 <= nrows -> 0 <= ncols -> rst_ok nrows ncols costs ->
  (forall e, elevation = Some e -> rst_ok nrows ncols e /\ fillable e (-9999)) ->
  means nrows ncols sources label snull ->
  fleb (fabs (fst resolution)) fzero = false -> fleb (fabs (snd resolution)) fzero = false ->
  k = 4 \/ k = 8 ->
  v_cells costs = Ints l nv -> fillable costs (-1) -> Forall (fun z => z < 2 ^ 62) l ->
  let p := the_problem (int_cost l (v_mask costs) ncols) label nrows ncols elevation resolution k in
  steps_ok blocks exact_sum p ->
  exists o, analysis costs sources elevation resolution k = Ok o
    /\ solves blocks exact_sum p (v_mask costs) (match nv with Some v => f64_of_Z v | None => default_null_f64 end) snull o.
Proof.
  exact (fun nrows ncols costs sources elevation resolution k label snull l nv H1 H2 H3 H4 H5 H6 H7 H8 =>
    call_ints nrows ncols costs sources elevation resolution k label snull H1 H2 H3 H4 H5 H6 H7 H8 l nv).
Qed.
Print Assumptions C92_integers.

(* float costs; those of dtype float16 and float32 are added in float32 *)
Theorem C92_floats : forall nrows ncols costs sources elevation resolution k label snull l nv,
  0 <= nrows -> 0 <= ncols -> rst_ok nrows ncols costs ->
  (forall e, elevation = Some e -> rst_ok nrows ncols e /\ fillable e (-9999)) ->
  means nrows ncols sources label snull ->
  fleb (fabs (fst resolution)) fzero = false -> fleb (fabs (snd resolution)) fzero = false ->
  k = 4 \/ k = 8 ->
  v_cells costs = Floats l nv ->
  let p := the_problem (float_cost l (v_mask costs) ncols) label nrows ncols elevation resolution k in
  steps_ok f64_barrier (float_sum (v_dtype costs)) p ->
  exists o, analysis costs sources elevation resolution k = Ok o
    /\ solves f64_barrier (float_sum (v_dtype costs)) p (v_mask costs)
         (match nv with Some v => v | None => default_null_f64 end) snull o.
Proof.
  exact (fun nrows ncols costs sources elevation resolution k label snull l nv H1 H2 H3 H4 H5 H6 H7 H8 =>
    call_floats nrows ncols costs sources elevation resolution k label snull H1 H2 H3 H4 H5 H6 H7 H8 l nv).
Qed.
Print Assumptions C92_floats.

(* what float_sum is for float32 *)
Theorem C92_single_sums : forall a b, is_single a -> is_single b ->
  (Rabs (single_sum (B2R a) (B2R b)) < bpow radix2 128)%R ->
  is_finite (float_sum F32 a b) = true /\ B2R (float_sum F32 a b) = single_sum (B2R a) (B2R b).
Proof. exact single_sum_correct. Qed.
Print Assumptions C92_single_sums.

(* without elevation, and with cells of a usable size, no step is NaN *)
Theorem C92_flat_ints : forall p, p_elev p = None -> usable_scale (p_yscale p) (p_xscale p) = true ->
  steps_ok blocks exact_sum p.
Proof. exact (fun p => steps_flat blocks exact_sum p exact_sum_ok). Qed.
Print Assumptions C92_flat_ints.
Theorem C92_flat_floats : forall d p, p_elev p = None -> usable_scale (p_yscale p) (p_xscale p) = true ->
  steps_ok f64_barrier (float_sum d) p.
Proof. exact (fun d p => steps_flat f64_barrier (float_sum d) p (float_sum_ok d)). Qed.
Print Assumptions C92_flat_floats.

(* what is refused, and how *)
Theorem C92_bands : forall costs sources elevation resolution k nb nr nc,
  v_shape costs = (nb, nr, nc) -> nb <> 1 -> analysis costs sources elevation resolution k = Err ValueError.
Proof. exact refused_bands. Qed.
Print Assumptions C92_bands.
Theorem C92_elevation_shape : forall costs sources e resolution k,
  v_shape e <> v_shape costs -> analysis costs sources (Some e) resolution k = Err ValueError.
Proof. exact refused_elevation. Qed.
Print Assumptions C92_elevation_shape.
Theorem C92_bad_sources : forall nrows ncols costs sources elevation resolution k e,
  rst_ok nrows ncols costs -> (forall e, elevation = Some e -> rst_ok nrows ncols e) ->
  bad nrows ncols sources e -> analysis costs sources elevation resolution k = Err e.
Proof.
  exact (fun nrows ncols costs sources elevation resolution k e H1 H2 H3 =>
    refused_sources nrows ncols costs sources elevation resolution k e H1 H2 (bad_sources nrows ncols sources e H3)).
Qed.
Print Assumptions C92_bad_sources.

(* cda_cost_distance, cda_traceback and cda_allocation give one of the three rasters *)
Theorem C92_parts : forall costs sources elevation resolution k,
  match analysis costs sources elevation resolution k with
  | Ok o => cda_cost_distance costs sources elevation resolution k = Ok (o_distance o, o_mask o, o_nv o)
            /\ cda_traceback costs sources elevation resolution k = Ok (o_traceback o, o_mask o, o_traceback_nv o)
            /\ cda_allocation costs sources elevation resolution k = Ok (o_allocation o, o_mask o, o_allocation_nv o)
  | Err e => cda_cost_distance costs sources elevation resolution k = Err e
             /\ cda_traceback costs sources elevation resolution k = Err e
             /\ cda_allocation costs sources elevation resolution k = Err e
  end.
Proof. exact parts. Qed.
Print Assumptions C92_parts.

(* ---------------- examples ---------------- *)

Definition unit_res : f64 * f64 := (f64_of_Z 2, f64_of_Z (-2)).
Definition shown (r : res outputs) : res (list SpecFloat.spec_float * list Z * list Z * list bool) :=
  match r with
  | Ok o => Ok (map B2SF (o_distance o), o_traceback o, o_allocation o, o_mask o)
  | Err e => Err e
  end.

(* int16 costs with a null cell, a uint8 sources raster whose null value is 0 *)
Definition ex_costs16 : rst := Rst I16 (1, 2, 2) (Ints [1; 3; -32768; 5] (Some (-32768))) [false; false; true; false].
Definition ex_src8 : rst := Rst U8 (1, 2, 2) (Ints [7; 0; 0; 0] (Some 0)) [false; true; true; true].

Example ex_run16 : shown (analysis ex_costs16 (SrcRaster ex_src8) None unit_res 4)
  = Ok (map (fun z => B2SF (f64_of_Z z)) [0; 4; -32768; 12], [0; 5; -1; 7], [7; 7; 0; 7], [false; false; true; false]).
Proof. vm_compute. reflexivity. Qed.

Example ex_means_raster : means 2 2 (SrcRaster ex_src8) (raster_label [7; 0; 0; 0] [false; true; true; true] 2) 0.
Proof.
  apply (MeansRaster 2 2 ex_src8 [7; 0; 0; 0] 0); try reflexivity.
  - split; [reflexivity|]. split; [reflexivity|]. cbn [v_cells ex_src8 v_dtype].
    split; [reflexivity|]. split; [left; reflexivity|]. unfold in_dtype. cbn [int_min int_max].
    split; [repeat (constructor; [lia|]); constructor|lia].
  - intros i b z G1 G2. pose proof (get_ok_range _ _ _ G1) as R. cbn in R.
    assert (i = 0 \/ i = 1 \/ i = 2 \/ i = 3) as [-> |[-> |[-> | ->]]] by (unfold len in R; cbn in R; lia);
      cbn in G1, G2; injection G1 as <-; injection G2 as <-; split; intros H; congruence || lia.
  - cbn [int_max]. repeat (constructor; [lia|]). constructor.
Qed.

Example ex_hypotheses : rst_ok 2 2 ex_costs16 /\ fillable ex_costs16 (-1)
  /\ Forall (fun z => z < 2 ^ 62) [1; 3; -32768; 5]
  /\ steps_ok blocks exact_sum
       (the_problem (int_cost [1; 3; -32768; 5] (v_mask ex_costs16) 2) (raster_label [7; 0; 0; 0] [false; true; true; true] 2) 2 2 None unit_res 4).
Proof.
  split; [|split; [|split]].
  - split; [reflexivity|]. split; [reflexivity|]. cbn [v_cells ex_costs16 v_dtype].
    split; [reflexivity|]. split; [left; reflexivity|]. unfold in_dtype. cbn [int_min int_max].
    split; [repeat (constructor; [lia|]); constructor|lia].
  - right. unfold in_dtype. cbn [v_dtype ex_costs16 int_min int_max]. lia.
  - repeat (constructor; [lia|]). constructor.
  - apply steps_flat; [exact exact_sum_ok|reflexivity|vm_compute; reflexivity].
Qed.

(* float32: 16777216 + 1 is 16777216, so the step from the one cell to the other costs as
   much as if the second cost were 0 *)
Example ex_single : shown (analysis (Rst F32 (1, 1, 2) (Floats [f64_of_Z 16777216; f64_of_Z 1] None) [false; false])
    (SrcArray [1; 2] [of_Z 0; of_Z 0]) None unit_res 8)
  = Ok (map (fun z => B2SF (f64_of_Z z)) [0; 16777216], [0; 5], [0; 0], [false; false]).
Proof. vm_compute. reflexivity. Qed.

Example ex_bad : bad 2 2 (SrcArray [2; 2] [of_Z 0; of_Z 1; of_Z 0; of_Z 1]) ValueError.
Proof.
  apply (BadIndices 2 2 [(0, 1); (0, 1)]).
  - left. intros N. apply NoDup_cons_iff in N. destruct N as [N _]. apply N. left. reflexivity.
  - unfold in_dtype. cbn [int_min int_max]. repeat (constructor; [cbn [fst snd]; lia|]). constructor.
Qed.

(* ---------------- findings ---------------- *)

(* the default null value of unsigned costs: with NumPy 2 null cells cannot be filled with
   -1, and the call fails *)
Definition ex_costs8 : rst := Rst U8 (1, 1, 2) (Ints [1; 255] (Some 255)) [false; true].
Theorem C92_unsigned_costs_refuted : ~ (forall nrows ncols costs sources resolution k label snull,
  rst_ok nrows ncols costs -> means nrows ncols sources label snull ->
  fleb (fabs (fst resolution)) fzero = false -> fleb (fabs (snd resolution)) fzero = false -> k = 8 ->
  exists o, analysis costs sources None resolution k = Ok o).
Proof.
  intros H. destruct (H 1 2 ex_costs8 (SrcArray [1; 2] [of_Z 0; of_Z 0]) unit_res 8 (position [(0, 0)] 0) (-1)) as (o & E);
    try reflexivity.
  - split; [reflexivity|]. split; [reflexivity|]. cbn [v_cells ex_costs8 v_dtype].
    split; [reflexivity|]. split; [left; reflexivity|]. unfold in_dtype. cbn [int_min int_max].
    split; [repeat (constructor; [lia|]); constructor|lia].
  - apply (MeansIndices 1 2 [(0, 0)]).
    + constructor; [intros []|constructor].
    + intros r c [[= <- <-]|[]]. lia.
    + unfold in_dtype. cbn [int_min int_max]. repeat (constructor; [cbn [fst snd]; lia|]). constructor.
  - assert (F : analysis ex_costs8 (SrcArray [1; 2] [of_Z 0; of_Z 0]) None unit_res 8 = Err ValueError) by (vm_compute; reflexivity).
    rewrite F in E. discriminate E.
Qed.
Print Assumptions C92_unsigned_costs_refuted.

(* "pixels that are not null are used as source locations": the null cells of a uint64
   raster with its default null value are not recognised as null *)
Definition ex_src64 : rst := Rst U64 (1, 1, 2) (Ints [7; 2 ^ 64 - 1] (Some (2 ^ 64 - 1))) [false; true].
Theorem C92_uint64_sources_refuted : ~ (forall nrows ncols r l nv srcs snull i,
  rst_ok nrows ncols r -> is_int_dtype (v_dtype r) = true -> v_cells r = Ints l (Some nv) ->
  (forall i b z, get (v_mask r) i = Ok b -> get l i = Ok z -> (b = true <-> z = nv)) ->
  prepare_sources (1, nrows, ncols) (SrcRaster r) = Ok (srcs, snull) ->
  get (v_mask r) i = Ok true -> get srcs i = Ok snull).
Proof.
  intros H. specialize (H 1 2 ex_src64 [7; 2 ^ 64 - 1] (2 ^ 64 - 1) [7; -1] (2 ^ 64 - 1) 1).
  assert (F : get [7; -1] 1 = Ok (2 ^ 64 - 1)).
  { apply H; try reflexivity.
    - split; [reflexivity|]. split; [reflexivity|]. cbn [v_cells ex_src64 v_dtype].
      split; [reflexivity|]. split; [left; reflexivity|]. unfold in_dtype. cbn [int_min int_max].
      split; [repeat (constructor; [lia|]); constructor|lia].
    - intros i b z G1 G2. pose proof (get_ok_range _ _ _ G1) as R. cbn [v_mask ex_src64] in G1, R.
      assert (i = 0 \/ i = 1) as [-> | ->] by (unfold len in R; cbn [Datatypes.length] in R; lia).
      + change (@Ok bool false = Ok b) in G1. change (Ok 7 = Ok z) in G2.
        injection G1 as <-. injection G2 as <-. split; intros E; [discriminate|lia].
      + change (@Ok bool true = Ok b) in G1. change (Ok (2 ^ 64 - 1) = Ok z) in G2.
        injection G1 as <-. assert (z = 2 ^ 64 - 1) as -> by congruence. split; reflexivity. }
  discriminate F.
Qed.
Print Assumptions C92_uint64_sources_refuted.

(* "Each item represents an index into costs": numbers that are no index are rounded
   towards zero, so (-0.5, 0.9) is the first cell *)
Theorem C92_fractions_refuted : ~ (forall nrows ncols items m srcs snull,
  prepare_sources (1, nrows, ncols) (SrcArray [m; 2] items) = Ok (srcs, snull) ->
  Forall (fun v => num_leb (of_Z 0) v = true) items).
Proof.
  intros H. specialize (H 1 2 [Fin (-1 # 2); Fin (9 # 10)] 1 [0; -1] (-1) eq_refl).
  inversion H as [|? ? E _]. discriminate E.
Qed.
Print Assumptions C92_fractions_refuted.

(* int64 costs of 2^62 and more: the sum of two overflows and the distance is negative *)
Theorem C92_overflow_refuted : ~ (forall nrows ncols costs sources resolution k label snull o i d,
  rst_ok nrows ncols costs -> v_dtype costs = I64 -> means nrows ncols sources label snull ->
  analysis costs sources None resolution k = Ok o ->
  get (o_mask o) i = Ok false -> get (o_distance o) i = Ok d -> fleb fzero d = true).
Proof.
  intros H.
  set (costs := Rst I64 (1, 1, 2) (Ints [2 ^ 62; 2 ^ 62] None) [false; false]) in *.
  set (src := SrcArray [1; 2] [of_Z 0; of_Z 0]) in *.
  assert (R : match analysis costs src None unit_res 8 with
              | Ok o => get (o_mask o) 1 = Ok false
                        /\ match get (o_distance o) 1 with Ok d => fleb fzero d = false | Err _ => False end
              | Err _ => False end) by (vm_compute; split; reflexivity).
  destruct (analysis costs src None unit_res 8) as [o|] eqn:E; [|contradiction].
  destruct R as [R1 R2]. destruct (get (o_distance o) 1) as [d|] eqn:ED; [|contradiction].
  enough (fleb fzero d = true) by congruence.
  apply (H 1 2 costs src unit_res 8 (position [(0, 0)] 0) (-1) o 1 d); try assumption; try reflexivity.
  - split; [reflexivity|]. split; [reflexivity|]. cbn [v_cells costs v_dtype].
    split; [reflexivity|]. split; [left; reflexivity|]. unfold in_dtype. cbn [int_min int_max v_mask].
    split; [repeat (constructor; [lia|]); constructor|].
    intros j Hj. assert (j = 0 \/ j = 1) as [-> | ->] by lia; reflexivity.
  - apply (MeansIndices 1 2 [(0, 0)]).
    + constructor; [intros []|constructor].
    + intros r c [[= <- <-]|[]]. lia.
    + unfold in_dtype. cbn [int_min int_max]. repeat (constructor; [cbn [fst snd]; lia|]). constructor.
Qed.
Print Assumptions C92_overflow_refuted.
