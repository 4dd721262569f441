(* C63: element-wise operations between rasters on different grids, with arrays and by
   band. *)
From Coq Require Import QArith.
From Verif Require Import Base Scalars FocalSpec BandsSpec Normalize Ingest Align AlignSpec AlignProofs AlignArrays.
Open Scope Z_scope.

(* Without null values: the result has the coordinates that both have, and every value is
   that of the operands at the same band, y and x. *)
Theorem C63_rasters : forall f out a b, sound a -> sound b -> ~ has_null_value a -> ~ has_null_value b ->
  exists rd rm, apply_rasters f out a b = Ok (None, rd, rm)
  /\ common eq (r_band (values a)) (r_band (values b)) (r_band rd) /\ common Qeq (r_y (values a)) (r_y (values b)) (r_y rd) /\ common Qeq (r_x (values a)) (r_x (values b)) (r_x rd)
  /\ r_band rm = r_band rd /\ r_y rm = r_y rd /\ r_x rm = r_x rd
  /\ shaped3 (len (r_band rd)) (len (r_y rd)) (len (r_x rd)) (r_data rd) /\ shaped3 (len (r_band rd)) (len (r_y rd)) (len (r_x rd)) (r_data rm)
  /\ forall band y x, (forall w, value_of rd band y x w <-> exists u v, value_of (values a) band y x u /\ value_of (values b) band y x v /\ w = f u v) /\ (forall m, value_of rm band y x m -> m = false).
Proof. exact rasters_unmasked. Qed.
Print Assumptions C63_rasters.
(* With null values and the same coordinates: null where one is null. *)
Theorem C63_masked : forall f out a b, sound a -> sound b -> has_null_value a \/ has_null_value b -> same_grid (values a) (values b) ->
  exists rd rm, apply_rasters f out a b = Ok (Some (default_null out), rd, rm) /\ sound (Some (default_null out), rd, rm)
  /\ r_band rd = r_band (values a) /\ r_y rd = r_y (values a) /\ r_x rd = r_x (values a)
  /\ forall band y x, (forall m, value_of rm band y x m <-> exists p q, value_of (nulls a) band y x p /\ value_of (nulls b) band y x q /\ m = p || q)
     /\ (forall w, value_of rd band y x w <-> exists u v m, value_of (values a) band y x u /\ value_of (values b) band y x v /\ value_of rm band y x m /\ w = if m then default_null out else f u v).
Proof. exact rasters_masked. Qed.
Print Assumptions C63_masked.
(* With null values and different coordinates: refused. *)
Theorem C63_masked_grids : forall f out a b, sound a -> sound b -> has_null_value a \/ has_null_value b -> ~ same_grid (values a) (values b) -> apply_rasters f out a b = Err ValueError.
Proof. exact rasters_refused. Qed.
Print Assumptions C63_masked_grids.

(* An array takes part exactly if numpy can broadcast it to the shape of the raster, and
   then by position. *)
Theorem C63_array : forall f out r a, sound r -> nd_ok a -> fits (nd_shape a) (len (r_band (values r))) (len (r_y (values r))) (len (r_x (values r))) ->
  exists res, apply_array f out r a = Ok res /\ cellwise f out r (element a) res.
Proof. exact array_applied. Qed.
Print Assumptions C63_array.
Theorem C63_array_refused : forall f out r a, sound r -> ~ fits (nd_shape a) (len (r_band (values r))) (len (r_y (values r))) (len (r_x (values r))) -> apply_array f out r a = Err ValueError.
Proof. exact array_refused. Qed.
Print Assumptions C63_array_refused.

(* bandwise with one value for each band, or with a single value *)
Theorem C63_bandwise_partial : forall f out r l, sound r -> len l = len (r_band (values r)) -> 1 < len l -> len (r_x (values r)) <> 1 -> len (r_x (values r)) <> len l ->
  exists res, apply_bandwise f out r (NdArray [len l] l) = Ok res /\ cellwise f out r (band_values l) res.
Proof. exact bandwise_applied. Qed.
Print Assumptions C63_bandwise_partial.
Theorem C63_bandwise_one : forall f out r s v, sound r -> exists res, apply_bandwise f out r (NdArray s [v]) = Ok res /\ cellwise f out r (fun _ _ _ o => o = v) res.
Proof. exact bandwise_one. Qed.
Print Assumptions C63_bandwise_one.
(* everything else is refused *)
Theorem C63_bandwise_refused : forall f out r a, nd_ok a -> len (nd_flat a) <> 1 ->
  (nd_shape a = [len (nd_flat a)] -> len (nd_flat a) <> len (r_band (values r)) \/ len (r_x (values r)) = 1 \/ len (r_x (values r)) = len (nd_flat a)) ->
  apply_bandwise f out r a = Err ValueError.
Proof. exact bandwise_refused. Qed.
Print Assumptions C63_bandwise_refused.

(* ---- examples ---- *)
Definition plus (a b : num) : num := match a, b with Fin p, Fin q => Fin (Qred (p + q)) | _, _ => NaN end.
Definition ex_a (nv : option num) : raster_ds := (nv, RasterArray [1] [3#1; 2#1]%Q [1#1; 2#1; 3#1]%Q [[[of_Z 1; of_Z 2; of_Z 3]; [of_Z 4; of_Z 5; of_Z 6]]],
  RasterArray [1] [3#1; 2#1]%Q [1#1; 2#1; 3#1]%Q [[[true; false; false]; [false; false; false]]]).
Definition ex_b : raster_ds := (None, RasterArray [1] [2#1; 1#1]%Q [2#1; 3#1; 4#1]%Q [[[of_Z 10; of_Z 20; of_Z 30]; [of_Z 40; of_Z 50; of_Z 60]]],
  RasterArray [1] [2#1; 1#1]%Q [2#1; 3#1; 4#1]%Q [[[false; false; false]; [false; false; false]]]).
Definition ex_bands : raster_ds := (Some (of_Z 0), RasterArray [1; 2] [2#1; 1#1]%Q [2#1; 3#1; 4#1]%Q [[[of_Z 1; of_Z 2; of_Z 3]; [of_Z 4; of_Z 5; of_Z 6]]; [[of_Z 1; of_Z 2; of_Z 3]; [of_Z 4; of_Z 5; of_Z 6]]],
  RasterArray [1; 2] [2#1; 1#1]%Q [2#1; 3#1; 4#1]%Q [[[true; false; false]; [false; false; false]]; [[false; false; false]; [false; false; false]]]).
Lemma distinct3 {X} (R : X -> X -> Prop) l : (forall x, R x x) -> (forall x y, R x y -> R y x) -> ForallOrdPairs (fun x y => ~ R x y) l -> distinct_labels R l.
Proof.
  intros Rr Rs F i j p q. assert (H : forall i j p q, i < j -> get l i = Ok p -> get l j = Ok q -> ~ R p q).
  { clear - F. induction F as [|x l Fx F IH]; intros i j p q L Gi Gj; [unfold get in Gi; destruct (i <? 0); [discriminate|]; destruct (Z.to_nat i); discriminate|].
    unfold get in Gi, Gj. destruct (Z.ltb_spec i 0); [discriminate|]. destruct (Z.ltb_spec j 0); [discriminate|].
    destruct (Z.to_nat j) as [|k] eqn:J; [lia|]. cbn [nth_error] in Gj. destruct (nth_error l k) eqn:K; [|discriminate]. injection Gj as ->. destruct (Z.to_nat i) as [|h] eqn:I.
    - injection Gi as ->. rewrite Forall_forall in Fx. apply Fx. eapply nth_error_In, K.
    - cbn [nth_error] in Gi. destruct (nth_error l h) eqn:Q; [|discriminate]. injection Gi as ->. apply (IH (Z.of_nat h) (Z.of_nat k)); [lia| |]; unfold get.
      + destruct (Z.ltb_spec (Z.of_nat h) 0); [lia|]. now rewrite Nat2Z.id, Q.
      + destruct (Z.ltb_spec (Z.of_nat k) 0); [lia|]. now rewrite Nat2Z.id, K. }
  intros Gi Gj E. destruct (Z.lt_trichotomy i j) as [L|[L|L]]; [destruct (H i j p q L Gi Gj E)|exact L|destruct (H j i q p L Gj Gi (Rs _ _ E))].
Qed.
Ltac labels := apply distinct3; [first [exact (@eq_refl Z)|exact Qeq_refl]|first [exact (@eq_sym Z)|exact Qeq_sym]|repeat constructor; let K := fresh in intros K; vm_compute in K; discriminate K].
Ltac grid := repeat match goal with |- _ /\ _ => split | |- distinct_labels _ _ => labels end; try reflexivity; repeat (constructor; try reflexivity).
Example C63_example_hypotheses : sound (ex_a None) /\ sound (ex_a (Some (of_Z 9))) /\ sound ex_b /\ sound ex_bands.
Proof. unfold sound, gridded, ex_a, ex_b, ex_bands. cbn [r_band r_y r_x r_data]. grid. Qed.
Example C63_rasters_example : apply_rasters plus I64 (ex_a None) ex_b
  = Ok (None, RasterArray [1] [2#1]%Q [2#1; 3#1]%Q [[[of_Z 15; of_Z 26]]], RasterArray [1] [2#1]%Q [2#1; 3#1]%Q [[[false; false]]]).
Proof. vm_compute. reflexivity. Qed.
Example C63_masked_example : apply_rasters plus I16 (ex_a (Some (of_Z 9))) (ex_a None)
  = Ok (Some (of_Z (-32768)), RasterArray [1] [3#1; 2#1]%Q [1#1; 2#1; 3#1]%Q [[[of_Z (-32768); of_Z 4; of_Z 6]; [of_Z 8; of_Z 10; of_Z 12]]], RasterArray [1] [3#1; 2#1]%Q [1#1; 2#1; 3#1]%Q [[[true; false; false]; [false; false; false]]])
  /\ apply_rasters plus I16 (ex_a (Some (of_Z 9))) ex_b = Err ValueError.
Proof. split; vm_compute; reflexivity. Qed.
Example C63_array_example : option_map (fun r => r_data (values r)) (match apply_array plus I16 ex_bands (NdArray [2; 1] [of_Z 100; of_Z 200]) with Ok r => Some r | Err _ => None end)
  = Some [[[of_Z (-32768); of_Z 102; of_Z 103]; [of_Z 204; of_Z 205; of_Z 206]]; [[of_Z 101; of_Z 102; of_Z 103]; [of_Z 204; of_Z 205; of_Z 206]]]
  /\ fits [2; 1] 2 2 3 /\ ~ fits [2] 2 2 3.
Proof. split; [vm_compute; reflexivity|]. split; [split; [cbn; auto with arith|constructor; [now left|constructor; [now right|constructor]]]|]. intros F. destruct F as [_ F]. inversion F as [|? ? ? ? [H|H] _]; discriminate. Qed.
Example C63_bandwise_example : option_map (fun r => r_data (values r)) (match apply_bandwise plus I16 ex_bands (NdArray [2] [of_Z 100; of_Z 200]) with Ok r => Some r | Err _ => None end)
  = Some [[[of_Z (-32768); of_Z 102; of_Z 103]; [of_Z 104; of_Z 105; of_Z 106]]; [[of_Z 201; of_Z 202; of_Z 203]; [of_Z 204; of_Z 205; of_Z 206]]].
Proof. vm_compute. reflexivity. Qed.

(* "One value for each band is always accepted by bandwise" is false: not if the raster has
   one column or as many columns as bands. *)
Definition C63_bandwise_false : Prop := forall f out r l, sound r -> len l = len (r_band (values r)) -> exists res, apply_bandwise f out r (NdArray [len l] l) = Ok res.
Theorem C63_bandwise_refuted : ~ C63_bandwise_false.
Proof.
  intros F. pose (r := (None, RasterArray [1; 2] [1#1]%Q [1#1]%Q [[[of_Z 1]]; [[of_Z 2]]], RasterArray [1; 2] [1#1]%Q [1#1]%Q [[[false]]; [[false]]]) : raster_ds).
  destruct (F plus I16 r [of_Z 1; of_Z 2]) as [res E]; [unfold sound, gridded, r; cbn [r_band r_y r_x r_data]; grid|reflexivity|]. vm_compute in E. discriminate.
Qed.
Print Assumptions C63_bandwise_refuted.
(* "A raster with one band is combined with every band of another" is false: only the bands
   of the same number are combined, the others are dropped. *)
Definition C63_single_band_false : Prop := forall f out a b res, sound a -> sound b -> r_band (values a) = [1] -> apply_rasters f out a b = Ok res -> r_band (values res) = r_band (values b).
Theorem C63_single_band_refuted : ~ C63_single_band_false.
Proof.
  intros F. pose (b := (None, RasterArray [1; 2] [1#1]%Q [1#1]%Q [[[of_Z 1]]; [[of_Z 2]]], RasterArray [1; 2] [1#1]%Q [1#1]%Q [[[false]]; [[false]]]) : raster_ds).
  pose (a := (None, RasterArray [1] [1#1]%Q [1#1]%Q [[[of_Z 1]]], RasterArray [1] [1#1]%Q [1#1]%Q [[[false]]]) : raster_ds).
  specialize (F plus I16 a b). destruct (apply_rasters plus I16 a b) as [res|e] eqn:E; [|vm_compute in E; discriminate]. specialize (F res). vm_compute in E. injection E as <-.
  assert (Q : [1] = [1; 2]); [|discriminate]. apply F; [unfold sound, gridded, a; cbn [r_band r_y r_x r_data]; grid|unfold sound, gridded, b; cbn [r_band r_y r_x r_data]; grid|reflexivity|reflexivity].
Qed.
Print Assumptions C63_single_band_refuted.
