(* C70: saving a raster and opening the file. *)
From Coq Require Import QArith String.
From Verif Require Import Base Scalars Raster FocalSpec RasterSpec RasterValues Reconcile ReconcileSpec ReconcileProofs Saving SavingSpec SavingProofs.
Open Scope Z_scope.

(* The values of the raster come back, and exactly its null cells are null: if no valid
   cell holds the null value, cells saved as doubles are below 2^53, and cells of a float
   raster without null value are not NaN. *)
Theorem C70_round_trip : forall cast float_dtype reconcile_other gdal_has gdal_nodata, casts cast -> gdal_ok cast gdal_nodata ->
  forall ext driver nb nc r d, no_ext ext -> wf nb nc r -> burned nb nc r -> typed_raster nb nc r ->
  (r_dtype r = U64 -> ~ large_null r) -> file_dtype (native_int64 gdal_has ext driver) r d -> gdal_has d = true ->
  (forall b c, in_raster nb nc b c -> null r b c = false -> hits r (value r b c) = false) ->
  (r_dtype r = I64 -> d = F64 -> forall b c, in_raster nb nc b c -> null r b c = false -> exact_double (value r b c)) ->
  (r_nv r = None -> is_float_dtype (r_dtype r) = true -> forall b c, in_raster nb nc b c -> value r b c <> NaN) ->
  exists r', save_raster cast float_dtype reconcile_other gdal_has gdal_nodata ext driver None None r = Ok r' /\ wf nb nc r' /\ r_dtype r' = d
  /\ forall b c, in_raster nb nc b c -> null r' b c = null r b c /\ (null r b c = false -> value r' b c = value r b c).
Proof. exact round_trip. Qed.
Print Assumptions C70_round_trip.

(* In any case the null cells come back null, the others with their value in the dtype of
   the file; a cell is also null if this value is the null value of the file. *)
Theorem C70_saved : forall cast float_dtype reconcile_other gdal_has gdal_nodata, casts cast -> gdal_ok cast gdal_nodata ->
  forall ext driver nb nc r d, no_ext ext -> wf nb nc r -> burned nb nc r -> typed_raster nb nc r ->
  (r_dtype r = U64 -> ~ large_null r) -> file_dtype (native_int64 gdal_has ext driver) r d -> gdal_has d = true ->
  exists r', save_raster cast float_dtype reconcile_other gdal_has gdal_nodata ext driver None None r = Ok r' /\ wf nb nc r' /\ r_dtype r' = d /\ r_nv r' = file_null cast r d
  /\ forall b c, in_raster nb nc b c ->
     null r' b c = null r b c || hits r' (cast d (value r b c))
     /\ (null r b c = false -> value r' b c = cast d (value r b c))
     /\ (null r' b c = true -> hits r' (value r' b c) = true).
Proof. exact saved. Qed.
Print Assumptions C70_saved.

(* with a null value given: as if it had been set before (C23) *)
Theorem C70_null_value : forall cast float_dtype reconcile_other gdal_has gdal_nodata ext driver v r rs, set_null_value cast float_dtype r (Some v) = Ok rs ->
  save_raster cast float_dtype reconcile_other gdal_has gdal_nodata ext driver (Some v) None r = save_raster cast float_dtype reconcile_other gdal_has gdal_nodata ext driver None None rs
  /\ save_raster cast float_dtype reconcile_other gdal_has gdal_nodata ext driver None (Some v) r = save_raster cast float_dtype reconcile_other gdal_has gdal_nodata ext driver None None rs.
Proof. exact saved_null_value. Qed.
Print Assumptions C70_null_value.

Theorem C70_refused : forall cast float_dtype reconcile_other gdal_has gdal_nodata ext driver r v w,
  save_raster cast float_dtype reconcile_other gdal_has gdal_nodata ext driver (Some v) (Some w) r = Err TypeError
  /\ (~ no_ext ext -> (r_dtype r = BOOL -> r_nv r = None) -> save_raster cast float_dtype reconcile_other gdal_has gdal_nodata ext driver None None r = Err ValueError)
  /\ (no_ext ext -> r_dtype r <> BOOL -> forall d, file_dtype (native_int64 gdal_has ext driver) r d -> gdal_has d = false ->
      save_raster cast float_dtype reconcile_other gdal_has gdal_nodata ext driver None None r = Err TypeError).
Proof. exact save_refused. Qed.
Print Assumptions C70_refused.

(* opening any file: its values; null are those that are the null value of the file, or
   NaN in a file of floats without null value *)
Theorem C70_opened : forall cast nb nc f, 0 < nb -> 0 <= nc -> shaped2 nb nc (f_data f) ->
  exists r, open_raster cast f = Ok r /\ wf nb nc r /\ r_dtype r = f_dtype f
  /\ (forall b c, in_raster nb nc b c -> value r b c = val2 NaN (f_data f) b c /\ null r b c = hits r (val2 NaN (f_data f) b c))
  /\ match f_nodata f with
     | Some v => r_nv r = Some v \/ f_dtype f = F32 /\ near_lowest v /\ r_nv r = Some (cast F32 v)
     | None => r_nv r = if is_float_dtype (f_dtype f) then Some NaN else None
     end.
Proof. exact opened. Qed.
Print Assumptions C70_opened.

(* save_chunks: a tile is saved like the part of the raster it is made of, if the raster
   has a null value or one band *)
Theorem C70_tile : forall cast float_dtype reconcile_other gdal_has gdal_nodata ext driver nb nc r null_value, wf nb nc r -> (1 < nb -> r_nv r <> None) ->
  save_tile cast float_dtype reconcile_other gdal_has gdal_nodata ext driver null_value None (bands_of r)
  = save_raster cast float_dtype reconcile_other gdal_has gdal_nodata ext driver null_value None r
  /\ save_tile cast float_dtype reconcile_other gdal_has gdal_nodata ext driver None null_value (bands_of r)
  = save_raster cast float_dtype reconcile_other gdal_has gdal_nodata ext driver null_value None r.
Proof. exact tile_saved. Qed.
Print Assumptions C70_tile.

(* ---- examples ---- *)
Definition z := of_Z.
(* rounding to nearest, for the float dtypes *)
Definition ex_cast (d : dtype) (v : num) : num :=
  if is_float_dtype d then let w := round_to d v in if same_value w v then v else w else v.
Definition ex_nodata (d : dtype) (v : num) : num := match d with F64 => ex_cast F64 v | _ => v end.
Lemma ex_casts : casts ex_cast.
Proof.
  split.
  - intros d v V. unfold ex_cast. destruct (is_float_dtype d) eqn:F; [|reflexivity]. cbv zeta. now rewrite (rounded_exact d v _ F V (round_to_spec d v)).
  - intros v V. unfold ex_cast. cbn [is_float_dtype]. cbv zeta. pose proof (round_to_spec F64 v) as R. destruct (same_value (round_to F64 v) v) eqn:S; [|exact R].
    destruct v as [q| | |]; try exact R. destruct (round_to F64 (Fin q)) as [r| | |] eqn:E; try discriminate S. cbn in S. apply Qeq_bool_iff in S.
    cbn [rounded_to] in *. destruct R as (e & H1 & H2 & H3 & m & H4 & H5). exists e. rewrite S in H3, H5. repeat split; try assumption. exists m. rewrite S in H4. auto.
Qed.
Lemma ex_gdal : gdal_ok ex_cast ex_nodata.
Proof.
  split; [|reflexivity]. intros d v V _. unfold ex_nodata. destruct d; try reflexivity. now apply (proj1 ex_casts).
Qed.
Definition ex_save := save_raster ex_cast (fun _ => F64) (fun v d => (v, false)) (fun d => negb (dtype_eqb d F16)) ex_nodata ".tif"%string None.
Definition ex_i64 := Raster I64 (Some (z (- 2 ^ 63))) [[z 5; z (- 2 ^ 63); z (-7)]] [[false; true; false]].
Example C70_example :
  ex_save None None ex_i64 = Ok (Raster F64 (Some (z (- 2 ^ 63))) [[z 5; z (- 2 ^ 63); z (-7)]] [[false; true; false]])
  /\ ex_save None None (Raster I64 (Some (z 0)) [[z (2 ^ 60 + 1); z 0]] [[false; true]]) = Ok (Raster I64 (Some (z 0)) [[z (2 ^ 60 + 1); z 0]] [[false; true]])
  /\ ex_save None None (Raster BOOL (Some (z 1)) [[z 1; z 1; z 0]] [[false; true; false]]) = Ok (Raster U8 (Some (z 255)) [[z 1; z 255; z 0]] [[false; true; false]])
  /\ ex_save (Some (SInt 9)) None (Raster U8 (Some (z 3)) [[z 3; z 4]] [[true; false]]) = Ok (Raster U8 (Some (z 9)) [[z 9; z 4]] [[true; false]])
  /\ ex_save None None (Raster F16 None [[z 3]] [[false]]) = Err TypeError.
Proof. vm_compute. auto. Qed.
Lemma row3 c : 0 <= c < 3 -> c = 0 \/ c = 1 \/ c = 2. Proof. lia. Qed.
Example C70_hypotheses : no_ext ".tif" /\ wf 1 3 ex_i64 /\ burned 1 3 ex_i64 /\ typed_raster 1 3 ex_i64 /\ file_dtype (native_int64 (fun d => negb (dtype_eqb d F16)) ".tif" None) ex_i64 F64
  /\ (forall b c, in_raster 1 3 b c -> null ex_i64 b c = false -> hits ex_i64 (value ex_i64 b c) = false)
  /\ (forall b c, in_raster 1 3 b c -> null ex_i64 b c = false -> exact_double (value ex_i64 b c)).
Proof.
  split; [cbn; intros H; repeat (destruct H as [H|H]; [discriminate H|]); exact H|].
  split; [split; [lia|split; [lia|split; [split; [reflexivity|repeat constructor]|split; [split; [reflexivity|repeat constructor]|discriminate]]]]|].
  split. { split; [|discriminate]. intros b c [Hb Hc]. replace b with 0 by lia. destruct (row3 c Hc) as [-> |[-> | ->]]; cbn; intros H; (discriminate H || reflexivity). }
  split. { split; [intros b c [Hb Hc]; replace b with 0 by lia; destruct (row3 c Hc) as [-> |[-> | ->]]|intros v E; injection E as <-]; eexists; (split; [|reflexivity]); cbn; lia. }
  split. { right. split; [|reflexivity]. right. eexists. split; [reflexivity|]. intros [H _]. vm_compute in H. discriminate. }
  split; intros b c [Hb Hc]; replace b with 0 by lia; destruct (row3 c Hc) as [-> |[-> | ->]]; intros H; try discriminate H; try reflexivity; split; reflexivity.
Qed.

(* ---- findings ---- *)
(* A valid int64 cell becomes null if it rounds to the same double as the null value. *)
Theorem C70_int64_refuted :
  ~ (forall nb nc r r', wf nb nc r -> burned nb nc r -> typed_raster nb nc r -> ex_save None None r = Ok r' ->
       (forall b c, in_raster nb nc b c -> null r b c = false -> hits r (value r b c) = false) ->
       forall b c, in_raster nb nc b c -> null r' b c = null r b c).
Proof.
  intros H. set (r := Raster I64 (Some (z (- 2 ^ 63))) [[z (- 2 ^ 63 + 1)]] [[false]]).
  set (r' := Raster F64 (Some (z (- 2 ^ 63))) [[z (- 2 ^ 63)]] [[true]]).
  assert (E : ex_save None None r = Ok r') by (vm_compute; reflexivity).
  assert (K : null r' 0 0 = null r 0 0); [|discriminate K].
  assert (I : forall b c, in_raster 1 1 b c -> b = 0 /\ c = 0) by (intros b c [? ?]; lia).
  apply (H 1 1 r r'); [| | |exact E| |].
  - split; [lia|split; [lia|split; [split; [reflexivity|repeat constructor]|split; [split; [reflexivity|repeat constructor]|discriminate]]]].
  - split; [|discriminate]. intros b c HI. destruct (I b c HI) as [-> ->]. discriminate.
  - split; [intros b c HI; destruct (I b c HI) as [-> ->]|intros v EV; injection EV as <-]; eexists; (split; [|reflexivity]); cbn; lia.
  - intros b c HI. destruct (I b c HI) as [-> ->]. reflexivity.
  - split; lia.
Qed.
Print Assumptions C70_int64_refuted.
(* The NaN cells of a float raster without null value become null. *)
Theorem C70_nan_refuted :
  ~ (forall nb nc r r' b c, wf nb nc r -> ex_save None None r = Ok r' -> in_raster nb nc b c -> null r' b c = null r b c).
Proof.
  intros H. assert (K : null (Raster F32 (Some NaN) [[NaN]] [[true]]) 0 0 = null (Raster F32 None [[NaN]] [[false]]) 0 0); [|discriminate K].
  apply (H 1 1); [|reflexivity|split; lia].
  split; [lia|split; [lia|split; [split; [reflexivity|repeat constructor]|split; [split; [reflexivity|repeat constructor]|]]]].
  intros _ b c [Hb Hc]. assert (b = 0) as -> by lia. assert (c = 0) as -> by lia. reflexivity.
Qed.
Print Assumptions C70_nan_refuted.
(* GDAL's double is relied on for uint64, where the default null value is beyond 2^53: the
   null cells are lost if GDAL changes it. *)
Definition lossy_nodata (d : dtype) (v : num) : num := match d with U64 => if num_leb v (z (2 ^ 53)) then v else z 0 | _ => ex_nodata d v end.
Theorem C70_uint64_refuted :
  ~ (forall gdal_nodata, gdal_ok ex_cast gdal_nodata -> forall nb nc r r', wf nb nc r -> burned nb nc r -> typed_raster nb nc r ->
       save_raster ex_cast (fun _ => F64) (fun v d => (v, false)) (fun _ => true) gdal_nodata ".tif" None None None r = Ok r' ->
       forall b c, in_raster nb nc b c -> null r b c = true -> null r' b c = true).
Proof.
  intros H. set (r := Raster U64 (Some (default_null U64)) [[default_null U64]] [[true]]).
  assert (I : forall b c, in_raster 1 1 b c -> b = 0 /\ c = 0) by (intros b c [? ?]; lia).
  assert (K : null (Raster U64 (Some (z 0)) [[default_null U64]] [[false]]) 0 0 = true); [|discriminate K].
  apply (H lossy_nodata) with (nb := 1) (nc := 1) (r := r).
  - split; [|intros v V; apply (proj2 ex_gdal v V)]. intros d v V M. unfold lossy_nodata. destruct d; try (apply (proj1 ex_gdal); assumption).
    destruct M as [M|[_ M]]; [discriminate M|]. unfold z. now rewrite M.
  - split; [lia|split; [lia|split; [split; [reflexivity|repeat constructor]|split; [split; [reflexivity|repeat constructor]|discriminate]]]].
  - split; [|discriminate]. intros b c HI. destruct (I b c HI) as [-> ->]. reflexivity.
  - split; [intros b c HI; destruct (I b c HI) as [-> ->]|intros v EV; injection EV as <-]; eexists; (split; [|reflexivity]); cbn; lia.
  - vm_compute. reflexivity.
  - split; lia.
  - reflexivity.
Qed.
Print Assumptions C70_uint64_refuted.
(* save_chunks gives several bands without null value the default one: valid cells that
   hold it are null in the files. *)
Definition ex_tile := save_tile ex_cast (fun _ => F64) (fun v d => (v, false)) (fun _ => true) ex_nodata ".tif"%string None None None.
Definition ex_rgb := Raster U8 None [[z 255; z 4]; [z 5; z 255]] [[false; false]; [false; false]].
Theorem C70_tile_refuted :
  ~ (forall nb nc r r' b c, wf nb nc r -> ex_tile (bands_of r) = Ok r' -> in_raster nb nc b c -> null r' b c = null r b c)
  /\ ex_tile (bands_of ex_rgb) = Ok (Raster U8 (Some (z 255)) [[z 255; z 4]; [z 5; z 255]] [[true; false]; [false; true]])
  /\ ex_save None None ex_rgb = Ok ex_rgb.
Proof.
  assert (E : ex_tile (bands_of ex_rgb) = Ok (Raster U8 (Some (z 255)) [[z 255; z 4]; [z 5; z 255]] [[true; false]; [false; true]])) by (vm_compute; reflexivity).
  split; [|split; [exact E|vm_compute; reflexivity]]. intros H.
  assert (W : wf 2 2 ex_rgb).
  { split; [lia|split; [lia|split; [split; [reflexivity|repeat constructor]|split; [split; [reflexivity|repeat constructor]|]]]].
    intros _ b c [Hb Hc]. assert (b = 0 \/ b = 1) as [-> | ->] by lia; assert (c = 0 \/ c = 1) as [-> | ->] by lia; reflexivity. }
  discriminate (H 2 2 ex_rgb _ 0 0 W E ltac:(split; lia)).
Qed.
Print Assumptions C70_tile_refuted.
