(* C62: rasters made from arrays and xarray objects. *)
From Coq Require Import QArith String Permutation.
From Verif Require Import Base Scalars FocalSpec BandsSpec Bands MapBlocks MapBlocksSpec Normalize NormalizeSpec NormalizeProps Reconcile Ingest IngestSpec IngestProofs.
Open Scope Z_scope.

(* The null value taken from a DataArray is the recorded one; without one, NaN for floats
   that contain NaN or are not known yet. *)
Theorem C62_null_value : forall s data, null_of s data (try_to_get_null_value s data).
Proof. exact try_to_get_spec. Qed.
Print Assumptions C62_null_value.

(* A raster from a DataArray with dimensions in any order: every value is at its own
   coordinates, null exactly if it equals the null value found, and then it holds the
   reconciled null value. *)
Theorem C62_dataarray : forall spatial s (x : xarray num) bd yd xd nb cy cx, array3 bd yd xd nb cy cx x -> 0 < nb -> 0 < len (c_values cy) -> 0 < len (c_values cx) ->
  spatial (map standard (x_dims x)) = Some (standard yd, standard xd) -> spatial ["band"; "y"; "x"]%string = Some ("y", "x")%string ->
  exists orig rd rm, null_of s (x_body x) orig
  /\ dataarray_input_to_raster_ds spatial s x = Ok (reconcile_nullvalue_with_dtype orig (s_dtype s), rd, rm)
  /\ stored nb (c_values cy) (c_values cx) (value_along bd yd x) (fun _ _ _ v => null_value_here (option_map snd orig) v) (reconcile_nullvalue_with_dtype orig (s_dtype s)) rd rm.
Proof. exact dataarray_stored. Qed.
Print Assumptions C62_dataarray.

(* A raster from a Dataset of values and mask, each with its dimensions in any order: null
   exactly where the mask of the same cell says so, and there it holds the recorded null
   value, reconciled, or the default one. *)
Theorem C62_dataset : forall spatial s (x : xarray num) (xm : xarray bool) same lazy bd yd xd bd' yd' xd' nb cy cx,
  array3 bd yd xd nb cy cx x -> array3 bd' yd' xd' nb cy cx xm -> 0 < nb -> 0 < len (c_values cy) -> 0 < len (c_values cx) ->
  spatial (map standard (x_dims x)) = Some (standard yd, standard xd) -> spatial (map standard (x_dims xm)) = Some (standard yd', standard xd') -> spatial ["band"; "y"; "x"]%string = Some ("y", "x")%string ->
  ~ (lazy = true /\ x_dims x = ["band"; "y"; "x"]%string /\ x_dims xm = ["band"; "y"; "x"]%string /\ same = true) ->
  exists nv rd rm, dataset_to_raster_ds spatial s x xm true lazy same = Ok (Made (nv, rd, rm))
  /\ (nv = None -> False) /\ (match recorded s with Some (t, v) => nv = Some (fst (reconcile t v (s_dtype s))) | None => nv = Some (default_null (s_dtype s)) end)
  /\ stored nb (c_values cy) (c_values cx) (value_along bd yd x) (fun b i j _ => value_along bd' yd' xm b i j true) nv rd rm.
Proof. exact dataset_stored. Qed.
Print Assumptions C62_dataset.
Theorem C62_mask_dtype : forall spatial s x xm lazy same, dataset_to_raster_ds spatial s x xm false lazy same = Err TypeError.
Proof. exact dataset_not_bool. Qed.
Print Assumptions C62_mask_dtype.

(* values and mask of different shapes are refused (they cannot have the same chunks) *)
Theorem C62_shapes : forall spatial s (x : xarray num) (xm : xarray bool) same lazy bd yd xd bd' yd' xd' nb cy cx nb' cy' cx',
  array3 bd yd xd nb cy cx x -> array3 bd' yd' xd' nb' cy' cx' xm -> 0 < nb -> 0 < len (c_values cy) -> 0 < len (c_values cx) -> 0 < nb' -> 0 < len (c_values cy') -> 0 < len (c_values cx') ->
  spatial (map standard (x_dims x)) = Some (standard yd, standard xd) -> spatial (map standard (x_dims xm)) = Some (standard yd', standard xd') ->
  same = false -> ~ (nb = nb' /\ len (c_values cy) = len (c_values cy') /\ len (c_values cx) = len (c_values cx')) ->
  dataset_to_raster_ds spatial s x xm true lazy same = Err ValueError.
Proof. exact dataset_shapes. Qed.
Print Assumptions C62_shapes.

(* A raster from a plain array: NaN is null and becomes the default null value; there is a
   null value only if there may be NaN. *)
Theorem C62_array : forall d lazy (data : list (list (list num))) nb ny nx ys xs, 0 < nb -> 0 < ny -> 0 < nx -> shaped3 nb ny nx data -> coordinates_of Default ny nx ys xs ->
  exists nv rd rm, array_input_to_raster_ds d lazy data = Ok (nv, rd, rm)
  /\ (nv = None \/ nv = Some (default_null d)) /\ (nv <> None <-> is_float_dtype d = true /\ (lazy = true \/ exists b i j, at3 data b i j NaN))
  /\ r_y rd = r_y rm /\ r_x rd = r_x rm /\ r_band rd = zrange 1 (nb + 1) /\ r_band rm = zrange 1 (nb + 1)
  /\ shaped3 nb ny nx (r_data rd) /\ shaped3 nb ny nx (r_data rm)
  /\ forall b i j v, at3 data b i j v -> exists i' j' m w, same_coord (get (r_y rd) i') (get ys i) /\ same_coord (get (r_x rd) j') (get xs j)
     /\ at3 (r_data rm) b i' j' m /\ at3 (r_data rd) b i' j' w /\ (m = true <-> nv <> None /\ v = NaN) /\ w = if m then default_null d else v.
Proof. exact array_stored. Qed.
Print Assumptions C62_array.

(* ---- examples ---- *)
(* the array of C60 with the null value 2 of 64 bits, values of 8 bits *)
Definition example_vals : xarray num := XArray ["lon"; "time"; "lat"]%string [("lon", example_cx); ("lat", example_cy)]%string
  (Body3 [[[of_Z 1; of_Z 2; of_Z 3]]; [[of_Z 4; of_Z 300; of_Z 2]]]).
Definition example_mask : xarray bool := XArray ["time"; "lat"; "lon"]%string [("lon", example_cx); ("lat", example_cy)]%string
  (Body3 [[[true; false]; [false; false]; [false; true]]]).
Example C62_example_hypotheses : array3 "time" "lat" "lon" 1 example_cy example_cx example_vals /\ array3 "time" "lat" "lon" 1 example_cy example_cx example_mask
  /\ by_name (map standard (x_dims example_vals)) = Some (standard "lat", standard "lon") /\ by_name (map standard (x_dims example_mask)) = Some (standard "lat", standard "lon")
  /\ by_name ["band"; "y"; "x"]%string = Some ("y", "x")%string.
Proof.
  split; [|split; [|now split]].
  - exists "lon"%string, "time"%string, "lat"%string. eexists. split; [reflexivity|]. split; [|split; [reflexivity|split; [|split; [|split; [|split]]]]].
    + eapply perm_trans; [apply perm_skip, perm_swap|]. eapply perm_trans; [apply perm_swap|apply perm_skip, Permutation_refl].
    + cbv. repeat (constructor; try reflexivity).
    + cbv. repeat constructor; cbn; intuition discriminate.
    + cbv. repeat constructor; cbn; intuition discriminate.
    + intros k. cbn. tauto.
    + split; cbn; auto.
  - exists "time"%string, "lat"%string, "lon"%string. eexists. split; [reflexivity|]. split; [|split; [reflexivity|split; [|split; [|split; [|split]]]]].
    + apply Permutation_refl.
    + cbv. repeat (constructor; try reflexivity).
    + cbv. repeat constructor; cbn; intuition discriminate.
    + cbv. repeat constructor; cbn; intuition discriminate.
    + intros k. cbn. tauto.
    + split; cbn; auto.
Qed.
Example C62_dataarray_example : dataarray_input_to_raster_ds by_name (Source None (Some (I64, of_Z 300)) None false U8) example_vals
  = Ok (Some (of_Z 255), RasterArray [1] [3#1; 2#1; 1#1]%Q [7#1; 8#1]%Q [[[of_Z 2; of_Z 3]; [of_Z 255; of_Z 2]; [of_Z 4; of_Z 1]]],
        RasterArray [1] [3#1; 2#1; 1#1]%Q [7#1; 8#1]%Q [[[false; false]; [true; false]; [false; false]]]).
Proof. vm_compute. reflexivity. Qed.
Example C62_dataset_example : dataset_to_raster_ds by_name (Source None None None true I16) example_vals example_mask true true true
  = Ok (Made (Some (of_Z (-32768)), RasterArray [1] [3#1; 2#1; 1#1]%Q [7#1; 8#1]%Q [[[of_Z (-32768); of_Z 3]; [of_Z 300; of_Z 2]; [of_Z 4; of_Z (-32768)]]],
        RasterArray [1] [3#1; 2#1; 1#1]%Q [7#1; 8#1]%Q [[[true; false]; [false; false]; [false; true]]])).
Proof. vm_compute. reflexivity. Qed.
Example C62_shapes_example : dataset_to_raster_ds by_name (Source None None None false I16) example_vals (XArray ["y"; "x"]%string [("y", Coord true [3#1]%Q); ("x", example_cx)]%string (Body2 [[true; false]])) true false false = Err ValueError.
Proof. vm_compute. reflexivity. Qed.
Example C62_array_example : exists rd rm, array_input_to_raster_ds F64 false [[[NaN; of_Z 2]; [of_Z 3; of_Z 4]]] = Ok (Some (default_null F64), rd, rm)
  /\ r_data rd = [[[default_null F64; of_Z 2]; [of_Z 3; of_Z 4]]] /\ r_data rm = [[[true; false]; [false; false]]].
Proof. eexists _, _. split; [vm_compute; reflexivity|split; reflexivity]. Qed.
Example C62_null_value_examples : try_to_get_null_value (Source (Some None) None (Some (U8, of_Z 3)) false U8) (Body2 []) = Some (U8, of_Z 3)
  /\ try_to_get_null_value (Source (Some None) None None false F32) (Body2 [[NaN]]) = None /\ try_to_get_null_value (Source None None None false F32) (Body2 [[NaN]]) = Some (F64, NaN).
Proof. repeat split. Qed.

(* "A Dataset always becomes a normalised raster" is false: lazy datasets with standard
   dimensions are taken as they are, whatever the order of their coordinates and whatever
   the masked cells hold. *)
Definition C62_fast_path_false : Prop := forall spatial s (x : xarray num) (xm : xarray bool) lazy same ds, dataset_to_raster_ds spatial s x xm true lazy same = Ok ds ->
  ds <> Same \/ exists r, normalize_xarray_data spatial x = Ok r /\ x_body x = Body3 (r_data r).
Theorem C62_fast_path_refuted : ~ C62_fast_path_false.
Proof.
  intros F. pose (c := [("y", Coord true [1#1; 2#1]%Q); ("x", Coord true [1#1]%Q)]%string).
  destruct (F by_name (Source None None None true U8) (XArray ["band"; "y"; "x"]%string c (Body3 [[[of_Z 1]; [of_Z 2]]])) (XArray ["band"; "y"; "x"]%string c (Body3 [[[true]; [false]]])) true true Same eq_refl) as [K|(r & R & B)]; [now apply K|].
  vm_compute in R. injection R as <-. vm_compute in B. discriminate.
Qed.
Print Assumptions C62_fast_path_refuted.
(* "The cells that hold the null value of the raster are exactly the null ones" is false: NaN
   becomes the default null value, which a valid cell may hold already. *)
Definition C62_null_cells_false : Prop := forall spatial s (x : xarray num) n rd rm, dataarray_input_to_raster_ds spatial s x = Ok (Some n, rd, rm) ->
  forall b i j v m, at3 (r_data rd) b i j v -> at3 (r_data rm) b i j m -> (m = true <-> num_eqb v n = true).
Theorem C62_null_cells_refuted : ~ C62_null_cells_false.
Proof.
  intros F. pose (x := XArray ["band"; "y"; "x"]%string [("y", Coord true [1#1]%Q); ("x", Coord true [1#1; 2#1]%Q)]%string (Body3 [[[NaN; default_null F32]]])).
  pose (s := Source None None None false F32).
  destruct (dataarray_input_to_raster_ds by_name s x) as [[[o rd] rm]|e] eqn:E; vm_compute in E; [|discriminate]. injection E as <- <- <-.
  specialize (F by_name s x (default_null F32) _ _ eq_refl 0 0 1 (default_null F32) false). destruct F as [_ F]; [eexists; split; [reflexivity|]; eexists; split; reflexivity..|]. discriminate (F eq_refl).
Qed.
Print Assumptions C62_null_cells_refuted.
