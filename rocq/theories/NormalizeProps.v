(* C60: arrays as rasters. *)
From Coq Require Import QArith String Permutation.
From Verif Require Import Base BaseFacts Scalars Arr2 FocalSpec BandsSpec BlockArgs Bands MapBlocksSpec Normalize NormalizeSpec NormalizeProofs.
Open Scope Z_scope.

(* A three-dimensional array whose y and x dimensions are found by name (after lon, lat
   and time got their standard names), in whatever order the dimensions are: every
   value is in the raster, in its own band and at its own coordinates; x increases and y
   decreases if they were in either order; the bands are numbered from 1. *)
Theorem C60_named : forall A spatial (x : xarray A) bd yd xd nb cy cx,
  array3 bd yd xd nb cy cx x -> 0 < nb -> 0 < len (c_values cy) -> 0 < len (c_values cx) ->
  spatial (map standard (x_dims x)) = Some (standard yd, standard xd) ->
  exists r, normalize_xarray_data spatial x = Ok r /\ same_places nb (c_values cy) (c_values cx) (value_along bd yd x) r.
Proof. exact @normalize_spatial. Qed.
Print Assumptions C60_named.

(* When the names say nothing, the order of the dimensions decides; unless the first one
   is called band (or time) and both others have float coordinates. *)
Theorem C60_order : forall A spatial (x : xarray A) bd yd xd nb cy cx,
  array3 bd yd xd nb cy cx x -> 0 < nb -> 0 < len (c_values cy) -> 0 < len (c_values cx) ->
  x_dims x = [bd; yd; xd] -> spatial (map standard [bd; yd; xd]) = None ->
  ~ In (standard yd) band_names -> ~ In (standard xd) band_names ->
  standard bd <> "band"%string \/ c_float cy = false \/ c_float cx = false ->
  exists r, normalize_xarray_data spatial x = Ok r /\ same_places nb (c_values cy) (c_values cx) (value_along bd yd x) r.
Proof. exact @normalize_order. Qed.
Print Assumptions C60_order.

(* That case always fails: the code calls remove on a tuple. *)
Theorem C60_band_first_refuted : forall A spatial (x : xarray A) bd yd xd nb cy cx,
  array3 bd yd xd nb cy cx x ->
  x_dims x = [bd; yd; xd] -> spatial (map standard [bd; yd; xd]) = None ->
  ~ In (standard yd) band_names -> ~ In (standard xd) band_names ->
  standard bd = "band"%string -> c_float cy = true -> c_float cx = true ->
  normalize_xarray_data spatial x = Err TypeError.
Proof. exact @normalize_stuck. Qed.
Print Assumptions C60_band_first_refuted.

(* A two-dimensional array is one of a single band. *)
Theorem C60_two_dims : forall A spatial dims coords (a : arr2 A), ~ In "band"%string dims ->
  normalize_xarray_data spatial (XArray dims coords (Body2 a))
  = normalize_xarray_data spatial (XArray ("band"%string :: dims) (("band"%string, Coord false [1%Q]) :: coords) (Body3 [a])).
Proof. exact @normalize_2d. Qed.
Print Assumptions C60_two_dims.

(* The result passes the check is_normalized when it has at least two rows and columns
   and its coordinates are in order. *)
Theorem C60_normalized : forall A nb ys xs (at_ : Z -> Z -> Z -> A -> Prop) r b i j v, 0 <= nb -> same_places nb ys xs at_ r ->
  0 <= b < nb -> 0 <= i < len ys -> 0 <= j < len xs -> at_ b i j v ->
  1 < len ys -> 1 < len xs -> increasing ys \/ decreasing ys -> increasing xs \/ decreasing xs -> is_normalized r = true.
Proof. exact @places_normalized. Qed.
Print Assumptions C60_normalized.

(* Normalising the result (any oriented array) once more changes nothing. *)
Theorem C60_idempotent : forall A spatial nb ys xs (a : list (list (list A))),
  0 < nb -> 0 < len ys -> 0 < len xs -> shaped3 nb (len ys) (len xs) a ->
  spatial ["band"; "y"; "x"]%string = Some ("y", "x")%string ->
  let r := orient nb ys xs a in normalize_xarray_data spatial (as_xarray r) = Ok r.
Proof. exact @normalize_again. Qed.
Print Assumptions C60_idempotent.

(* A raster from an array with or without mask: values and mask stay together, at the
   coordinates of the cell.  With a mask exactly its cells are null, and hold the null
   value if that is asked for; without one the cells that hold the null value are. *)
Theorem C60_data : forall d (data : list (list (list num))) mask p nv burn nb ny nx ys xs, 0 < nb -> 0 < ny -> 0 < nx -> shaped3 nb ny nx data ->
  match mask with Some m => shaped3 nb ny nx m | None => True end -> coordinates_of p ny nx ys xs ->
  let n := match mask with Some _ => Some (match nv with Some v => v | None => default_null d end) | None => nv end in
  exists rd rm, data_to_xr_raster_ds d data mask p nv burn = Ok (n, rd, rm)
  /\ r_y rd = r_y rm /\ r_x rd = r_x rm /\ r_band rd = zrange 1 (nb + 1) /\ r_band rm = zrange 1 (nb + 1)
  /\ shaped3 nb ny nx (r_data rd) /\ shaped3 nb ny nx (r_data rm)
  /\ (increasing xs \/ decreasing xs -> increasing (r_x rd)) /\ (increasing ys \/ decreasing ys -> decreasing (r_y rd))
  /\ forall b i j v, at3 data b i j v -> exists i' j' m, same_coord (get (r_y rd) i') (get ys i) /\ same_coord (get (r_x rd) j') (get xs j)
     /\ at3 (r_data rm) b i' j' m
     /\ match mask with
        | Some mask => at3 mask b i j m /\ at3 (r_data rd) b i' j' (if burn && m then match nv with Some v => v | None => default_null d end else v)
        | None => (m = true <-> null_value_here nv v) /\ at3 (r_data rd) b i' j' v
        end.
Proof. exact data_to_ds. Qed.
Print Assumptions C60_data.

(* ---- examples ---- *)
Definition by_name (l : list string) : option (string * string) := if has "y" l && has "x" l then Some ("y", "x")%string else None.
(* lon (decreasing) first, then time, then lat (increasing): two columns, one band, three rows *)
Definition example_cy := Coord true [1#1; 2#1; 3#1]%Q.
Definition example_cx := Coord true [8#1; 7#1]%Q.
Definition example_x : xarray Z := XArray ["lon"; "time"; "lat"]%string [("lon", example_cx); ("lat", example_cy)]%string
  (Body3 [[[1; 2; 3]]; [[4; 5; 6]]]).
Example C60_example_hypotheses : array3 "time" "lat" "lon" 1 example_cy example_cx example_x /\ by_name (map standard (x_dims example_x)) = Some (standard "lat", standard "lon").
Proof.
  split; [|reflexivity]. exists "lon"%string, "time"%string, "lat"%string. eexists. split; [reflexivity|]. split; [|split; [reflexivity|split; [|split; [|split; [|split]]]]].
  - eapply perm_trans; [apply perm_skip, perm_swap|]. eapply perm_trans; [apply perm_swap|apply perm_skip, Permutation_refl].
  - cbv. repeat (constructor; try reflexivity).
  - cbv. repeat constructor; cbn; intuition discriminate.
  - cbv. repeat constructor; cbn; intuition discriminate.
  - cbv. intros a [<-|[<-|[]]]; auto.
  - cbn. auto.
Qed.
Example C60_example : normalize_xarray_data by_name example_x
  = Ok (RasterArray [1] [3#1; 2#1; 1#1]%Q [7#1; 8#1]%Q [[[6; 3]; [5; 2]; [4; 1]]]).
Proof. vm_compute. reflexivity. Qed.
Example C60_order_example : normalize_xarray_data (fun _ => None) (XArray ["a"; "b"; "c"]%string [("b", example_cy); ("c", example_cx)]%string (Body3 [[[1; 2]; [3; 4]; [5; 6]]]))
  = Ok (RasterArray [1] [3#1; 2#1; 1#1]%Q [7#1; 8#1]%Q [[[6; 5]; [4; 3]; [2; 1]]]).
Proof. vm_compute. reflexivity. Qed.
Example C60_data_example : data_to_xr_raster_ds (I16) [[[of_Z 1; of_Z 2]; [of_Z 3; of_Z 4]]] (Some [[[true; false]; [false; false]]]) (Given [0#1; 1#1]%Q [5#1; 6#1]%Q) (Some (of_Z 9)) true
  = Ok (Some (of_Z 9), RasterArray [1] [6#1; 5#1]%Q [0#1; 1#1]%Q [[[of_Z 3; of_Z 4]; [of_Z 9; of_Z 2]]], RasterArray [1] [6#1; 5#1]%Q [0#1; 1#1]%Q [[[false; false]; [true; false]]]).
Proof. vm_compute. reflexivity. Qed.

(* "every raster passes is_normalized" is false: one row is neither increasing nor
   decreasing. *)
Definition C60_single_row_false : Prop := forall spatial (x : xarray Z) r, normalize_xarray_data spatial x = Ok r -> is_normalized r = true.
Theorem C60_single_row_refuted : ~ C60_single_row_false.
Proof.
  intros F. pose (x := XArray ["band"; "y"; "x"]%string [("y", Coord true [1#1]%Q); ("x", Coord true [1#1; 2#1]%Q)]%string (Body3 [[[1; 2]]])).
  specialize (F by_name x (RasterArray [1] [1#1]%Q [1#1; 2#1]%Q [[[1; 2]]]) eq_refl). vm_compute in F. discriminate.
Qed.
Print Assumptions C60_single_row_refuted.
(* every two-dimensional array of unknown names and float coordinates is refused *)
Example C60_two_dims_refused : normalize_xarray_data (fun _ => None) (XArray ["b"; "c"]%string [("b", example_cy); ("c", example_cx)]%string (Body2 [[1; 2]; [3; 4]; [5; 6]])) = Err TypeError.
Proof. vm_compute. reflexivity. Qed.
