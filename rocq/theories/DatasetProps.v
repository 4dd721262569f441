(* C84: opening datasets (io.open_dataset). *)
From Coq Require Import QArith String.
From Verif Require Import Base Scalars RasterSpec BandsSpec FocalSpec Blocks Normalize NormalizeSpec Ingest WriteOptions Dataset DatasetSpec DatasetProofs.
Open Scope Z_scope.

(* every raster-like variable, in the order of the file, under its name; the cells at the
   coordinates of the dataset's transform.  Null are the missing cells, and those that hold
   the null value. *)
Theorem C84_open : forall open_file ignore kwargs f t, open_file (kwargs_of kwargs) = Ok f -> f_affine f = Ok t ->
  (forall v, In v (f_vars f) -> 2 <= real_dims (v_shape v)) -> (ignore = true \/ forall v, In v (f_vars f) -> real_dims (v_shape v) <= 3) ->
  (exists v, In v (f_vars f) /\ rasterlike v = true) -> (forall v, In v (f_vars f) -> rasterlike v = true -> exists nb ny nx, good v nb ny nx) ->
  exists rs, fst (open_dataset open_file ignore kwargs) = Ok rs
  /\ Forall2 (fun v r => fst r = v_name v /\ forall nb ny nx, good v nb ny nx -> exists ys xs, rows_of t ny nx ys /\ cols_of t ny nx xs /\ holds v nb ys xs (snd r)) (filter rasterlike (f_vars f)) rs.
Proof. exact open_ok. Qed.
Print Assumptions C84_open.

(* if the transform agrees with the variable's coordinates, the cells are at those *)
Theorem C84_places_partial : forall t v nb ny nx ys xs r, good v nb ny nx -> rows_of t ny nx ys -> cols_of t ny nx xs -> agrees t v ny nx -> holds v nb ys xs r ->
  let '(_, rd, rm) := r in forall b i j x, at3 (v_data v) b i j x -> exists i' j' m w,
     same_coord (get (r_y rd) i') (get (v_y v) i) /\ same_coord (get (r_x rd) j') (get (v_x v) j)
     /\ at3 (r_data rm) b i' j' m /\ at3 (r_data rd) b i' j' w
     /\ m = missing v x || same_value x (null_of v) /\ (m = false -> w = x) /\ (m = true -> same_value w (null_of v) = true).
Proof. exact holds_agrees. Qed.
Print Assumptions C84_places_partial.

Theorem C84_refused : forall open_file ignore kwargs,
  (forall e, open_file (kwargs_of kwargs) = Err e -> fst (open_dataset open_file ignore kwargs) = Err e)
  /\ (forall f, open_file (kwargs_of kwargs) = Ok f -> (exists v, In v (f_vars f) /\ (real_dims (v_shape v) < 2 \/ ignore = false /\ 3 < real_dims (v_shape v))) -> fst (open_dataset open_file ignore kwargs) = Err TypeError)
  /\ (forall f, open_file (kwargs_of kwargs) = Ok f -> ignore = true -> (forall v, In v (f_vars f) -> 3 < real_dims (v_shape v)) -> fst (open_dataset open_file ignore kwargs) = Err ValueError)
  /\ (forall f e, open_file (kwargs_of kwargs) = Ok f -> (forall v, In v (f_vars f) -> rasterlike v = true) -> f_vars f <> [] -> f_affine f = Err e -> fst (open_dataset open_file ignore kwargs) = Err e).
Proof. exact open_refused. Qed.
Print Assumptions C84_refused.

(* ---------------- an example: rain on two days and a variable of four dimensions; rows from
   north to south ---------------- *)
Definition down : affine := Blocks.Affine 1 0 0 0 (-1) 2.
Definition nums : list Z -> list num := map of_Z.
Definition rain : variable :=
  Variable_ "rain" [2; 1; 2; 2] I16 (Some (of_Z (-1))) None [3#2; 1#2]%Q [1#2; 3#2]%Q [[nums [1; -1]; nums [3; 4]]; [nums [5; 6]; nums [7; -1]]].
Definition wind : variable := Variable_ "wind" [2; 2; 2; 2] I16 None None [] [] [].
Definition weather : file := File [wind; rain] (Ok down).
Definition opens (f : file) (_ : dict) : res file := Ok f.
Example weather_good : good rain 2 2 2 /\ rasterlike rain = true /\ rasterlike wind = false /\ agrees down rain 2 2.
Proof.
  repeat split; try (repeat constructor; fail).
  - intros i I. assert (D : i = 0 \/ i = 1) by (destruct I; Lia.lia). destruct D as [-> | ->]; vm_compute; reflexivity.
  - intros i I. assert (D : i = 0 \/ i = 1) by (destruct I; Lia.lia). destruct D as [-> | ->]; vm_compute; reflexivity.
Qed.
Example weather_open : exists rd rm, fst (open_dataset (opens weather) true None) = Ok [("rain"%string, (Some (of_Z (-1)), rd, rm))]
  /\ r_data rd = v_data rain /\ r_data rm = [[[false; true]; [false; false]]; [[false; false]; [false; true]]]
  /\ map Qred (r_y rd) = v_y rain /\ map Qred (r_x rd) = v_x rain.
Proof. eexists _, _. split; [vm_compute; reflexivity|]. vm_compute. repeat split; reflexivity. Qed.

(* ---------------- refutations ---------------- *)
(* "ignore_extra_dim_errors ignores variables that cannot be mapped to a raster": not one with
   too few dimensions *)
Definition stamp : variable := Variable_ "stamp" [2] I16 None None [] [] [].
Theorem C84_too_few_refuted : ~ (forall open_file f t, open_file (kwargs_of None) = Ok f -> f_affine f = Ok t -> (exists v, In v (f_vars f) /\ rasterlike v = true) ->
  (forall v, In v (f_vars f) -> rasterlike v = true -> exists nb ny nx, good v nb ny nx) -> exists rs, fst (open_dataset open_file true None) = Ok rs).
Proof.
  intros H. destruct (H (opens (File [rain; stamp] (Ok down))) (File [rain; stamp] (Ok down)) down eq_refl eq_refl) as [rs E].
  - exists rain. split; [now left|reflexivity].
  - intros v [<-|[<-|[]]] R; [exists 2, 2, 2; apply weather_good|discriminate].
  - vm_compute in E. discriminate.
Qed.
Print Assumptions C84_too_few_refuted.
(* "the caller's keyword arguments stay the same" *)
Theorem C84_kwargs_refuted : ~ (forall open_file ignore k, snd (open_dataset open_file ignore (Some k)) = Some k).
Proof. intros H. specialize (H (opens weather) true [("engine", VStr "netcdf4")]%string). vm_compute in H. discriminate. Qed.
Print Assumptions C84_kwargs_refuted.
(* "the cells are at the coordinates of the variable": rows from south to north in a file whose
   stored transform goes from north to south (as GDAL writes them) end up upside down *)
Definition flipped : variable := Variable_ "rain" [2; 2] I16 (Some (of_Z (-1))) None [1#2; 3#2]%Q [1#2; 3#2]%Q [[nums [1; 2]; nums [3; 4]]].
Theorem C84_upside_down_refuted : exists rd rm, fst (open_dataset (opens (File [flipped] (Ok down))) false None) = Ok [("rain"%string, (Some (of_Z (-1)), rd, rm))]
  /\ get (v_y flipped) 0 = Ok (1#2)%Q /\ at3 (v_data flipped) 0 0 0 (of_Z 1)
  /\ map Qred (r_y rd) = [3#2; 1#2]%Q /\ at3 (r_data rd) 0 1 0 (of_Z 3).
Proof.
  eexists _, _. split; [vm_compute; reflexivity|]. split; [reflexivity|]. split; [repeat (eexists; split; [reflexivity|]); reflexivity|].
  split; [vm_compute; reflexivity|]. repeat (eexists; split; [reflexivity|]); reflexivity.
Qed.
Print Assumptions C84_upside_down_refuted.
(* "null are exactly the missing cells": a variable that declares no missing value gets the
   default null value, here -32768 *)
Definition low : variable := Variable_ "low" [2; 2] I16 None None [3#2; 1#2]%Q [1#2; 3#2]%Q [[nums [-32768; 5]; nums [6; 7]]].
Theorem C84_default_refuted : missing low (of_Z (-32768)) = false
  /\ exists rd rm, build_raster down low = Ok (Some (of_Z (-32768)), rd, rm) /\ r_data rm = [[[true; false]; [false; false]]].
Proof. split; [reflexivity|]. eexists _, _. split; vm_compute; reflexivity. Qed.
Print Assumptions C84_default_refuted.
(* "NaN cells are null": not if the variable declares no missing value *)
Definition gaps : variable := Variable_ "gaps" [2; 2] F32 None None [3#2; 1#2]%Q [1#2; 3#2]%Q [[[NaN; of_Z 5]; nums [6; 7]]].
Theorem C84_nan_refuted : exists rd rm, build_raster down gaps = Ok (Some (of_Z (-999999)), rd, rm) /\ r_data rd = v_data gaps /\ r_data rm = [[[false; false]; [false; false]]].
Proof. eexists _, _. split; [vm_compute; reflexivity|]. split; vm_compute; reflexivity. Qed.
Print Assumptions C84_nan_refuted.
