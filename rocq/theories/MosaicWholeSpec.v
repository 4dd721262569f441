(* What mosaic is documented to return, for whole rasters. *)
From Coq Require Import QArith.
From Verif Require Import Base Scalars Raster RasterSpec MosaicSpec MosaicWhole.
Open Scope Z_scope.

(* the values for cell c of band b, in the order of the rasters: those of the rasters
   that have the band, where they are not null, converted to the dtype of the result.
   Values that are then equal to the null value are left out too. *)
Definition contribution (cast : dtype -> num -> num) (d : dtype) (nodata : num) (b c : Z) (r : raster) : list num :=
  if len (r_data r) <=? b then []
  else if null r b c then []
  else if same_value (cast d (value r b c)) nodata then [] else [cast d (value r b c)].
Definition contributions cast d nodata rs b c : list num := flat_map (contribution cast d nodata b c) rs.

(* an extreme number; NaN if all values are NaN *)
Definition is_extreme (le : num -> num -> bool) (l : list num) (v : num) : Prop :=
  match filter (fun v => negb (is_nan v)) l with
  | [] => v = NaN
  | numbers => In v numbers /\ forall u, In u numbers -> le v u = true
  end.
Definition picked (m : method) (l : list num) (v : num) : Prop :=
  match m with
  | First => hd_error l = Some v
  | Last => hd_error (rev l) = Some v
  | Min => is_extreme num_leb l v
  | Max => is_extreme (fun a b => num_leb b a) l v
  | _ => False
  end.

(* the values a dtype has *)
Definition of_dtype (d : dtype) (v : num) : Prop :=
  if is_float_dtype d then True else exists z, v = of_Z z /\ int_min d <= z <= int_max d.
(* a raster on a grid of nc cells: null cells hold the null value, the values are of
   its dtype, and conversion to d gives values of d *)
Definition source (cast : dtype -> num -> num) (d : dtype) (nc : Z) (r : raster) : Prop :=
  exists nb, wf nb nc r
  /\ forall b c, in_raster nb nc b c ->
     (null r b c = true -> r_nv r = Some (value r b c)) /\ cast (r_dtype r) (value r b c) = value r b c
     /\ of_dtype d (cast d (value r b c)).
(* nodata can be the null value of a raster of dtype d *)
Definition null_value_for (cast : dtype -> num -> num) reconcile_other (fill : dtype -> num -> res num) (d : dtype) (nodata : num) : Prop :=
  of_dtype d nodata /\ fill d nodata = Ok nodata
  /\ reconcile reconcile_other nodata d = (nodata, false)
  /\ forall v, same_value v nodata = true -> same_value (cast d v) nodata = true.
(* the rasters' null values are nodata, or not close to it (np.allclose) *)
Definition no_close_nulls (nodata : num) (rs : list raster) : Prop :=
  forall r old, In r rs -> r_nv r = Some old -> num_close nodata old = true -> same_value old nodata = true.
Definition is_nbands (rs : list raster) (nb : Z) : Prop :=
  (forall r, In r rs -> len (r_data r) <= nb) /\ exists r, In r rs /\ len (r_data r) = nb.
(* a raster of nb bands in which cell c of band b has one of the values l *)
Definition result (nb nc : Z) (d : dtype) (nodata : num) (l : Z -> Z -> list num) (pick : list num -> num -> Prop) (r : raster) : Prop :=
  wf nb nc r /\ r_dtype r = d /\ r_nv r = Some nodata
  /\ forall b c, in_raster nb nc b c ->
     (null r b c = true <-> l b c = []) /\ (null r b c = true -> same_value (value r b c) nodata = true)
     /\ (l b c <> [] -> pick (l b c) (value r b c)).

(* the sum of integers, up to the wrap-around of the dtype; nodata if there are none *)
Definition is_int_sum (d : dtype) (nodata : num) (l : list num) (v : num) : Prop :=
  match l with
  | [] => v = nodata
  | _ => exists zs s, l = map of_Z zs /\ v = of_Z s /\ int_min d <= s <= int_max d /\ exists k, s = zsum zs + k * (int_max d - int_min d + 1)
  end.
(* no run of neighbouring values sums to the null value *)
Definition run_free (d : dtype) (nodata : num) (l : list num) : Prop :=
  forall pre mid post, l = pre ++ mid ++ post -> mid <> [] -> ~ is_int_sum d nodata mid nodata.
Definition int_adds (d : dtype) (add : num -> num -> num) : Prop :=
  forall a b, int_min d <= a <= int_max d -> int_min d <= b <= int_max d ->
  exists s, add (of_Z a) (of_Z b) = of_Z s /\ int_min d <= s <= int_max d /\ exists k, s = a + b + k * (int_max d - int_min d + 1).

(* the dtype and the null value of the result: as asked for, else the common dtype and
   the null value of the first raster that has one, else the default of the dtype *)
Definition result_dtype (result_type : list dtype -> dtype) (rs : list raster) (dt : option dtype) (d : dtype) : Prop :=
  dt = Some d \/ dt = None /\ d = result_type (map r_dtype rs).
Definition result_null (rs : list raster) (d : dtype) (nv : option num) (nodata : num) : Prop :=
  nv = Some nodata
  \/ nv = None /\ ((exists before r after, rs = before ++ r :: after /\ r_nv r = Some nodata /\ Forall (fun r => r_nv r = None) before)
                   \/ Forall (fun r => r_nv r = None) rs /\ nodata = default_null d).
