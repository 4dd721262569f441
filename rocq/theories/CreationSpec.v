(* What a raster made like a template is. *)
From Coq Require Import QArith String.
From Verif Require Import Base Scalars FocalSpec BandsSpec Normalize NormalizeSpec Ingest Creation.
Open Scope Z_scope.

(* a raster of nb bands at rows ys (downwards) and columns xs, with mask and null value *)
Record is_raster (nb : Z) (ys xs : list Q) (ds : raster_ds) : Prop := {
  ir_bands : 0 < nb; ir_rows : 0 < len ys; ir_cols : 0 < len xs;
  ir_data : let '(_, rd, _) := ds in r_band rd = zrange 1 (nb + 1) /\ r_y rd = ys /\ r_x rd = xs /\ shaped3 nb (len ys) (len xs) (r_data rd);
  ir_mask : let '(_, _, rm) := ds in r_band rm = zrange 1 (nb + 1) /\ r_y rm = ys /\ r_x rm = xs /\ shaped3 nb (len ys) (len xs) (r_data rm)
}.
Definition north_up (ys xs : list Q) : Prop := decreasing ys /\ increasing xs.
Definition null_value (ds : raster_ds) : option num := let '(nv, _, _) := ds in nv.
Definition cell (ds : raster_ds) (b i j : Z) (v : num) : Prop := let '(_, rd, _) := ds in at3 (r_data rd) b i j v.
Definition masked (ds : raster_ds) (b i j : Z) (m : bool) : Prop := let '(_, _, rm) := ds in at3 (r_data rm) b i j m.

(* The mask of the result: with copy_mask and a template with a null value the mask of the
   template, for another number of bands that of its first band; otherwise no cell is
   null. *)
Definition mask_like (copy_mask : bool) (t : raster_ds) (nb0 nb : Z) (b i j : Z) (m : bool) : Prop :=
  if copy_mask
  then match null_value t with
       | None => m = false
       | Some _ => masked t (if nb =? nb0 then b else 0) i j m
       end
  else m = false.
(* The null value: that of the template if the dtype is not given or the same, otherwise
   the default of the dtype d. *)
Definition null_like (copy_mask : bool) (t : raster_ds) (same : Prop) (d : dtype) (nv : option num) : Prop :=
  if copy_mask
  then match null_value t with
       | None => nv = None
       | Some v => (same -> nv = Some v) /\ (~ same -> nv = Some (default_null d))
       end
  else nv = None.
(* the raster r has the grid and the mask of the template and, where it is not null, the
   values; null cells hold the null value *)
Definition created (copy_mask : bool) (t : raster_ds) (same : Prop) (d : dtype) (nb0 nb : Z) (ys xs : list Q)
  (values : Z -> Z -> Z -> num -> Prop) (r : raster_ds) : Prop :=
  is_raster nb ys xs r /\ null_like copy_mask t same d (null_value r)
  /\ forall b i j v, 0 <= b < nb -> 0 <= i < len ys -> 0 <= j < len xs -> values b i j v ->
     exists m w, masked r b i j m /\ cell r b i j w /\ mask_like copy_mask t nb0 nb b i j m
       /\ (m = false -> w = v) /\ (m = true -> null_value r = Some w).
(* on a GeoBox: no null values, rows and columns may be turned round *)
Definition created_on (nb : Z) (ys xs : list Q) (values : Z -> Z -> Z -> num -> Prop) (r : raster_ds) : Prop :=
  null_value r = None
  /\ exists ys' xs', is_raster nb ys' xs' r
     /\ (increasing xs \/ decreasing xs -> increasing xs') /\ (increasing ys \/ decreasing ys -> decreasing ys')
     /\ forall b i j v, 0 <= b < nb -> 0 <= i < len ys -> 0 <= j < len xs -> values b i j v ->
        exists i' j', moved ys ys' i i' /\ moved xs xs' j j' /\ masked r b i' j' false /\ cell r b i' j' v.
