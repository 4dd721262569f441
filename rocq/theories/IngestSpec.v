(* Null values of arrays. *)
From Coq Require Import QArith String.
From Verif Require Import Base Scalars FocalSpec BandsSpec MapBlocksSpec Normalize NormalizeSpec ReconcileSpec Ingest.
Open Scope Z_scope.

(* some value is NaN *)
Definition some_nan (b : body num) : Prop :=
  match b with
  | Body2 a => exists row, In row a /\ In NaN row
  | Body3 a => exists band row, In band a /\ In row band /\ In NaN row
  end.
(* the recorded null value: the first of _FillValue, nodata and the encoded nodata *)
Definition recorded (s : source) : option typed :=
  match s_fill s with Some (Some v) => Some v | _ => match s_nodata s with Some v => Some v | None => s_encoded s end end.
(* the null value of the array: the recorded one; otherwise NaN if the values are floats
   and some are NaN or they are not known yet, unless _FillValue says None for known
   values *)
Definition null_of (s : source) (data : body num) (nv : option typed) : Prop :=
  match recorded s with
  | Some v => nv = Some v
  | None => (nv = None \/ nv = Some (F64, NaN))
            /\ (nv <> None <-> is_float_dtype (s_dtype s) = true /\ (s_lazy s = true \/ (some_nan data /\ s_fill s <> Some None)))
  end.
(* Values (at bands, rows ys, columns xs) in a raster: rd has x increasing and y
   decreasing, rm its coordinates.  The value at b, i, j is at its coordinates; the mask is
   true exactly where it is null; there rd has the null value nv, elsewhere the value. *)
Definition stored (nb : Z) (ys xs : list Q) (value : Z -> Z -> Z -> num -> Prop) (null : Z -> Z -> Z -> num -> Prop) (nv : option num) (rd : raster_array num) (rm : raster_array bool) : Prop :=
  r_band rd = zrange 1 (nb + 1) /\ r_band rm = zrange 1 (nb + 1) /\ r_y rm = r_y rd /\ r_x rm = r_x rd
  /\ shaped3 nb (len ys) (len xs) (r_data rd) /\ shaped3 nb (len ys) (len xs) (r_data rm)
  /\ (increasing xs \/ decreasing xs -> increasing (r_x rd)) /\ (increasing ys \/ decreasing ys -> decreasing (r_y rd))
  /\ forall b i j v, 0 <= b < nb -> 0 <= i < len ys -> 0 <= j < len xs -> value b i j v ->
     exists i' j' m w, moved ys (r_y rd) i i' /\ moved xs (r_x rd) j j' /\ get (r_y rd) i' = get ys i /\ get (r_x rd) j' = get xs j
       /\ at3 (r_data rm) b i' j' m /\ at3 (r_data rd) b i' j' w
       /\ (m = true <-> null b i j v) /\ (m = false -> w = v) /\ (m = true -> exists n, nv = Some n /\ num_eqb w n = true).
