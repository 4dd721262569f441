(* What a dataset holds. *)
From Coq Require Import QArith String.
From Verif Require Import Base Scalars RasterSpec BandsSpec Blocks Normalize NormalizeSpec Ingest Dataset.
Open Scope Z_scope.

(* the number of dimensions that are not of size one *)
Fixpoint real_dims (shape : list Z) : Z :=
  match shape with [] => 0 | n :: shape => (if n =? 1 then 0 else 1) + real_dims shape end.
Definition rasterlike (v : variable) : bool := (2 <=? real_dims (v_shape v)) && (real_dims (v_shape v) <=? 3).
(* the value that the file declares for missing cells *)
Definition declared (v : variable) : option num := match v_fill v with Some f => Some f | None => v_nodata v end.
Definition missing (v : variable) (x : num) : bool := match declared v with Some f => same_value x f | None => false end.
(* the null value of the raster *)
Definition null_of (v : variable) : num :=
  match declared v with Some NaN | None => default_null (v_dtype v) | Some f => f end.
(* a variable with its cells at rows ys and columns xs *)
Definition holds (v : variable) (nb : Z) (ys xs : list Q) (r : raster_ds) : Prop :=
  let '(nv, rd, rm) := r in
  nv = Some (null_of v) /\ r_y rd = r_y rm /\ r_x rd = r_x rm /\ r_band rd = zrange 1 (nb + 1) /\ r_band rm = zrange 1 (nb + 1)
  /\ shaped3 nb (len ys) (len xs) (r_data rd) /\ shaped3 nb (len ys) (len xs) (r_data rm)
  /\ (increasing xs \/ decreasing xs -> increasing (r_x rd)) /\ (increasing ys \/ decreasing ys -> decreasing (r_y rd))
  /\ forall b i j x, at3 (v_data v) b i j x -> exists i' j' m w,
     same_coord (get (r_y rd) i') (get ys i) /\ same_coord (get (r_x rd) j') (get xs j)
     /\ at3 (r_data rm) b i' j' m /\ at3 (r_data rd) b i' j' w
     /\ m = missing v x || same_value x (null_of v) /\ (m = false -> w = x) /\ (m = true -> same_value w (null_of v) = true).
(* the variable's cells *)
Definition good (v : variable) (nb ny nx : Z) : Prop := 0 < nb /\ 0 < ny /\ 0 < nx /\ shaped3 nb ny nx (v_data v).
(* the coordinates of a transform *)
Definition rows_of (t : affine) (ny nx : Z) (ys : list Q) : Prop := len ys = ny /\ forall i, 0 <= i < ny -> get ys i = Ok (snd (gb_coord (GeoBox ny nx t) i 0)).
Definition cols_of (t : affine) (ny nx : Z) (xs : list Q) : Prop := len xs = nx /\ forall j, 0 <= j < nx -> get xs j = Ok (fst (gb_coord (GeoBox ny nx t) 0 j)).
(* the transform gives the variable's own coordinates *)
Definition agrees (t : affine) (v : variable) (ny nx : Z) : Prop :=
  len (v_y v) = ny /\ len (v_x v) = nx
  /\ (forall i, 0 <= i < ny -> same_coord (Ok (snd (gb_coord (GeoBox ny nx t) i 0))) (get (v_y v) i))
  /\ (forall j, 0 <= j < nx -> same_coord (Ok (fst (gb_coord (GeoBox ny nx t) 0 j))) (get (v_x v) j)).
