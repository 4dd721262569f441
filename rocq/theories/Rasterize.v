(* Model of rasterize.py for one chunk of the like raster.
   The cells of the chunk are numbered 0 .. n-1.  A feature says which cells it
   touches (GDAL's polygon filling and geopandas' clip to the chunk are not
   modelled; features without geometry touch nothing) and carries its index
   label and its field value. *)
From Coq Require Import QArith.
From Verif Require Import Base Scalars Zonal.
Open Scope Z_scope.

Record feature := Feature { f_index : Z; f_field : num; touches : Z -> bool }.
Inductive overlap := First | Last | Min | Max.

(* the column sorted by, and the value burned (line 141: values += 1) *)
Definition sort_key (use_index : bool) (f : feature) : num := if use_index then of_Z (f_index f) else f_field f.
Definition burned (use_index : bool) (f : feature) : num := if use_index then of_Z (f_index f + 1) else f_field f.

(* gdf.sort_values(by=["values"], na_position="first"); pandas' sort need not be
   stable, which only matters for features with equal values *)
Fixpoint insert_by (prec : feature -> feature -> bool) (f : feature) (l : list feature) : list feature :=
  match l with
  | [] => [f]
  | g :: t => if prec f g then f :: g :: t else g :: insert_by prec f t
  end.
Definition sort_by (prec : feature -> feature -> bool) (l : list feature) : list feature := fold_right (insert_by prec) [] l.
Definition ascending_nan_first (ui : bool) (f g : feature) : bool := is_nan (sort_key ui f) || num_leb (sort_key ui f) (sort_key ui g).
Definition descending_nan_first (ui : bool) (f g : feature) : bool := is_nan (sort_key ui f) || num_leb (sort_key ui g) (sort_key ui f).
(* rasterize.py:110-137 *)
Definition burn_order (ui : bool) (m : overlap) (gdf : list feature) : list feature :=
  match m with
  | First => rev gdf
  | Last => gdf
  | Min => sort_by (descending_nan_first ui) gdf
  | Max => sort_by (ascending_nan_first ui) gdf
  end.
(* rasterize.py:73-148 _rasterize_onto_chunk: later features overwrite earlier
   ones (MergeAlg.replace) *)
Definition burn_cell (ui : bool) (fill : num) (fs : list feature) (cell : Z) : num :=
  fold_left (fun acc f => if touches f cell then burned ui f else acc) fs fill.
Definition rasterize_onto_chunk (ui : bool) (m : overlap) (fill : num) (n : Z) (gdf : list feature) : list num :=
  map (burn_cell ui fill (burn_order ui m gdf)) (zrange 0 n).

(* np.where and element-wise functions of two bands *)
Definition zip (f : num -> num -> num) (a b : list num) : list num := map (fun p => f (fst p) (snd p)) (combine a b).
(* np.min, np.max of two values in numba: NaN if one is NaN *)
Definition npmin (a b : num) : num := if is_nan a then a else if is_nan b then b else if num_ltb b a then b else a.
Definition npmax (a b : num) : num := if is_nan a then a else if is_nan b then b else if num_ltb a b then b else a.
(* rasterize.py:177-240: a is x[-2], b is x[-1] *)
Definition resolve (m : overlap) (fill : num) (a b : list num) : list num :=
  match m with
  | First => zip (fun a b => if num_eqb a fill then b else a) a b
  | Last => zip (fun a b => if num_eqb b fill then a else b) a b
  | Min =>
      let big := extreme fmax (a ++ b) in                 (* np.nanmax(x) *)
      zip (fun a b =>
        if num_eqb a fill && num_eqb b fill then fill
        else npmin (if num_eqb a fill then big else a) (if num_eqb b fill then big else b)) a b
  | Max =>
      let small := extreme fmin (a ++ b) in               (* np.nanmin(x) *)
      zip (fun a b =>
        if num_eqb a fill && num_eqb b fill then fill
        else npmax (if num_eqb a fill then small else a) (if num_eqb b fill then small else b)) a b
  end.
(* rasterize.py:251-289: da.reduction with split_every=2.  Every step sees one
   or two bands; a single band is copied. *)
Inductive steps := Part (gdf : list feature) | One (t : steps) | Two (t u : steps).
Fixpoint reduce_stack (ui : bool) (m : overlap) (fill : num) (n : Z) (t : steps) : list num :=
  match t with
  | Part gdf => rasterize_onto_chunk ui m fill n gdf
  | One t => reduce_stack ui m fill n t
  | Two t u => resolve m fill (reduce_stack ui m fill n t) (reduce_stack ui m fill n u)
  end.
(* rasterize.py:390-427: a chunk no partition matches is filled *)
Definition rasterize_chunk (ui : bool) (m : overlap) (fill : num) (n : Z) (t : option steps) : list num :=
  match t with
  | None => full n fill
  | Some t => reduce_stack ui m fill n t
  end.
(* data_to_raster_like(out_data, like, nv=fill): the null mask (masking.py:27-35) *)
Definition null_mask (nv : num) (data : list num) : list bool :=
  map (fun v => if is_nan nv then is_nan v else num_eqb v nv) data.

(* mask=True: rasterize.py:151-173 _mask_onto_chunk for each partition, then
   304-311 da.min / da.max over the partitions *)
Definition mask_onto_chunk (invert : bool) (n : Z) (gdf : list feature) : list Z :=
  let fill := if invert then 1 else 0 in
  map (fun cell => if existsb (fun f => touches f cell) gdf then 1 - fill else fill) (zrange 0 n).
Definition mask_chunk (invert : bool) (n : Z) (parts : list (list feature)) : list Z :=
  let fill := if invert then 1 else 0 in
  match parts with
  | [] => full n fill
  | p :: parts =>
      fold_left (fun acc q => map (fun ab => if invert then Z.min (fst ab) (snd ab) else Z.max (fst ab) (snd ab)) (combine acc (mask_onto_chunk invert n q)))
        parts (mask_onto_chunk invert n p)
  end.
