(* Model of Vector.spatial_shuffle and Vector.calculate_spatial_partitions
   (vector.py:858-896), on top of VectorTable.v.

   dask_geopandas' spatial_shuffle is set_index of dask with the place of each feature
   along a Hilbert curve, a number; the divisions are quantiles of these numbers that
   dask finds.  Spatial partitions are left out. *)
From Coq Require Import QArith String.
From Verif Require Import Base Scalars Arr2 Vectors VectorTable.
Open Scope Z_scope.

(* dask.dataframe.shuffle.set_partitions_pre: the partition of a label *)
Definition partition_of (divs : list Z) (x : Z) : Z := Z.min (len divs - 2) (Z.max 0 (bisect_right divs x - 1)).
(* dask's set_index with divisions: rows are sent to their partitions and sorted there *)
Definition set_index (divs : list Z) (rows : list (Z * row)) : list (list (Z * row)) :=
  map (fun i => sort_index (filter (fun r => partition_of divs (fst r) =? i) rows)) (zrange 0 (len divs - 1)).

Section Shuffle.
(* hilbert_distance of a geometry *)
Variable curve : Z -> Z.
(* the divisions that dask chooses for these numbers and this number of partitions *)
Variable quantiles : list Z -> Z -> list Z.

(* vector.py:858-874 Vector.spatial_shuffle; a progress bar changes nothing *)
Definition spatial_shuffle (v : vector) : res vector :=
  let c := v_geo v in
  let rows := map (fun '(_, w) => (curve (w_geom w), w)) (concat (c_parts c)) in
  let divs := quantiles (map fst rows) (len (c_parts c)) in
  new_vector (DaskFrame (Coll (c_schema c) (set_index divs rows) (Some divs))) SizeNone.
End Shuffle.

(* vector.py:876-896 Vector.calculate_spatial_partitions *)
Definition calculate_spatial_partitions (v : vector) : res vector := new_vector (DaskFrame (v_geo v)) SizeNone.
