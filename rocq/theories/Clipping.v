(* Model of clipping.py's public functions for a whole raster, on top of Raster.v
   (masking by a footprint) and RasterizeRaster.v (rasterising the features).

   A raster lies on the lattice of RasterizeRaster.v.  What rio.clip_box keeps is a
   box of rows and columns, and total_bounds of the features is a parameter. *)
From Coq Require Import QArith.
From Verif Require Import Base Scalars Arr2 Dtypes Raster Rasterize RasterizeRaster.
Open Scope Z_scope.

(* a raster and its place; its cells in row-major order *)
Record located := Located { l_raster : raster; l_grid : grid }.
Definition l_width (l : located) : Z := total (k_xchunks (l_grid l)).
Definition l_height (l : located) : Z := total (k_ychunks (l_grid l)).

(* rows r0 .. r1 - 1 and columns c0 .. c1 - 1 of nx columns *)
Definition crop {A} (nx : Z) (b : box) (band : list A) : list A :=
  concat (map (fun i => slice band (i * nx + c0 b) (i * nx + c1 b)) (zrange (r0 b) (r1 b))).
(* dask: the chunks of rows lo .. hi - 1 of an array in chunks *)
Fixpoint slice_chunks (lo hi : Z) (chunks : list Z) : list Z :=
  match chunks with
  | [] => []
  | c :: t => let n := Z.min hi c - Z.max lo 0 in (if 0 <? n then [n] else []) ++ slice_chunks (lo - c) (hi - c) t
  end.

Section Calls.
Variable cast : dtype -> num -> num.
Variable float_dtype : num -> dtype.
Variable spatial_bounds : option Z -> list gfeature -> region.
(* rio.clip_box of the bounds with auto_expand: the rows and columns kept, counted from
   the raster's first, or NoDataInBounds *)
Variable rio_window : grid -> list Q -> option box.
(* feat.bounds *)
Variable total_bounds : table -> list Q.

(* clipping.py:205-236 clip_box.  RasterNoDataError is given as KeyError.  Without
   a null value the mask of the result is made of zeros; there are no null cells. *)
Definition clip_box (l : located) (bounds : list Q) : res located :=
  if negb (len bounds =? 4) then Err ValueError
  else
    match rio_window (l_grid l) bounds with
    | None => Err KeyError
    | Some b =>
        let r := l_raster l in
        let nx := l_width l in
        let k := l_grid l in
        let data := map (crop nx b) (r_data r) in
        let mask := if masked r then map (crop nx b) (r_mask r) else map (fun band => map (fun _ => false) band) data in
        Ok (Located (Raster (r_dtype r) (r_nv r) data mask)
                    (Grid (slice_chunks (r0 b) (r1 b) (k_ychunks k)) (slice_chunks (c0 b) (c1 b) (k_xchunks k)) (k_row k + r0 b) (k_col k + c0 b) (k_crs k)))
    end.

(* vector.py:665-681 Vector.to_crs: always a new table, without spatial partitions *)
Definition to_crs (t : table) (crs : option Z) : res table :=
  match t_crs t with
  | None => Err ValueError
  | Some _ => Ok (Table (t_parts t) None crs (t_columns t))
  end.

(* clipping.py:19-78 _clip; len(bounds) is looked at even when it is not used.
   RuntimeError is given as KeyError. *)
Definition clip_with (feature : table) (data_raster : located) (invert trim : bool) (bounds : option (list Q)) (envelope : bool) : res located :=
  match k_crs (l_grid data_raster) with
  | None => Err ValueError
  | Some crs =>
      if match bounds with Some b => negb (len b =? 4) | None => false end then Err ValueError
      else if envelope && invert then Err ValueError
      else
        let* feat := to_crs feature (Some crs) in
        let* data_raster :=
          if trim then clip_box data_raster (match bounds with Some b => b | None => total_bounds feat end)
          else Ok data_raster in
        let* fr := rasterize cast float_dtype spatial_bounds feat (l_grid data_raster) NoField (Some Last) true false NvNone false in
        let* null_mask := get (r_mask (fst fr)) 0 in
        let* out := Raster.clip (l_raster data_raster) true envelope invert (map negb null_mask) in
        Ok (Located out (l_grid data_raster))
  end.
(* clipping.py:81-108 clip *)
Definition clip (feature : table) (data : located) (bounds : option (list Q)) : res located := clip_with feature data false true bounds false.
(* clipping.py:111-140 erase *)
Definition erase (feature : table) (data : located) (bounds : option (list Q)) : res located := clip_with feature data true true bounds false.
(* clipping.py:143-173 mask *)
Definition mask (feature : table) (data : located) (invert : bool) : res located := clip_with feature data invert false None false.
(* clipping.py:176-202 envelope *)
Definition envelope (feature : table) (data : located) : res located := clip_with feature data false true None true.
End Calls.
