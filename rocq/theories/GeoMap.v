(* Model of geo_map_blocks and geo_map_overlap (blocks.py:1543-1805, 2060-2130, 2390-2490):
   map_blocks and map_overlap for functions that are told where a block lies. *)
From Coq Require Import QArith.
From Verif Require Import Base Scalars Chunks Arr2 BlockArgs Bands Grids Blocks MapBlocks MapOverlap.
Open Scope Z_scope.

(* a coordinate system: None, or a number that stands for it and whether it is
   geographic (longitude and latitude) *)
Definition crs := option (Z * bool).
Record georaster := GeoRaster { gr : braster; gr_box : geobox; gr_crs : crs }.
Definition grid_of (r : georaster) : grid :=
  let t := gb_affine (gr_box r) in
  Grid (match gr_crs r with Some (n, _) => n | None => -1 end) (gb_ny (gr_box r)) (gb_nx (gr_box r))
    (Grids.Affine (af_a t) (af_b t) (af_c t) (af_d t) (af_e t) (af_f t)).

(* odc.geo GeoBox.dimensions: the CRS names the axes *)
Inductive axis_name := NameY | NameX | NameLatitude | NameLongitude.
Definition name_eqb (a b : axis_name) : bool :=
  match a, b with NameY, NameY | NameX, NameX | NameLatitude, NameLatitude | NameLongitude, NameLongitude => true | _, _ => false end.
Definition dimensions (c : crs) : axis_name * axis_name :=
  match c with Some (_, true) => (NameLatitude, NameLongitude) | _ => (NameY, NameX) end.
(* GeoBox.coordinates, for a grid that is not rotated: one list for each axis, found by
   its name *)
Definition y_values (g : geobox) : list Q := map (fun i => (af_e (gb_affine g) * (inject_Z i + (1 # 2)) + af_f (gb_affine g))%Q) (zrange 0 (gb_ny g)).
Definition x_values (g : geobox) : list Q := map (fun j => (af_a (gb_affine g) * (inject_Z j + (1 # 2)) + af_c (gb_affine g))%Q) (zrange 0 (gb_nx g)).
Definition coordinates (c : crs) (g : geobox) : list (axis_name * list Q) :=
  [(fst (dimensions c), y_values g); (snd (dimensions c), x_values g)].
Definition find_name (n : axis_name) (l : list (axis_name * list Q)) : res (list Q) :=
  match find (fun p => name_eqb (fst p) n) l with Some (_, v) => Ok v | None => Err KeyError end.
(* blocks.py:131-141 GeoBlockInfo.x, y, band *)
Definition gbi_x (c : crs) (g : gbi) : res (list Q) := find_name NameX (coordinates c (g_geobox g)).
Definition gbi_y (c : crs) (g : gbi) : res (list Q) := find_name NameY (coordinates c (g_geobox g)).
Definition gbi_band (g : gbi) : list Z := zrange (fst (g_band g)) (snd (g_band g)).

(* what the caller's function gets besides the blocks: the coordinates of the
   DataArrays and the GeoBlockInfo *)
Record geo := Geo { geo_band : list Z; geo_y : list Q; geo_x : list Q; geo_info : gbi }.
Record gfunc := GFunc { g_wants_masks : bool; g_wants_out_nv : bool;
  grun : list blk -> option (list blk) -> option (option num) -> geo -> res fresult }.

Definition dims3 {A} (a : arr3 A) : Z * Z * Z := (len a, len (nth 0 a []), len (nth 0 (nth 0 a []) [])).
Definition blk_shape (x : blk) : Z * Z * Z := match x with BData a => dims3 a | BMask a => dims3 a end.
Definition shape_eqb (a b : Z * Z * Z) : bool :=
  let '(n, m, k) := a in let '(n', m', k') := b in (n =? n') && (m =? m') && (k =? k').
(* blocks.py:143-190 to_dataarray of every block: all get the same coordinates *)
Definition georeference (c : crs) (g : gbi) (blocks : list blk) : res geo :=
  if negb (forallb (fun x => shape_eqb (blk_shape x) (g_shape g)) blocks) then Err ValueError
  else let* ys := gbi_y c g in
       let* xs := gbi_x c g in
       Ok (Geo (gbi_band g) ys xs g).
(* blocks.py:1661-1750 _wrapper around the function, as a function for the wrapper of
   map_blocks; overlap selects the resolver (1566-1590) *)
Definition geo_wrapped (overlap : bool) (c : crs) (table : res (arr3 (option gbi))) (f : gfunc) : func :=
  Func (g_wants_masks f) (g_wants_out_nv f) (fun xs ms nv id =>
    let* table := table in
    let* g := match xs with
              | [] => Err IndexError
              | x :: _ => if overlap then resolve_gbi_with_overlap_pad table id (blk_shape x) else lookup table id
              end in
    let* place := georeference c g (xs ++ match ms with Some l => l | None => [] end) in
    grun f xs ms nv place).
Definition table_of (r : georaster) : res (arr3 (option gbi)) :=
  let '(bcs, ycs, xcs) := b_chunks (gr r) in geo_block_infos (gr_box r) (len (b_data (gr r))) bcs ycs xcs.

Section GeoMap.
Variable cast : dtype -> num -> num.
Variable auto : list Z * list Z.
Definition rechunk (r : braster) (c : chunks3) : braster := BRaster (b_dtype r) (b_nv r) c (b_data r) (b_mask r).
Definition geo_rechunk (c : chunks3) (r : georaster) : georaster := GeoRaster (rechunk (gr r) c) (gr_box r) (gr_crs r).

(* blocks.py:2060-2130 geo_map_blocks.  The table is that of the first raster with the
   chunks it is called with; with out_bands those that dask chose. *)
Definition geo_map_blocks (f : gfunc) (rasters : list georaster) (dtype_ meta : option dtype) (inferred : dtype) (null_value : nvarg)
  (out_bands : option Z) (return_mask : bool) : res braster :=
  match rasters with
  | [] => Err ValueError
  | ref :: _ =>
      let* _ := check_dtype_meta_agree dtype_ meta in
      if negb (are_all_grids_same (map grid_of rasters)) then Err ValueError
      else
        let ref := match out_bands with
                   | None => ref
                   | Some _ => geo_rechunk ([len (b_data (gr ref))], fst auto, snd auto) ref
                   end in
        map_blocks cast auto (geo_wrapped false (gr_crs ref) (table_of ref) f) (map gr rasters) dtype_ meta inferred null_value out_bands return_mask
  end.

(* blocks.py:2390-2490 geo_map_overlap: chunks smaller than the depth are merged before
   the table is made *)
Definition geo_map_overlap (f : gfunc) (rasters : list georaster) (depth : py) (b : boundary) (dtype_ meta : option dtype) (inferred : dtype)
  (null_value : nvarg) (return_mask : bool) : res braster :=
  match rasters with
  | [] => Err ValueError
  | ref :: _ =>
      let* _ := check_dtype_meta_agree dtype_ meta in
      if negb (forallb (fun r => same_shape3 (b_data (gr r)) (b_data (gr ref))) rasters) then Err ValueError
      else if negb (are_all_grids_same (map grid_of rasters)) then Err ValueError
      else
        let* d := normalize_depth depth in
        let* _ := check_asymmetric d b in
        let* chunks := ensure_chunks_for_overlap (map (fun r => b_chunks (gr r)) rasters) d in
        let rasters := map (fun '(r, c) => geo_rechunk c r) (combine rasters chunks) in
        match rasters with
        | [] => Err ValueError
        | ref :: _ => map_overlap cast (geo_wrapped true (gr_crs ref) (table_of ref) f) (map gr rasters) depth b dtype_ meta inferred null_value return_mask
        end
  end.
End GeoMap.
