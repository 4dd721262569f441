(* Model of line_stats.py:181-313: the lengths of lines near every cell of a raster.
   The lengths within one block are those of LineStats.v (C38), the blocks those of
   geo_map_overlap (C65), the features those of VectorTable.v (C79). *)
From Coq Require Import QArith Qabs Qround String.
From Verif Require Import Base Scalars Chunks Arr2 Bands BlockArgs Blocks MapBlocks Vectors VectorTable MapOverlap GeoMap LineStats.
Open Scope Z_scope.

Inductive geom_type := LineString | MultiLineString | LinearRing | OtherType.
Record rect := Rect { x_min : Q; y_min : Q; x_max : Q; y_max : Q }.
(* shapely and geopandas on geometries, which are named by numbers *)
Record shapes (S : Type) := Shapes {
  type_of : Z -> geom_type;
  usable : Z -> bool;                   (* not empty and valid *)
  clipped : Z -> rect -> option Z;      (* GeoDataFrame.clip; None: the row is dropped *)
  parts_of : Z -> list Z;               (* explode *)
  verts_of : Z -> Z;
  touches : Q -> Z -> Q -> Q -> bool;   (* the buffer of the radius and the cell at y, x *)
  inside : Q -> Z -> Q -> Q -> option S (* the length in the circle around y, x, if any *) }.
Arguments type_of {S}. Arguments usable {S}. Arguments clipped {S}. Arguments parts_of {S}. Arguments verts_of {S}. Arguments touches {S}. Arguments inside {S}.
Inductive radius_arg := Radius (r : Q) | RadiusOther.
Inductive field_arg := FieldNone | FieldName (s : string) | FieldOther.

(* numpy's min and max *)
Definition qmin (l : list Q) : Q := fold_right (fun a b => if Qle_bool a b then a else b) (nth 0 l 0%Q) l.
Definition qmax (l : list Q) : Q := fold_right (fun a b => if Qle_bool a b then b else a) (nth 0 l 0%Q) l.

Section Length.
Context {S : Type}.
Variables (zero : S) (add mul : S -> S -> S).
(* lengths as cell values, sums of cell values, field values as weights *)
Variables (value : S -> num) (addn : num -> num -> num) (weight : num -> S).
Variable lib : shapes S.
Variable cast : dtype -> num -> num.

(* the value of a column; 0 is not reached *)
Fixpoint column_value (name : string) (columns : list string) (vals : list num) : num :=
  match columns, vals with
  | c :: columns, x :: vals => if String.eqb c name then x else column_value name columns vals
  | _, _ => of_Z 0
  end.
(* a line as LineStats.v has it: the cells of the block are numbered row by row *)
Definition block_line (r : Q) (yc xc : list Q) (l : Z) : @line S :=
  let at_cell {A} (f : Q -> Q -> A) (c : Z) := f (nth (Z.to_nat (c / len xc)) yc 0%Q) (nth (Z.to_nat (c mod len xc)) xc 0%Q) in
  Line (verts_of lib l) (at_cell (touches lib r l)) (at_cell (inside lib r l)).
(* line_stats.py:181-199 _length.  weights_column raises AttributeError, here KeyError,
   which Base has. *)
Definition length_grid (r : Q) (columns : list string) (field : option string) (rows : list row) (yc xc : list Q) : res (list (list num)) :=
  let reshape out := map (fun i => map (fun j => value (nth (Z.to_nat (i * len xc + j)) out zero)) (zrange 0 (len xc))) (zrange 0 (len yc)) in
  match rows with
  | [] => Ok (reshape (full (len yc * len xc) zero))
  | _ =>
      match weights_column field with
      | inr AttributeError => Err KeyError
      | inl weights =>
          let feature w := Feature (map (block_line r yc xc) (parts_of lib (w_geom w)))
                             (match weights with Some name => weight (column_value name columns (w_vals w)) | None => zero end) in
          let* out := length_block zero add mul (match weights with Some _ => true | None => false end) (len yc * len xc) (map feature rows) in
          Ok (reshape out)
      end
  end.
(* line_stats.py:202-221 _length_chunk: the features that can be used, clipped to the
   block and the radius around it.  Blocks have one band (expand_dims adds it; here the
   result has as many bands as the block).  A block without cells, where numpy's min
   raises, does not occur. *)
Definition aoi (r : Q) (yc xc : list Q) : rect := Rect (qmin xc - r) (qmin yc - r) (qmax xc + r) (qmax yc + r).
Definition clip_rows (a : rect) (rows : list row) : list row :=
  flat_map (fun w => match clipped lib (w_geom w) a with Some g => [Row g (w_vals w)] | None => [] end)
    (filter (fun w => usable lib (w_geom w)) rows).
Definition length_chunk (r : Q) (columns : list string) (field : option string) (rows : list row) : gfunc :=
  GFunc false false (fun _ _ _ p =>
    let yc := geo_y p in let xc := geo_x p in
    let* grid := length_grid r columns field (clip_rows (aoi r yc xc) rows) yc xc in
    Ok (RData (map (fun _ => grid) (geo_band p)))).

(* Raster.get_bands(1) *)
Definition first_band (r : georaster) : georaster :=
  let '(_, ycs, xcs) := b_chunks (gr r) in
  GeoRaster (BRaster (b_dtype (gr r)) (b_nv (gr r)) ([1], ycs, xcs) (firstn 1 (b_data (gr r))) (firstn 1 (b_mask (gr r)))) (gr_box r) (gr_crs r).
(* np.ceil(radius / np.abs(resolution)); cells have a size *)
Definition depth_of (r size : Q) : Z := Qceiling (r / Qabs size).
(* da.sum(da.stack(partials), axis=0) *)
Definition add3 (a b : arr3 num) : arr3 num := map3 (fun '(x, y) => addn x y) (zip3 a b).
Definition sum_stack (l : list (arr3 num)) : res (arr3 num) :=
  match l with [] => Err ValueError | d :: l => Ok (fold_left add3 l d) end.

Variable files : string -> option (list layer).
Variable read_file : layer -> coll.
(* line_stats.py:224-313 length.  project: a geometry in the CRS of the raster; scalar_field:
   whether a column has numbers.  The result is data_to_raster_like: no null value. *)
Definition length (project : Z -> Z) (scalar_field : string -> bool) (features : vector_src) (like : georaster) (radius : radius_arg) (field : field_arg) : vres braster :=
  vbind (get_vector files read_file features) (fun v =>
  let like := first_band like in
  let columns := all_columns (c_schema (v_geo v)) in
  match radius with
  | RadiusOther => VRaise (VErr TypeError)
  | Radius r =>
      if Qle_bool r 0 then VRaise (VErr ValueError)
      else if match gr_crs like with None => true | Some _ => false end then VRaise (VErr ValueError)
      else if existsb (fun w => match type_of lib (w_geom (snd w)) with OtherType => true | _ => false end) (concat (c_parts (v_geo v))) then VRaise (VErr TypeError)
      else
        vbind (match field with
               | FieldNone => VOk None
               | FieldOther => VRaise (VErr TypeError)
               | FieldName s =>
                   if negb (in_columns s columns) then VRaise (VErr ValueError)
                   else if negb (scalar_field s) then VRaise (VErr TypeError) else VOk (Some s)
               end) (fun field =>
        lift (let* gdf := to_crs project v in
              let t := gb_affine (gr_box like) in
              let xdepth := depth_of r (af_a t) in
              let ydepth := depth_of r (af_e t) in
              let* partials := traverse (fun part =>
                let* p := geo_map_overlap cast (length_chunk r (s_columns (c_schema (v_geo gdf))) field (map snd part)) [like]
                            (PDict [(PInt 1, PInt ydepth); (PInt 2, PInt xdepth)]) (BNum (of_Z 0)) (Some F32) None F32 NvNone false in
                Ok (b_data p)) (c_parts (v_geo gdf)) in
              let* data := sum_stack partials in
              Ok (BRaster F32 None (b_chunks (gr like)) data (map3 (fun _ => false) data))))
  end).
End Length.
