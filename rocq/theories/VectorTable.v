(* Model of vector.py: Vector objects, their creation, operations and element
   access, and the reading of sources (vector.py:119-288, 342-404, 480-740).

   A row has a geometry (a number names it) and the values of the other columns; the
   index labels are ints.  CRSs, dtypes, index names, spatial partitions and file
   formats are left out.  Computing is not delayed here: an error that a lazy result
   raises when it is computed is raised at once. *)
From Coq Require Import QArith String.
From Verif Require Import Base Scalars Arr2 Vectors.
Open Scope Z_scope.

Record row := Row { w_geom : Z; w_vals : list num }.
(* the name of the active geometry column, and the names of the others *)
Record schema := Schema { s_geom : string; s_columns : list string }.
(* a dask_geopandas collection; the divisions may be unknown *)
Record coll := Coll { c_schema : schema; c_parts : list (list (Z * row)); c_divs : option (list Z) }.
Inductive geo := MemFrame (s : schema) (rows : list (Z * row)) | MemSeries (rows : list (Z * row)) | DaskFrame (c : coll) | DaskSeries (c : coll) | NotGeo.
Inductive size_arg := SizeNone | SizeInt (n : Z) | SizeOther.
Record vector := Vec { v_geo : coll; v_size : Z }.

Definition all_columns (s : schema) : list string := s_geom s :: s_columns s.
Definition map_rows (f : row -> row) (rows : list (Z * row)) : list (Z * row) := map (fun '(i, w) => (i, f w)) rows.
Definition map_coll (s : schema) (f : row -> row) (c : coll) : coll := Coll s (map (map_rows f) (c_parts c)) (c_divs c).
(* GeoSeries.to_frame("geometry") *)
Definition frame_schema : schema := Schema "geometry" [].
Definition only_geom (w : row) : row := Row (w_geom w) [].

(* dask's from_pandas(npartitions=1): sorted by the index; the divisions are the
   first and the last label, unknown for an empty frame.  (pandas may permute rows
   with equal labels; here they keep their order.) *)
Fixpoint insert_row (r : Z * row) (l : list (Z * row)) : list (Z * row) :=
  match l with
  | [] => [r]
  | x :: l' => if fst r <=? fst x then r :: l else x :: insert_row r l'
  end.
Definition sort_index (rows : list (Z * row)) : list (Z * row) := fold_right insert_row [] rows.
Definition from_geopandas (s : schema) (rows : list (Z * row)) : coll :=
  let rows := sort_index rows in
  Coll s [rows] (match rows with [] => None | r :: _ => Some [fst r; fst (List.last rows r)] end).

(* vector.py:342-354 _normalize_geo_data *)
Definition normalize_geo_data (g : geo) : res geo :=
  match g with
  | NotGeo => Err TypeError
  | MemSeries rows => Ok (MemFrame frame_schema (map_rows only_geom rows))
  | MemFrame _ _ => Ok g
  | DaskSeries c => match c_divs c with None => Err ValueError | Some _ => Ok (DaskFrame (map_coll frame_schema only_geom c)) end
  | DaskFrame c => match c_divs c with None => Err ValueError | Some _ => Ok g end
  end.
(* vector.py:369-404 Vector.__init__; the size is ignored for data in memory *)
Definition new_vector (g : geo) (size : size_arg) : res vector :=
  let* g := normalize_geo_data g in
  match g with
  | MemFrame s rows => Ok (Vec (from_geopandas s rows) (len rows))
  | DaskFrame c =>
      match c_divs c with
      | None => Err ValueError
      | Some divs =>
          let last_len := len (List.last (c_parts c) []) in
          match size with
          | SizeNone => let* n := vector_size divs last_len None in Ok (Vec c n)
          | SizeInt n => let* n := vector_size divs last_len (Some n) in Ok (Vec c n)
          | SizeOther => Err TypeError
          end
      end
  | _ => Err TypeError
  end.

(* vector.py:480-482 Vector.copy *)
Definition copy (v : vector) : res vector := new_vector (DaskFrame (v_geo v)) SizeNone.
(* vector.py:501-505 Vector.load *)
Definition load (v : vector) : res vector :=
  new_vector (MemFrame (c_schema (v_geo v)) (concat (c_parts (v_geo v)))) (SizeInt (v_size v)).
(* vector.py:664-681 Vector.to_crs; f transforms a geometry *)
Definition move (f : Z -> Z) (w : row) : row := Row (f (w_geom w)) (w_vals w).
Definition to_crs (f : Z -> Z) (v : vector) : res vector :=
  new_vector (DaskFrame (map_coll (c_schema (v_geo v)) (move f) (v_geo v))) (SizeInt (v_size v)).
(* vector.py:683-705 Vector.cast_field; name is None for something else than a
   string, f casts a value.  Casting the geometries is left out. *)
Fixpoint at_column (name : string) (f : num -> num) (columns : list string) (vals : list num) : list num :=
  match columns, vals with
  | c :: columns, x :: vals => if String.eqb c name then f x :: vals else x :: at_column name f columns vals
  | _, _ => vals
  end.
Definition cast_row (name : string) (f : num -> num) (columns : list string) (w : row) : row := Row (w_geom w) (at_column name f columns (w_vals w)).
Definition cast_field (name : option string) (f : num -> num) (v : vector) : res vector :=
  match name with
  | None => Err TypeError
  | Some name =>
      let s := c_schema (v_geo v) in
      if negb (in_columns name (all_columns s)) then Err ValueError
      else if String.eqb name (s_geom s) then Err TypeError
      else new_vector (DaskFrame (map_coll s (cast_row name f (s_columns s)) (v_geo v))) SizeNone
  end.
(* vector.py:736-752 Vector.buffer, 754-770 Vector.simplify: the result of the
   geopandas operation is a series of geometries *)
Definition buffer (f : Z -> Z) (v : vector) : res vector :=
  new_vector (DaskSeries (map_coll (c_schema (v_geo v)) (move f) (v_geo v))) SizeNone.
(* vector.py:415-418 Vector.table, 448-456 field_schema, field_names: the columns of
   _geo.drop(columns=["geometry"]) *)
Definition field_names (v : vector) : res (list string) :=
  let cols := all_columns (c_schema (v_geo v)) in
  if in_columns "geometry"%string cols then Ok (filter (fun c => negb (String.eqb c "geometry"%string)) cols) else Err KeyError.

(* Python's exceptions beyond those of Base *)
Inductive vexn := VErr (e : err) | VIOError | VNotImplementedError.
Inductive vres (A : Type) := VOk (a : A) | VRaise (e : vexn).
Arguments VOk {A} a.
Arguments VRaise {A} e.
Definition lift {A} (r : res A) : vres A := match r with Ok a => VOk a | Err e => VRaise (VErr e) end.
Definition vbind {A B} (r : vres A) (k : A -> vres B) : vres B := match r with VOk a => k a | VRaise e => VRaise e end.
Fixpoint vtraverse {A B} (f : A -> vres B) (l : list A) : vres (list B) :=
  match l with
  | [] => VOk []
  | x :: l => vbind (f x) (fun y => vbind (vtraverse f l) (fun ys => VOk (y :: ys)))
  end.

(* dask's _loc of a list of one label: the partition is chosen by the divisions
   (bisect_right), pandas looks the label up there *)
Fixpoint bisect_right (divs : list Z) (x : Z) : Z :=
  match divs with [] => 0 | d :: divs => if d <=? x then 1 + bisect_right divs x else 0 end.
Definition loc_list (c : coll) (label : Z) : res (list (Z * row)) :=
  match c_divs c with
  | None => Err KeyError
  | Some divs =>
      let* part := get (c_parts c) (Z.min (len divs - 2) (Z.max 0 (bisect_right divs label - 1))) in
      match filter (fun r => fst r =? label) part with [] => Err KeyError | l => Ok l end
  end.
Inductive idx_arg := IdxInt (i : Z) | IdxSlice | IdxOther.
(* vector.py:707-734 Vector.__getitem__ *)
Definition getitem_vector (v : vector) (idx : idx_arg) : vres vector :=
  match idx with
  | IdxSlice => VRaise VNotImplementedError
  | IdxOther => VRaise (VErr TypeError)
  | IdxInt idx =>
      lift (let* label := getitem (v_size v) idx in
            let* rows := loc_list (v_geo v) label in
            new_vector (DaskFrame (Coll (c_schema (v_geo v)) [map (fun '(_, w) => (0, w)) rows] (Some [0; 1]))) (SizeInt 1))
  end.
(* for x in v: __getitem__ of 0, 1, ... until it raises IndexError *)
Fixpoint iterate (fuel : nat) (i : Z) (v : vector) : vres (list vector) :=
  match fuel with
  | O => VRaise (VErr OutOfFuel)
  | S fuel =>
      match getitem_vector v (IdxInt i) with
      | VRaise (VErr IndexError) => VOk []
      | VRaise e => VRaise e
      | VOk x => vbind (iterate fuel (i + 1) v) (fun xs => VOk (x :: xs))
      end
  end.

(* ---- sources ---- *)
(* a layer of a source: its name, the columns and the features *)
Record layer := Layer { l_name : string; l_schema : schema; l_rows : list row }.
Inductive layer_id := LName (s : string) | LIndex (i : Z) | LOther.
Inductive layers_arg := LayersNone | LayersList (l : list layer_id) | LayersOne (i : layer_id).
Inductive opened := One (v : vector) | Many (vs : list vector).

Section Sources.
(* the source at a path, if there is one *)
Variable files : string -> option (list layer).
(* dask_geopandas.read_file(path, layer=layer, chunksize=50_000) *)
Variable read_file : layer -> coll.

Definition is_name (i : layer_id) : bool := match i with LName _ => true | _ => false end.
Definition is_index (i : layer_id) : bool := match i with LIndex _ => true | _ => false end.
(* vector.py:119-133 _normalize_layers_arg *)
Definition normalize_layers_arg (a : layers_arg) : res (list layer_id) :=
  match a with
  | LayersList l =>
      match l with
      | [] => Err ValueError
      | first :: _ => if forallb (if is_name first then is_name else is_index) l then Ok l else Err TypeError
      end
  | LayersOne i => if is_index i || is_name i then Ok [i] else Err TypeError
  | LayersNone => Err TypeError
  end.
Definition find_layer (src : list layer) (name : string) : option layer := find (fun l => String.eqb (l_name l) name) src.
(* the layer OGR reads; by then it exists *)
Definition get_layer (src : list layer) (i : layer_id) : res layer :=
  match i with
  | LName s => match find_layer src s with Some l => Ok l | None => Err ValueError end
  | LIndex i => get src i
  | LOther => Err TypeError
  end.
(* vector.py:139-198 open_vectors, with pyogrio; 59-87 count_layer_features *)
Definition open_vectors (path : string) (layers : layers_arg) : vres opened :=
  match files path with
  | None => VRaise VIOError
  | Some src =>
      let n_layers := len src in
      vbind (lift (match layers with
                   | LayersNone => Ok (map (fun l => LName (l_name l)) src)
                   | _ =>
                       let* ids := normalize_layers_arg layers in
                       let bad i := match i with
                                    | LName s => match find_layer src s with Some _ => false | None => true end
                                    | LIndex i => (n_layers <=? i) || (i <? 0)
                                    | LOther => false
                                    end in
                       if existsb bad ids then Err ValueError else Ok ids
                   end)) (fun ids =>
      vbind (lift (traverse (fun i => let* l := get_layer src i in new_vector (DaskFrame (read_file l)) (SizeInt (len (l_rows l)))) ids)) (fun vs =>
      match vs with
      | [] => VRaise (VErr IndexError)
      | [v] => VOk (One v)
      | _ => VOk (Many vs)
      end))
  end.

(* the argument of get_vector: a Vector, a path (a str or a Path), a frame or series,
   or something else *)
Inductive vector_src := SrcVector (v : vector) | SrcPath (path : string) (is_str : bool) | SrcGeo (g : geo).
(* vector.py:201-213 get_vector *)
Definition get_vector (src : vector_src) : vres vector :=
  match src with
  | SrcVector v => VOk v
  | SrcPath path _ => vbind (open_vectors path LayersNone) (fun o => match o with One v => VOk v | Many _ => VRaise (VErr ValueError) end)
  | SrcGeo g => lift (new_vector g SizeNone)
  end.
(* vector.py:216-232 get_dask_geodataframe *)
Definition get_dask_geodataframe (src : vector_src) : vres coll :=
  match src with
  | SrcVector v => VOk (v_geo v)
  | SrcPath _ _ => vbind (get_vector src) (fun v => VOk (v_geo v))
  | SrcGeo (MemSeries rows) => VOk (from_geopandas frame_schema (map_rows only_geom rows))
  | SrcGeo (DaskSeries c) => VOk (map_coll frame_schema only_geom c)
  | SrcGeo (MemFrame s rows) => VOk (from_geopandas s rows)
  | SrcGeo (DaskFrame c) => VOk c
  | SrcGeo NotGeo => VRaise (VErr TypeError)
  end.
(* vector.py:235-240 _add_objid: the ids of a partition as a new last column *)
Definition add_ids (number base : Z) (part : list (Z * row)) : list (Z * row) :=
  map (fun '((i, w), k) => (i, Row (w_geom w) (w_vals w ++ [of_Z k]))) (combine part (add_objid number base (len part))).
(* vector.py:246-288 add_objectid_column: a Vector or a frame *)
Definition add_objectid_column (base : Z) (src : vector_src) (name : option string) : vres (vector + coll) :=
  vbind (get_dask_geodataframe src) (fun feats =>
  vbind (lift (objectid_name (all_columns (c_schema feats)) name)) (fun name =>
  let parts := map (fun '(number, part) => add_ids number base part) (combine (zrange 0 (len (c_parts feats))) (c_parts feats)) in
  let df_new := Coll (Schema (s_geom (c_schema feats)) (s_columns (c_schema feats) ++ [name])) parts (c_divs feats) in
  match src with
  | SrcVector _ | SrcPath _ true => lift (let* v := new_vector (DaskFrame df_new) SizeNone in Ok (inl v))
  | _ => VOk (inr df_new)
  end)).
End Sources.
