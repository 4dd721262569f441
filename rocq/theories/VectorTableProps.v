(* C79: Vectors as tables of features.
   rows_of v are the features of v with their index labels; good a v: the labels are
   a, a + 1, ..., the divisions fit, and the size of v is the number of features. *)
From Coq Require Import QArith String Permutation Sorted.
From Verif Require Import Base Scalars Vectors VectorTable VectorTableSpec VectorTableProofs VectorTableSources.
Open Scope Z_scope.

(* C79: data in memory makes a Vector of all rows, in the order of their labels *)
Theorem C79_memory : forall s rows size, exists v, new_vector (MemFrame s rows) size = Ok v /\ v_size v = len rows /\ c_schema (v_geo v) = s
  /\ Permutation (rows_of v) rows /\ StronglySorted Z.le (map fst (rows_of v)) /\ (forall a, rows <> [] -> Permutation (map fst rows) (zrange a (a + len rows)) -> good a v).
Proof. exact new_mem. Qed.
Print Assumptions C79_memory.

(* C79: a lazy collection is taken as it is; its size is found, or must fit the
   divisions *)
Theorem C79_lazy : forall a c, regular a c ->
  new_vector (DaskFrame c) SizeNone = Ok (Vec c (len (features c)))
  /\ new_vector (DaskFrame c) (SizeInt (len (features c))) = Ok (Vec c (len (features c)))
  /\ forall n, exists divs, c_divs c = Some divs /\
     new_vector (DaskFrame c) (SizeInt n) = if (n =? List.last divs 0 - a) || (n =? List.last divs 0 - a + 1) then Ok (Vec c n) else Err ValueError.
Proof. exact (fun a c R => conj (new_dask a c R) (conj (new_dask_right a c R) (fun n => new_dask_size a c n R))). Qed.
Print Assumptions C79_lazy.

(* C79: copying, loading, transforming and buffering keep the features, their order,
   their labels and the size *)
Theorem C79_operations : forall a v f, good a v ->
  copy v = Ok v
  /\ (exists w, load v = Ok w /\ changed a (c_schema (v_geo v)) (fun x => x) v w /\ len (c_parts (v_geo w)) = 1)
  /\ (exists w, to_crs f v = Ok w /\ changed a (c_schema (v_geo v)) (fun x => Row (f (w_geom x)) (w_vals x)) v w)
  /\ (exists w, buffer f v = Ok w /\ changed a (Schema "geometry" []) (fun x => Row (f (w_geom x)) []) v w).
Proof. exact (fun a v f G => conj (copy_ok a v G) (conj (load_ok a v G) (conj (crs_ok a f v G) (buffer_ok a f v G)))). Qed.
Print Assumptions C79_operations.

(* C79: cast_field changes the values of that column and nothing else *)
Theorem C79_cast_field : forall a name f v, good a v -> NoDup (s_columns (c_schema (v_geo v))) -> In name (s_columns (c_schema (v_geo v))) -> name <> s_geom (c_schema (v_geo v)) ->
  exists w g, cast_field (Some name) f v = Ok w /\ changed a (c_schema (v_geo v)) g v w /\ forall x, cast_column name f (s_columns (c_schema (v_geo v))) x (g x).
Proof. exact cast_ok. Qed.
Print Assumptions C79_cast_field.

(* C79: v[i] is the i-th feature (counted from the end for negative i), a Vector of
   size 1 with label 0, of which element 0 can be taken again *)
Theorem C79_getitem : forall v i, good 0 v ->
  (- v_size v <= i < v_size v -> exists x w, getitem_vector v (IdxInt i) = VOk x /\ good 0 x /\ v_size x = 1 /\ c_schema (v_geo x) = c_schema (v_geo v)
    /\ rows_of x = [(0, w)] /\ get (rows_of v) (i mod v_size v) = Ok (i mod v_size v, w))
  /\ (i < - v_size v \/ v_size v <= i -> getitem_vector v (IdxInt i) = VRaise (VErr IndexError)).
Proof. exact getitem_all. Qed.
Print Assumptions C79_getitem.

(* C79: a label that no feature has raises KeyError *)
Theorem C79_missing_label : forall v i divs, c_divs (v_geo v) = Some divs -> len (c_parts (v_geo v)) = len divs - 1 -> 2 <= len divs -> - v_size v <= i < v_size v ->
  (forall r, In r (rows_of v) -> fst r <> i mod v_size v) -> getitem_vector v (IdxInt i) = VRaise (VErr KeyError).
Proof. exact missing_label. Qed.
Print Assumptions C79_missing_label.

(* C79: iterating gives every feature once, in order *)
Theorem C79_iteration : forall v fuel, good 0 v -> (length (rows_of v) < fuel)%nat ->
  exists xs, iterate fuel 0 v = VOk xs /\ Forall2 (fun r x => rows_of x = [(0, snd r)] /\ good 0 x /\ c_schema (v_geo x) = c_schema (v_geo v)) (rows_of v) xs.
Proof. exact iterate_all. Qed.
Print Assumptions C79_iteration.

(* C79: add_objectid_column appends a new column of distinct ids; the rest stays *)
Theorem C79_object_ids : forall files read_file base src c name, 0 <= base -> get_dask_geodataframe files read_file src = VOk c -> Forall (fun p => len p <= base) (c_parts c) ->
  (forall n, name = Some n -> ~ In n (all_columns (c_schema c))) ->
  exists nm ids c', ~ In nm (all_columns (c_schema c)) /\ (forall n, name = Some n -> nm = n) /\ (name = None -> ~ In "OBJECTID"%string (all_columns (c_schema c)) -> nm = "OBJECTID"%string)
  /\ NoDup ids /\ len ids = len (features c) /\ c_schema c' = Schema (s_geom (c_schema c)) (s_columns (c_schema c) ++ [nm])
  /\ features c' = map (fun x => (fst (fst x), Row (w_geom (snd (fst x))) (w_vals (snd (fst x)) ++ [of_Z (snd x)]))) (combine (features c) ids)
  /\ (forall a, regular a c -> regular a c')
  /\ match src with
     | SrcVector _ | SrcPath _ true => forall a, regular a c -> add_objectid_column files read_file base src name = VOk (inl (Vec c' (len (features c))))
     | _ => add_objectid_column files read_file base src name = VOk (inr c')
     end.
Proof. exact ids_ok. Qed.
Print Assumptions C79_object_ids.

(* C79: open_vectors gives each requested layer of a source, all without a request;
   one Vector when there is one *)
Theorem C79_open : forall files read_file path src, files path = Some src ->
  (NoDup (map l_name src) -> Forall (reads read_file) src -> exists vs, Forall2 holds src vs /\ open_vectors files read_file path LayersNone = as_opened vs)
  /\ (forall names ls, names <> [] -> Forall2 (fun s l => find (fun l => String.eqb (l_name l) s) src = Some l) names ls -> Forall (reads read_file) ls ->
      exists vs, Forall2 holds ls vs /\ open_vectors files read_file path (LayersList (map LName names)) = as_opened vs)
  /\ (forall is ls, is <> [] -> Forall2 (fun i l => get src i = Ok l) is ls -> Forall (reads read_file) ls ->
      exists vs, Forall2 holds ls vs /\ open_vectors files read_file path (LayersList (map LIndex is)) = as_opened vs)
  /\ (forall i, open_vectors files read_file path (LayersOne i) = open_vectors files read_file path (LayersList [i])).
Proof. exact open_all_ways. Qed.
Print Assumptions C79_open.

(* C79: wrong requests *)
Theorem C79_open_refused : forall files read_file path, 
  (files path = None -> forall layers, open_vectors files read_file path layers = VRaise VIOError)
  /\ forall src, files path = Some src ->
     open_vectors files read_file path (LayersList []) = VRaise (VErr ValueError)
     /\ (forall names s, In s names -> ~ In s (map l_name src) -> open_vectors files read_file path (LayersList (map LName names)) = VRaise (VErr ValueError))
     /\ (forall is i, In i is -> i < 0 \/ len src <= i -> open_vectors files read_file path (LayersList (map LIndex is)) = VRaise (VErr ValueError))
     /\ (forall ids s i, In (LName s) ids -> In (LIndex i) ids -> open_vectors files read_file path (LayersList ids) = VRaise (VErr TypeError))
     /\ (forall ids, In LOther ids -> open_vectors files read_file path (LayersList ids) = VRaise (VErr TypeError)).
Proof. exact open_refused. Qed.
Print Assumptions C79_open_refused.

(* C79: get_vector and get_dask_geodataframe agree; a source of several layers is
   refused *)
Theorem C79_sources : forall files read_file,
  (forall src v, get_vector files read_file src = VOk v -> get_dask_geodataframe files read_file src = VOk (v_geo v))
  /\ (forall v, get_vector files read_file (SrcVector v) = VOk v)
  /\ (forall path is_str v, open_vectors files read_file path LayersNone = VOk (One v) -> get_vector files read_file (SrcPath path is_str) = VOk v)
  /\ (forall path is_str vs, open_vectors files read_file path LayersNone = VOk (Many vs) -> get_vector files read_file (SrcPath path is_str) = VRaise (VErr ValueError))
  /\ get_vector files read_file (SrcGeo NotGeo) = VRaise (VErr TypeError) /\ get_dask_geodataframe files read_file (SrcGeo NotGeo) = VRaise (VErr TypeError)
  /\ (forall rows, get_vector files read_file (SrcGeo (MemSeries rows)) = get_vector files read_file (SrcGeo (MemFrame (Schema "geometry" []) (map (fun r => (fst r, Row (w_geom (snd r)) [])) rows)))).
Proof. exact sources_agree. Qed.
Print Assumptions C79_sources.

(* C79: wrong arguments *)
Theorem C79_refused : forall v f c,
  getitem_vector v IdxSlice = VRaise VNotImplementedError /\ getitem_vector v IdxOther = VRaise (VErr TypeError)
  /\ cast_field None f v = Err TypeError
  /\ (forall name, ~ In name (all_columns (c_schema (v_geo v))) -> cast_field (Some name) f v = Err ValueError)
  /\ new_vector NotGeo SizeNone = Err TypeError
  /\ (forall size, c_divs c = None -> new_vector (DaskFrame c) size = Err ValueError /\ new_vector (DaskSeries c) size = Err ValueError)
  /\ (c_divs c <> None -> new_vector (DaskFrame c) SizeOther = Err TypeError)
  /\ (forall files read_file base src d n, get_dask_geodataframe files read_file src = VOk d -> In n (all_columns (c_schema d)) -> add_objectid_column files read_file base src (Some n) = VRaise (VErr ValueError)).
Proof. exact refused. Qed.
Print Assumptions C79_refused.

(* ---- findings ---- *)
Definition two : schema := Schema "geometry" ["a"%string].
Definition gap : list (Z * row) := [(0, Row 10 [of_Z 1]); (5, Row 15 [of_Z 2])].
(* finding: vector.py:396-404 compares the size with the divisions; for data in
   memory with gaps in the index (a selection of rows) they do not fit, and to_crs
   raises ValueError *)
Theorem C79_gaps_refuted : ~ (forall s rows f v, NoDup (map fst rows) -> new_vector (MemFrame s rows) SizeNone = Ok v -> exists w, to_crs f v = Ok w).
Proof.
  intros H. destruct (H two gap (fun g => g) (Vec (from_geopandas two gap) 2)) as [w E]; [repeat constructor; cbn; intuition discriminate|reflexivity|]. vm_compute in E. discriminate.
Qed.
Print Assumptions C79_gaps_refuted.
(* finding: elements are looked up by label, so labels other than 0, 1, ... break
   v[i] and iteration *)
Theorem C79_labels_refuted : ~ (forall s rows v i, NoDup (map fst rows) -> new_vector (MemFrame s rows) SizeNone = Ok v -> 0 <= i < v_size v -> exists x, getitem_vector v (IdxInt i) = VOk x).
Proof.
  intros H. destruct (H two gap (Vec (from_geopandas two gap) 2) 1) as [w E]; [repeat constructor; cbn; intuition discriminate|reflexivity|cbn; lia|]. vm_compute in E. discriminate.
Qed.
Print Assumptions C79_labels_refuted.
(* finding: "This should never overcount" (vector.py:292): a collection whose rows
   were filtered keeps its divisions; the size is then too large *)
Definition kept : coll := Coll two [[(1, Row 11 [of_Z 1])]; [(2, Row 12 [of_Z 2]); (3, Row 13 [of_Z 3])]] (Some [0; 2; 3]).
Theorem C79_count_refuted : ~ (forall c v, new_vector (DaskFrame c) SizeNone = Ok v -> v_size v <= len (features c)).
Proof. intros H. specialize (H kept (Vec kept 4) eq_refl). vm_compute in H. now apply H. Qed.
Print Assumptions C79_count_refuted.
(* finding: a size that is one too small is accepted *)
Theorem C79_size_refuted : ~ (forall a c n v, regular a c -> new_vector (DaskFrame c) (SizeInt n) = Ok v -> n = len (features c)).
Proof.
  intros H. set (rows := [(0, Row 10 []); (1, Row 11 [])]). assert (R : regular 0 (from_geopandas frame_schema rows)) by (apply from_geopandas_regular; [discriminate|reflexivity]).
  specialize (H 0 _ 1 (Vec (from_geopandas frame_schema rows) 1) R eq_refl). vm_compute in H. discriminate.
Qed.
Print Assumptions C79_size_refuted.
(* finding: buffer and simplify drop the fields *)
Theorem C79_buffer_refuted : ~ (forall a v f w, good a v -> buffer f v = Ok w -> c_schema (v_geo w) = c_schema (v_geo v)).
Proof.
  intros H. assert (R : regular 0 (from_geopandas two [(0, Row 10 [of_Z 1])])) by (apply from_geopandas_regular; [discriminate|reflexivity]).
  specialize (H 0 (Vec (from_geopandas two [(0, Row 10 [of_Z 1])]) 1) (fun g => g) _ (conj R eq_refl) eq_refl). vm_compute in H. discriminate.
Qed.
Print Assumptions C79_buffer_refuted.
(* finding: the fields of a frame whose geometry column has another name cannot be
   listed *)
Theorem C79_geometry_name_refuted : ~ (forall a v, good a v -> exists names, field_names v = Ok names).
Proof.
  intros H. assert (R : regular 0 (from_geopandas (Schema "geom" []) [(0, Row 10 [])])) by (apply from_geopandas_regular; [discriminate|reflexivity]).
  destruct (H 0 (Vec (from_geopandas (Schema "geom" []) [(0, Row 10 [])]) 1) (conj R eq_refl)) as [names E]. vm_compute in E. discriminate.
Qed.
Print Assumptions C79_geometry_name_refuted.
(* finding: an empty Vector can be made but not copied (dask knows no divisions) *)
Theorem C79_empty_refuted : ~ (forall s rows v, new_vector (MemFrame s rows) SizeNone = Ok v -> exists w, copy v = Ok w).
Proof. intros H. destruct (H two [] _ eq_refl) as [w E]. vm_compute in E. discriminate. Qed.
Print Assumptions C79_empty_refuted.

(* ---- examples ---- *)
Definition roads : layer := Layer "roads" two [Row 10 [of_Z 1]; Row 11 [of_Z 2]; Row 12 [of_Z 3]].
Definition lakes : layer := Layer "lakes" two [Row 20 [of_Z 4]].
Definition a_file (p : string) : option (list layer) := if String.eqb p "a.gpkg" then Some [roads; lakes] else None.
(* partitions of two features *)
Definition in_twos (l : layer) : coll :=
  match l_rows l with
  | [a; b; c] => Coll (l_schema l) [[(0, a); (1, b)]; [(2, c)]] (Some [0; 2; 2])
  | rows => from_geopandas (l_schema l) (combine (zrange 0 (len rows)) rows)
  end.
Example C79_reads : Forall (reads in_twos) [roads; lakes] /\ NoDup (map l_name [roads; lakes]).
Proof.
  split; [|repeat constructor; cbn; intuition discriminate]. constructor; [|constructor; [|constructor]]; (split; [|split; reflexivity]).
  - apply (chain_regular 0 _ 2); [repeat split; discriminate|discriminate|reflexivity|now left].
  - apply from_geopandas_regular; [discriminate|reflexivity].
Qed.
Example C79_file : exists v w, open_vectors a_file in_twos "a.gpkg" LayersNone = VOk (Many [v; w]) /\ v_size v = 3 /\ open_vectors a_file in_twos "a.gpkg" (LayersOne (LIndex 1)) = VOk (One w)
  /\ (exists x, getitem_vector v (IdxInt (-1)) = VOk x /\ rows_of x = [(0, Row 12 [of_Z 3])])
  /\ (exists x, cast_field (Some "a"%string) (fun _ => NaN) v = Ok x /\ rows_of x = [(0, Row 10 [NaN]); (1, Row 11 [NaN]); (2, Row 12 [NaN])])
  /\ (exists x, add_objectid_column a_file in_twos 1000000000 (SrcVector v) None = VOk (inl x) /\ s_columns (c_schema (v_geo x)) = ["a"; "OBJECTID"]%string
      /\ rows_of x = [(0, Row 10 [of_Z 1; of_Z 1]); (1, Row 11 [of_Z 2; of_Z 2]); (2, Row 12 [of_Z 3; of_Z 1000000001])])
  /\ get_vector a_file in_twos (SrcPath "a.gpkg" true) = VRaise (VErr ValueError) /\ field_names v = Ok ["a"%string].
Proof. do 2 eexists. split; [reflexivity|]. repeat split; try reflexivity; eexists; repeat split; reflexivity. Qed.
