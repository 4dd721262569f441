From Coq Require Import QArith String Permutation Sorted.
From Verif Require Import Base BaseFacts Scalars Arr2 Arr2Facts ChunksProofs CostPublicProofs ProximityChunk RasterStack Vectors VectorsProofs VectorTable VectorTableSpec VectorTableProofs.
Open Scope Z_scope.

(* ---- object ids ---- *)
Lemma regular_like a c c' : Forall2 (fun p q => map fst q = map fst p) (c_parts c) (c_parts c') -> c_divs c' = c_divs c -> regular a c -> regular a c' /\ len (features c') = len (features c).
Proof.
  intros F ED R. destruct (regular_chain a c R) as (C & N & e & E & HE).
  assert (LP : forall p q : list (Z * row), map fst q = map fst p -> len q = len p) by (intros p q X; rewrite <- (len_map fst q), <- (len_map fst p); now rewrite X).
  assert (LF : len (features c') = len (features c)) by (clear -F LP; unfold features; induction F as [|p q ps qs H F IH]; [reflexivity|]; cbn [concat]; rewrite !len_app, (LP p q H), IH; reflexivity).
  split; [|exact LF]. apply (chain_regular a _ e).
  - clear -F C LP. revert a C. induction F as [|p q ps qs H F IH]; intros a C; [exact I|]. destruct C as (Np & Ep & C). cbn [chain]. rewrite (LP p q H). split; [|split; [congruence|now apply IH]]. intros ->. now destruct p.
  - intros X. rewrite X in F. inversion F. congruence.
  - rewrite ED, E. do 2 f_equal. clear -F. induction F as [|p q ps qs H F IH]; [reflexivity|]. cbn [map]. rewrite IH. f_equal. destruct p, q; cbn in *; congruence.
  - now rewrite LF.
Qed.
Lemma combine_app {A B} (a : list A) : forall (c : list B) b d, length a = length c -> combine (a ++ b) (c ++ d) = combine a c ++ combine b d.
Proof. induction a as [|x a IH]; intros [|y c] b d L; try discriminate; [reflexivity|]. cbn in *. now rewrite IH by lia. Qed.
Definition with_id (r : Z * row) (k : Z) : Z * row := (fst r, Row (w_geom (snd r)) (w_vals (snd r) ++ [of_Z k])).
Lemma add_ids_eq n base p : add_ids n base p = map (fun x => with_id (fst x) (snd x)) (combine p (add_objid n base (len p))).
Proof. unfold add_ids. apply map_ext. now intros [[i w] k]. Qed.
Lemma objid_length n base m : 0 <= m -> length (add_objid n base m) = Z.to_nat m.
Proof. intros H. apply Nat2Z.inj. change (len (add_objid n base m) = Z.of_nat (Z.to_nat m)). unfold add_objid. rewrite len_map, len_zrange. lia. Qed.
Lemma ids_concat base parts : forall nums, length nums = length parts ->
  concat (map (fun '(number, part) => add_ids number base part) (combine nums parts))
  = map (fun x => with_id (fst x) (snd x)) (combine (concat parts) (concat (map (fun '(p, n) => add_objid p base n) (combine nums (map (fun p => len p) parts))))).
Proof.
  induction parts as [|p parts IH]; intros [|n nums] L; try discriminate; [reflexivity|]. cbn [combine map concat]. rewrite combine_app, map_app, <- IH by (cbn in L; lia || (rewrite objid_length by apply len_nonneg; unfold len; lia)). f_equal. apply add_ids_eq.
Qed.
Lemma ids_fst n base p : map fst (add_ids n base p) = map fst p.
Proof.
  rewrite add_ids_eq, map_map. assert (L : length (add_objid n base (len p)) = length p) by (rewrite objid_length by apply len_nonneg; unfold len; lia). revert L. generalize (add_objid n base (len p)). induction p as [|r p IH]; intros [|k l] L; try discriminate; [reflexivity|]. cbn in *. f_equal. apply IH. lia.
Qed.
(* the collection with the ids in the column nm *)
Definition id_coll (base : Z) (nm : string) (c : coll) : coll :=
  Coll (Schema (s_geom (c_schema c)) (s_columns (c_schema c) ++ [nm])) (map (fun '(number, part) => add_ids number base part) (combine (zrange 0 (len (c_parts c))) (c_parts c))) (c_divs c).
Lemma nums_length {A} (l : list A) : length (zrange 0 (len l)) = length l.
Proof. unfold zrange. rewrite map_length, seq_length. unfold len. lia. Qed.
Lemma id_coll_spec base nm c : 0 <= base -> Forall (fun p => len p <= base) (c_parts c) ->
  exists ids, NoDup ids /\ len ids = len (features c) /\ features (id_coll base nm c) = map (fun x => with_id (fst x) (snd x)) (combine (features c) ids).
Proof.
  intros HB F. exists (concat (object_ids base (map (fun p => len p) (c_parts c)))). destruct (object_ids_unique base (map (fun p => len p) (c_parts c)) HB) as [ND FL].
  { apply Forall_map. rewrite Forall_forall in F |- *. intros p Hp. split; [apply len_nonneg|now apply F]. }
  split; [exact ND|]. split.
  - unfold features. clear -FL. revert FL. generalize (object_ids base (map (fun p => len p) (c_parts c))). induction (c_parts c) as [|p ps IH]; intros l FL; inversion FL; subst; [reflexivity|]. cbn [concat]. rewrite !len_app. f_equal; [assumption|]. now apply IH.
  - unfold features at 1. unfold id_coll. cbn [c_parts]. rewrite ids_concat by apply nums_length. unfold object_ids. now rewrite len_map.
Qed.
Lemma id_coll_regular a base nm c : regular a c -> regular a (id_coll base nm c) /\ len (features (id_coll base nm c)) = len (features c).
Proof.
  intros R. apply (regular_like a c); [|reflexivity|exact R]. unfold id_coll. cbn [c_parts]. pose proof (nums_length (c_parts c)) as L. revert L. generalize (zrange 0 (len (c_parts c))). induction (c_parts c) as [|p ps IH]; intros [|n l] L; try discriminate; [constructor|]. cbn [combine map]. constructor; [apply ids_fst|]. apply IH. cbn in L. lia.
Qed.

Section Sources.
Variable files : string -> option (list layer).
Variable read_file : layer -> coll.
Notation add_ids_col := (add_objectid_column files read_file).
Notation open := (open_vectors files read_file).
Notation get_v := (get_vector files read_file).
Notation get_frame := (get_dask_geodataframe files read_file).

Lemma name_cases columns name nm : objectid_name columns name = Ok nm -> ~ In nm columns /\ (forall n, name = Some n -> nm = n) /\ (name = None -> ~ In "OBJECTID"%string columns -> nm = "OBJECTID"%string).
Proof.
  intros E. destruct name as [n|].
  - rewrite objectid_name_given in E. destruct (in_dec string_dec n columns) as [H|H]; [discriminate|]. injection E as <-. split; [exact H|]. split; [congruence|discriminate].
  - destruct (objectid_name_new columns) as (m & E' & H & HC). rewrite E in E'. injection E' as <-. split; [exact H|]. split; [discriminate|]. intros _ NI. destruct HC as [HC|[HC _]]; [exact HC|contradiction].
Qed.
Lemma name_ok columns name : (forall n, name = Some n -> ~ In n columns) -> exists nm, objectid_name columns name = Ok nm.
Proof.
  intros H. destruct name as [n|]; [|destruct (objectid_name_new columns) as (m & E & _); eauto]. exists n. rewrite objectid_name_given. destruct (in_dec string_dec n columns) as [X|X]; [|reflexivity]. now apply H in X.
Qed.
Lemma ids_ok base src c name : 0 <= base -> get_frame src = VOk c -> Forall (fun p => len p <= base) (c_parts c) -> (forall n, name = Some n -> ~ In n (all_columns (c_schema c))) ->
  exists nm ids c', ~ In nm (all_columns (c_schema c)) /\ (forall n, name = Some n -> nm = n) /\ (name = None -> ~ In "OBJECTID"%string (all_columns (c_schema c)) -> nm = "OBJECTID"%string)
  /\ NoDup ids /\ len ids = len (features c) /\ c_schema c' = Schema (s_geom (c_schema c)) (s_columns (c_schema c) ++ [nm])
  /\ features c' = map (fun x => with_id (fst x) (snd x)) (combine (features c) ids)
  /\ (forall a, regular a c -> regular a c')
  /\ match src with
     | SrcVector _ | SrcPath _ true => forall a, regular a c -> add_ids_col base src name = VOk (inl (Vec c' (len (features c))))
     | _ => add_ids_col base src name = VOk (inr c')
     end.
Proof.
  intros HB EG F NM. destruct (name_ok _ _ NM) as [nm EN]. destruct (name_cases _ _ _ EN) as (N1 & N2 & N3). destruct (id_coll_spec base nm c HB F) as (ids & I1 & I2 & I3). exists nm, ids, (id_coll base nm c).
  split; [exact N1|]. split; [exact N2|]. split; [exact N3|]. split; [exact I1|]. split; [exact I2|]. split; [reflexivity|]. split; [exact I3|]. split; [intros a R; now apply id_coll_regular|].
  assert (X : add_ids_col base src name = match src with SrcVector _ | SrcPath _ true => lift (let* v := new_vector (DaskFrame (id_coll base nm c)) SizeNone in Ok (inl v)) | _ => VOk (inr (id_coll base nm c)) end).
  { unfold add_objectid_column. rewrite EG. cbn [vbind]. rewrite EN. reflexivity. }
  rewrite X. assert (Y : forall a, regular a c -> lift (let* v := new_vector (DaskFrame (id_coll base nm c)) SizeNone in Ok (inl v)) = @VOk (vector + coll) (inl (Vec (id_coll base nm c) (len (features c))))).
  { intros a R. destruct (id_coll_regular a base nm c R) as [R' L]. rewrite (new_dask a) by exact R'. now rewrite L. }
  destruct src as [v|p [|]|g]; auto.
Qed.
Lemma ids_taken base src c n : get_frame src = VOk c -> In n (all_columns (c_schema c)) -> add_ids_col base src (Some n) = VRaise (VErr ValueError).
Proof. intros EG H. unfold add_objectid_column. rewrite EG. cbn [vbind]. rewrite objectid_name_given. now destruct (in_dec string_dec n (all_columns (c_schema c))). Qed.

(* ---- opening ---- *)
Lemma layer_ok l : reads read_file l -> exists v, new_vector (DaskFrame (read_file l)) (SizeInt (len (l_rows l))) = Ok v /\ holds l v.
Proof.
  intros (R & E & S). assert (L : len (l_rows l) = len (features (read_file l))) by (rewrite <- E; apply len_map). exists (Vec (read_file l) (len (l_rows l))). split; [rewrite L; now apply (new_dask_right 0)|].
  split; [split; [exact R|exact L]|]. auto.
Qed.
Lemma layers_ok src ids ls : Forall2 (fun i l => get_layer src i = Ok l) ids ls -> Forall (reads read_file) ls ->
  exists vs, traverse (fun i => let* l := get_layer src i in new_vector (DaskFrame (read_file l)) (SizeInt (len (l_rows l)))) ids = Ok vs /\ Forall2 holds ls vs.
Proof.
  intros F. induction F as [|i l ids ls H F IH]; intros R; [now exists []|]. inversion R as [|? ? R1 R2]; subst. destruct (layer_ok l R1) as (v & E & HV). destruct (IH R2) as (vs & EV & HVs). exists (v :: vs). split; [|now constructor].
  cbn [traverse]. rewrite H. cbn [rbind]. rewrite E. cbn [rbind]. now rewrite EV.
Qed.
(* one Vector, or a list of them *)
Lemma open_ok path src layers ids ls : files path = Some src ->
  match layers with LayersNone => ids = map (fun l => LName (l_name l)) src | _ => normalize_layers_arg layers = Ok ids end ->
  Forall2 (fun i l => get_layer src i = Ok l) ids ls -> Forall (reads read_file) ls -> exists vs, Forall2 holds ls vs /\ open path layers = as_opened vs.
Proof.
  intros EF EI F R. destruct (layers_ok src ids ls F R) as (vs & ET & HV). exists vs. split; [exact HV|]. unfold open_vectors. rewrite EF.
  assert (NB : existsb (fun i => match i with LName s => match find_layer src s with Some _ => false | None => true end | LIndex i => (len src <=? i) || (i <? 0) | LOther => false end) ids = false).
  { clear -F. induction F as [|i l ids ls H F IH]; [reflexivity|]. cbn [existsb]. rewrite IH, orb_false_r. destruct i as [s|k|]; cbn [get_layer] in H; [now destruct (find_layer src s)| |reflexivity]. apply get_ok_range in H. lia. }
  destruct layers as [|l|i]; [subst ids; cbn [lift vbind]; now rewrite ET|rewrite EI; cbn [rbind]; rewrite NB; cbn [lift vbind]; now rewrite ET..].
Qed.
Lemma find_self src : NoDup (map l_name src) -> Forall2 (fun i l => get_layer src i = Ok l) (map (fun l => LName (l_name l)) src) src.
Proof.
  intros ND. assert (H : forall l, In l src -> find_layer src (l_name l) = Some l).
  { induction src as [|x src IH]; intros l Hl; [destruct Hl|]. cbn [find_layer find]. inversion ND as [|? ? NI ND']; subst. destruct Hl as [->|Hl]; [now rewrite String.eqb_refl|].
    destruct (String.eqb (l_name x) (l_name l)) eqn:E; [|now apply IH]. apply String.eqb_eq in E. exfalso. apply NI. rewrite E. now apply in_map. }
  assert (G : forall k, incl k src -> Forall2 (fun i l => get_layer src i = Ok l) (map (fun l => LName (l_name l)) k) k).
  { induction k as [|l k IH]; intros I; cbn [map]; constructor; [cbn [get_layer]; rewrite H; [reflexivity|apply I; now left]|apply IH; intros x Hx; apply I; now right]. }
  apply G. now intros x.
Qed.
Lemma open_all path src : files path = Some src -> NoDup (map l_name src) -> Forall (reads read_file) src -> exists vs, Forall2 holds src vs /\ open path LayersNone = as_opened vs.
Proof. intros EF ND R. apply (open_ok path src LayersNone (map (fun l => LName (l_name l)) src) src EF eq_refl); [now apply find_self|exact R]. Qed.
Lemma homogeneous (P : layer_id -> bool) l : Forall (fun i => P i = true) l -> forallb P l = true.
Proof. intros F. apply forallb_forall. now apply Forall_forall. Qed.
Lemma open_names path src names ls : files path = Some src -> names <> [] -> Forall2 (fun s l => find (fun l => String.eqb (l_name l) s) src = Some l) names ls -> Forall (reads read_file) ls ->
  exists vs, Forall2 holds ls vs /\ open path (LayersList (map LName names)) = as_opened vs.
Proof.
  intros EF N F R. apply (open_ok path src _ (map LName names) ls EF); [|clear -F; induction F as [|s l names ls H F IH]; cbn [map]; constructor; [cbn [get_layer]; unfold find_layer; now rewrite H|exact IH]|exact R].
  cbn [normalize_layers_arg]. destruct names as [|s names]; [congruence|]. cbn [map is_name]. rewrite homogeneous; [reflexivity|]. apply Forall_forall. intros i. rewrite <- map_cons, in_map_iff. now intros (x & <- & _).
Qed.
Lemma open_indices path src is ls : files path = Some src -> is <> [] -> Forall2 (fun i l => get src i = Ok l) is ls -> Forall (reads read_file) ls ->
  exists vs, Forall2 holds ls vs /\ open path (LayersList (map LIndex is)) = as_opened vs.
Proof.
  intros EF N F R. apply (open_ok path src _ (map LIndex is) ls EF); [|clear -F; induction F as [|s l names ls H F IH]; cbn [map]; constructor; [exact H|exact IH]|exact R].
  cbn [normalize_layers_arg]. destruct is as [|s is]; [congruence|]. cbn [map is_name]. rewrite homogeneous; [reflexivity|]. apply Forall_forall. intros i. rewrite <- map_cons, in_map_iff. now intros (x & <- & _).
Qed.
Lemma open_all_ways path src : files path = Some src ->
  (NoDup (map l_name src) -> Forall (reads read_file) src -> exists vs, Forall2 holds src vs /\ open path LayersNone = as_opened vs)
  /\ (forall names ls, names <> [] -> Forall2 (fun s l => find (fun l => String.eqb (l_name l) s) src = Some l) names ls -> Forall (reads read_file) ls ->
      exists vs, Forall2 holds ls vs /\ open path (LayersList (map LName names)) = as_opened vs)
  /\ (forall is ls, is <> [] -> Forall2 (fun i l => get src i = Ok l) is ls -> Forall (reads read_file) ls ->
      exists vs, Forall2 holds ls vs /\ open path (LayersList (map LIndex is)) = as_opened vs)
  /\ (forall i, open path (LayersOne i) = open path (LayersList [i])).
Proof.
  intros E. split; [now apply open_all|]. split; [intros; now apply (open_names path src)|]. split; [intros; now apply (open_indices path src)|].
  intros i. unfold open_vectors. rewrite E. destruct i; reflexivity.
Qed.
Lemma not_all (P : layer_id -> bool) l i : In i l -> P i = false -> forallb P l = false.
Proof. intros H E. destruct (forallb P l) eqn:F; [|reflexivity]. rewrite forallb_forall in F. rewrite (F i H) in E. discriminate. Qed.
Lemma open_refused path :
  (files path = None -> forall layers, open path layers = VRaise VIOError)
  /\ forall src, files path = Some src ->
     open path (LayersList []) = VRaise (VErr ValueError)
     /\ (forall names s, In s names -> ~ In s (map l_name src) -> open path (LayersList (map LName names)) = VRaise (VErr ValueError))
     /\ (forall is i, In i is -> i < 0 \/ len src <= i -> open path (LayersList (map LIndex is)) = VRaise (VErr ValueError))
     /\ (forall ids s i, In (LName s) ids -> In (LIndex i) ids -> open path (LayersList ids) = VRaise (VErr TypeError))
     /\ (forall ids, In LOther ids -> open path (LayersList ids) = VRaise (VErr TypeError)).
Proof.
  split; [intros E layers; unfold open_vectors; now rewrite E|]. intros src E. unfold open_vectors. rewrite E. split; [reflexivity|]. split; [|split; [|split]].
  - intros names s Hs NI. cbn [normalize_layers_arg]. destruct names as [|s0 names]; [destruct Hs|]. cbn [map is_name]. rewrite homogeneous by (apply Forall_forall; intros i; rewrite <- map_cons, in_map_iff; now intros (x & <- & _)). cbn [rbind].
    match goal with |- context [existsb ?f ?l] => replace (existsb f l) with true; [reflexivity|symmetry; apply existsb_exists] end. exists (LName s). split; [rewrite <- map_cons; now apply in_map|].
    unfold find_layer. destruct (find _ src) as [l|] eqn:F; [|reflexivity]. apply find_some in F as [F1 F2]. apply String.eqb_eq in F2. subst s. contradiction NI. now apply in_map.
  - intros is i Hi R. cbn [normalize_layers_arg]. destruct is as [|s0 is]; [destruct Hi|]. cbn [map is_name]. rewrite homogeneous by (apply Forall_forall; intros j; rewrite <- map_cons, in_map_iff; now intros (x & <- & _)). cbn [rbind].
    match goal with |- context [existsb ?f ?l] => replace (existsb f l) with true; [reflexivity|symmetry; apply existsb_exists] end. exists (LIndex i). split; [rewrite <- map_cons; now apply in_map|]. lia.
  - intros ids s i Hs Hi. cbn [normalize_layers_arg]. destruct ids as [|x ids]; [destruct Hs|]. destruct (is_name x); [now rewrite (not_all is_name _ (LIndex i) Hi eq_refl)|now rewrite (not_all is_index _ (LName s) Hs eq_refl)].
  - intros ids Ho. cbn [normalize_layers_arg]. destruct ids as [|x ids]; [destruct Ho|]. destruct (is_name x); [now rewrite (not_all is_name _ LOther Ho eq_refl)|now rewrite (not_all is_index _ LOther Ho eq_refl)].
Qed.
Lemma new_vector_geo c size v : new_vector (DaskFrame c) size = Ok v -> v_geo v = c.
Proof.
  unfold new_vector. cbn [normalize_geo_data]. destruct (c_divs c) as [divs|] eqn:E; [|discriminate]. cbn [rbind]. rewrite E. destruct size as [|n|]; [| |discriminate]; intros H; apply rbind_ok in H as (k & _ & H); injection H as <-; reflexivity.
Qed.
Lemma sources_agree :
  (forall src v, get_v src = VOk v -> get_frame src = VOk (v_geo v))
  /\ (forall v, get_v (SrcVector v) = VOk v)
  /\ (forall path is_str v, open path LayersNone = VOk (One v) -> get_v (SrcPath path is_str) = VOk v)
  /\ (forall path is_str vs, open path LayersNone = VOk (Many vs) -> get_v (SrcPath path is_str) = VRaise (VErr ValueError))
  /\ get_v (SrcGeo NotGeo) = VRaise (VErr TypeError) /\ get_frame (SrcGeo NotGeo) = VRaise (VErr TypeError)
  /\ (forall rows, get_v (SrcGeo (MemSeries rows)) = get_v (SrcGeo (MemFrame (Schema "geometry" []) (map (fun r => (fst r, Row (w_geom (snd r)) [])) rows)))).
Proof.
  split; [|split; [reflexivity|split; [|split; [|split; [reflexivity|split; [reflexivity|]]]]]].
  - intros src v H. destruct src as [w|p b|g]; cbn [get_vector get_dask_geodataframe] in *; [congruence|now rewrite H|]. destruct g as [s rows|rows|c|c|]; cbn [get_dask_geodataframe].
    + cbn in H. injection H as <-. reflexivity.
    + cbn in H. injection H as <-. reflexivity.
    + destruct (new_vector (DaskFrame c) SizeNone) eqn:E; [|discriminate]. cbn in H. injection H as <-. now rewrite (new_vector_geo _ _ _ E).
    + destruct (new_vector (DaskSeries c) SizeNone) eqn:E; [|discriminate]. cbn in H. injection H as <-. assert (E' : new_vector (DaskFrame (map_coll frame_schema only_geom c)) SizeNone = Ok a).
      { rewrite <- E. unfold new_vector. cbn [normalize_geo_data map_coll c_divs]. now destruct (c_divs c). }
      now rewrite (new_vector_geo _ _ _ E').
    + discriminate.
  - intros path b v H. cbn [get_vector]. now rewrite H.
  - intros path b vs H. cbn [get_vector]. now rewrite H.
  - intros rows. cbn [get_vector new_vector normalize_geo_data rbind]. replace (map_rows only_geom rows) with (map (fun r => (fst r, Row (w_geom (snd r)) [])) rows); [reflexivity|]. unfold map_rows. apply map_ext. now intros [].
Qed.
End Sources.
Lemma refused v f c :
  getitem_vector v IdxSlice = VRaise VNotImplementedError /\ getitem_vector v IdxOther = VRaise (VErr TypeError)
  /\ cast_field None f v = Err TypeError
  /\ (forall name, ~ In name (all_columns (c_schema (v_geo v))) -> cast_field (Some name) f v = Err ValueError)
  /\ new_vector NotGeo SizeNone = Err TypeError
  /\ (forall size, c_divs c = None -> new_vector (DaskFrame c) size = Err ValueError /\ new_vector (DaskSeries c) size = Err ValueError)
  /\ (c_divs c <> None -> new_vector (DaskFrame c) SizeOther = Err TypeError)
  /\ (forall files read_file base src d n, get_dask_geodataframe files read_file src = VOk d -> In n (all_columns (c_schema d)) -> add_objectid_column files read_file base src (Some n) = VRaise (VErr ValueError)).
Proof.
  split; [reflexivity|]. split; [reflexivity|]. split; [reflexivity|]. split; [|split; [reflexivity|split; [|split]]].
  - intros name NI. cbn [cast_field]. destruct (in_columns name (all_columns (c_schema (v_geo v)))) eqn:E; [|reflexivity]. now apply in_columns_iff in E.
  - intros size E. unfold new_vector. cbn [normalize_geo_data]. now rewrite E.
  - intros N. unfold new_vector. cbn [normalize_geo_data]. destruct (c_divs c) eqn:E; [|congruence]. cbn [rbind]. now rewrite E.
  - intros. eapply ids_taken; eauto.
Qed.
(* a label that no feature has *)
Lemma missing_label v i divs : c_divs (v_geo v) = Some divs -> len (c_parts (v_geo v)) = len divs - 1 -> 2 <= len divs -> - v_size v <= i < v_size v ->
  (forall r, In r (rows_of v) -> fst r <> i mod v_size v) -> getitem_vector v (IdxInt i) = VRaise (VErr KeyError).
Proof.
  intros ED LP LD R NO. cbn [getitem_vector]. destruct (getitem_spec (v_size v) i) as [G _]; [lia|]. rewrite (G R). cbn [rbind]. unfold loc_list. rewrite ED.
  destruct (get_range (c_parts (v_geo v)) (Z.min (len divs - 2) (Z.max 0 (bisect_right divs (i mod v_size v) - 1)))) as [part GP]; [lia|]. rewrite GP. cbn [rbind].
  destruct (filter (fun r => fst r =? i mod v_size v) part) as [|r l] eqn:F; [reflexivity|]. exfalso. assert (I : In r (r :: l)) by now left. rewrite <- F in I. apply filter_In in I as [I E].
  apply (NO r); [|lia]. unfold rows_of. apply in_concat. exists part. split; [eapply get_in; exact GP|exact I].
Qed.
