From Coq Require Import QArith String Permutation Sorted.
From Verif Require Import Base BaseFacts Scalars Arr2 Arr2Facts ChunksProofs CostPublicProofs ProximityChunk RasterStack Vectors VectorsProofs VectorTable VectorTableSpec.
Open Scope Z_scope.

Lemma get_app_head {A} (p : list A) q : p <> [] -> get (p ++ q) 0 = get p 0.
Proof. destruct p; [congruence|reflexivity]. Qed.
Lemma zrange_head a b : a < b -> zrange a b = a :: zrange (a + 1) b.
Proof.
  intros H. apply list_ext; [rewrite len_cons, !len_zrange; lia|]. intros i x G. pose proof (get_ok_range _ _ _ G) as R. rewrite len_zrange in R.
  rewrite <- G. destruct (Z.eq_dec i 0) as [->|N]; [rewrite get_zrange by lia; cbn; f_equal; lia|]. rewrite get_cons by lia. rewrite !get_zrange by lia. f_equal. lia.
Qed.
Lemma zrange_split a n m : 0 <= n -> 0 <= m -> zrange a (a + n + m) = zrange a (a + n) ++ zrange (a + n) (a + n + m).
Proof. intros. apply zrange_join. lia. Qed.
Lemma cons_inj {A} (x y : A) l k : x :: l = y :: k -> x = y /\ l = k.
Proof. intros H. split; congruence. Qed.
Lemma app_split {A} (a c : list A) b d : length a = length c -> a ++ b = c ++ d -> a = c /\ b = d.
Proof. revert c. induction a as [|x a IH]; intros [|y c] L E; try discriminate; [auto|]. cbn in L, E. injection E as -> E. destruct (IH c ltac:(lia) E) as [-> ->]. auto. Qed.

(* ---- chains of partitions ---- *)
Definition start (p : list (Z * row)) : Z := match p with [] => 0 | r :: _ => fst r end.
Fixpoint chain (a : Z) (ps : list (list (Z * row))) : Prop :=
  match ps with
  | [] => True
  | p :: ps => p <> [] /\ map fst p = zrange a (a + len p) /\ chain (a + len p) ps
  end.
Lemma chain_of ps : forall a, Forall (fun p => p <> []) ps -> map fst (concat ps) = zrange a (a + len (concat ps)) -> chain a ps.
Proof.
  induction ps as [|p ps IH]; intros a F E; [exact I|]. inversion F as [|? ? Np F']; subst. cbn [concat] in E. rewrite map_app, len_app in E.
  pose proof (len_nonneg p). pose proof (len_nonneg (concat ps)). replace (a + (len p + len (concat ps))) with (a + len p + len (concat ps)) in E by lia. rewrite zrange_split in E by lia.
  apply app_split in E. 2: { apply Nat2Z.inj. change (len (map fst p) = len (zrange a (a + len p))). rewrite len_map, len_zrange. lia. }
  destruct E as [E1 E2]. cbn [chain]. split; [exact Np|]. split; [exact E1|]. now apply IH.
Qed.
Lemma chain_labels ps : forall a, chain a ps -> map fst (concat ps) = zrange a (a + len (concat ps)).
Proof.
  induction ps as [|p ps IH]; intros a C; cbn [concat]; [cbn; rewrite Z.add_0_r; unfold zrange; now rewrite Z.sub_diag|].
  destruct C as (_ & E & C). rewrite map_app, E, (IH _ C), len_app. pose proof (len_nonneg p). pose proof (len_nonneg (concat ps)).
  replace (a + (len p + len (concat ps))) with (a + len p + len (concat ps)) by lia. now rewrite <- zrange_split by lia.
Qed.
Lemma chain_start a p ps : chain a (p :: ps) -> start p = a.
Proof.
  intros (N & E & _). destruct p as [|r p]; [congruence|]. cbn [map] in E. rewrite len_cons in E. pose proof (len_nonneg p). rewrite zrange_head in E by lia. cbn [start]. congruence.
Qed.
Lemma chain_last ps : forall a, chain a ps -> ps <> [] -> start (List.last ps []) + len (List.last ps []) = a + len (concat ps).
Proof.
  induction ps as [|p ps IH]; intros a C N; [congruence|]. destruct ps as [|q ps].
  - cbn [List.last concat]. rewrite app_nil_r, (chain_start a p []) by exact C. reflexivity.
  - destruct C as (_ & _ & C). change (List.last (p :: q :: ps) []) with (List.last (q :: ps) []). rewrite (IH _ C) by discriminate. change (concat (p :: q :: ps)) with (p ++ concat (q :: ps)). rewrite len_app. lia.
Qed.
Lemma last_map {A B} (f : A -> B) l d e : l <> [] -> List.last (map f l) e = f (List.last l d).
Proof. induction l as [|x l IH]; intros N; [congruence|]. destruct l as [|y l]; [reflexivity|]. change (List.last (map f (y :: l)) e = f (List.last (y :: l) d)). apply IH. discriminate. Qed.

(* the divisions are the starts and one more *)
Lemma divs_shape (ps : list (list (Z * row))) divs : len divs = len ps + 1 -> (forall i p, get ps i = Ok p -> exists r, get p 0 = Ok r /\ get divs i = Ok (fst r)) ->
  divs = map start ps ++ [List.last divs 0].
Proof.
  intros L H. assert (ND : divs <> []) by (intros ->; rewrite len_nil in L; pose proof (len_nonneg ps); lia).
  rewrite (app_removelast_last 0 ND) at 1. f_equal. assert (LR : len (removelast divs) = len ps). { assert (X : len divs = len (removelast divs ++ [List.last divs 0])) by now rewrite <- app_removelast_last. rewrite len_app, len_cons, len_nil in X. lia. }
  apply list_ext; [now rewrite len_map|]. intros i x G. pose proof (get_ok_range _ _ _ G) as R. rewrite <- G. rewrite LR in R. destruct (get_range ps i R) as [p Ep].
  destruct (H i p Ep) as (r & Er & Ed). rewrite (app_removelast_last 0 ND) in Ed. rewrite get_app1 in Ed by lia. rewrite Ed.
  unfold get in Ep |- *. destruct (i <? 0); [discriminate|]. destruct (nth_error ps (Z.to_nat i)) as [p'|] eqn:EN; [|discriminate]. injection Ep as ->. rewrite (map_nth_error start _ _ EN). f_equal. destruct p; [discriminate|]. cbn in Er. injection Er as <-. reflexivity.
Qed.
Lemma regular_chain a c : regular a c -> chain a (c_parts c) /\ c_parts c <> [] /\ exists e, c_divs c = Some (map start (c_parts c) ++ [e]) /\ (e = a + len (features c) - 1 \/ e = a + len (features c)).
Proof.
  intros [RS RF RL (divs & E & L & H & HL)]. split; [now apply chain_of|]. split; [exact RS|]. exists (List.last divs 0). split; [|exact HL]. rewrite E. f_equal. now apply divs_shape.
Qed.
Lemma chain_regular a c e : chain a (c_parts c) -> c_parts c <> [] -> c_divs c = Some (map start (c_parts c) ++ [e]) -> (e = a + len (features c) - 1 \/ e = a + len (features c)) -> regular a c.
Proof.
  intros C N E HE. constructor.
  - exact N.
  - clear -C. revert a C. induction (c_parts c) as [|p ps IH]; intros a C; constructor; [apply C|]. destruct C as (_ & _ & C). now apply IH in C.
  - now apply chain_labels.
  - exists (map start (c_parts c) ++ [e]). split; [exact E|]. split; [now rewrite len_app, len_map|]. split.
    + intros i p G. assert (NP : p <> []). { clear -C G. revert a i C G. induction (c_parts c) as [|q ps IH]; intros a i C G; [apply get_ok_range in G; cbn in G; lia|].
        destruct (Z.eq_dec i 0) as [->|Ni]; [injection G as <-; apply C|]. pose proof (get_ok_range _ _ _ G) as R. rewrite get_cons in G by lia. destruct C as (_ & _ & C). now apply (IH _ _ C G). }
      destruct p as [|r p]; [congruence|]. exists r. split; [reflexivity|]. pose proof (get_ok_range _ _ _ G) as R. rewrite get_app1 by (rewrite len_map; lia).
      unfold get in G |- *. destruct (i <? 0); [discriminate|]. destruct (nth_error (c_parts c) (Z.to_nat i)) as [p'|] eqn:EN; [|discriminate]. injection G as ->. now rewrite (map_nth_error start _ _ EN).
    + now rewrite last_snoc.
Qed.

(* ---- sizes ---- *)
Lemma guess_regular a c e : chain a (c_parts c) -> c_parts c <> [] -> get_len_from_divisions (map start (c_parts c) ++ [e]) = Ok (e - a).
Proof.
  intros C N. rewrite len_divisions by (intros X; now apply app_eq_nil in X as [_ X]). rewrite last_snoc. destruct (c_parts c) as [|p ps]; [congruence|]. cbn [map app hd]. now rewrite (chain_start a p ps C).
Qed.
Lemma best_regular a c e : chain a (c_parts c) -> c_parts c <> [] -> best_effort_len (map start (c_parts c) ++ [e]) (len (List.last (c_parts c) [])) = Ok (len (features c)).
Proof.
  intros C N. unfold best_effort_len, features. rewrite len_app, len_map, len_cons, len_nil. destruct (len (c_parts c) + (1 + 0) =? 2) eqn:E.
  - destruct (c_parts c) as [|p [|q ps]]; [congruence| |rewrite !len_cons in E; pose proof (len_nonneg ps); lia]. cbn [List.last concat]. now rewrite app_nil_r.
  - replace (len (c_parts c) + (1 + 0) - 1) with (len (map start (c_parts c) ++ [e]) - 1) by (rewrite len_app, len_map, len_cons, len_nil; lia). rewrite slice_snoc.
    assert (NM : map start (c_parts c) <> []) by now destruct (c_parts c). rewrite len_divisions by exact NM. cbn [rbind]. f_equal. rewrite (last_map start (c_parts c) []) by exact N.
    pose proof (chain_last (c_parts c) a C N). destruct (c_parts c) as [|p ps]; [congruence|]. cbn [map hd]. rewrite (chain_start a p ps C). lia.
Qed.
Lemma new_dask a c : regular a c -> new_vector (DaskFrame c) SizeNone = Ok (Vec c (len (features c))).
Proof.
  intros R. destruct (regular_chain a c R) as (C & N & e & E & _). unfold new_vector. cbn [normalize_geo_data]. rewrite E. cbn [rbind]. rewrite E. cbn [vector_size]. now rewrite (best_regular a c e C N).
Qed.
Lemma new_dask_size a c n : regular a c -> exists divs, c_divs c = Some divs /\
  new_vector (DaskFrame c) (SizeInt n) = if (n =? List.last divs 0 - a) || (n =? List.last divs 0 - a + 1) then Ok (Vec c n) else Err ValueError.
Proof.
  intros R. destruct (regular_chain a c R) as (C & N & e & E & _). exists (map start (c_parts c) ++ [e]). split; [exact E|]. unfold new_vector. cbn [normalize_geo_data]. rewrite E. cbn [rbind]. rewrite E. cbn [vector_size].
  rewrite (guess_regular a c e C N), last_snoc. cbn [rbind]. now destruct ((n =? e - a) || (n =? e - a + 1)).
Qed.
Lemma new_dask_right a c : regular a c -> new_vector (DaskFrame c) (SizeInt (len (features c))) = Ok (Vec c (len (features c))).
Proof.
  intros R. destruct (new_dask_size a c (len (features c)) R) as (divs & E & ->). destruct R as [_ _ _ (d & E' & _ & _ & HL)]. assert (d = divs) by congruence. subst d.
  replace ((len (features c) =? List.last divs 0 - a) || (len (features c) =? List.last divs 0 - a + 1)) with true; [reflexivity|]. destruct HL as [-> | ->]; lia.
Qed.

(* ---- maps ---- *)
Lemma map_rows_fst f rows : map fst (map_rows f rows) = map fst rows.
Proof. unfold map_rows. rewrite map_map. apply map_ext. now intros []. Qed.
Lemma features_map s f c : features (map_coll s f c) = map (fun '(i, x) => (i, f x)) (features c).
Proof. unfold features, map_coll. cbn [c_parts]. induction (c_parts c) as [|p ps IH]; [reflexivity|]. cbn [map concat]. now rewrite map_app, IH. Qed.
Lemma chain_map f ps : forall a, chain a ps -> chain a (map (map_rows f) ps).
Proof.
  induction ps as [|p ps IH]; intros a C; [exact I|]. destruct C as (N & E & C). cbn [map chain]. unfold map_rows at 1 3 4. rewrite len_map. split; [now destruct p|]. split; [|now apply IH]. rewrite <- E. apply map_rows_fst.
Qed.
Lemma start_map f p : p <> [] -> start (map_rows f p) = start p.
Proof. destruct p as [|[i w] p]; [congruence|reflexivity]. Qed.
Lemma regular_map a s f c : regular a c -> regular a (map_coll s f c).
Proof.
  intros R. destruct (regular_chain a c R) as (C & N & e & E & HE). apply (chain_regular a _ e).
  - cbn [map_coll c_parts]. now apply chain_map.
  - cbn [map_coll c_parts]. now destruct (c_parts c).
  - cbn [map_coll c_parts c_divs]. rewrite E, map_map. do 2 f_equal. apply map_ext_in. intros p Hp. symmetry. apply start_map. destruct R as [_ RF _ _]. rewrite Forall_forall in RF. now apply RF.
  - rewrite features_map, len_map. exact HE.
Qed.

(* ---- data in memory ---- *)
Definition le_label (r s : Z * row) : Prop := fst r <= fst s.
Lemma insert_perm r l : Permutation (insert_row r l) (r :: l).
Proof. induction l as [|x l IH]; cbn [insert_row]; [reflexivity|]. destruct (fst r <=? fst x); [reflexivity|]. rewrite IH. apply perm_swap. Qed.
Lemma sort_perm l : Permutation (sort_index l) l.
Proof. induction l as [|r l IH]; [reflexivity|]. cbn [sort_index fold_right]. fold (sort_index l). rewrite insert_perm. now constructor. Qed.
Lemma insert_sorted r l : StronglySorted le_label l -> StronglySorted le_label (insert_row r l).
Proof.
  intros S. induction S as [|x l S IH F]; cbn [insert_row]; [repeat constructor|]. destruct (fst r <=? fst x) eqn:E.
  - constructor; [now constructor|]. constructor; [unfold le_label; lia|]. rewrite Forall_forall in F |- *. intros y Hy. specialize (F y Hy). unfold le_label in *. lia.
  - constructor; [exact IH|]. rewrite Forall_forall in F |- *. intros y Hy. apply (Permutation_in _ (insert_perm r l)) in Hy as [<-|Hy]; [unfold le_label; lia|auto].
Qed.
Lemma sort_sorted l : StronglySorted le_label (sort_index l).
Proof. induction l as [|r l IH]; [constructor|]. cbn [sort_index fold_right]. now apply insert_sorted. Qed.
Lemma sorted_fst l : StronglySorted le_label l -> StronglySorted Z.le (map fst l).
Proof. induction 1 as [|r l S IH F]; cbn [map]; constructor; [exact IH|]. now apply Forall_map. Qed.
Lemma sorted_unique (l : list Z) : forall k, StronglySorted Z.le l -> StronglySorted Z.le k -> Permutation l k -> l = k.
Proof.
  induction l as [|x l IH]; intros k S T P; [now apply Permutation_nil in P|]. destruct k as [|y k]; [now apply Permutation_sym, Permutation_nil in P|].
  inversion S as [|? ? S' Fx]; subst. inversion T as [|? ? T' Fy]; subst. rewrite Forall_forall in Fx, Fy.
  assert (x = y). { assert (In x (y :: k)) as [->|H1] by (apply (Permutation_in _ P); now left); [reflexivity|]. assert (In y (x :: l)) as [->|H2] by (apply (Permutation_in _ (Permutation_sym P)); now left); [reflexivity|]. apply Fy in H1. apply Fx in H2. lia. }
  subst y. f_equal. apply IH; auto. now apply Permutation_cons_inv in P.
Qed.
Lemma zrange_sorted a b : StronglySorted Z.le (zrange a b).
Proof.
  unfold zrange. generalize (Z.to_nat (b - a)). intros n. assert (H : forall m, StronglySorted Z.le (map (fun k => a + Z.of_nat k) (seq m n))).
  { induction n as [|n IH]; intros m; cbn [seq map]; constructor; [apply IH|]. apply Forall_map, Forall_forall. intros k Hk. apply in_seq in Hk. lia. }
  apply H.
Qed.
Lemma sort_id a l : map fst l = zrange a (a + len l) -> sort_index l = l.
Proof.
  revert a. induction l as [|r l IH]; intros a E; [reflexivity|]. cbn [sort_index fold_right]. fold (sort_index l). rewrite len_cons in E. pose proof (len_nonneg l). rewrite zrange_head in E by lia. cbn [map] in E. apply cons_inj in E as [E1 E2].
  rewrite (IH (a + 1)) by (replace (a + 1 + len l) with (a + (1 + len l)) by lia; exact E2). destruct l as [|s l]; [reflexivity|]. cbn [insert_row]. cbn [map] in E2. rewrite len_cons in E2, H. pose proof (len_nonneg l). rewrite zrange_head in E2 by lia. apply cons_inj in E2 as [E2 _]. now replace (fst r <=? fst s) with true by lia.
Qed.
Lemma from_geopandas_regular s rows a : rows <> [] -> Permutation (map fst rows) (zrange a (a + len rows)) -> regular a (from_geopandas s rows).
Proof.
  intros N P. pose proof (sort_perm rows) as SP. assert (LS : len (sort_index rows) = len rows) by (unfold len; now rewrite (Permutation_length SP)).
  assert (E : map fst (sort_index rows) = zrange a (a + len (sort_index rows))). { apply sorted_unique; [apply sorted_fst, sort_sorted|apply zrange_sorted|]. rewrite LS, <- P. now apply Permutation_map. }
  assert (NS : sort_index rows <> []) by (intros X; rewrite X in SP; now apply Permutation_nil in SP).
  assert (FE : features (from_geopandas s rows) = sort_index rows) by (unfold features, from_geopandas; cbn [c_parts concat]; apply app_nil_r).
  apply (chain_regular a _ (a + len (sort_index rows) - 1)).
  - cbn [from_geopandas c_parts chain]. auto.
  - discriminate.
  - unfold from_geopandas. cbn [c_divs c_parts map app]. destruct (sort_index rows) as [|r l] eqn:ES; [congruence|]. cbn [start]. do 3 f_equal.
    pose proof (last_map fst (r :: l) r 0 ltac:(discriminate)) as LM. rewrite <- LM, E. rewrite len_cons. pose proof (len_nonneg l). replace (a + (1 + len l)) with (a + len l + 1) by lia.
    rewrite (zrange_join a (a + len l)) by lia. rewrite (zrange_head (a + len l)) by lia. unfold zrange at 2. rewrite Z.sub_diag. cbn [Z.to_nat seq map]. rewrite last_snoc. lia.
  - rewrite FE. now left.
Qed.
Lemma new_mem s rows size : exists v, new_vector (MemFrame s rows) size = Ok v /\ v_size v = len rows /\ c_schema (v_geo v) = s
  /\ Permutation (rows_of v) rows /\ StronglySorted Z.le (map fst (rows_of v)) /\ (forall a, rows <> [] -> Permutation (map fst rows) (zrange a (a + len rows)) -> good a v).
Proof.
  exists (Vec (from_geopandas s rows) (len rows)). split; [reflexivity|]. split; [reflexivity|]. split; [reflexivity|].
  assert (FE : features (from_geopandas s rows) = sort_index rows) by (unfold features, from_geopandas; cbn [c_parts concat]; apply app_nil_r).
  unfold rows_of. cbn [v_geo]. rewrite FE. split; [apply sort_perm|]. split; [apply sorted_fst, sort_sorted|]. intros a N P. split; [now apply from_geopandas_regular|]. cbn [v_size v_geo]. unfold rows_of. cbn [v_geo]. rewrite FE. unfold len. now rewrite (Permutation_length (sort_perm rows)).
Qed.

(* ---- operations ---- *)
Lemma changed_map a s f v : good a v -> changed a s f v (Vec (map_coll s f (v_geo v)) (v_size v)).
Proof.
  intros [R S]. unfold changed, good, rows_of. cbn [v_geo v_size]. rewrite features_map, len_map. split; [split; [now apply regular_map|exact S]|]. auto.
Qed.
Lemma map_none a s f v : good a v -> new_vector (DaskFrame (map_coll s f (v_geo v))) SizeNone = Ok (Vec (map_coll s f (v_geo v)) (v_size v)).
Proof. intros [R S]. rewrite (new_dask a) by now apply regular_map. now rewrite S, features_map, len_map. Qed.
Lemma map_size a s f v : good a v -> new_vector (DaskFrame (map_coll s f (v_geo v))) (SizeInt (v_size v)) = Ok (Vec (map_coll s f (v_geo v)) (v_size v)).
Proof. intros [R S]. replace (v_size v) with (len (features (map_coll s f (v_geo v)))) by (now rewrite S, features_map, len_map). apply (new_dask_right a). now apply regular_map. Qed.
Lemma copy_ok a v : good a v -> copy v = Ok v.
Proof. intros [R S]. unfold copy. rewrite (new_dask a) by exact R. unfold rows_of in S. rewrite <- S. now destruct v. Qed.
Lemma load_ok a v : good a v -> exists w, load v = Ok w /\ changed a (c_schema (v_geo v)) (fun x => x) v w /\ len (c_parts (v_geo w)) = 1.
Proof.
  intros [R S]. unfold load. change (concat (c_parts (v_geo v))) with (rows_of v). destruct (new_mem (c_schema (v_geo v)) (rows_of v) (SizeInt (v_size v))) as (w & E & SZ & SC & P & _ & G). exists w. split; [exact E|].
  assert (RL : map fst (rows_of v) = zrange a (a + len (rows_of v))) by apply R.
  assert (NR : rows_of v <> []). { intros X. destruct R as [RS RF _ _]. unfold rows_of, features in X. destruct (c_parts (v_geo v)) as [|p ps]; [congruence|]. inversion RF; subst. cbn [concat] in X. now apply app_eq_nil in X as [X _]. }
  assert (G' : good a w) by (apply G; [exact NR|now rewrite RL]).
  assert (EW : w = Vec (from_geopandas (c_schema (v_geo v)) (rows_of v)) (len (rows_of v))) by (cbn in E; congruence).
  split; [|now rewrite EW]. split; [exact G'|]. split; [exact SC|]. split; [congruence|]. rewrite EW. unfold rows_of at 1, features. cbn [v_geo from_geopandas c_parts concat]. rewrite app_nil_r, (sort_id a) by exact RL.
  rewrite (map_ext _ (fun x => x)) by now intros []. now rewrite map_id.
Qed.
Lemma crs_ok a f v : good a v -> exists w, to_crs f v = Ok w /\ changed a (c_schema (v_geo v)) (fun x => Row (f (w_geom x)) (w_vals x)) v w.
Proof. intros G. eexists. split; [apply (map_size a); exact G|]. now apply changed_map. Qed.
Lemma buffer_ok a f v : good a v -> exists w, buffer f v = Ok w /\ changed a (Schema "geometry" []) (fun x => Row (f (w_geom x)) []) v w.
Proof.
  intros G. unfold buffer. destruct G as [R S]. destruct (regular_chain a _ R) as (_ & _ & e & E & _).
  assert (X : map_coll frame_schema only_geom (map_coll (c_schema (v_geo v)) (move f) (v_geo v)) = map_coll frame_schema (fun x => Row (f (w_geom x)) []) (v_geo v)).
  { unfold map_coll. cbn [c_parts c_divs]. f_equal. rewrite map_map. apply map_ext. intros p. unfold map_rows. rewrite map_map. apply map_ext. now intros []. }
  exists (Vec (map_coll frame_schema (fun x => Row (f (w_geom x)) []) (v_geo v)) (v_size v)). split; [|apply changed_map; now split].
  unfold new_vector. cbn [normalize_geo_data]. cbn [map_coll c_divs]. rewrite E. cbn [rbind]. fold (map_coll (c_schema (v_geo v)) (move f) (v_geo v)).
  pose proof (map_none a frame_schema (fun x => Row (f (w_geom x)) []) v (conj R S)) as M. unfold new_vector in M. cbn [normalize_geo_data] in M. cbn [map_coll c_divs] in M |- *. rewrite E in M |- *. cbn [rbind] in M |- *. cbn [map_coll c_divs] in M |- *. 
  assert (X2 := f_equal c_parts X). unfold map_coll in X2 |- *. cbn [c_parts c_divs] in X2 |- *. rewrite X2. rewrite E in M |- *. unfold map_coll in M. cbn [c_parts c_divs] in M. rewrite E in M. exact M.
Qed.
Lemma at_column_spec name f columns : forall vals, NoDup columns ->
  len (at_column name f columns vals) = len vals /\ forall i c y, get columns i = Ok c -> get vals i = Ok y -> get (at_column name f columns vals) i = Ok (if String.eqb c name then f y else y).
Proof.
  induction columns as [|c0 columns IH]; intros vals ND; [split; [reflexivity|]; intros i c y G; apply get_ok_range in G; cbn in G; lia|].
  destruct vals as [|x vals]; [split; [reflexivity|]; intros i c y _ G; apply get_ok_range in G; cbn in G; lia|]. inversion ND as [|? ? NI ND']; subst. cbn [at_column]. destruct (String.eqb c0 name) eqn:E.
  - rewrite !len_cons. split; [reflexivity|]. intros i c y G1 G2. destruct (Z.eq_dec i 0) as [->|Ni]; [injection G1 as <-; injection G2 as <-; now rewrite E|]. pose proof (get_ok_range _ _ _ G1). rewrite get_cons in G1 by lia; rewrite get_cons in G2 by lia; rewrite get_cons by lia.
    replace (String.eqb c name) with false; [exact G2|]. symmetry. apply String.eqb_neq. intros ->. apply String.eqb_eq in E. subst c0. apply NI. eapply get_in; eauto.
  - destruct (IH vals ND') as [L H]. rewrite !len_cons, L. split; [reflexivity|]. intros i c y G1 G2. destruct (Z.eq_dec i 0) as [->|Ni]; [injection G1 as <-; injection G2 as <-; now rewrite E|]. pose proof (get_ok_range _ _ _ G1). rewrite get_cons in G1 by lia; rewrite get_cons in G2 by lia; rewrite get_cons by lia. now apply H.
Qed.
Lemma cast_ok a name f v : good a v -> NoDup (s_columns (c_schema (v_geo v))) -> In name (s_columns (c_schema (v_geo v))) -> name <> s_geom (c_schema (v_geo v)) ->
  exists w g, cast_field (Some name) f v = Ok w /\ changed a (c_schema (v_geo v)) g v w /\ forall x, cast_column name f (s_columns (c_schema (v_geo v))) x (g x).
Proof.
  intros G ND H N. unfold cast_field. replace (in_columns name (all_columns (c_schema (v_geo v)))) with true by (symmetry; apply in_columns_iff; now right). cbn [negb].
  replace (String.eqb name (s_geom (c_schema (v_geo v)))) with false by (symmetry; now apply String.eqb_neq).
  exists (Vec (map_coll (c_schema (v_geo v)) (cast_row name f (s_columns (c_schema (v_geo v)))) (v_geo v)) (v_size v)), (cast_row name f (s_columns (c_schema (v_geo v)))).
  split; [now apply (map_none a)|]. split; [now apply changed_map|]. intros x. destruct (at_column_spec name f (s_columns (c_schema (v_geo v))) (w_vals x) ND) as [L X]. split; [reflexivity|]. split; [exact L|exact X].
Qed.

(* ---- elements ---- *)
Lemma bisect_chain ps : forall a e label, chain a ps -> ps <> [] -> a <= label < a + len (concat ps) -> a + len (concat ps) - 1 <= e ->
  exists i p, Z.min (len (map start ps ++ [e]) - 2) (Z.max 0 (bisect_right (map start ps ++ [e]) label - 1)) = i /\ get ps i = Ok p /\ exists w, filter (fun r => fst r =? label) p = [(label, w)] /\ get (concat ps) (label - a) = Ok (label, w).
Proof.
  induction ps as [|p ps IH]; intros a e label C N HL HE; [congruence|]. pose proof (chain_start a p ps C) as ST. destruct C as (Np & Ep & C). cbn [concat] in HL, HE. rewrite len_app in HL, HE.
  pose proof (len_nonneg p). pose proof (len_nonneg (concat ps)). pose proof (len_nonneg ps).
  assert (BP : 0 <= bisect_right (map start ps ++ [e]) label) by (clear; induction (map start ps ++ [e]) as [|d l IHl]; cbn [bisect_right]; [lia|destruct (d <=? label); lia]).
  cbn [map app bisect_right]. rewrite ST. replace (a <=? label) with true by lia. rewrite !len_cons, len_app, len_map, len_cons, len_nil.
  destruct (Z_lt_le_dec label (a + len p)) as [HP|HP].
  - exists 0, p. split.
    + destruct ps as [|q ps]; [change (len (@nil (list (Z * row)))) with 0; lia|]. cbn [map app bisect_right]. rewrite (chain_start _ _ _ C). replace (a + len p <=? label) with false by lia. lia.
    + split; [reflexivity|]. cbn [concat]. destruct (get_range p (label - a)) as [[l w] G]; [lia|].
      assert (El : l = label). { assert (X : get (map fst p) (label - a) = Ok l) by (rewrite (get_map_eq fst p (label - a)); now rewrite G). rewrite Ep, get_zrange in X by lia. injection X as X. lia. }
      subst l. exists w. rewrite get_app1 by lia. split; [|exact G]. clear -Ep G HL HP. revert a Ep HL G HP. induction p as [|[l x] p IHp]; intros a Ep HL G HP; [rewrite len_nil in HP; lia|].
      rewrite len_cons in Ep, HP. pose proof (len_nonneg p). cbn [map fst] in Ep. rewrite zrange_head in Ep by lia. apply cons_inj in Ep as [-> Ep]. cbn [filter fst]. destruct (Z.eq_dec a label) as [->|Na].
      * rewrite Z.sub_diag in G. cbn in G. injection G as <-. rewrite Z.eqb_refl. f_equal. assert (F : forall r, In r p -> (fst r =? label) = false). { intros r Hr. assert (X : In (fst r) (map fst p)) by now apply in_map. rewrite Ep in X. apply zrange_in' in X. lia. }
        clear -F. induction p as [|r p IH]; [reflexivity|]. cbn [filter]. rewrite (F r) by now left. apply IH. intros. apply F. now right.
      * replace (a =? label) with false by lia. rewrite get_cons in G by lia. rewrite len_cons in HL. apply (IHp (a + 1)); [replace (a + 1 + len p) with (a + (1 + len p)) by lia; exact Ep|lia|replace (label - (a + 1)) with (label - a - 1) by lia; exact G|lia].
  - destruct ps as [|q ps]; [cbn [concat] in HL; rewrite len_nil in HL; lia|]. destruct (IH (a + len p) e label C ltac:(discriminate) ltac:(lia) ltac:(lia)) as (i & p' & Ei & Gi & w & F & Gw).
    exists (i + 1), p'. pose proof (get_ok_range _ _ _ Gi) as Ri. split; [|split].
    + assert (LE : len (map start (q :: ps) ++ [e]) = len ps + 2) by (rewrite len_app, len_map, !len_cons, len_nil; lia). rewrite LE in Ei. cbn [map app bisect_right] in Ei |- *. rewrite (chain_start _ _ _ C) in Ei |- *. replace (a + len p <=? label) with true in * by lia.
      assert (0 <= bisect_right (map start ps ++ [e]) label) by (clear; induction (map start ps ++ [e]) as [|d l IHl]; cbn [bisect_right]; [lia|destruct (d <=? label); lia]). rewrite len_cons. pose proof (len_nonneg ps). lia.
    + rewrite get_cons by lia. rewrite <- Gi. f_equal. lia.
    + exists w. split; [exact F|]. change (concat (p :: q :: ps)) with (p ++ concat (q :: ps)). rewrite get_app2 by lia. rewrite <- Gw. f_equal. lia.
Qed.
Lemma loc_ok a c label : regular a c -> a <= label < a + len (features c) -> exists w, loc_list c label = Ok [(label, w)] /\ get (features c) (label - a) = Ok (label, w).
Proof.
  intros R HL. destruct (regular_chain a c R) as (C & N & e & E & HE). destruct (bisect_chain (c_parts c) a e label C N HL) as (i & p & Ei & Gi & w & F & G); [unfold features in HE; lia|].
  exists w. split; [|exact G]. unfold loc_list. rewrite E, Ei, Gi. cbn [rbind]. now rewrite F.
Qed.
Definition single (s : schema) (w : row) : vector := Vec (Coll s [[(0, w)]] (Some [0; 1])) 1.
Lemma single_good s w : good 0 (single s w).
Proof. split; [|reflexivity]. apply (chain_regular 0 _ 1); cbn; auto. repeat split; discriminate. discriminate. Qed.
Lemma getitem_ok v i : good 0 v -> - v_size v <= i < v_size v -> exists w, getitem_vector v (IdxInt i) = VOk (single (c_schema (v_geo v)) w) /\ get (rows_of v) (i mod v_size v) = Ok (i mod v_size v, w).
Proof.
  intros [R S] Hi. pose proof (len_nonneg (rows_of v)). pose proof (Z.mod_pos_bound i (v_size v) ltac:(lia)). destruct (loc_ok 0 (v_geo v) (i mod v_size v) R) as (w & L & G); [unfold rows_of in S; lia|].
  exists w. rewrite Z.sub_0_r in G. split; [|exact G]. unfold getitem_vector. destruct (getitem_spec (v_size v) i ltac:(lia)) as [-> _]; [|exact Hi]. cbn [rbind]. rewrite L. cbn [rbind map]. reflexivity.
Qed.
Lemma getitem_out v i : 0 <= v_size v -> i < - v_size v \/ v_size v <= i -> getitem_vector v (IdxInt i) = VRaise (VErr IndexError).
Proof. intros HS Hi. unfold getitem_vector. destruct (getitem_spec (v_size v) i HS) as [_ ->]; [reflexivity|exact Hi]. Qed.
Lemma iterate_from v : good 0 v -> forall n i fuel, Z.of_nat n = v_size v - i -> 0 <= i -> (n < fuel)%nat ->
  exists rows, iterate fuel i v = VOk (map (single (c_schema (v_geo v))) rows) /\ rows = skipn (Z.to_nat i) (map snd (rows_of v)).
Proof.
  intros G. destruct G as [R S]. pose proof (len_nonneg (rows_of v)). induction n as [|n IH]; intros i fuel Hn Hi Hf; (destruct fuel as [|fuel]; [lia|]); cbn [iterate].
  - rewrite getitem_out by lia. exists []. split; [reflexivity|]. symmetry. apply skipn_all2. rewrite map_length. unfold len in S. lia.
  - destruct (getitem_ok v i (conj R S) ltac:(lia)) as (w & -> & G). rewrite Z.mod_small in G by lia. destruct (IH (i + 1) fuel ltac:(lia) ltac:(lia) ltac:(lia)) as (rows & -> & ER). cbn [vbind]. exists (w :: rows). split; [reflexivity|].
    rewrite ER. replace (Z.to_nat (i + 1)) with (Datatypes.S (Z.to_nat i)) by lia. unfold get in G. replace (i <? 0) with false in G by lia. destruct (nth_error (rows_of v) (Z.to_nat i)) as [r|] eqn:EN; [|discriminate]. injection G as ->.
    apply (map_nth_error snd) in EN. clear -EN. revert EN. generalize (map snd (rows_of v)). intros l. generalize (Z.to_nat i). intros k. revert l. induction k as [|k IH]; intros [|x l] EN; try discriminate; cbn in EN |- *; [congruence|]. now apply IH.
Qed.
Lemma iterate_ok v fuel : good 0 v -> (length (rows_of v) < fuel)%nat -> iterate fuel 0 v = VOk (map (fun r => single (c_schema (v_geo v)) (snd r)) (rows_of v)).
Proof.
  intros G HF. destruct G as [R S]. destruct (iterate_from v (conj R S) (length (rows_of v)) 0 fuel) as (rows & E & ER); [unfold len in S; lia..|]. rewrite E, ER. cbn [Z.to_nat skipn]. now rewrite map_map.
Qed.
Lemma getitem_all v i : good 0 v ->
  (- v_size v <= i < v_size v -> exists x w, getitem_vector v (IdxInt i) = VOk x /\ good 0 x /\ v_size x = 1 /\ c_schema (v_geo x) = c_schema (v_geo v)
    /\ rows_of x = [(0, w)] /\ get (rows_of v) (i mod v_size v) = Ok (i mod v_size v, w))
  /\ (i < - v_size v \/ v_size v <= i -> getitem_vector v (IdxInt i) = VRaise (VErr IndexError)).
Proof.
  intros G. split.
  - intros H. destruct (getitem_ok v i G H) as (w & E & X). exists (single (c_schema (v_geo v)) w), w. split; [exact E|]. split; [apply single_good|]. auto.
  - apply getitem_out. destruct G as [_ ->]. apply len_nonneg.
Qed.
Lemma iterate_all v fuel : good 0 v -> (length (rows_of v) < fuel)%nat ->
  exists xs, iterate fuel 0 v = VOk xs /\ Forall2 (fun r x => rows_of x = [(0, snd r)] /\ good 0 x /\ c_schema (v_geo x) = c_schema (v_geo v)) (rows_of v) xs.
Proof.
  intros G F. eexists. split; [now apply iterate_ok|]. clear. induction (rows_of v) as [|r l IH]; cbn [map]; constructor; [|exact IH]. split; [reflexivity|]. split; [apply single_good|reflexivity].
Qed.
