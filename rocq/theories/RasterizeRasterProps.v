(* C73: rasterising a table onto a whole raster. *)
From Coq Require Import QArith String.
From Verif Require Import Base Scalars Dtypes Arr2 FocalSpec FocalResults Raster RasterSpec RasterProofs Rasterize RasterizeSpec RasterizeRaster RasterizeRasterSpec RasterizeRasterProofs.
Open Scope Z_scope.

(* Every cell gets the value that resolves the overlap of all features touching
   it, in table order, and is null exactly when there is none: for every chunking
   of like, every partitioning of the table, whether spatial partitions are known,
   asked for or made up, and in like's coordinate system.  The spatial partitions
   the table comes with must be right.  The null value is not NaN and no feature
   has it, or NaN, as value (C35 has what happens otherwise). *)
Theorem C73_rasterize : forall cast fd sb t k ny nx field m invert nva aware d fill,
  grid_of ny nx k -> thick k -> can_transform t k -> spatial_right t k -> (aware = true -> forall p, In p (t_parts t) -> covers (cells_crs t k) (grid_box k) p (sb (cells_crs t k) p)) ->
  chosen t field nva d fill -> is_nan fill = false ->
  (forall f, In f (concat (t_parts t)) -> is_nan (feature_value (field_of field) f) = false /\ num_eqb (feature_value (field_of field) f) fill = false) ->
  exists out t', rasterize cast fd sb t k field (Some m) false invert nva aware = Ok (out, t')
  /\ wf 1 (ny * nx) out /\ r_dtype out = d /\ r_nv out = Some fill
  /\ forall r c, 0 <= r < ny -> 0 <= c < nx ->
     let x := map (feature_value (field_of field)) (touching_cell (cells_crs t k) (t_parts t) (k_row k + r) (k_col k + c)) in
     resolves m fill x (value out 0 (r * nx + c)) /\ null out 0 (r * nx + c) = match x with [] => true | _ => false end.
Proof. exact values_ok. Qed.
Print Assumptions C73_rasterize.

(* A chunk of like with one row or column: nothing is rasterised at all. *)
Theorem C73_thin : forall cast fd sb t k field om mask invert nva aware, ~ thick k -> forall out, rasterize cast fd sb t k field om mask invert nva aware <> Ok out.
Proof. exact thin_refused. Qed.
Print Assumptions C73_thin.

(* The result does not depend on the partitions, on like's chunks, on the spatial
   partitions or on use_spatial_aware. *)
Theorem C73_same : forall cast fd sb t1 t2 k1 k2 ny nx field m i1 i2 nva a1 a2 d fill,
  grid_of ny nx k1 -> grid_of ny nx k2 -> thick k1 -> thick k2 -> k_row k1 = k_row k2 -> k_col k1 = k_col k2 -> concat (t_parts t1) = concat (t_parts t2) -> t_columns t1 = t_columns t2 -> cells_crs t1 k1 = cells_crs t2 k2 ->
  can_transform t1 k1 -> can_transform t2 k2 -> spatial_right t1 k1 -> spatial_right t2 k2 ->
  (forall p crs, covers crs (grid_box k1) p (sb crs p)) ->
  chosen t1 field nva d fill -> is_nan fill = false ->
  (forall f, In f (concat (t_parts t1)) -> is_nan (feature_value (field_of field) f) = false /\ num_eqb (feature_value (field_of field) f) fill = false) ->
  exists o1 o2 u1 u2, rasterize cast fd sb t1 k1 field (Some m) false i1 nva a1 = Ok (o1, u1) /\ rasterize cast fd sb t2 k2 field (Some m) false i2 nva a2 = Ok (o2, u2)
  /\ r_dtype o1 = r_dtype o2 /\ r_nv o1 = r_nv o2
  /\ forall i, 0 <= i < ny * nx -> same_value (value o1 0 i) (value o2 0 i) = true /\ null o1 0 i = null o2 0 i.
Proof. exact same_results. Qed.
Print Assumptions C73_same.

(* mask=True: 1 in the touched cells, the others null; or the other way round *)
Theorem C73_mask : forall cast fd sb t k ny nx field om invert aware,
  grid_of ny nx k -> thick k -> can_transform t k -> spatial_right t k -> (aware = true -> forall p, In p (t_parts t) -> covers (cells_crs t k) (grid_box k) p (sb (cells_crs t k) p)) ->
  exists out t', rasterize cast fd sb t k field om true invert NvNone aware = Ok (out, t')
  /\ wf 1 (ny * nx) out /\ r_dtype out = U8 /\ r_nv out = Some (of_Z 0)
  /\ (forall r c, 0 <= r < ny -> 0 <= c < nx ->
     let hit := xorb (match touching_cell (cells_crs t k) (t_parts t) (k_row k + r) (k_col k + c) with [] => false | _ => true end) invert in
     value out 0 (r * nx + c) = of_Z (if hit then 1 else 0) /\ null out 0 (r * nx + c) = negb hit)
  /\ forall s, rasterize cast fd sb t k field om true invert (NvScalar s) aware = let* out := set_null_value cast fd out (Some s) in Ok (out, t').
Proof. exact mask_ok. Qed.
Print Assumptions C73_mask.
(* with a null value other than 1 *)
Theorem C73_mask_null_value : forall cast fd sb t k ny nx field om invert aware s out t', cast BOOL NaN = of_Z 1 -> (forall d z, z = 0 \/ z = 1 -> cast d (of_Z z) = of_Z z) -> (forall v, fd v <> BOOL) -> fits s ->
  same_value (of_Z 1) (scalar_num s) = false -> same_value (of_Z 1) (cast U8 (scalar_num s)) = false ->
  grid_of ny nx k -> thick k -> can_transform t k -> spatial_right t k -> (aware = true -> forall p, In p (t_parts t) -> covers (cells_crs t k) (grid_box k) p (sb (cells_crs t k) p)) ->
  rasterize cast fd sb t k field om true invert (NvScalar s) aware = Ok (out, t') ->
  wf 1 (ny * nx) out /\ exists v, r_nv out = Some v /\ (v = scalar_num s \/ v = cast U8 (scalar_num s))
  /\ forall r c, 0 <= r < ny -> 0 <= c < nx ->
     let hit := xorb (match touching_cell (cells_crs t k) (t_parts t) (k_row k + r) (k_col k + c) with [] => false | _ => true end) invert in
     value out 0 (r * nx + c) = (if hit then of_Z 1 else v) /\ null out 0 (r * nx + c) = negb hit.
Proof. exact mask_value_ok. Qed.
Print Assumptions C73_mask_null_value.

(* Refusals. *)
Theorem C73_refused : forall cast fd sb t k field om mask invert nva aware,
  (mask = false -> bad_field t field -> rasterize cast fd sb t k field om mask invert nva aware = Err ValueError)
  /\ (mask = false -> ~ bad_field t field -> nva = NvOther -> rasterize cast fd sb t k field om mask invert nva aware = Err TypeError)
  /\ (mask = false -> nva <> NvOther -> om = None -> rasterize cast fd sb t k field om mask invert nva aware = Err ValueError)
  /\ (mask = true -> nva = NvOther -> rasterize cast fd sb t k field om mask invert nva aware = Err TypeError)
  /\ (nva <> NvOther -> ~ can_transform t k -> rasterize cast fd sb t k field om mask invert nva aware = Err ValueError).
Proof. exact refusals. Qed.
Print Assumptions C73_refused.

(* Rasterising again: the caller's table keeps its features, and its spatial
   partitions stay right for grids inside the one rasterised onto first. *)
Theorem C73_again : forall cast fd sb t k field om mask invert nva aware out t' k', rasterize cast fd sb t k field om mask invert nva aware = Ok (out, t') ->
  spatial_right t k' -> (t_spatial t = None -> aware = false -> within (grid_box k') (grid_box k)) ->
  t_parts t' = t_parts t /\ t_crs t' = t_crs t /\ t_columns t' = t_columns t /\ spatial_right t' k'.
Proof. exact again_right. Qed.
Print Assumptions C73_again.

(* ---- an example ---- *)
Definition on_cells (cells : list (Z * Z)) (r c : Z) : bool := existsb (fun p => (fst p =? r) && (snd p =? c)) cells.
Definition gfeat (i v : Z) (cells : list (Z * Z)) : gfeature := GFeature i (fun _ => of_Z v) (fun _ => on_cells cells).
Definition ex_table : table := Table [[gfeat 0 5 [(0, 0); (0, 1)]; gfeat 1 3 [(0, 1); (2, 3)]]; [gfeat 2 4 [(0, 1); (1, 1)]]; [gfeat 3 9 [(2, 3); (5, 5)]]] None (Some 1) [("a"%string, Some I32); ("s"%string, None)].
Definition ex_like : grid := Grid [2; 3] [2; 2] 0 0 (Some 1).
Definition ex_far : grid := Grid [2] [2] 5 5 (Some 1).
Definition id_cast (d : dtype) (v : num) : num := v.
Definition to_f64 (v : num) : dtype := F64.
Definition bounds_all (c : option Z) (p : list gfeature) : region := fun _ => true.
Definition run (t : table) (k : grid) (m : overlap) := rasterize id_cast to_f64 bounds_all t k (FieldName "a"%string) (Some m) false false (NvScalar (SInt 0)) false.
Example C73_example :
  (let* r := run ex_table ex_like First in Ok (r_data (fst r))) = Ok [map of_Z [5; 5; 0; 0; 0; 4; 0; 0; 0; 0; 0; 3; 0; 0; 0; 0; 0; 0; 0; 0]]
  /\ (let* r := run ex_table ex_like Last in Ok (r_data (fst r))) = Ok [map of_Z [5; 4; 0; 0; 0; 4; 0; 0; 0; 0; 0; 9; 0; 0; 0; 0; 0; 0; 0; 0]]
  /\ (let* r := run ex_table ex_like Min in Ok (r_data (fst r))) = Ok [map of_Z [5; 3; 0; 0; 0; 4; 0; 0; 0; 0; 0; 3; 0; 0; 0; 0; 0; 0; 0; 0]]
  /\ (let* r := run ex_table ex_like Max in Ok (r_mask (fst r))) = Ok [[false; false; true; true; true; false; true; true; true; true; true; false; true; true; true; true; true; true; true; true]].
Proof. vm_compute. repeat split. Qed.
Example C73_hypotheses : grid_of 5 4 ex_like /\ thick ex_like /\ can_transform ex_table ex_like /\ spatial_right ex_table ex_like /\ chosen ex_table (FieldName "a"%string) (NvScalar (SInt 0)) I32 (of_Z 0)
  /\ Forall (fun f => is_nan (feature_value (Some "a"%string) f) = false /\ num_eqb (feature_value (Some "a"%string) f) (of_Z 0) = false) (concat (t_parts ex_table))
  /\ (forall p, covers (cells_crs ex_table ex_like) (grid_box ex_like) p (bounds_all (cells_crs ex_table ex_like) p)).
Proof.
  split; [|split; [|split; [|split; [|split; [|split]]]]].
  - split; [|split; [|split; [discriminate|reflexivity]]]; unfold cuts; repeat split; repeat constructor; easy.
  - split; repeat constructor; easy.
  - discriminate.
  - intros regs. discriminate.
  - split; reflexivity.
  - repeat constructor.
  - intros p f b r c _ _ _ _. reflexivity.
Qed.

(* Finding: line 523 assigns made-up spatial partitions, the bounds of like, to the
   table of the caller.  Rasterised again onto a grid elsewhere, the table loses its
   features. *)
Theorem C73_again_refuted : ~ (forall cast fd sb t k1 k2 field m nva o1 t1 o2 t2 o3 t3, t_spatial t = None ->
  rasterize cast fd sb t k1 field (Some m) false false nva false = Ok (o1, t1) ->
  rasterize cast fd sb t1 k2 field (Some m) false false nva false = Ok (o2, t2) ->
  rasterize cast fd sb t k2 field (Some m) false false nva false = Ok (o3, t3) -> r_data o2 = r_data o3).
Proof.
  intros H.
  destruct (run ex_table ex_like Last) as [[o1 t1]|] eqn:E1; [|vm_compute in E1; discriminate].
  destruct (run t1 ex_far Last) as [[o2 t2]|] eqn:E2; [|pose proof (f_equal (fun r => match r with Ok (_, t) => Some t | Err _ => None end) E1) as T; cbn [fst snd] in T; injection T as <-; vm_compute in E2; discriminate].
  destruct (run ex_table ex_far Last) as [[o3 t3]|] eqn:E3; [|vm_compute in E3; discriminate].
  unfold run in E1, E2, E3. specialize (H id_cast to_f64 bounds_all ex_table ex_like ex_far (FieldName "a"%string) Last (NvScalar (SInt 0)) o1 t1 o2 t2 o3 t3 eq_refl E1 E2 E3).
  fold (run ex_table ex_like Last) in E1. fold (run t1 ex_far Last) in E2. fold (run ex_table ex_far Last) in E3.
  assert (D3 : r_data o3 = [map of_Z [9; 0; 0; 0]]). { assert (X : (let* r := run ex_table ex_far Last in Ok (r_data (fst r))) = Ok [map of_Z [9; 0; 0; 0]]) by (vm_compute; reflexivity). rewrite E3 in X. cbn [rbind fst] in X. congruence. }
  assert (D2 : r_data o2 = [map of_Z [0; 0; 0; 0]]).
  { assert (X : (let* r := run ex_table ex_like Last in let* r := run (snd r) ex_far Last in Ok (r_data (fst r))) = Ok [map of_Z [0; 0; 0; 0]]) by (vm_compute; reflexivity). rewrite E1 in X. cbn [rbind snd] in X. rewrite E2 in X. cbn [rbind fst] in X. congruence. }
  rewrite D2, D3 in H. vm_compute in H. discriminate.
Qed.
Print Assumptions C73_again_refuted.
(* Finding: with mask=True and null_value=1 all cells become null. *)
Theorem C73_mask_null_value_refuted : ~ (forall cast fd sb t k ny nx out t', grid_of ny nx k -> thick k -> t_spatial t = None -> t_crs t = k_crs k ->
  rasterize cast fd sb t k NoField None true false (NvScalar (SInt 1)) false = Ok (out, t') ->
  forall r c, 0 <= r < ny -> 0 <= c < nx -> touching_cell (t_crs t) (t_parts t) (k_row k + r) (k_col k + c) <> [] -> null out 0 (r * nx + c) = false).
Proof.
  intros H. destruct (rasterize id_cast to_f64 bounds_all ex_table ex_like NoField None true false (NvScalar (SInt 1)) false) as [[out t']|] eqn:E; [|vm_compute in E; discriminate].
  specialize (H _ _ _ ex_table ex_like 5 4 _ _ (proj1 C73_hypotheses) (proj1 (proj2 C73_hypotheses)) eq_refl eq_refl E 0 0 ltac:(easy) ltac:(easy)).
  assert (X : (let* r := rasterize id_cast to_f64 bounds_all ex_table ex_like NoField None true false (NvScalar (SInt 1)) false in Ok (null (fst r) 0 (0 * 4 + 0))) = Ok true) by (vm_compute; reflexivity).
  rewrite E in X. cbn [rbind fst] in X. assert (N : null out 0 (0 * 4 + 0) = true) by congruence. clear X E. rewrite H in N; [discriminate|]. vm_compute. discriminate.
Qed.
Print Assumptions C73_mask_null_value_refuted.
(* Finding: line 326 asks for the bounding boxes of like's chunks, and those of a
   chunk of one row or column cannot be had (C82): a raster that is rasterised onto
   in one chunk is refused in two. *)
Theorem C73_thin_refuted : ~ (forall cast fd sb t k1 k2 ny nx field m nva o1 t1, grid_of ny nx k1 -> grid_of ny nx k2 -> k_row k1 = k_row k2 -> k_col k1 = k_col k2 -> k_crs k1 = k_crs k2 -> t_spatial t = None ->
  rasterize cast fd sb t k1 field (Some m) false false nva false = Ok (o1, t1) -> exists o2 t2, rasterize cast fd sb t k2 field (Some m) false false nva false = Ok (o2, t2)).
Proof.
  intros H. destruct (run ex_table ex_like Last) as [[o1 t1]|] eqn:E1; [|vm_compute in E1; discriminate].
  destruct (H id_cast to_f64 bounds_all ex_table ex_like (Grid [4; 1] [4] 0 0 (Some 1)) 5 4 (FieldName "a"%string) Last (NvScalar (SInt 0)) o1 t1) as (o2 & t2 & E2); try reflexivity.
  - exact (proj1 C73_hypotheses).
  - split; [|split; [|split; [discriminate|reflexivity]]]; unfold cuts; repeat split; repeat constructor; easy.
  - exact E1.
  - vm_compute in E2. discriminate.
Qed.
Print Assumptions C73_thin_refuted.
