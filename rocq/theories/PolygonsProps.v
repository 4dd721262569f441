(* C72: a raster as polygons. *)
From Coq Require Import QArith Qround Qreduction.
From Verif Require Import Base Scalars FocalSpec BandsSpec FocalResults RasterSpec RasterValues ReconcileSpec Reconcile Polygons PolygonsSpec PolygonsProofs.
Open Scope Z_scope.

(* One polygon for each value in each band, covering exactly the valid cells with this
   value (once through the dtype that is used for polygons). *)
Theorem C72_polygons : forall cast shapes, covers shapes -> respects cast ->
  forall d nb ny nx ycs xcs data mask neighbors, cuts ny ycs -> cuts nx xcs -> shaped3 nb ny nx data -> shaped3 nb ny nx mask -> neighbors = 4 \/ neighbors = 8 ->
  exists ps, to_polygons cast shapes d nb ycs xcs data mask neighbors = Ok ps /\ polygons_of cast d data mask ps.
Proof. exact polygons. Qed.
Print Assumptions C72_polygons.

(* This determines the polygons: neither the chunks, nor the neighbors, nor how cells are
   gathered in a chunk make a difference. *)
Theorem C72_same : forall cast d data mask ps qs, polygons_of cast d data mask ps -> polygons_of cast d data mask qs ->
  forall p, In p ps -> exists q, In q qs /\ same_polygon p q.
Proof. exact polygons_unique. Qed.
Print Assumptions C72_same.

(* With values that survive the conversion the polygons have the values of the raster. *)
Theorem C72_exact : forall cast d data mask ps, keeps cast -> respects cast -> representable d data mask -> polygons_of cast d data mask ps ->
  (forall p, In p ps -> forall r c, In (r, c) (pg_cells p) <-> at3 mask (pg_band p - 1) r c false /\ exists v, at3 data (pg_band p - 1) r c v /\ num_eqb v (pg_value p) = true)
  /\ (forall b r c v, at3 mask b r c false -> at3 data b r c v -> is_nan v = false -> exists p, In p ps /\ pg_band p = b + 1 /\ num_eqb v (pg_value p) = true /\ In (r, c) (pg_cells p)).
Proof. exact exact_polygons. Qed.
Print Assumptions C72_exact.

Theorem C72_refused : forall cast shapes d nb ycs xcs data mask neighbors, neighbors <> 4 -> neighbors <> 8 ->
  to_polygons cast shapes d nb ycs xcs data mask neighbors = Err ValueError.
Proof.
  intros cast shapes d nb ycs xcs data mask n N4 N8. unfold to_polygons. cbn [existsb]. apply Z.eqb_neq in N4, N8. now rewrite N4, N8.
Qed.
Print Assumptions C72_refused.

(* ---- examples ---- *)
Definition z := of_Z.
Definition wrap_int (d : dtype) (n : Z) : Z := int_min d + (n - int_min d) mod (int_max d - int_min d + 1).
(* NumPy's conversion of finite values *)
Definition ex_cast (d : dtype) (v : num) : num :=
  match v with Fin q => if is_float_dtype d then match round_to d (Fin (Qred q)) with Fin r => Fin (Qred r) | w => w end else of_Z (wrap_int d (Qfloor q)) | v => v end.
(* every valid cell is a polygon of its own *)
Definition ex_shapes (chunk : list (list num)) (valid : list (list bool)) (neighbors : Z) : list (list (Z * Z) * num) :=
  flat_map (fun '(r, (row, vrow)) => flat_map (fun '(c, (v, ok)) => if ok : bool then [([(r, c)], v)] else [])
    (combine (zrange 0 (len row)) (combine row vrow))) (combine (zrange 0 (len chunk)) (combine chunk valid)).
Lemma ex_respects : respects ex_cast.
Proof.
  intros d v w E. unfold same_value in E. destruct v, w; try discriminate E; try apply same_value_refl. apply Qeq_bool_iff in E.
  unfold ex_cast. rewrite (Qred_complete _ _ E). rewrite (Qfloor_comp _ _ E). apply same_value_refl.
Qed.
Lemma in_numbered {A} (l : list A) k x : In (k, x) (combine (zrange 0 (len l)) l) <-> get l k = Ok x.
Proof.
  split.
  - intros I. apply In_nth_error in I as [n N]. assert (G : get (combine (zrange 0 (len l)) l) (Z.of_nat n) = Ok (k, x)).
    { unfold get. destruct (Z.ltb_spec (Z.of_nat n) 0); [lia|]. now rewrite Nat2Z.id, N. }
    apply get_combine_iff in G as [G1 G2]. pose proof (BaseFacts.get_ok_range _ _ _ G2). rewrite ProximityChunk.get_zrange in G1 by lia. injection G1 as <-. exact G2.
  - intros G. pose proof (BaseFacts.get_ok_range _ _ _ G). apply (ChunksProofs.get_in _ k). apply get_combine_iff. split; [|exact G]. now rewrite ProximityChunk.get_zrange by lia.
Qed.
Lemma ex_in chunk valid n ny nx : shaped2 ny nx chunk -> shaped2 ny nx valid ->
  forall cells v, In (cells, v) (ex_shapes chunk valid n) <-> exists r c, cells = [(r, c)] /\ at2 chunk r c v /\ at2 valid r c true.
Proof.
  intros [L1 F1] [L2 F2] cells v. unfold ex_shapes. rewrite Forall_forall in F1, F2.
  assert (C : forall A B (a : list A) (b : list B), len a = len b -> len (combine a b) = len a) by (intros A B a b H; unfold len in *; rewrite combine_length; lia).
  rewrite <- (C _ _ chunk valid) by lia. split.
  - intros I. apply in_flat_map in I as ((r & row & vrow) & Ir & I). apply in_numbered in Ir. apply get_combine_iff in Ir as [G1 G2].
    rewrite <- (C _ _ row vrow) in I by (rewrite (F1 row), (F2 vrow); [reflexivity|eapply ChunksProofs.get_in; eauto..]).
    apply in_flat_map in I as ((c & w & ok) & Ic & I). apply in_numbered in Ic. apply get_combine_iff in Ic as [G3 G4]. destruct ok; [|destruct I].
    destruct I as [[= <- <-]|[]]. exists r, c. split; [reflexivity|]. split; [exists row|exists vrow]; auto.
  - intros (r & c & -> & (row & G1 & G2) & (vrow & G3 & G4)). apply in_flat_map. exists (r, (row, vrow)). split; [apply in_numbered, get_combine_iff; auto|].
    rewrite <- (C _ _ row vrow) by (rewrite (F1 row), (F2 vrow); [reflexivity|eapply ChunksProofs.get_in; eauto..]).
    apply in_flat_map. exists (c, (v, true)). split; [apply in_numbered, get_combine_iff; auto|now left].
Qed.
Lemma ex_covers : covers ex_shapes.
Proof.
  intros ny nx chunk valid n Sc Sv N. split.
  - intros cells v I. apply (ex_in chunk valid n ny nx Sc Sv) in I as (r & c & -> & A & V). split; [discriminate|]. intros r' c' [[= <- <-]|[]]. split; [exact V|]. exists v. split; [exact A|apply same_value_refl].
  - intros r c V. assert (exists w, at2 chunk r c w) as [w A].
    { destruct Sc as [L1 F1], Sv as [L2 F2], V as (vrow & G1 & G2). rewrite Forall_forall in F1, F2. pose proof (F2 _ (ChunksProofs.get_in _ _ _ G1)).
      pose proof (BaseFacts.get_ok_range _ _ _ G1). pose proof (BaseFacts.get_ok_range _ _ _ G2). destruct (BaseFacts.get_range chunk r ltac:(lia)) as [row E]. pose proof (F1 _ (ChunksProofs.get_in _ _ _ E)).
      destruct (BaseFacts.get_range row c ltac:(lia)) as [w E2]. exists w, row. auto. }
    exists [(r, c)], w. split; [|now left]. apply (ex_in chunk valid n ny nx Sc Sv). eauto.
Qed.
Definition ex_polygons := to_polygons ex_cast ex_shapes.
Definition ex_data := [[[z 1; z 1; z 2]; [z 1; z 2; z 1]]; [[z 7; z 7; z 7]; [z 7; z 7; z 7]]].
Definition ex_mask := [[[false; false; false]; [true; false; false]]; [[false; false; false]; [false; true; false]]].
Example C72_example : cuts 2 [1; 1] /\ cuts 3 [2; 1] /\ shaped3 2 2 3 ex_data /\ shaped3 2 2 3 ex_mask
  /\ ex_polygons U8 2 [1; 1] [2; 1] ex_data ex_mask 4
     = Ok [Polygon (z 1) 1 [(0, 0); (0, 1); (1, 2)]; Polygon (z 2) 1 [(0, 2); (1, 1)]; Polygon (z 7) 2 [(0, 0); (0, 1); (0, 2); (1, 0); (1, 2)]].
Proof.
  split; [split; [repeat constructor; lia|reflexivity]|]. split; [split; [repeat constructor; lia|reflexivity]|].
  split; [split; [reflexivity|repeat constructor]|]. split; [split; [reflexivity|repeat constructor]|]. vm_compute. reflexivity.
Qed.
Example C72_representable : representable U32 ex_data ex_mask.
Proof.
  intros b r c v _ A. assert (exists n, 0 <= n <= 7 /\ v = z n) as (n & Hn & ->).
  { destruct A as (band & G1 & row & G2 & G3). apply ChunksProofs.get_in in G1, G2, G3.
    repeat (destruct G1 as [<-|G1]; [repeat (destruct G2 as [<-|G2]; [repeat (destruct G3 as [<-|G3]; [eexists; split; [|reflexivity]; lia|]); destruct G3|]); destruct G2|]). destruct G1. }
  cbn. split; exists n; (split; [lia|reflexivity]).
Qed.

(* ---- findings ---- *)
(* int64: areas whose values differ by 2^32 are one polygon, and values beyond int32 are
   wrong *)
Theorem C72_int64_refuted :
  ~ (forall d data mask ps, ex_polygons d 1 [1] [2] data mask 4 = Ok ps ->
       forall p, In p ps -> forall r c, In (r, c) (pg_cells p) -> exists v, at3 data 0 r c v /\ num_eqb v (pg_value p) = true)
  /\ ex_polygons I64 1 [1] [2] [[[z (2 ^ 32 + 5); z 5]]] [[[false; false]]] 4 = Ok [Polygon (z 5) 1 [(0, 0); (0, 1)]].
Proof.
  assert (E : ex_polygons I64 1 [1] [2] [[[z (2 ^ 32 + 5); z 5]]] [[[false; false]]] 4 = Ok [Polygon (z 5) 1 [(0, 0); (0, 1)]]) by (vm_compute; reflexivity).
  split; [|exact E]. intros H. destruct (H I64 _ _ _ E (Polygon (z 5) 1 [(0, 0); (0, 1)]) (or_introl eq_refl) 0 0 (or_introl eq_refl)) as (v & (b & [= <-] & row & [= <-] & [= <-]) & K).
  vm_compute in K. discriminate K.
Qed.
Print Assumptions C72_int64_refuted.
(* float64: values are rounded to single precision, and areas that differ by less are one
   polygon *)
Theorem C72_float64_refuted :
  ex_polygons F64 1 [1] [2] [[[z (2 ^ 24 + 1); z (2 ^ 24)]]] [[[false; false]]] 4 = Ok [Polygon (z (2 ^ 24)) 1 [(0, 0); (0, 1)]].
Proof. vm_compute. reflexivity. Qed.
Print Assumptions C72_float64_refuted.
(* a valid NaN is in no polygon *)
Theorem C72_nan_refuted : ex_polygons F32 1 [1] [2] [[[NaN; z 3]]] [[[false; false]]] 4 = Ok [Polygon (z 3) 1 [(0, 1)]].
Proof. vm_compute. reflexivity. Qed.
Print Assumptions C72_nan_refuted.
