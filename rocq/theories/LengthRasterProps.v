(* C80: the lengths of lines near the cells of a raster.
   total ... r w rows y x is the length, weighted with w, of the usable geometries of rows
   within the circle of radius r around y, x; projected project v are the features of v in
   the system of the raster. *)
From Coq Require Import QArith Qabs Lqa String Lia.
From Verif Require Import Base Scalars Chunks BandsSpec Bands Blocks BlocksSpec BlockArgs MapBlocks MapBlocksSpec Vectors VectorTable VectorTableSpec VectorTableProofs MapOverlap GeoMap GeoMapSpec
  FocalResults LineStats LineStatsSpec LengthRaster LengthRasterSpec LengthRasterMain.
Open Scope Z_scope.

(* C80: every cell gets the length of all features around its centre.  For exact sums
   and products, geometry that obeys its laws, and a radius up to the size of the raster *)
Theorem C80_length_partial : forall S (zero : S) add mul value addn weight lib cast files read_file project scalar_field features v a like r field w nb ny nx,
  exact_products zero add mul -> (forall a b, addn (value a) (value b) = value (add a b)) -> lawful zero add lib r ->
  get_vector files read_file features = VOk v -> good a v -> Forall (fun f => type_of lib (w_geom (snd f)) <> OtherType) (rows_of v) ->
  1 <= nb -> 0 <= ny -> 0 <= nx -> raster_of_shape nb ny nx (gr like) -> on_grid ny nx like -> no_empty_chunk (gr like) -> gr_crs like <> None ->
  let t := gb_affine (gr_box like) in
  (0 < Qabs (af_a t))%Q -> (0 < Qabs (af_e t))%Q -> (0 < r)%Q -> (r <= inject_Z ny * Qabs (af_e t))%Q -> (r <= inject_Z nx * Qabs (af_a t))%Q ->
  weighting weight scalar_field (s_columns (c_schema (v_geo v))) (projected project v) field w ->
  exists chunks data mask, LengthRaster.length zero add mul value addn weight lib cast files read_file project scalar_field features like (Radius r) field = VOk (BRaster F32 None chunks data mask)
  /\ chunks = ([1], snd (fst (b_chunks (gr like))), snd (b_chunks (gr like)))
  /\ shaped3 1 ny nx data /\ shaped3 1 ny nx mask /\ (forall b y x m, at3 mask b y x m -> m = false)
  /\ forall y x yc xc, 0 <= y < ny -> 0 <= x < nx -> coordinates_of (gr_box like) y x yc xc ->
       at3 data 0 y x (value (total zero add mul lib r w (projected project v) yc xc)).
Proof. exact @length_ok. Qed.
Print Assumptions C80_length_partial.

(* C80: the chunks of the raster and the partitions of the features do not matter *)
Theorem C80_cuts_partial : forall S (zero : S) add mul value addn weight lib cast files read_file project scalar_field features v a like features' v' a' like' r field w nb nb' ny nx out out',
  exact_products zero add mul -> (forall a b, addn (value a) (value b) = value (add a b)) -> lawful zero add lib r ->
  let fine features v a like nb :=
    get_vector files read_file features = VOk v /\ good a v /\ 1 <= nb /\ raster_of_shape nb ny nx (gr like) /\ on_grid ny nx like /\ no_empty_chunk (gr like) /\ gr_crs like <> None in
  fine features v a like nb -> fine features' v' a' like' nb' -> rows_of v = rows_of v' -> c_schema (v_geo v) = c_schema (v_geo v') -> gr_box like = gr_box like' ->
  Forall (fun f => type_of lib (w_geom (snd f)) <> OtherType) (rows_of v) -> 0 <= ny -> 0 <= nx ->
  let t := gb_affine (gr_box like) in
  (0 < Qabs (af_a t))%Q -> (0 < Qabs (af_e t))%Q -> (0 < r)%Q -> (r <= inject_Z ny * Qabs (af_e t))%Q -> (r <= inject_Z nx * Qabs (af_a t))%Q ->
  weighting weight scalar_field (s_columns (c_schema (v_geo v))) (projected project v) field w ->
  let f := LengthRaster.length zero add mul value addn weight lib cast files read_file project scalar_field in
  f features like (Radius r) field = VOk out -> f features' like' (Radius r) field = VOk out' ->
  forall b y x c, at3 (b_data out) b y x c <-> at3 (b_data out') b y x c.
Proof. exact @length_cuts. Qed.
Print Assumptions C80_cuts_partial.

(* C80: wrong arguments *)
Theorem C80_refused : forall S (zero : S) add mul value addn weight lib cast files read_file project scalar_field,
  let f := LengthRaster.length zero add mul value addn weight lib cast files read_file project scalar_field in
  (forall features like r field e, get_vector files read_file features = VRaise e -> f features like r field = VRaise e)
  /\ forall features v like r field, get_vector files read_file features = VOk v ->
  f features like RadiusOther field = VRaise (VErr TypeError)
  /\ ((r <= 0)%Q -> f features like (Radius r) field = VRaise (VErr ValueError))
  /\ ((0 < r)%Q -> gr_crs like = None -> f features like (Radius r) field = VRaise (VErr ValueError))
  /\ ((0 < r)%Q -> gr_crs like <> None -> (exists x, In x (rows_of v) /\ type_of lib (w_geom (snd x)) = OtherType) -> f features like (Radius r) field = VRaise (VErr TypeError))
  /\ ((0 < r)%Q -> gr_crs like <> None -> Forall (fun x => type_of lib (w_geom (snd x)) <> OtherType) (rows_of v) ->
       f features like (Radius r) FieldOther = VRaise (VErr TypeError)
       /\ (forall s, ~ In s (all_columns (c_schema (v_geo v))) -> f features like (Radius r) (FieldName s) = VRaise (VErr ValueError))
       /\ (forall s, In s (all_columns (c_schema (v_geo v))) -> scalar_field s = false -> f features like (Radius r) (FieldName s) = VRaise (VErr TypeError))).
Proof. exact (fun S zero add mul value addn weight lib cast files read_file project scalar_field => conj (length_source zero add mul value addn weight lib cast files read_file project scalar_field) (length_refused zero add mul value addn weight lib cast files read_file project scalar_field)). Qed.
Print Assumptions C80_refused.

(* ---- examples ---- *)
(* geometry n: a line of length 2, so thin and short that it is at x = n, y = 0; circles
   are diamonds.  Geometry -1 is not a line, 7 not valid *)
Definition near (r : Q) (n : Z) (y x : Q) : bool := Qle_bool (Qabs (x - inject_Z n) + Qabs y) r.
Definition in_rect (n : Z) (a : rect) : bool := Qle_bool (x_min a) (inject_Z n) && Qle_bool (inject_Z n) (x_max a) && Qle_bool (y_min a) 0 && Qle_bool 0 (y_max a).
Definition sticks : shapes Z := {|
  type_of := fun n => if n =? -1 then OtherType else LineString;
  usable := fun n => negb (n =? 7);
  clipped := fun n a => if in_rect n a then Some n else None;
  parts_of := fun n => [n];
  verts_of := fun _ => 2;
  touches := near;
  inside := fun r n y x => if near r n y x then Some 2 else None |}.
Lemma near_rect r n y x a : around a r y x -> near r n y x = true -> in_rect n a = true.
Proof.
  intros (A & B & C & D) N. apply Qle_bool_iff in N. pose proof (Qabs_nonneg (x - inject_Z n)). pose proof (Qabs_nonneg y).
  assert (H1 : (Qabs (x - inject_Z n) <= r)%Q) by lra. assert (H2 : (Qabs y <= r)%Q) by lra. apply Qabs_Qle_condition in H1, H2. unfold in_rect. rewrite !Bool.andb_true_iff, !Qle_bool_iff. repeat split; lra.
Qed.
Example C80_ex_lawful : forall r, lawful 0 Z.add sticks r.
Proof.
  intros r. split.
  - intros l y y' x x' Ey Ex. cbn [inside sticks]. replace (near r l y' x') with (near r l y x); [reflexivity|]. unfold near.
    assert (E : (Qabs (x - inject_Z l) + Qabs y == Qabs (x' - inject_Z l) + Qabs y')%Q) by (rewrite Ey, Ex; reflexivity). apply Bool.eq_true_iff_eq. rewrite !Qle_bool_iff. now rewrite E.
  - intros l y x. cbn [inside touches sticks]. now destruct (near r l y x).
  - intros g a y x A. cbn [clipped sticks]. destruct (in_rect g a) eqn:E; [reflexivity|]. unfold length_within. cbn [parts_of inside sticks].
    destruct (near r g y x) eqn:N; [rewrite (near_rect _ _ _ _ _ A N) in E; discriminate|]. unfold sum_of. cbn [map fold_right]. now rewrite N.
Qed.
Definition plus_num (a b : num) : num := match a, b with Fin p, Fin q => Fin (p + q) | _, _ => NaN end.
Definition from_num (a : num) : Z := match a with Fin q => Qnum q | _ => 0 end.
Example C80_ex_exact : exact_products 0 Z.add Z.mul /\ forall a b, plus_num (of_Z a) (of_Z b) = of_Z (a + b).
Proof.
  split; [split; [repeat split; intros; lia|split; intros; lia]|]. intros a b. cbn. unfold Qplus, inject_Z. cbn. now rewrite !Z.mul_1_r.
Qed.
(* cells of size 10: the columns at 5 and 15, the rows at 10, 0 and -10 *)
Definition box : geobox := {| gb_affine := Blocks.Affine 10 0 0 0 (-10 # 1) 15; gb_ny := 3; gb_nx := 2 |}.
Definition cells (c : crs) (chunks : chunks3) : georaster := GeoRaster (BRaster I16 None chunks [full 3 (full 2 (of_Z 0)); full 3 (full 2 (of_Z 1))] [full 3 (full 2 false); full 3 (full 2 false)]) box c.
Definition utm : crs := Some (32611, false).
Definition wgs84 : crs := Some (4326, true).
Definition whole : chunks3 := ([2], [3], [2]).
Definition cut : chunks3 := ([1; 1], [1; 1; 1], [1; 1]).
Definition weighted : schema := Schema "geometry" ["weights"; "cost"]%string.
Definition features : list (Z * row) := [(0, Row 5 [of_Z 3; of_Z 1]); (1, Row 14 [of_Z 10; of_Z 1]); (2, Row 40 [of_Z 100; of_Z 1]); (3, Row 7 [of_Z 1000; of_Z 1])].
Definition in_two : coll := Coll weighted [[(0, Row 5 [of_Z 3; of_Z 1]); (1, Row 14 [of_Z 10; of_Z 1])]; [(2, Row 40 [of_Z 100; of_Z 1]); (3, Row 7 [of_Z 1000; of_Z 1])]] (Some [0; 2; 3]).
Definition scalar (s : string) : bool := negb (String.eqb s "geometry").
Definition lengths := LengthRaster.length 0 Z.add Z.mul of_Z plus_num from_num sticks (fun _ v => v) (fun _ => None) (fun _ => in_two) (fun g => g) scalar.
Example C80_ex_cells : raster_of_shape 2 3 2 (gr (cells utm cut)) /\ on_grid 3 2 (cells utm cut) /\ no_empty_chunk (gr (cells utm cut)) /\ good 0 (Vec in_two 4)
  /\ weighting from_num scalar (s_columns weighted) (projected (fun g => g) (Vec in_two 4)) (FieldName "weights") (Some (fun f => from_num (nth 0 (w_vals f) NaN))).
Proof.
  split; [repeat constructor; unfold cuts; cbn; repeat split; try discriminate; repeat constructor; lia|]. split; [unfold on_grid; cbn; repeat split; try reflexivity; discriminate|]. split; [repeat constructor|].
  split; [split; [apply (chain_regular 0 _ 3); [repeat split; discriminate|discriminate|reflexivity|now left]|reflexivity]|].
  right. exists 0, (fun f => from_num (nth 0 (w_vals f) NaN)). repeat split; [repeat constructor; cbn; intuition discriminate|]. repeat constructor; eexists; split; reflexivity.
Qed.
Definition grid (l : list (list Z)) : vres braster := VOk (BRaster F32 None ([1], [1; 1; 1], [1; 1]) [map (map of_Z) l] [map (map (fun _ => false)) l]).
Definition zeros : list (list Z) := [[0; 0]; [0; 0]; [0; 0]].
Example C80_ex : lengths (SrcVector (Vec in_two 4)) (cells utm cut) (Radius 12) FieldNone = grid [[2; 2]; [4; 4]; [2; 2]]
  /\ lengths (SrcGeo (MemFrame weighted features)) (cells utm cut) (Radius 12) (FieldName "weights") = grid [[6; 20]; [26; 26]; [6; 20]].
Proof. vm_compute. auto. Qed.

(* ---- findings ---- *)
(* finding: line_stats.py:194 takes the column called weights whatever the field is
   called; with another field length raises, unless no feature is near any block *)
Theorem C80_field_refuted : In "cost"%string (all_columns weighted) /\ scalar "cost" = true /\ lengths (SrcVector (Vec in_two 4)) (cells utm cut) (Radius 12) (FieldName "cost") = VRaise (VErr KeyError).
Proof. vm_compute. auto. Qed.
Print Assumptions C80_field_refuted.
(* finding: a radius larger than the raster raises (overlap deeper than the array) *)
Theorem C80_radius_refuted : lengths (SrcVector (Vec in_two 4)) (cells utm cut) (Radius 31) FieldNone = VRaise (VErr ValueError)
  /\ exists out, lengths (SrcVector (Vec in_two 4)) (cells utm cut) (Radius 20) FieldNone = VOk out.
Proof. split; [vm_compute; reflexivity|]. eexists. vm_compute. reflexivity. Qed.
Print Assumptions C80_radius_refuted.
(* finding: in a geographic system length raises (C65_geographic_refuted) *)
Theorem C80_geographic_refuted : lengths (SrcVector (Vec in_two 4)) (cells wgs84 cut) (Radius 12) FieldNone = VRaise (VErr KeyError).
Proof. vm_compute. reflexivity. Qed.
Print Assumptions C80_geographic_refuted.
