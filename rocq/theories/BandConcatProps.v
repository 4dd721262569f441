(* C86: joining rasters along the bands (general.band_concat). *)
From Coq Require Import QArith.
From Verif Require Import Base Scalars Dtypes FocalSpec BandConcat BandConcatSpec BandConcatProofs.
Open Scope Z_scope.

(* The result has the rows and columns that all rasters have, in the order of the first; its
   bands are those of the rasters one after the other.  A cell is null exactly where the
   raster it comes from is null at these coordinates, and holds its value otherwise. *)
Theorem C86_cells : forall result_type cast r0 r1 rest, let rs := r0 :: r1 :: rest in Forall good rs ->
  exists r', band_concat result_type cast rs = Ok r' /\ good r'
  /\ kept (fun q => forall r, In r (r1 :: rest) -> label (b_y r) q) (b_y r0) (b_y r')
  /\ kept (fun q => forall r, In r (r1 :: rest) -> label (b_x r) q) (b_x r0) (b_x r')
  /\ nbands r' = bands_before rs /\ b_dtype r' = result_type (map b_dtype rs)
  /\ (any_null_value rs -> b_nv r' = Some (default_null (b_dtype r'))) /\ (~ any_null_value rs -> b_nv r' = None)
  /\ forall pre r post b y x v m, rs = pre ++ r :: post -> 0 <= b < nbands r -> cell r b y x v m -> label (b_y r') y -> label (b_x r') x ->
     cell r' (bands_before pre + b) y x (match b_nv r' with Some nv => if m : bool then nv else cast (b_dtype r') v | None => cast (b_dtype r') v end) m.
Proof. exact concat_ok. Qed.
Print Assumptions C86_cells.
Theorem C86_same_grid : forall result_type cast r0 r1 rest r', let rs := r0 :: r1 :: rest in Forall good rs -> (forall r, In r rs -> b_y r = b_y r0 /\ b_x r = b_x r0) ->
  band_concat result_type cast rs = Ok r' -> b_y r' = b_y r0 /\ b_x r' = b_x r0.
Proof. exact concat_same. Qed.
Print Assumptions C86_same_grid.
Theorem C86_few : forall result_type cast, band_concat result_type cast [] = Err ValueError /\ forall r, band_concat result_type cast [r] = Ok r.
Proof. exact concat_few. Qed.
Print Assumptions C86_few.
Theorem C86_crs : forall result_type cast r0 r1 rest r', let rs := r0 :: r1 :: rest in band_concat result_type cast rs = Ok r' ->
  (forall c, b_crs r0 = Some c -> b_crs r' = Some c) /\ ((forall r, In r rs -> b_crs r = None) -> b_crs r' = None).
Proof. exact concat_crs. Qed.
Print Assumptions C86_crs.

(* ---------------- an example: the second raster starts one column later ---------------- *)
Definition first_of (l : list dtype) : dtype := match l with d :: _ => d | [] => F64 end.
Definition keep (d : dtype) (x : num) : num := x.
Definition nums : list Z -> list num := map of_Z.
Definition left_r : bandsr := Bands_ I16 None (Some 1) [3#2; 1#2]%Q [1#2; 3#2]%Q [[nums [1; 2]; nums [3; 4]]] [[[false; false]; [false; false]]].
Definition right_r : bandsr := Bands_ I16 (Some (of_Z 7)) None [3#2; 1#2]%Q [3#2; 5#2]%Q [[nums [5; 6]; nums [7; 8]]; [nums [9; 9]; nums [9; 9]]] [[[false; false]; [true; false]]; [[false; false]; [false; false]]].
Lemma two_distinct a b : ~ (a == b)%Q -> distinct [a; b].
Proof.
  intros N i j p q Ei Ej E.
  pose proof (BaseFacts.get_ok_range _ _ _ Ei) as Ri. pose proof (BaseFacts.get_ok_range _ _ _ Ej) as Rj. unfold len in *. cbn in Ri, Rj.
  assert (Di : i = 0 \/ i = 1) by Lia.lia. assert (Dj : j = 0 \/ j = 1) by Lia.lia.
  destruct Di as [-> | ->], Dj as [-> | ->]; try reflexivity; vm_compute in Ei, Ej; injection Ei as <-; injection Ej as <-; exfalso; apply N; [exact E|now symmetry].
Qed.
Example joined_good : Forall good [left_r; right_r].
Proof. repeat constructor; try reflexivity; cbn [b_y b_x left_r right_r]; apply two_distinct; discriminate. Qed.
Example joined : band_concat first_of keep [left_r; right_r]
  = Ok (Bands_ I16 (Some (default_null I16)) (Some 1) [3#2; 1#2]%Q [3#2]%Q [[nums [2]; nums [4]]; [nums [5]; [default_null I16]]; [nums [9]; nums [9]]] [[[false]; [false]]; [[false]; [true]]; [[false]; [false]]]).
Proof. reflexivity. Qed.

(* ---------------- refutations ---------------- *)
(* "all rasters must have the same shape": rasters of other shapes are cut without a word *)
Definition wide_r : bandsr := Bands_ I16 None (Some 1) [1#2; -(1#2)]%Q [1#2; 3#2]%Q [[nums [1; 2]; nums [3; 4]]] [[[false; false]; [false; false]]].
Definition thin_r : bandsr := Bands_ I16 None (Some 1) [1#2; -(1#2)]%Q [3#2]%Q [[nums [5]; nums [6]]] [[[false]; [false]]].
Lemma one_distinct a : distinct [a].
Proof. intros i j p q Ei Ej _. apply BaseFacts.get_ok_range in Ei, Ej. unfold len in *. cbn in *. Lia.lia. Qed.
Theorem C86_shape_refuted : ~ (forall r0 r1, good r0 -> good r1 -> (len (b_y r0) <> len (b_y r1) \/ len (b_x r0) <> len (b_x r1)) ->
  exists e, band_concat first_of keep [r0; r1] = Err e).
Proof.
  intros H. destruct (H wide_r thin_r) as (e & E); [| | |discriminate E].
  - repeat constructor; try reflexivity; cbn [b_y b_x wide_r]; apply two_distinct; discriminate.
  - repeat constructor; try reflexivity; cbn [b_y b_x thin_r]; [apply two_distinct; discriminate|apply one_distinct].
  - right. discriminate.
Qed.
Print Assumptions C86_shape_refuted.
(* "no cell of the rasters is lost if they have one shape": rasters side by side give a raster
   without cells *)
Definition beside_r : bandsr := Bands_ I16 None (Some 1) [1#2; -(1#2)]%Q [5#2; 7#2]%Q [[nums [1; 2]; nums [3; 4]]] [[[false; false]; [false; false]]].
Theorem C86_beside_refuted : ~ (forall r0 r1 r', good r0 -> good r1 -> len (b_y r0) = len (b_y r1) -> len (b_x r0) = len (b_x r1) ->
  band_concat first_of keep [r0; r1] = Ok r' -> len (b_x r') = len (b_x r0)).
Proof.
  intros H. specialize (H wide_r beside_r (Bands_ I16 None (Some 1) [1#2; -(1#2)]%Q [] [[[]; []]; [[]; []]] [[[]; []]; [[]; []]])).
  assert (X : 0 = 2); [|discriminate X]. apply H; try reflexivity;
    (repeat constructor; try reflexivity; cbn [b_y b_x wide_r beside_r]; apply two_distinct; discriminate).
Qed.
Print Assumptions C86_beside_refuted.
(* "valid cells do not hold the null value": a raster without null value keeps its values,
   among them the null value that another one brings *)
Definition full_r : bandsr := Bands_ U8 None None [0]%Q [0]%Q [[[of_Z 255]]] [[[false]]].
Definition empty_r : bandsr := Bands_ U8 (Some (of_Z 0)) None [0]%Q [0]%Q [[[of_Z 0]]] [[[true]]].
Theorem C86_null_value_refuted : ~ (forall r0 r1 r' b y x v nv, good r0 -> good r1 -> (forall r b y x v, r = r0 \/ r = r1 -> cell r b y x v false -> b_nv r <> Some v) ->
  band_concat first_of keep [r0; r1] = Ok r' -> b_nv r' = Some nv -> cell r' b y x v false -> v <> nv).
Proof.
  intros H. set (r' := Bands_ U8 (Some (of_Z 255)) None [0]%Q [0]%Q [[[of_Z 255]]; [[of_Z 255]]] [[[false]]; [[true]]]).
  apply (H full_r empty_r r' 0 0%Q 0%Q (of_Z 255) (of_Z 255)); try reflexivity.
  - repeat constructor; try reflexivity; apply one_distinct.
  - repeat constructor; try reflexivity; apply one_distinct.
  - intros r b y x v [-> | ->]; [discriminate|]. intros [_ (i & j & p & q & Ei & _ & Ej & _ & band & EB & row & ER & EV)].
    pose proof (BaseFacts.get_ok_range _ _ _ EB) as RB. assert (b = 0) by (unfold len in RB; cbn in RB; Lia.lia). subst b. injection EB as <-.
    pose proof (BaseFacts.get_ok_range _ _ _ ER) as RR. assert (i = 0) by (unfold len in RR; cbn in RR; Lia.lia). subst i. injection ER as <-.
    pose proof (BaseFacts.get_ok_range _ _ _ EV) as RV. assert (j = 0) by (unfold len in RV; cbn in RV; Lia.lia). subst j. discriminate EV.
  - split; exists 0, 0, 0%Q, 0%Q; repeat (split; [reflexivity|]); [exists [[of_Z 255]]; split; [reflexivity|exists [of_Z 255]; split; reflexivity]|exists [[false]]; split; [reflexivity|exists [false]; split; reflexivity]].
Qed.
Print Assumptions C86_null_value_refuted.
(* "rasters in different CRSs are refused" *)
Theorem C86_crs_refuted : ~ (forall r0 r1 c0 c1, good r0 -> good r1 -> b_crs r0 = Some c0 -> b_crs r1 = Some c1 -> c0 <> c1 -> exists e, band_concat first_of keep [r0; r1] = Err e).
Proof.
  intros H. destruct (H wide_r (Bands_ I16 None (Some 2) (b_y wide_r) (b_x wide_r) (b_data wide_r) (b_mask wide_r)) 1 2) as (e & E); try reflexivity; try discriminate;
    (repeat constructor; try reflexivity; cbn [b_y b_x wide_r]; apply two_distinct; discriminate) || discriminate E.
Qed.
Print Assumptions C86_crs_refuted.
