(* C89: grouping the features of a Vector by their places. *)
From Coq Require Import QArith String Permutation Sorted.
From Verif Require Import Base Scalars VectorTable VectorTableSpec Shuffle ShuffleSpec ShuffleProofs.
Open Scope Z_scope.

(* No feature is lost, added or changed; they are in the order along the curve, over all
   partitions. *)
Theorem C89_features : forall curve quantiles, (forall labels n, quantiles_of labels (quantiles labels n)) ->
  forall v, exists w, spatial_shuffle curve quantiles v = Ok w /\ shuffled curve v w.
Proof. intros curve quantiles H v. destruct (shuffle_ok curve quantiles H v) as (w & E & S & _). exact (ex_intro _ w (conj E S)). Qed.
Print Assumptions C89_features.
(* The size is right with one partition ... *)
Theorem C89_size_partial : forall curve quantiles, (forall labels n, quantiles_of labels (quantiles labels n)) ->
  forall v w, spatial_shuffle curve quantiles v = Ok w -> len (c_parts (v_geo w)) = 1 -> v_size w = len (rows_of v).
Proof. exact shuffle_one. Qed.
Print Assumptions C89_size_partial.
(* ... and a distance along the curve, plus the length of the last partition, otherwise. *)
Theorem C89_size : forall curve quantiles, (forall labels n, quantiles_of labels (quantiles labels n)) ->
  forall v w first before rest, spatial_shuffle curve quantiles v = Ok w -> c_divs (v_geo w) = Some (first :: rest) -> 2 <= len rest ->
  get rest (len rest - 2) = Ok before -> v_size w = before - first + len (List.last (c_parts (v_geo w)) []).
Proof. exact shuffle_size. Qed.
Print Assumptions C89_size.
(* Calculating the extents of the partitions changes neither features nor size. *)
Theorem C89_partitions : forall a v, good a v -> calculate_spatial_partitions v = Ok v.
Proof. exact partitions_ok. Qed.
Print Assumptions C89_partitions.

(* ---- examples ---- *)
Definition least (l : list Z) : Z := fold_right Z.min (hd 0 l) l.
Definition greatest (l : list Z) : Z := fold_right Z.max (hd 0 l) l.
Definition two_parts (labels : list Z) (n : Z) : list Z := [least labels; (least labels + greatest labels) / 2; greatest labels].
Lemma least_in l : l <> [] -> List.In (least l) l /\ forall x, List.In x l -> least l <= x.
Proof.
  unfold least. destruct l as [|a l]; [congruence|]. intros _. cbn [hd fold_right].
  assert (H : forall l, (fold_right Z.min a l = a \/ List.In (fold_right Z.min a l) l) /\ fold_right Z.min a l <= a /\ forall x, List.In x l -> fold_right Z.min a l <= x).
  { intros k. induction k as [|b k (I1 & I2 & I3)]; cbn [fold_right List.In]; [split; [now left|split; [lia|intros x []]]|].
    split; [|split; [lia|]].
    - destruct (Z.min_spec b (fold_right Z.min a k)) as [[_ ->]|[_ ->]]; [now right; left|]. destruct I1; [now left|right; now right].
    - intros x [<-|Hx]; [lia|]. specialize (I3 x Hx). lia. }
  destruct (H l) as (I1 & I2 & I3). split.
  - destruct (Z.min_spec a (fold_right Z.min a l)) as [[_ ->]|[_ ->]]; [now left|]. destruct I1 as [->|]; [now left|now right].
  - intros x [<-|Hx]; [lia|]. specialize (I3 x Hx). lia.
Qed.
Lemma greatest_in l : l <> [] -> List.In (greatest l) l /\ forall x, List.In x l -> x <= greatest l.
Proof.
  unfold greatest. destruct l as [|a l]; [congruence|]. intros _. cbn [hd fold_right].
  assert (H : forall l, (fold_right Z.max a l = a \/ List.In (fold_right Z.max a l) l) /\ a <= fold_right Z.max a l /\ forall x, List.In x l -> x <= fold_right Z.max a l).
  { intros k. induction k as [|b k (I1 & I2 & I3)]; cbn [fold_right List.In]; [split; [now left|split; [lia|intros x []]]|].
    split; [|split; [lia|]].
    - destruct (Z.max_spec b (fold_right Z.max a k)) as [[_ ->]|[_ ->]]; [|now right; left]. destruct I1; [now left|right; now right].
    - intros x [<-|Hx]; [lia|]. specialize (I3 x Hx). lia. }
  destruct (H l) as (I1 & I2 & I3). split.
  - destruct (Z.max_spec a (fold_right Z.max a l)) as [[_ ->]|[_ ->]]; [|now left]. destruct I1 as [->|]; [now left|now right].
  - intros x [<-|Hx]; [lia|]. specialize (I3 x Hx). lia.
Qed.
Lemma two_parts_ok labels n : quantiles_of labels (two_parts labels n).
Proof.
  assert (L : least labels <= greatest labels).
  { destruct labels as [|a l]; [cbn; lia|]. destruct (least_in (a :: l)) as (_ & H1); [discriminate|]. destruct (greatest_in (a :: l)) as (_ & H2); [discriminate|].
    specialize (H1 a (or_introl eq_refl)). specialize (H2 a (or_introl eq_refl)). lia. }
  assert (M : least labels <= (least labels + greatest labels) / 2 <= greatest labels).
  { split; [apply Z.div_le_lower_bound|apply Z.div_le_upper_bound]; lia. }
  unfold quantiles_of, two_parts. cbn [hd List.last]. split; [cbn; lia|]. split; [repeat constructor; lia|]. intros N.
  destruct (least_in labels N) as (H1 & H2), (greatest_in labels N) as (H3 & H4). split; [|tauto]. intros x Hx. specialize (H2 x Hx). specialize (H4 x Hx). lia.
Qed.

Definition ex_rows (l : list Z) : list (Z * row) := map (fun i => (i, Row ((i * 7) mod 4) [])) l.
Definition ex_v : vector := Vec (Coll (Schema "geometry" []) [ex_rows [0; 1]; ex_rows [2; 3]] (Some [0; 2; 3])) 4.
Lemma ex_good : good 0 ex_v.
Proof.
  split; [|reflexivity]. constructor; cbn [ex_v v_geo c_parts c_divs].
  - discriminate.
  - repeat constructor; discriminate.
  - reflexivity.
  - exists [0; 2; 3]. split; [reflexivity|]. split; [reflexivity|]. split; [|now left].
    intros i p G. pose proof (BaseFacts.get_ok_range _ _ _ G) as R. change (len [ex_rows [0; 1]; ex_rows [2; 3]]) with 2 in R.
    assert (C : i = 0 \/ i = 1) by lia. destruct C as [-> | ->]; injection G as <-; eexists; split; reflexivity.
Qed.
Definition ex_curve (g : Z) : Z := g * 1000.
Example C89_ex : match spatial_shuffle ex_curve two_parts ex_v with
  | Ok w => c_divs (v_geo w) = Some [0; 1500; 3000] /\ map (map (fun r => (fst r, w_geom (snd r)))) (c_parts (v_geo w)) = [[(0, 0); (1000, 1)]; [(2000, 2); (3000, 3)]]
  | Err _ => False end.
Proof. vm_compute. split; reflexivity. Qed.

(* ---- findings ---- *)
(* 4 features in 2 partitions: the shuffled Vector has size 1502. *)
Theorem C89_size_refuted : ~ (forall curve quantiles, (forall labels n, quantiles_of labels (quantiles labels n)) ->
  forall v w, good 0 v -> spatial_shuffle curve quantiles v = Ok w -> v_size w = len (rows_of w)).
Proof.
  intros H. assert (E : exists w, spatial_shuffle ex_curve two_parts ex_v = Ok w /\ v_size w = 1502 /\ len (rows_of w) = 4).
  { eexists. split; [vm_compute; reflexivity|]. split; reflexivity. }
  destruct E as (w & E & S & L). specialize (H ex_curve two_parts two_parts_ok ex_v w ex_good E). lia.
Qed.
Print Assumptions C89_size_refuted.
(* The features are numbered by their places: v[1] raises KeyError. *)
Theorem C89_getitem_refuted : ~ (forall curve quantiles, (forall labels n, quantiles_of labels (quantiles labels n)) ->
  forall v w i, good 0 v -> spatial_shuffle curve quantiles v = Ok w -> 0 <= i < len (rows_of w) -> exists x, getitem_vector w (IdxInt i) = VOk x).
Proof.
  intros H. assert (E : exists w, spatial_shuffle ex_curve two_parts ex_v = Ok w /\ len (rows_of w) = 4 /\ getitem_vector w (IdxInt 1) = VRaise (VErr KeyError)).
  { eexists. split; [vm_compute; reflexivity|]. split; reflexivity. }
  destruct E as (w & E & L & G). destruct (H ex_curve two_parts two_parts_ok ex_v w 1 ex_good E) as (x & X); [lia|]. rewrite G in X. discriminate.
Qed.
Print Assumptions C89_getitem_refuted.
