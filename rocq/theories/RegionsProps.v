(* C47. *)
From Coq Require Import QArith.
From Verif Require Import Base Scalars FocalSpec Regions RegionsSpec RegionsProofs.
Open Scope Z_scope.

(* For every labelling of connected components, every band of the result has
   the null value at null cells, 0 at cells that take no part, and elsewhere
   equal labels exactly for the cells of one region. *)
Theorem C47_regions label neighbors ny nx uv nv bands mask :
  labels_components label -> 0 < ny -> 0 < nx -> neighbors = 4 \/ neighbors = 8 ->
  match uv with None => True | Some us => no_duplicates us end ->
  Forall (shaped2 ny nx) bands ->
  match mask with None => True | Some ms => len ms = len bands /\ Forall (shaped2 ny nx) ms end ->
  exists out, regions label neighbors uv nv bands mask = Ok out /\ len out = len bands
    /\ forall k data lab, get bands k = Ok data -> get out k = Ok lab -> regions_of neighbors ny nx uv nv data (band_nulls mask k) lab.
Proof. exact (regions_spec label neighbors ny nx uv nv bands mask). Qed.
Print Assumptions C47_regions.

(* Labellings that meet the contract exist: merging labels is one. *)
Theorem C47_label : labels_components label_by_merging.
Proof. exact label_by_merging_ok. Qed.
Print Assumptions C47_label.

(* Neighbourhoods other than 4 and 8 are rejected. *)
Theorem C47_neighbors label neighbors uv nv bands mask :
  neighbors <> 4 -> neighbors <> 8 -> regions label neighbors uv nv bands mask = Err ValueError.
Proof. exact (regions_rejects label neighbors uv nv bands mask). Qed.
Print Assumptions C47_neighbors.

Definition v (z : Z) : num := of_Z z.
Definition field : list (list num) :=
  [[v 1; v 1; v 2; v 1];
   [v 0; v 2; v 1; NaN];
   [v 1; v 1; v 2; v 2]].
Definition holes : list (list bool) :=
  [[false; true; false; false]; [false; false; false; false]; [false; false; false; true]].
Example regions_4 : regions label_by_merging 4 None 99 [field] (Some [holes])
  = Ok [[[1; 99; 15; 4]; [0; 18; 7; 0]; [10; 10; 23; 99]]].
Proof. vm_compute. reflexivity. Qed.
Example regions_8 : regions label_by_merging 8 (Some [v 1]) 99 [field] None
  = Ok [[[10; 10; 0; 10]; [0; 0; 10; 0]; [10; 10; 0; 0]]].
Proof. vm_compute. reflexivity. Qed.
Example regions_hypotheses : shaped2 3 4 field /\ shaped2 3 4 holes /\ no_duplicates [v 1].
Proof. repeat split; repeat constructor. Qed.

(* A listed value that occurs twice: different regions can get one label. *)
Definition pair_field : list (list num) := [[v 0; v 2; v 1; v 0]].
Theorem C47_duplicates_refuted :
  ~ (forall label us data out, labels_components label -> shaped2 1 4 data ->
       regions label 4 (Some us) 0 [data] None = Ok [out] -> regions_of 4 1 4 (Some us) 0 data (fun _ => false) out).
Proof.
  intros H.
  assert (R : regions label_by_merging 4 (Some [v 1; v 1; v 2]) 0 [pair_field] None = Ok [[[0; 10; 10; 0]]]) by (vm_compute; reflexivity).
  assert (SP : shaped2 1 4 pair_field) by (split; repeat constructor).
  destruct (H label_by_merging [v 1; v 1; v 2] pair_field _ label_by_merging_ok SP R) as [_ K].
  destruct (K (0, 1)) as (_ & _ & K1); [split; cbn; lia|].
  assert (P1 : takes_part (Some [v 1; v 1; v 2]) pair_field (fun _ => false) (0, 1)).
  { split; [split; [reflexivity|exists (v 2); repeat split; exists [v 0; v 2; v 1; v 0]; split; reflexivity]|].
    exists (v 2). split; [cbn; tauto|reflexivity]. }
  assert (P2 : takes_part (Some [v 1; v 1; v 2]) pair_field (fun _ => false) (0, 2)).
  { split; [split; [reflexivity|exists (v 1); repeat split; exists [v 0; v 2; v 1; v 0]; split; reflexivity]|].
    exists (v 1). split; [cbn; tauto|reflexivity]. }
  destruct (K1 (0, 2)) as [J _]; [split; cbn; lia|exact P1|exact P2|]. specialize (J eq_refl).
  inversion_clear J as [|? d ? (_ & _ & A & _ & _ & E) _]. destruct d as [i j]. change (Z.abs (0 - i) + Z.abs (1 - j) = 1) in A.
  assert (C : (i, j) = (0, 0) \/ (i, j) = (0, 2) \/ (i <> 0 /\ j = 1)).
  { destruct (Z.eq_dec i 0) as [->|]; [|right; right; lia]. assert (j = 0 \/ j = 2) as [-> | ->] by lia; tauto. }
  destruct C as [[= -> ->]|[[= -> ->]|[Ni ->]]]; [discriminate|discriminate|].
  replace (val2 NaN pair_field (fst (i, 1)) (snd (i, 1))) with NaN in E; [discriminate|]. symmetry. cbn [fst snd].
  unfold val2, get, pair_field. destruct (i <? 0) eqn:EI; [reflexivity|]. destruct (Z.to_nat i) as [|[|n]] eqn:EN; [lia|reflexivity|reflexivity].
Qed.
Print Assumptions C47_duplicates_refuted.
