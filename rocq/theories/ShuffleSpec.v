(* What shuffling the features of a Vector has to give. *)
From Coq Require Import QArith String Permutation Sorted.
From Verif Require Import Base Scalars VectorTable VectorTableSpec.
Open Scope Z_scope.

(* w has the features of v, in the order along the curve, and the index says where they
   are on the curve *)
Record shuffled (curve : Z -> Z) (v w : vector) : Prop := {
  sh_same : Permutation (map snd (rows_of w)) (map snd (rows_of v));
  sh_index : Forall (fun r => fst r = curve (w_geom (snd r))) (rows_of w);
  sh_order : StronglySorted (fun r s => fst r <= fst s) (rows_of w);
  sh_schema : c_schema (v_geo w) = c_schema (v_geo v) }.
(* divisions that dask may find for some labels: at least two, increasing, from the least
   label to the greatest *)
Definition quantiles_of (labels divs : list Z) : Prop :=
  2 <= len divs /\ StronglySorted Z.le divs /\
  (labels <> [] -> (forall x, List.In x labels -> hd 0 divs <= x <= List.last divs 0) /\ List.In (hd 0 divs) labels /\ List.In (List.last divs 0) labels).
