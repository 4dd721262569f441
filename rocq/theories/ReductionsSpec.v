(* Sum, product, mean, variance of the valid cells of a raster. *)
From Coq Require Import Reals ZArith List.
From Verif Require Import Base Zonal ZonalSpec.
Import ListNotations.
Open Scope R_scope.

(* the values of the cells that are not masked, of all blocks *)
Definition valid {V} (ts : list (tree (list (V * bool)))) : list V :=
  map fst (filter (fun p => negb (snd p)) (flat_map leaves ts)).
(* those that are numbers *)
Fixpoint numbers {A} (l : list (option A)) : list A :=
  match l with [] => [] | Some x :: l => x :: numbers l | None :: l => numbers l end.
Fixpoint sum (l : list R) : R := match l with [] => 0 | x :: l => x + sum l end.
Fixpoint product (l : list R) : R := match l with [] => 1 | x :: l => x * product l end.
Fixpoint zsum (l : list Z) : Z := match l with [] => 0 | x :: l => x + zsum l end%Z.
Fixpoint zproduct (l : list Z) : Z := match l with [] => 1 | x :: l => x * zproduct l end%Z.
Definition mean (l : list R) : R := sum l / IZR (len l).
Definition variance (l : list R) : R := sum (map (fun x => (x - mean l) ^ 2) l) / IZR (len l).
(* the range of int64 or uint64 *)
Definition in_dtype (signed : bool) (x : Z) : Prop := (if signed then - 2 ^ 63 <= x < 2 ^ 63 else 0 <= x < 2 ^ 64)%Z.
