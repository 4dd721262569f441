(* What rasterising must give in one cell. *)
From Coq Require Import QArith.
From Verif Require Import Base Scalars Zonal Rasterize.
Open Scope Z_scope.

(* the partitions of the feature table a reduction uses, in order *)
Fixpoint partitions (t : steps) : list (list feature) :=
  match t with
  | Part gdf => [gdf]
  | One t => partitions t
  | Two t u => partitions t ++ partitions u
  end.
(* the values of the features of a table that touch a cell, in table order *)
Definition touching (ui : bool) (table : list feature) (cell : Z) : list num :=
  map (burned ui) (filter (fun f => touches f cell) table).
(* v resolves the overlap of the values x; the null value if there are none *)
Definition resolves (m : overlap) (fill : num) (x : list num) (v : num) : Prop :=
  match x with
  | [] => v = fill
  | first :: _ =>
      match m with
      | First => v = first
      | Last => v = List.last x fill
      | Min => (exists u, In u x /\ num_eqb v u = true) /\ forall w, In w x -> num_leb v w = true
      | Max => (exists u, In u x /\ num_eqb v u = true) /\ forall w, In w x -> num_leb w v = true
      end
  end.
