(* What the chunked minimum and the zonal statistics have to be. *)
From Coq Require Import QArith.
From Verif Require Import Base Scalars Zonal StatsSpec.
Open Scope Z_scope.

(* the contents of all blocks / partitions of a tree *)
Fixpoint leaves {A} (t : tree (list A)) : list A :=
  match t with
  | Leaf l => l
  | Node ts => flat_map leaves ts
  end.
(* r is [smallest valid value], [NaN] when there are only NaN, [] without values *)
Definition least_of (x r : list num) : Prop :=
  x = [] /\ r = []
  \/ x <> [] /\ Forall (fun v => is_nan v = true) x /\ r = [NaN]
  \/ exists m, r = [m] /\ In m x /\ is_nan m = false /\ forall v, In v x -> is_nan v = false -> num_leb m v = true.
Definition greatest_of (x r : list num) : Prop :=
  x = [] /\ r = []
  \/ x <> [] /\ Forall (fun v => is_nan v = true) x /\ r = [NaN]
  \/ exists m, r = [m] /\ In m x /\ is_nan m = false /\ forall v, In v x -> is_nan v = false -> num_leb v m = true.

(* v is null: NaN or the null value *)
Definition is_null (null_value : option num) (v : num) : bool :=
  is_nan v || match null_value with Some n => num_eqb v n | None => false end.
(* the cells of zone z, z not being the null value of the zone raster, and the
   values of those among them that are not null *)
Definition zone_cells (zone_null : option num) (rows : list row) (z : num) : list row :=
  filter (fun r => num_eqb z (fst r) && negb (is_null zone_null (fst r))) rows.
Definition zone_valid (zone_null data_null : option num) (rows : list row) (z : num) : list num :=
  filter (fun v => negb (is_null data_null v)) (map snd (zone_cells zone_null rows z)).
