(* Cost distance where every cell costs the same: what it should be. *)
From Verif Require Import Base F64 F64Exact CostDist.
Open Scope Z_scope.

(* (r, c) is a source with the label a *)
Definition source_at (sources : list Z) (snull ncols r c a : Z) : Prop := get sources (r * ncols + c) = Ok a /\ a <> snull.
(* taxicab distance between cells of height dy and width dx *)
Definition blocks_apart (dy dx r c r' c' : Z) : Z := Z.abs (r' - r) * dy + Z.abs (c' - c) * dx.
(* no cell of the cost raster is null and all have the cost W * 2^ec *)
Definition uniform (costs : raster1) (n ec W : Z) : Prop :=
  len (r_data costs) = n /\ r_mask costs = full n false
  /\ (forall i x, get (r_data costs) i = Ok x -> scaled ec x W)
  /\ (forall nv, r_null costs = Some nv -> fisnan nv = false \/ forall i x, get (r_data costs) i = Ok x -> fisnan x = false).
