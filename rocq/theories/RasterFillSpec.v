(* What rasterising with any null value must give. *)
From Coq Require Import QArith.
From Verif Require Import Base Scalars Zonal Rasterize RasterizeSpec RasterFill.
Open Scope Z_scope.

(* v survives in the dtype of the field and in the dtype given to rasterio *)
Definition kept (old : bool) (d : dtype) (v : num) : Prop := stored d v = v /\ stored (get_rio_dtype old d) v = v.
(* w is one of x, up to ==, and no other of them is smaller (larger) *)
Definition least (m : overlap) (x : list num) (w : num) : Prop :=
  (exists u, In u x /\ num_eqb w u = true) /\ forall u, In u x -> match m with Max => num_leb u w | _ => num_leb w u end = true.
(* the whole promise: cell i of a chunk *)
Definition promised (m : overlap) (ui : bool) (parts : list (list feature)) (i : Z) (v : num) (null : bool) : Prop :=
  match touching ui (concat parts) i with
  | [] => null = true
  | x => null = false /\ exists fill, resolves m fill x v
  end.
