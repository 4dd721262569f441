(* What reprojecting means. *)
From Coq Require Import String.
From Verif Require Import Base Scalars Arr2 FocalSpec RasterSpec Warp.
Open Scope Z_scope.

Section WarpSpec.
Context {G : Type}.
Variable size : G -> Z * Z.
(* the source cells that a cell of the new grid is made of, for a method *)
Variable sources : string -> G -> G -> Z -> Z -> list (Z * Z).
(* the value that a method makes of source cells and their values *)
Variable resample : string -> dtype -> list (Z * Z * num) -> num.

Definition is_value (nv : option num) (x : num) : bool := match nv with Some v => same_value x v | None => false end.
(* the source cells among them that do not hold the null value *)
Definition seen (nv : option num) (data : arr2 num) (cells : list (Z * Z)) : list (Z * Z * num) :=
  filter (fun p => negb (is_value nv (snd p))) (map (fun ij => (ij, val2 NaN data (fst ij) (snd ij))) cells).
(* the library: cells with nothing to see get the null value *)
Definition warps (warp : string -> dtype -> G -> G -> option num -> num -> arr2 num -> arr2 num) : Prop :=
  forall m d g g' nv nodata data, shaped2 (fst (size g)) (snd (size g)) data ->
  shaped2 (fst (size g')) (snd (size g')) (warp m d g g' nv nodata data)
  /\ forall i j, 0 <= i < fst (size g') -> 0 <= j < snd (size g') ->
     val2 NaN (warp m d g g' nv nodata data) i j
     = match seen nv data (sources m g g' i j) with [] => nodata | l => resample m d l end.

(* the valid source cells, by the mask *)
Definition valid_cells (data : arr2 num) (mask : arr2 bool) (cells : list (Z * Z)) : list (Z * Z * num) :=
  map (fun ij => (ij, val2 NaN data (fst ij) (snd ij))) (filter (fun ij => negb (val2 false mask (fst ij) (snd ij))) cells).
(* cells are null exactly where they hold the null value *)
Definition consistent (r : wraster G) : Prop :=
  Forall (fun b => shaped2 (fst (size (w_grid r))) (snd (size (w_grid r))) (fst b) /\ forall i j, val2 false (snd b) i j = is_value (w_nv r) (val2 NaN (fst b) i j)) (w_bands r).
(* a method that makes a value only of values: nearest, mode, min, max *)
Definition picks (m : string) : Prop := forall d l, l <> [] -> exists c, In (c, resample m d l) l.
(* the null value of the result *)
Definition null_value_of (r : wraster G) : num := match w_nv r with Some v => v | None => default_null (w_dtype r) end.
End WarpSpec.
