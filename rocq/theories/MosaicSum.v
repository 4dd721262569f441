(* Model of mosaic with 'sum' for float rasters of any precision, on top of Mosaic.v
   (the recursion over the stack of layers), at one cell. *)
From Coq Require Import ZArith Bool List.
From Flocq Require Import Core BinarySingleNaN.
From Verif Require Import Base Mosaic.
Import ListNotations.
Open Scope Z_scope.

(* the order in which a list is added up *)
Inductive sum_tree (A : Type) := One (x : A) | Plus (a b : sum_tree A).
Arguments One {A}. Arguments Plus {A}.
Fixpoint leaves {A} (t : sum_tree A) : list A :=
  match t with One x => [x] | Plus a b => leaves a ++ leaves b end.

Section Floats.
Variables prec emax : Z.
Context (prec_gt_0 : Prec_gt_0 prec) (prec_lt_emax : Prec_lt_emax prec emax).
Notation float := (binary_float prec emax).
Variable nodata : float.
(* da.sum along the layers, in the dtype of the stack: which additions come first is
   up to dask's chunks and numpy, so any order *)
Variable order : list float -> sum_tree float.

Fixpoint tree_sum (t : sum_tree float) : float :=
  match t with One x => x | Plus a b => Bplus mode_NE (tree_sum a) (tree_sum b) end.
(* raster.py:485-505 get_mask_from_data at one cell *)
Definition smissing (v : float) : bool := if is_nan nodata then is_nan v else Beqb v nodata.
(* _mosaic.py:118-126 *)
Definition paint_fsum (l : list float) : res float :=
  let data := map (fun v => if smissing v then B754_zero false else v) l in
  let summed := tree_sum (order data) in
  Ok (if forallb smissing l then nodata else summed).
(* _mosaic.py:155-171 _mosaic *)
Definition mosaic_fsum (srcs : list (list float)) : res (list float) := Mosaic.mosaic nodata paint_fsum srcs.
End Floats.
Arguments tree_sum {prec emax _ _}. Arguments smissing {prec emax}. Arguments paint_fsum {prec emax _ _}. Arguments mosaic_fsum {prec emax _ _}.
