(* The index <-> coordinate functions of Grids.v in binary64. *)
From Coq Require Import ZArith.
From Flocq Require Import Core BinarySingleNaN.
From Verif Require Import Base F64 Grids.
Open Scope Z_scope.
(* np.floor(x).astype(int); NaN and infinities give some int that is not modelled *)
Definition ffloor (x : f64) : Z :=
  match x with
  | B754_finite s m e _ =>
      let m := if s then Z.neg m else Z.pos m in
      if 0 <=? e then m * 2 ^ e else m / 2 ^ (- e)
  | _ => 0
  end.
Definition fone : f64 := f64_of_Z 1.
Definition fxy (row col : Z) (t : affine f64) (o : offset) : f64 * f64 :=
  rowcol_to_xy f64 fadd fmul fzero fhalf fone (f64_of_Z row) (f64_of_Z col) t o.
Definition findex (x y : f64) (t : affine f64) : Z * Z :=
  xy_to_rowcol f64 fadd fmul fdiv fopp fone ffloor x y t.
