(* What the topographic position index must be. *)
From Coq Require Import QArith.
From Verif Require Import Base Scalars Raster FocalSpec RasterSpec.
Open Scope Z_scope.

(* (p, q) lies in the annulus around (i, j): at most outer - 1 cells away, and more
   than inner - 1 unless inner is 0 *)
Definition ring (inner outer i j p q : Z) : bool :=
  let d := (p - i) * (p - i) + (q - j) * (q - j) in
  (d <=? (outer - 1) * (outer - 1)) && ((inner =? 0) || ((inner - 1) * (inner - 1) <? d)).
(* the valid values in the annulus *)
Definition ring_values (dem : raster) (ny nx inner outer i j : Z) : list num :=
  filter (fun v => negb (is_nan v)) (map (fun '(p, q) => value dem p q) (filter (fun '(p, q) => ring inner outer i j p q && negb (null dem p q)) (cells ny nx))).
(* the integer towards zero *)
Definition trunc (q : Q) : Z := Z.quot (Qnum q) (Zpos (Qden q)).
(* exact arithmetic and conversion *)
Definition exact_sub (a b : num) : num := match a, b with Fin p, Fin q => Fin (p - q) | _, _ => NaN end.
Definition exact_add (a b : num) : num := match a, b with Fin p, Fin q => Fin (p + q) | _, _ => NaN end.
