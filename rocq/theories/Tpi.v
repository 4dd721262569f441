(* Model of surface.py's tpi for one band, on top of Focal.v and Raster.v.  The rows
   of the band take the place of the bands of Raster.v.  Arithmetic, the mean of
   valid values and casting are parameters. *)
From Coq Require Import QArith.
From Verif Require Import Base Scalars Arr2 Dtypes Raster Focal.
Open Scope Z_scope.

Section Tpi.
Variable cast : dtype -> num -> num.
Variable float_dtype : num -> dtype.
Variable reconcile_other : num -> dtype -> num * bool.
Variable other : Z -> list num -> num.
Variable mean_stat : Z.
Variables sub add : num -> num -> num.
Variable junk : Z -> Z -> arr2 num.

Definition binary (f : num -> num -> num) (l : list num) : num := match l with [a; b] => f a b | _ => NaN end.
(* focal.py:390-429 focal: the raster made of the result *)
Definition focal_raster (d : dtype) (b : band) : raster :=
  match b_mask b with
  | Some m => Raster d (Some NaN) (b_data b) m
  | None => Raster d None (b_data b) (map2 (fun _ => false) (b_data b))
  end.
(* surface.py:505-566 tpi; ycs and xcs are the chunks.  A radius that is not an int
   is None. *)
Definition tpi (ny nx : Z) (ycs xcs : list Z) (dem : raster) (annulus_inner annulus_outer : option Z) : res raster :=
  match annulus_inner, annulus_outer with
  | Some inner, Some outer =>
      if inner <? 0 then Err ValueError
      else if outer <? 1 then Err ValueError
      else if outer <=? inner then Err ValueError
      else
        let* window := get_focal_window (if inner =? 0 then One outer else Two inner outer) None in
        let n := len window in
        let* mean := focal other junk ny nx ycs xcs window n n (SOther mean_stat) false (Band (r_data dem) (if masked dem then Some (r_mask dem) else None)) in
        let fd := promote_dtype_to_float (r_dtype dem) in
        let out_dtype := promote_types (r_dtype dem) fd in
        let* diff := apply_ufunc false [(binary sub, out_dtype)] [ORaster dem; ORaster (focal_raster fd mean)] in
        let* diff := get diff 0 in
        let* sum := apply_ufunc false [(binary add, out_dtype)] [ORaster diff; OScalar (Fin (1 # 2)) true] in
        let* sum := get sum 0 in
        let* rs_tpi := astype cast reconcile_other sum I32 None in
        if masked dem then set_null_value cast float_dtype rs_tpi (Some (SInt (- 2 ^ 31))) else Ok rs_tpi
  | _, _ => Err TypeError
  end.
End Tpi.
