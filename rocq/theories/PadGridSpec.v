(* What padding to bounds means. *)
From Coq Require Import QArith Qabs.
From Verif Require Import Base Scalars Arr2 FocalSpec RasterSpec Blocks BlocksSpec Pad PadGrid.
Open Scope Z_scope.

(* rows from north to south, columns from west to east, some cells *)
Definition north_up (g : geobox) : Prop :=
  let t := gb_affine g in (0 < af_a t)%Q /\ (af_e t < 0)%Q /\ (af_b t == 0)%Q /\ (af_d t == 0)%Q /\ 1 <= gb_ny g /\ 1 <= gb_nx g.
(* the edges of a grid *)
Definition west (g : geobox) : Q := af_c (gb_affine g).
Definition east (g : geobox) : Q := (af_c (gb_affine g) + inject_Z (gb_nx g) * af_a (gb_affine g))%Q.
Definition north (g : geobox) : Q := af_f (gb_affine g).
Definition south (g : geobox) : Q := (af_f (gb_affine g) + inject_Z (gb_ny g) * af_e (gb_affine g))%Q.
(* how far a bound lies above (below) an edge *)
Definition above (v : num) (edge : Q) : num := match v with Fin q => Fin (q - edge) | v => v end.
Definition below (v : num) (edge : Q) : num := match v with Fin q => Fin (edge - q) | PInf => MInf | MInf => PInf | NaN => NaN end.
(* the least number of cells of a size that fill a gap *)
Definition fills (gap : num) (size : Q) (n : Z) : Prop :=
  0 <= n /\ match gap with
            | Fin g => (g <= inject_Z n * size)%Q /\ (0 < n -> (inject_Z (n - 1) * size < g)%Q)
            | _ => n = 0
            end.
(* the same grid with rows and columns added *)
Definition extends (g g' : geobox) (top bottom lft rgt : Z) : Prop :=
  north_up g' /\ gb_ny g' = top + gb_ny g + bottom /\ gb_nx g' = lft + gb_nx g + rgt
  /\ (af_a (gb_affine g') == af_a (gb_affine g))%Q /\ (af_e (gb_affine g') == af_e (gb_affine g))%Q
  /\ forall i j, Qpair_eq (gb_coord g' (top + i) (lft + j)) (gb_coord g i j).
(* a raster: bands of the shape of its grid; without null value nothing is null *)
Definition fits (r : praster) : Prop :=
  Forall (fun p => shaped2 (gb_ny (p_box r)) (gb_nx (p_box r)) (fst p) /\ shaped2 (gb_ny (p_box r)) (gb_nx (p_box r)) (snd p)) (p_bands r)
  /\ (p_nv r = None -> Forall (fun p => forall i j, val2 false (snd p) i j = false) (p_bands r)).
Definition good_fill (r : praster) (f : fill) : Prop := match f with FOther => False | FList vs => len vs = len (p_bands r) | _ => True end.
(* the value for the new cells of band k *)
Definition fill_value (r : praster) (f : fill) (k : Z) (v : num) : Prop :=
  match f with
  | FNone => v = match p_nv r with Some v => v | None => default_null (p_dtype r) end
  | FScalar w => v = w
  | FList vs => get vs k = Ok v
  | FOther => False
  end.
(* what r' holds: the cells of r, moved, and new cells *)
Definition padded (cast : dtype -> num -> num) (r r' : praster) (f : fill) (top lft : Z) : Prop :=
  let ny := gb_ny (p_box r) in let nx := gb_nx (p_box r) in let ny' := gb_ny (p_box r') in let nx' := gb_nx (p_box r') in
  len (p_bands r') = len (p_bands r)
  /\ forall k data mask, get (p_bands r) k = Ok (data, mask) -> exists data' mask' v, get (p_bands r') k = Ok (data', mask') /\ fill_value r f k v
     /\ shaped2 ny' nx' data' /\ shaped2 ny' nx' mask'
     /\ (forall i j, 0 <= i < ny -> 0 <= j < nx -> val2 NaN data' (top + i) (lft + j) = val2 NaN data i j /\ val2 false mask' (top + i) (lft + j) = val2 false mask i j)
     /\ (forall i j, 0 <= i < ny' -> 0 <= j < nx' -> ~ (top <= i < top + ny /\ lft <= j < lft + nx) ->
           val2 NaN data' i j = cast (p_dtype r) v
           /\ val2 false mask' i j = match f with FNone => true | _ => match p_nv r with Some n => same_value v n | None => false end end).
