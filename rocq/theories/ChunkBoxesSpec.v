(* The boxes of chunks. *)
From Coq Require Import QArith.
From Verif Require Import Base Chunks ChunksSpec Blocks PadGridSpec ChunkBoxes.
Open Scope Z_scope.

(* chunk k of a cutting holds the cells from lo to hi (without hi) *)
Definition spans (cs : list Z) (k lo hi : Z) : Prop :=
  exists c before after, cs = before ++ c :: after /\ len before = k /\ lo = sum before /\ hi = lo + c.
(* the box is the area of the cells in rows ylo to yhi and columns xlo to xhi *)
Definition area_of (g : geobox) (ylo yhi xlo xhi : Z) (b : bbox) : Prop :=
  let a := af_a (gb_affine g) in let e := af_e (gb_affine g) in
  (b_west b == west g + inject_Z xlo * a /\ b_east b == west g + inject_Z xhi * a
   /\ b_north b == north g + inject_Z ylo * e /\ b_south b == north g + inject_Z yhi * e)%Q.
Definition inside (b : bbox) (x y : Q) : Prop := (b_west b < x < b_east b /\ b_south b < y < b_north b)%Q.
