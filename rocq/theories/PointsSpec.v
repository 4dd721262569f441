(* What converting a raster to points has to give. *)
From Coq Require Import Reals.
From Flocq Require Import Core BinarySingleNaN.
From Verif Require Import Base F64 Grids GridsFloat Points.
Open Scope Z_scope.

(* an axis-parallel transform of reasonable size: cells between 2^-400 and 2^400,
   origin within 2^40 cells *)
Definition plain_grid (t : affine f64) : Prop :=
  is_finite (aa t) = true /\ is_finite (ab t) = true /\ is_finite (ac t) = true
  /\ is_finite (ad t) = true /\ is_finite (ae t) = true /\ is_finite (af t) = true
  /\ B2R (ab t) = 0%R /\ B2R (ad t) = 0%R /\ sized (B2R (aa t)) /\ sized (B2R (ae t))
  /\ (Rabs (B2R (ac t)) <= IZR (2 ^ 40) * Rabs (B2R (aa t)))%R /\ (Rabs (B2R (af t)) <= IZR (2 ^ 40) * Rabs (B2R (ae t)))%R.
(* coordinates of cell centres up to 1/512 of a cell *)
Definition centres (t : affine f64) (ny nx : Z) (xcoord ycoord : Z -> Z -> f64) : Prop :=
  (forall c0 j, 0 <= c0 -> 0 <= j -> c0 + j < nx -> is_finite (xcoord c0 j) = true
     /\ (Rabs (B2R (xcoord c0 j) - (B2R (aa t) * (IZR (c0 + j) + / 2) + B2R (ac t))) <= / 512 * Rabs (B2R (aa t)))%R)
  /\ (forall r0 i, 0 <= r0 -> 0 <= i -> r0 + i < ny -> is_finite (ycoord r0 i) = true
     /\ (Rabs (B2R (ycoord r0 i) - (B2R (ae t) * (IZR (r0 + i) + / 2) + B2R (af t))) <= / 512 * Rabs (B2R (ae t)))%R).
