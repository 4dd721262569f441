(* What the surface operations have to compute. *)
From Coq Require Import Reals.
From Verif Require Import Base Surface FocalSpec.
Open Scope Z_scope.

(* ---- nulls and NaN, in any arithmetic ---- *)
(* NaN in, NaN out, and comparisons with NaN are false *)
Record nan_laws {F} (A : arith F) : Prop := {
  nan_add_l : forall x, add A (nan A) x = nan A; nan_add_r : forall x, add A x (nan A) = nan A;
  nan_sub_l : forall x, sub A (nan A) x = nan A; nan_sub_r : forall x, sub A x (nan A) = nan A;
  nan_mul_l : forall x, mul A (nan A) x = nan A; nan_mul_r : forall x, mul A x (nan A) = nan A;
  nan_div_l : forall x, div A (nan A) x = nan A; nan_div_r : forall x, div A x (nan A) = nan A;
  nan_opp : opp A (nan A) = nan A; nan_sqrt : sqrt A (nan A) = nan A; nan_atan : atan A (nan A) = nan A;
  nan_atan2_l : forall x, atan2 A (nan A) x = nan A; nan_atan2_r : forall x, atan2 A x (nan A) = nan A;
  nan_cos : cos A (nan A) = nan A; nan_sin : sin A (nan A) = nan A;
  nan_round32 : round32 A (nan A) = nan A;
  nan_eqb_l : forall x, eqb A (nan A) x = false; nan_eqb_r : forall x, eqb A x (nan A) = false;
  nan_ltb_l : forall x, ltb A (nan A) x = false; nan_ltb_r : forall x, ltb A x (nan A) = false;
  nan_leb_l : forall x, leb A (nan A) x = false; nan_leb_r : forall x, leb A x (nan A) = false
}.

(* the operations, with the cell sizes they use *)
Inductive surface_fn {F : Type} :=
| Slope (res0 res1 : F) (degrees : bool)
| Aspect
| Curvature (res0 res1 : F)
| SurfaceArea (res0 : F)
| Shade (res0 res1 azimuth altitude : F).
Arguments surface_fn : clear implicits.
Definition kernel_of {F} (A : arith F) (fn : surface_fn F) : kernel :=
  match fn with
  | Slope res0 res1 degrees => slope_kernel A res0 res1 degrees
  | Aspect => aspect_kernel A
  | Curvature res0 res1 => curv_kernel A res0 res1
  | SurfaceArea res0 => area_kernel A res0
  | Shade res0 res1 azimuth altitude => hillshade_kernel A res0 res1 azimuth altitude
  end.
(* the neighbours, by row and column offset, that an operation uses *)
Definition needs {F} (fn : surface_fn F) (dr dc : Z) : Prop :=
  match fn with
  | Curvature _ _ => Z.abs dr + Z.abs dc = 1
  | _ => Z.max (Z.abs dr) (Z.abs dc) = 1
  end.
Definition on_ring (ny nx i j : Z) : bool := (i =? 0) || (i =? ny - 1) || (j =? 0) || (j =? nx - 1).
Definition is_null {F} (rs : @sband F) (i j : Z) : bool :=
  match s_mask rs with Some m => val2 false m i j | None => false end.
Definition band_shaped {F} (ny nx : Z) (rs : @sband F) : Prop :=
  shaped2 ny nx (s_data rs) /\ match s_mask rs with Some m => shaped2 ny nx m | None => True end.

(* ---- exact arithmetic with a NaN ---- *)
Section Exact.
Open Scope R_scope.
Definition lift1 (f : R -> R) (x : option R) : option R := match x with Some x => Some (f x) | None => None end.
Definition lift2 (f : R -> R -> R) (x y : option R) : option R :=
  match x, y with Some x, Some y => Some (f x y) | _, _ => None end.
Definition compare (t : R -> R -> bool) (x y : option R) : bool :=
  match x, y with Some x, Some y => t x y | _, _ => false end.
Definition Reqb (x y : R) : bool := if Req_EM_T x y then true else false.
Definition Rltb (x y : R) : bool := if Rlt_dec x y then true else false.
Definition Rleb (x y : R) : bool := if Rle_dec x y then true else false.
(* the angle of the vector (x, y), in (-PI, PI]; 0 for the zero vector *)
Definition angle (y x : R) : R :=
  if Rlt_dec 0 x then Ratan.atan (y / x)
  else if Rlt_dec x 0 then
    if Rle_dec 0 y then Ratan.atan (y / x) + PI else Ratan.atan (y / x) - PI
  else if Rlt_dec 0 y then PI / 2
  else if Rlt_dec y 0 then - (PI / 2) else 0.
(* division by zero and roots of negative numbers give NaN: there are no infinities here.
   Rounding to float32 and the cast to uint8 are any functions. *)
Definition exact (r32 u8 : option R -> option R) : arith (option R) := {|
  nan := None; lit := fun z => Some (IZR z); half := Some (/ 2); pi := Some PI;
  add := lift2 Rplus; sub := lift2 Rminus; mul := lift2 Rmult;
  div := fun x y => match x, y with Some x, Some y => if Req_EM_T y 0 then None else Some (x / y) | _, _ => None end;
  opp := lift1 Ropp;
  sqrt := fun x => match x with Some x => if Rle_dec 0 x then Some (R_sqrt.sqrt x) else None | None => None end;
  atan := lift1 Ratan.atan; atan2 := lift2 angle; cos := lift1 Rtrigo_def.cos; sin := lift1 Rtrigo_def.sin;
  eqb := compare Reqb; ltb := compare Rltb; leb := compare Rleb;
  round32 := fun x => match x with None => None | x => r32 x end; to_u8 := u8 |}.

(* The gradient of Horn's method.  z dr dc is the elevation dr rows below and dc
   columns to the right; the cell there is at (dc * res0, dr * res1) from the
   centre.  (For a raster with north up res1 is negative.) *)
Definition weight (d : Z) : R := if (d =? 0)%Z then 2 else 1.
Definition sum3 (f : Z -> R) : R := f (-1)%Z + f 0%Z + f 1%Z.
Definition grad_x (res0 : R) (z : Z -> Z -> R) : R :=
  sum3 (fun dr => weight dr * (z dr 1%Z - z dr (-1)%Z)) / (8 * res0).
Definition grad_y (res1 : R) (z : Z -> Z -> R) : R :=
  sum3 (fun dc => weight dc * (z 1%Z dc - z (-1)%Z dc)) / (8 * res1).
Definition length2 (x y : R) : R := R_sqrt.sqrt (x * x + y * y).
Definition degrees_of (a : R) : R := a * (180 / PI).
Definition radians_of (a : R) : R := a * (PI / 180).

(* slope: the angle between the surface and the horizontal *)
Definition slope_spec (res0 res1 : R) (degrees : bool) (z : Z -> Z -> R) : R :=
  let t := length2 (grad_x res0 z) (grad_y res1 z) in
  if degrees then degrees_of (Ratan.atan t) else t.
(* aspect: the compass direction in which the surface falls, -1 where it is
   flat, for square cells and north up *)
Definition aspect_spec (z : Z -> Z -> R) (a : R) : Prop :=
  let gx := grad_x 1 z in
  let gy := grad_y (-1) z in
  (gx = 0 /\ gy = 0 /\ a = -1) \/
  ((gx <> 0 \/ gy <> 0) /\ 0 <= a < 360
   /\ length2 gx gy * Rtrigo_def.sin (radians_of a) = - gx
   /\ length2 gx gy * Rtrigo_def.cos (radians_of a) = - gy).
(* curvature: minus 100 times the second differences in both directions *)
Definition curvature_spec (res0 res1 : R) (z : Z -> Z -> R) : R :=
  - 100 * ((z 0%Z 1%Z - 2 * z 0%Z 0%Z + z 0%Z (-1)%Z) + (z 1%Z 0%Z - 2 * z 0%Z 0%Z + z (-1)%Z 0%Z)) / (res0 * res1).
(* hillshade: the cosine of the angle between the normal of the surface and the
   direction of the sun, cut off at 0, times 255 *)
Definition dot (a b : R * R * R) : R :=
  let '(a1, a2, a3) := a in let '(b1, b2, b3) := b in a1 * b1 + a2 * b2 + a3 * b3.
Definition norm (a : R * R * R) : R := R_sqrt.sqrt (dot a a).
Definition sun (azimuth altitude : R) : R * R * R :=
  (Rtrigo_def.cos (radians_of altitude) * Rtrigo_def.sin (radians_of azimuth),
   Rtrigo_def.cos (radians_of altitude) * Rtrigo_def.cos (radians_of azimuth),
   Rtrigo_def.sin (radians_of altitude)).
Definition normal (res0 res1 : R) (z : Z -> Z -> R) : R * R * R := (- grad_x res0 z, - grad_y res1 z, 1).
Definition hillshade_spec (res0 res1 azimuth altitude : R) (z : Z -> Z -> R) : R :=
  255 * Rmax 0 (dot (normal res0 res1 z) (sun azimuth altitude) / norm (normal res0 res1 z)).
(* surface area: the cell is covered by eight triangles between its centre and
   the points half way to its neighbours *)
Definition cross (a b : R * R * R) : R * R * R :=
  let '(a1, a2, a3) := a in let '(b1, b2, b3) := b in (a2 * b3 - a3 * b2, a3 * b1 - a1 * b3, a1 * b2 - a2 * b1).
Definition halfway (s : R) (z : Z -> Z -> R) (p : Z * Z) : R * R * R :=
  (IZR (snd p) * s / 2, IZR (fst p) * s / 2, (z (fst p) (snd p) - z 0%Z 0%Z) / 2).
Definition triangle (a b : R * R * R) : R := norm (cross a b) / 2.
Definition around : list (Z * Z) :=
  [(1, 0); (1, 1); (0, 1); (-1, 1); (-1, 0); (-1, -1); (0, -1); (1, -1); (1, 0)]%Z.
Fixpoint fan (s : R) (z : Z -> Z -> R) (l : list (Z * Z)) : R :=
  match l with
  | p :: ((q :: _) as l') => triangle (halfway s z p) (halfway s z q) + fan s z l'
  | _ => 0
  end.
Definition area_spec (s : R) (z : Z -> Z -> R) : R := fan s z around.

(* a plane, and a surface of second degree *)
Definition plane (res0 res1 c p q : R) (dr dc : Z) : R := c + p * (IZR dc * res0) + q * (IZR dr * res1).
Definition quadric (s0 s1 c p q u v w : R) (dr dc : Z) : R :=
  let x := IZR dc * s0 in let y := IZR dr * s1 in c + p * x + q * y + u * x * x + v * x * y + w * y * y.
End Exact.
