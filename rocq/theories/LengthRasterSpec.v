(* What the lengths near cells mean. *)
From Coq Require Import QArith Qabs String.
From Verif Require Import Base Scalars VectorTable LineStats LineStatsSpec LengthRaster.
Open Scope Z_scope.

Section Spec.
Context {S : Type}.
Variables (zero : S) (add mul : S -> S -> S) (weight : num -> S).
Variable lib : shapes S.

(* exact sums and products *)
Definition exact_products : Prop :=
  exact zero add /\ (forall a b w, mul (add a b) w = add (mul a w) (mul b w)) /\ (forall w, mul zero w = zero).
(* the length of a geometry within the circle of radius r around y, x *)
Definition length_within (r : Q) (g : Z) (y x : Q) : S :=
  sum_of zero add (fun l => match inside lib r l y x with Some s => s | None => zero end) (parts_of lib g).
(* the rectangle contains the square around the circle *)
Definition around (a : rect) (r y x : Q) : Prop :=
  (x_min a <= x - r /\ x + r <= x_max a /\ y_min a <= y - r /\ y + r <= y_max a)%Q.
(* The geometry: equal coordinates, equal answers; a line with a part in the circle
   around a cell has a buffer that touches the cell; clipping to a rectangle around the
   circle does not change the length within the circle. *)
Record lawful (r : Q) : Prop := {
  inside_ext : forall l y y' x x', (y == y')%Q -> (x == x')%Q -> inside lib r l y x = inside lib r l y' x';
  covered : forall l y x, inside lib r l y x <> None -> touches lib r l y x = true;
  clip_keeps : forall g a y x, around a r y x ->
    match clipped lib g a with Some g' => length_within r g' y x | None => zero end = length_within r g y x }.
(* the (weighted) length of all usable features within the circle; w is the weight *)
Definition total (r : Q) (w : option (row -> S)) (rows : list row) (y x : Q) : S :=
  sum_of zero add (fun f => let l := length_within r (w_geom f) y x in match w with Some w => mul l (w f) | None => l end)
    (filter (fun f => usable lib (w_geom f)) rows).
End Spec.

(* the field and the weights it gives *)
Definition weighting {S} (weight : num -> S) (scalar_field : string -> bool) (columns : list string) (rows : list row) (field : field_arg) (w : option (row -> S)) : Prop :=
  (field = FieldNone /\ w = None)
  \/ exists i w', field = FieldName "weights" /\ w = Some w' /\ NoDup columns /\ get columns i = Ok "weights"%string /\ scalar_field "weights"%string = true
     /\ Forall (fun f => exists x, get (w_vals f) i = Ok x /\ w' f = weight x) rows.
(* the features of v in the CRS of the raster *)
Definition projected (project : Z -> Z) (v : vector) : list row := map (fun f => Row (project (w_geom (snd f))) (w_vals (snd f))) (concat (c_parts (v_geo v))).
