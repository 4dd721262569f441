(* What a block description has to say: a window of the cells of the raster's
   grid, and the coordinates of those cells. *)
From Verif Require Import Base.
From Verif Require Import Blocks. (* the types only *)
From Coq Require Import QArith.
Open Scope Z_scope.

Definition Qpair_eq (p q : Q * Q) : Prop := (fst p == fst q)%Q /\ (snd p == snd q)%Q.

(* a window (top, bottom, left, right), half-open *)
Definition window : Type := Z * Z * Z * Z.
Definition win_ok (w : window) : Prop :=
  let '(t, b, l, r) := w in t <= b /\ l <= r.
Definition win_of (g : gbi) : window :=
  (fst (g_rows g), snd (g_rows g), fst (g_cols g), snd (g_cols g)).

(* moving the edges of a window outward *)
Definition win_grow (w : window) (top bottom left right : Z) : window :=
  let '(t, b, l, r) := w in (t - top, b + bottom, l - left, r + right).

(* the documented meaning of each method *)
Definition win_op (w : window) (o : op) : option window :=
  match o with
  | OpPadY (Int t) (Int b) => Some (win_grow w t b 0 0)
  | OpPadX (Int l) (Int r) => Some (win_grow w 0 0 l r)
  | OpPad (Int y) None => Some (win_grow w y y y y)
  | OpPad (Int y) (Some (Int x)) => Some (win_grow w y y x x)
  | OpShiftY (Int n) => Some (let '(t, b, l, r) := w in (t + n, b + n, l, r))
  | OpShiftX (Int n) => Some (let '(t, b, l, r) := w in (t, b, l + n, r + n))
  | OpShift (Int y) None => Some (let '(t, b, l, r) := w in (t + y, b + y, l + y, r + y))
  | OpShift (Int y) (Some (Int x)) =>
      Some (let '(t, b, l, r) := w in (t + y, b + y, l + x, r + x))
  | _ => None   (* an amount that is not an integer *)
  end.

(* a sequence of calls none of which asks for less than nothing *)
Inductive moves : window -> list op -> window -> Prop :=
| moves_nil : forall w, moves w [] w
| moves_cons : forall w o ops w1 w2,
    win_op w o = Some w1 -> win_ok w1 -> moves w1 ops w2 -> moves w (o :: ops) w2.

(* The description g, read against the grid of the raster: its shape is the size
   of its window and its cells have the coordinates of the raster's cells there. *)
Definition describes (parent : geobox) (g : gbi) : Prop :=
  gb_ny (g_geobox g) = snd (g_rows g) - fst (g_rows g)
  /\ gb_nx (g_geobox g) = snd (g_cols g) - fst (g_cols g)
  /\ win_ok (win_of g)
  /\ forall i j, Qpair_eq (gb_coord (g_geobox g) i j)
                          (gb_coord parent (fst (g_rows g) + i) (fst (g_cols g) + j)).
