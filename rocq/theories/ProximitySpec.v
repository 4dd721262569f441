(* What the proximity tools have to report, independently of the scan. *)
From Verif Require Import Base F64.
Open Scope Z_scope.

Section Spec.
Context {A : Type}.
Variable target : A -> bool.
Variables (xc yc : list f64) (src : list (list A)).

(* src[i, j] is v *)
Definition holds (i j : Z) (v : A) : Prop :=
  exists row, get src i = Ok row /\ get row j = Ok v.

(* (i, j) is a target cell with value v *)
Definition target_at (i j : Z) (v : A) : Prop := holds i j v /\ target v = true.

(* (x, y) is the centre of cell (i, j) *)
Definition centre (i j : Z) (x y : f64) : Prop := get xc j = Ok x /\ get yc i = Ok y.

(* p is the proximity of cell (i, j) when (ti, tj) is the target: 0 at a target
   cell, otherwise the root of the squared distance, stored in the dtype of the
   output, and at most max_distance *)
Definition proximity_to (dist_sqr : f64 -> f64 -> f64 -> f64 -> f64) (round : f64 -> f64)
  (max_distance : f64) (i j ti tj : Z) (p : f64) : Prop :=
  ((ti, tj) = (i, j) /\ p = fzero)
  \/ ((forall v, ~ target_at i j v)
      /\ exists x1 y1 x2 y2, centre ti tj x1 y1 /\ centre i j x2 y2
           /\ p = round (fsqrt (dist_sqr x1 y1 x2 y2))
           /\ fleb p (round max_distance) = true).

(* d is the direction from cell (i, j) to (ti, tj) *)
Definition direction_to (dir : f64 -> f64 -> f64 -> f64 -> f64) (i j ti tj : Z) (d : f64) : Prop :=
  exists x1 y1 x2 y2, centre i j x1 y1 /\ centre ti tj x2 y2 /\ d = dir x1 y1 x2 y2.

End Spec.

(* a[i, j] of a two-dimensional array *)
Definition at2 {B} (a : list (list B)) (i j : Z) (x : B) : Prop :=
  exists row, get a i = Ok row /\ get row j = Ok x.

(* Rounding to the dtype of the output keeps the order and the sign. *)
Record rounding (r : f64 -> f64) : Prop := {
  round_mono : forall x y, fleb x y = true -> fleb (r x) (r y) = true;
  round_zero : r fzero = fzero
}.

(* A two-dimensional array of ny x nx *)
Definition grid {B} (ny nx : Z) (a : list (list B)) : Prop :=
  len a = ny /\ forall i row, get a i = Ok row -> len row = nx.
