(* What combining grids must give. *)
From Coq Require Import QArith Qabs String.
From Verif Require Import Base Grids Combine.
Open Scope Z_scope.

(* a point of the closed box *)
Definition inside (b : bounds) (x y : Q) : Prop := (x0 b <= x <= x1 b)%Q /\ (y0 b <= y <= y1 b)%Q.
(* the point of the grid at a column and row, which need not be whole *)
Definition point (g : grid) (col row : Q) : Q * Q :=
  let t := g_affine g in ((aa t * col + ab t * row + ac t)%Q, (ad t * col + ae t * row + af t)%Q).
Definition on_grid (g : grid) (x y : Q) : Prop := exists col row, (0 <= col <= inject_Z (g_nx g))%Q /\ (0 <= row <= inject_Z (g_ny g))%Q
  /\ (fst (point g col row) == x)%Q /\ (snd (point g col row) == y)%Q.
(* an axis-aligned grid *)
Definition upright (g : grid) : Prop := (ab (g_affine g) == 0)%Q /\ (ad (g_affine g) == 0)%Q /\ ~ (aa (g_affine g) == 0)%Q /\ ~ (ae (g_affine g) == 0)%Q /\ 0 < g_nx g /\ 0 < g_ny g.
(* the grid has square cells of size r in rows from north to south *)
Definition square (r : Q) (g : grid) : Prop := (aa (g_affine g) == r)%Q /\ (ab (g_affine g) == 0)%Q /\ (ad (g_affine g) == 0)%Q /\ (ae (g_affine g) == - r)%Q /\ 0 < g_nx g /\ 0 < g_ny g.
(* the grid starts at the upper left corner of the box and covers it but for 1/100 of
   a cell, with less than a cell too much (or with one cell) *)
Definition covers_box (r : Q) (g : grid) (b : bounds) : Prop :=
  square r g /\ (ac (g_affine g) == x0 b)%Q /\ (af (g_affine g) == y1 b)%Q
  /\ (x1 b < x0 b + (inject_Z (g_nx g) + (1 # 100)) * r)%Q /\ (y1 b - (inject_Z (g_ny g) + (1 # 100)) * r < y0 b)%Q
  /\ (g_nx g = 1 \/ (x0 b + (inject_Z (g_nx g) - 1) * r < x1 b)%Q) /\ (g_ny g = 1 \/ (y0 b < y1 b - (inject_Z (g_ny g) - 1) * r)%Q).
(* the smallest box around all grids *)
Definition hull (gs : list grid) (b : bounds) : Prop :=
  (forall g x y, In g gs -> on_grid g x y -> inside b x y)
  /\ forall b', (forall g x y, In g gs -> on_grid g x y -> inside b' x y) -> (x0 b' <= x0 b)%Q /\ (y0 b' <= y0 b)%Q /\ (x1 b <= x1 b')%Q /\ (y1 b <= y1 b')%Q.
(* the points that all grids have *)
Definition shared (gs : list grid) (b : bounds) : Prop := forall x y, inside b x y <-> (forall g, In g gs -> on_grid g x y).
(* at a distance of at most e in x and y of a point of the grid *)
Definition near (e : Q) (g : grid) (x y : Q) : Prop := exists x' y', on_grid g x' y' /\ (Qabs (x - x') <= e)%Q /\ (Qabs (y - y') <= e)%Q.
Definition proper (b : bounds) : Prop := (x0 b <= x1 b)%Q /\ (y0 b <= y1 b)%Q.
Definition good_how (how : option string) : Prop := how = None \/ how = Some "union"%string \/ how = Some "intersection"%string.
