(* Chunks within a byte budget.  Uses no definition of the model. *)
From Coq Require Import ZArith List.
Import ListNotations.
Open Scope Z_scope.

Fixpoint total (l : list Z) : Z := match l with [] => 0 | x :: t => x + total t end.
(* sizes of at least one cell that make up n *)
Definition parts (n : Z) (l : list Z) : Prop := total l = n /\ forall x, In x l -> 0 < x.
(* a tile of h by w cells with nb bands of size bytes a cell takes at most num/den of the
   limit *)
Definition within (num den limit nb size h w : Z) : Prop := den * (nb * h * w * size) <= num * limit.
(* What dask promises for (nbands, "auto", "auto"): all bands together, and tiles within
   the limit, up to a tolerance num/den (array.chunk-size-tolerance) below 2, if one cell is *)
Definition auto_within (num den : Z) (auto : Z * Z * Z -> Z -> list Z * list Z * list Z -> Z -> list Z * list Z * list Z) : Prop :=
  forall nb ny nx size old limit, 0 < nb -> 0 < ny -> 0 < nx -> 0 < size -> 0 < limit ->
  exists cy cx, auto (nb, ny, nx) size old limit = ([nb], cy, cx) /\ parts ny cy /\ parts nx cx
    /\ forall h w, In h cy -> In w cx -> within num den limit nb size h w \/ (h = 1 /\ w = 1).
