(* What regions has to compute. *)
From Coq Require Import QArith.
From Verif Require Import Base Scalars FocalSpec.
Open Scope Z_scope.

Definition inside (ny nx : Z) (c : Z * Z) : Prop := 0 <= fst c < ny /\ 0 <= snd c < nx.
(* adjacent cells, with 4 or 8 neighbours *)
Definition adjacent (neighbors : Z) (c d : Z * Z) : Prop :=
  let di := Z.abs (fst c - fst d) in let dj := Z.abs (snd c - snd d) in
  if neighbors =? 4 then di + dj = 1 else Z.max di dj = 1.
(* steps that stay within [ok] cells and between [like] cells *)
Inductive joined (step : Z * Z -> Z * Z -> Prop) : Z * Z -> Z * Z -> Prop :=
| joined_refl c : joined step c c
| joined_step c d e : step c d -> joined step d e -> joined step c e.

(* a cell that takes part: valid, not zero, not NaN *)
Definition counted (data : list (list num)) (null : Z * Z -> bool) (c : Z * Z) : Prop :=
  null c = false /\ exists v, at2 data (fst c) (snd c) v /\ num_eqb v (of_Z 0) = false /\ is_nan v = false.
Definition equal_step (neighbors ny nx : Z) (data : list (list num)) (null : Z * Z -> bool) (c d : Z * Z) : Prop :=
  inside ny nx c /\ inside ny nx d /\ adjacent neighbors c d /\ null c = false /\ null d = false
  /\ num_eqb (val2 NaN data (fst c) (snd c)) (val2 NaN data (fst d) (snd d)) = true.
Definition same_region (neighbors ny nx : Z) data null := joined (equal_step neighbors ny nx data null).

(* What a labelling of the components of the true cells has to satisfy.  The
   structure is a 3 x 3 array that says which neighbours are adjacent. *)
Definition structure_step (wd : list (list Z)) (ny nx : Z) (b : list (list bool)) (c d : Z * Z) : Prop :=
  inside ny nx c /\ inside ny nx d /\ val2 0 wd (fst d - fst c + 1) (snd d - snd c + 1) <> 0
  /\ val2 false b (fst c) (snd c) = true /\ val2 false b (fst d) (snd d) = true.
Definition symmetric (wd : list (list Z)) : Prop :=
  forall i j, val2 0 wd i j <> 0 -> val2 0 wd (2 - i) (2 - j) <> 0.
Definition labels_components (label : list (list Z) -> list (list bool) -> list (list Z) * Z) : Prop :=
  forall wd b ny nx, 0 < ny -> 0 < nx -> shaped2 3 3 wd -> symmetric wd -> shaped2 ny nx b ->
    let '(lab, n) := label wd b in
    shaped2 ny nx lab
    /\ (forall c, inside ny nx c -> 0 <= val2 0 lab (fst c) (snd c) <= n
         /\ (0 < val2 0 lab (fst c) (snd c) <-> val2 false b (fst c) (snd c) = true))
    /\ (forall c d, inside ny nx c -> inside ny nx d ->
          val2 false b (fst c) (snd c) = true -> val2 false b (fst d) (snd d) = true ->
          (val2 0 lab (fst c) (snd c) = val2 0 lab (fst d) (snd d) <-> joined (structure_step wd ny nx b) c d)).

(* the cells that get a region: with [unique_values], those with a listed value *)
Definition takes_part (unique_values : option (list num)) data null (c : Z * Z) : Prop :=
  counted data null c
  /\ match unique_values with
     | None => True
     | Some us => exists v, In v us /\ num_eqb (val2 NaN data (fst c) (snd c)) v = true
     end.
(* no value occurs twice *)
Definition no_duplicates (us : list num) : Prop := ForallOrdPairs (fun u v => num_eqb u v = false) us.
(* the null cells of band k *)
Definition band_nulls (mask : option (list (list (list bool)))) (k : Z) (c : Z * Z) : bool :=
  match mask with
  | None => false
  | Some ms => match get ms k with Ok m => val2 false m (fst c) (snd c) | Err _ => false end
  end.
(* what one band of the result has to be *)
Definition regions_of (neighbors ny nx : Z) (unique_values : option (list num)) (nv : Z)
  (data : list (list num)) (null : Z * Z -> bool) (out : list (list Z)) : Prop :=
  let lab c := val2 0 out (fst c) (snd c) in
  let part := takes_part unique_values data null in
  shaped2 ny nx out
  /\ forall c, inside ny nx c ->
       (null c = true -> lab c = nv)
       /\ (null c = false -> 0 <= lab c /\ (0 < lab c <-> part c))
       /\ forall d, inside ny nx d -> part c -> part d -> (lab c = lab d <-> same_region neighbors ny nx data null c d).
