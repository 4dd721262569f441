(* What cost distance means, on a two-dimensional grid and without any
   reference to the algorithm: legal moves, paths, accumulated cost. *)
From Verif Require Import Base F64.

Section CostSpec.
Context {C : Type} (barrier : C -> bool) (csum : C -> C -> f64).

(* A cost-distance problem on an nrows x ncols grid. *)
Record problem := mkProblem {
  p_nrows : Z;
  p_ncols : Z;
  p_cost : Z -> Z -> C;                       (* cost at (row, col) *)
  p_source : Z -> Z -> option Z;              (* label of a source cell *)
  p_elev : option (Z -> Z -> f64);            (* elevation, if any *)
  p_enull : f64;                              (* elevation null value *)
  p_yscale : f64;                             (* row spacing *)
  p_xscale : f64;                             (* column spacing *)
  p_diag : bool                               (* 8 rather than 4 neighbours *)
}.

Definition in_grid (p : problem) (r c : Z) : Prop :=
  0 <= r < p_nrows p /\ 0 <= c < p_ncols p.

(* A cell one may travel through. *)
Definition passable (p : problem) (r c : Z) : Prop :=
  barrier (p_cost p r c) = false
  /\ match p_elev p with
     | Some e => feqb (e r c) (p_enull p) = false
     | None => True
     end.

Definition neighbours (p : problem) (r c r' c' : Z) : Prop :=
  Z.abs (r' - r) <= 1 /\ Z.abs (c' - c) <= 1 /\ ~ (r' = r /\ c' = c)
  /\ (p_diag p = false -> r' = r \/ c' = c).

(* A legal move from (r, c) to (r', c'). *)
Definition legal (p : problem) (r c r' c' : Z) : Prop :=
  in_grid p r c /\ in_grid p r' c' /\ neighbours p r c r' c'
  /\ passable p r c /\ passable p r' c'.

Definition sq (x : f64) : f64 := fmul x x.

(* Length of a move: Euclidean, in three dimensions if there is elevation. *)
Definition length2 (p : problem) (dr dc : Z) : f64 :=
  fadd (sq (fmul (p_yscale p) (f64_of_Z dr))) (sq (fmul (p_xscale p) (f64_of_Z dc))).

Definition move_length (p : problem) (r c r' c' : Z) : f64 :=
  match p_elev p with
  | Some e => fsqrt (fadd (length2 p (r' - r) (c' - c)) (sq (fsub (e r' c') (e r c))))
  | None => fsqrt (length2 p (r' - r) (c' - c))
  end.

(* length * 0.5 * (cost + cost') *)
Definition step_cost (p : problem) (r c r' c' : Z) : f64 :=
  fmul (fmul (move_length p r c r' c') fhalf) (csum (p_cost p r c) (p_cost p r' c')).

(* [path p sr sc r c acc]: some sequence of legal moves leads from the source
   cell (sr, sc) to (r, c), and adding up its step costs from 0 gives acc. *)
Inductive path (p : problem) (sr sc : Z) : Z -> Z -> f64 -> Prop :=
| path_source l : in_grid p sr sc -> p_source p sr sc = Some l ->
    path p sr sc sr sc fzero
| path_move r c acc r' c' : path p sr sc r c acc -> legal p r c r' c' ->
    path p sr sc r' c' (fadd acc (step_cost p r c r' c')).

(* Where the traceback codes 0..7 point, as documented in the docstring:
       5 6 7
       4 X 0
       3 2 1                                                         *)
Definition points_to (code : Z) : option (Z * Z) :=
  match code with
  | 0 => Some (0, 1)
  | 1 => Some (1, 1)
  | 2 => Some (1, 0)
  | 3 => Some (1, -1)
  | 4 => Some (0, -1)
  | 5 => Some (-1, -1)
  | 6 => Some (-1, 0)
  | 7 => Some (-1, 1)
  | _ => None
  end.

(* Following a traceback surface [t]: [walk t r c l] says that from (r, c) the
   codes lead through the cells l (first = (r, c)) to a cell with code -1. *)
Inductive walk (t : Z -> Z -> Z) : Z -> Z -> list (Z * Z) -> Prop :=
| walk_end r c : t r c = -1 -> walk t r c [(r, c)]
| walk_next r c dr dc l : points_to (t r c) = Some (dr, dc) ->
    walk t (r + dr) (c + dc) l -> walk t r c ((r, c) :: l).

(* Accumulated cost from the last cell of such a walk back to its first. *)
Fixpoint walk_cost (p : problem) (l : list (Z * Z)) : f64 :=
  match l with
  | [] => fzero
  | [_] => fzero
  | (r, c) :: ((r', c') :: _) as tl =>
      fadd (walk_cost p tl) (step_cost p r' c' r c)
  end.

(* Every legal step has a cost (is not NaN). *)
Definition steps_ok (p : problem) : Prop :=
  forall r c r' c', legal p r c r' c' -> fok (step_cost p r c r' c') = true.

(* Sums of two passable costs are non-negative numbers (true of float64). *)
Definition csum_ok : Prop :=
  forall a b, barrier a = false -> barrier b = false ->
    fleb fzero (csum a b) = true.

End CostSpec.
