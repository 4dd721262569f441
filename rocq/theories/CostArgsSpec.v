(* What the arguments of the cost distance functions stand for: which cells are sources
   and with which label, what a cell costs, what a raster with a null value is. *)
From Coq Require Import QArith Reals.
From Flocq Require Import Core BinarySingleNaN.
From Verif Require Import Base F64 Scalars CostSpec CostDist CostArgs.
Open Scope Z_scope.

Definition at_cell {A} (d : A) (l : list A) (ncols r c : Z) : A := nth (Z.to_nat (r * ncols + c)) l d.
Definition in_dtype (d : dtype) (z : Z) : Prop := int_min d <= z <= int_max d.

(* a raster of one band whose cells, mask and null value fit together *)
Definition rst_ok (nrows ncols : Z) (r : rst) : Prop :=
  v_shape r = (1, nrows, ncols) /\ len (v_mask r) = nrows * ncols
  /\ match v_cells r with
     | Ints l nv => len l = nrows * ncols /\ (is_int_dtype (v_dtype r) = true \/ v_dtype r = BOOL)
         /\ Forall (in_dtype (v_dtype r)) l
         /\ match nv with
            | None => forall i, 0 <= i < nrows * ncols -> get (v_mask r) i = Ok false
            | Some v => in_dtype (v_dtype r) v
            end
     | Floats l nv => len l = nrows * ncols /\ is_float_dtype (v_dtype r) = true
         /\ match nv with
            | None => forall i, 0 <= i < nrows * ncols -> get (v_mask r) i = Ok false
            | Some v => fisnan v = true -> v_mask r = map fisnan l
            end
     end.

(* a raster can have its null cells replaced by a number *)
Definition fillable (r : rst) (z : Z) : Prop :=
  match v_cells r with
  | Ints _ (Some _) => v_dtype r = BOOL \/ in_dtype (v_dtype r) z
  | _ => True
  end.

(* ---- sources ---- *)

(* the label of a cell: the value of a raster, nothing where it is null *)
Definition raster_label (l : list Z) (mask : list bool) (ncols r c : Z) : option Z :=
  if at_cell false mask ncols r c then None else Some (at_cell 0 l ncols r c).
(* the position of a cell in a list of cells *)
Fixpoint position (l : list (Z * Z)) (k r c : Z) : option Z :=
  match l with
  | [] => None
  | (r', c') :: t => if (r =? r') && (c =? c') then Some k else position t (k + 1) r c
  end.

(* the sources argument [s] makes the cells sources that [label] labels; [snull] is the
   label of no source *)
Inductive means (nrows ncols : Z) : sources_arg -> (Z -> Z -> option Z) -> Z -> Prop :=
| MeansRaster (r : rst) (l : list Z) (nv : Z) :
    rst_ok nrows ncols r -> is_int_dtype (v_dtype r) = true -> v_cells r = Ints l (Some nv) ->
    (* the null cells are those with the null value *)
    (forall i b z, get (v_mask r) i = Ok b -> get l i = Ok z -> (b = true <-> z = nv)) ->
    (* nothing above the largest int64 *)
    Forall (fun z => z <= int_max I64) (nv :: l) ->
    means nrows ncols (SrcRaster r) (raster_label l (v_mask r) ncols) nv
| MeansIndices (idxs : list (Z * Z)) :
    NoDup idxs -> (forall r c, In (r, c) idxs -> 0 <= r < nrows /\ 0 <= c < ncols) ->
    Forall (fun rc => in_dtype I64 (fst rc) /\ in_dtype I64 (snd rc)) idxs ->
    means nrows ncols
      (SrcArray [len idxs; 2] (concat (map (fun rc => [of_Z (fst rc); of_Z (snd rc)]) idxs)))
      (position idxs 0) (-1).

(* ---- the problem ---- *)

(* cost of a cell; null cells are barriers *)
Definition int_cost (l : list Z) (mask : list bool) (ncols r c : Z) : Z :=
  if at_cell false mask ncols r c then -1 else at_cell 0 l ncols r c.
Definition float_cost (l : list f64) (mask : list bool) (ncols r c : Z) : f64 :=
  if at_cell false mask ncols r c then fminus1 else at_cell fzero l ncols r c.
(* elevation of a cell; null cells have the null value *)
Definition elevation_at (e : rst) (ncols r c : Z) : f64 :=
  if at_cell false (v_mask e) ncols r c then fm9999
  else match v_cells e with
       | Ints l _ => f64_of_Z (at_cell 0 l ncols r c)
       | Floats l _ => at_cell fzero l ncols r c
       end.

Definition the_problem {C} (cost : Z -> Z -> C) (label : Z -> Z -> option Z) (nrows ncols : Z)
  (elevation : option rst) (resolution : f64 * f64) (connectivity : Z) : @problem C :=
  mkProblem nrows ncols cost label
    (option_map (fun e => elevation_at e ncols) elevation)
    (match elevation with Some _ => fm9999 | None => fzero end)
    (fabs (snd resolution)) (fabs (fst resolution)) (connectivity =? 8).

(* integer costs: a negative one is a barrier; two costs add up exactly *)
Definition blocks (c : Z) : bool := c <? 0.
Definition exact_sum (a b : Z) : f64 := f64_of_Z (a + b).
(* the sum of two float32 numbers in float32: the float32 number nearest to the exact sum
   (ties to even), unless that is too large *)
Definition single_sum (x y : R) : R := round radix2 (FLT_exp (-149) 24) ZnearestE (x + y).
Definition is_single (x : f64) : Prop := is_finite x = true /\ generic_format radix2 (FLT_exp (-149) 24) (B2R x).

(* ---- the answer ---- *)

Definition least {C} (barrier : C -> bool) (csum : C -> C -> f64) (p : problem) (r c : Z) (d : f64) : Prop :=
  (exists sr sc, path barrier csum p sr sc r c d)
  /\ forall sr sc acc, path barrier csum p sr sc r c acc -> fleb d acc = true.
Definition unreachable {C} (barrier : C -> bool) (csum : C -> C -> f64) (p : problem) (r c : Z) : Prop :=
  forall sr sc acc, path barrier csum p sr sc r c acc -> acc = finf.

(* a cell of the outputs: null where the costs are null or no source can be reached, else
   the least cost, a code (0 at the sources) and the label of a source with that cost *)
Definition cell_ok {C} (barrier : C -> bool) (csum : C -> C -> f64) (p : problem) (null : bool) (nv : f64) (snull : Z)
  (r c : Z) (masked : bool) (d : f64) (t a : Z) : Prop :=
  (masked = true <-> null = true \/ unreachable barrier csum p r c)
  /\ (masked = true -> d = nv /\ t = -1 /\ a = snull)
  /\ (masked = false ->
        is_finite d = true /\ least barrier csum p r c d /\ 0 <= t <= 8
        /\ (t = 0 <-> p_source p r c <> None)
        /\ exists sr sc, p_source p sr sc = Some a /\ path barrier csum p sr sc r c d).

Definition solves {C} (barrier : C -> bool) (csum : C -> C -> f64) (p : problem) (mask : list bool) (nv : f64) (snull : Z)
  (o : outputs) : Prop :=
  let n := p_nrows p * p_ncols p in
  o_nv o = nv /\ o_traceback_nv o = -1 /\ o_allocation_nv o = snull
  /\ len (o_distance o) = n /\ len (o_traceback o) = n /\ len (o_allocation o) = n /\ len (o_mask o) = n
  /\ forall r c, in_grid p r c -> exists b d t a,
       let i := r * p_ncols p + c in
       get (o_mask o) i = Ok b /\ get (o_distance o) i = Ok d
       /\ get (o_traceback o) i = Ok t /\ get (o_allocation o) i = Ok a
       /\ cell_ok barrier csum p (at_cell false mask (p_ncols p) r c) nv snull r c b d t a.

(* ---- sources that make no sense ---- *)
Inductive bad (nrows ncols : Z) : sources_arg -> err -> Prop :=
| BadShape (r : rst) : v_shape r <> (1, nrows, ncols) -> bad nrows ncols (SrcRaster r) ValueError
| BadDtype (r : rst) : v_shape r = (1, nrows, ncols) -> is_int_dtype (v_dtype r) = false -> bad nrows ncols (SrcRaster r) TypeError
| BadNull (r : rst) : v_shape r = (1, nrows, ncols) -> is_int_dtype (v_dtype r) = true ->
    forall l, v_cells r = Ints l None -> bad nrows ncols (SrcRaster r) ValueError
| BadArray (shape : list Z) (items : list num) : (forall m, shape <> [m; 2]) -> bad nrows ncols (SrcArray shape items) ValueError
| BadIndices (idxs : list (Z * Z)) :
    ~ NoDup idxs \/ (exists r c, In (r, c) idxs /\ ~ (0 <= r < nrows /\ 0 <= c < ncols)) ->
    Forall (fun rc => in_dtype I64 (fst rc) /\ in_dtype I64 (snd rc)) idxs ->
    bad nrows ncols (SrcArray [len idxs; 2] (concat (map (fun rc => [of_Z (fst rc); of_Z (snd rc)]) idxs))) ValueError
| BadOther : bad nrows ncols SrcOther ValueError.
