(* Model of the arguments of the public cost distance functions: costs of any dtype,
   sources as a raster or as indices.  What is done with the arrays is CostDist.v, which
   fixes the costs to float64 and takes the sources as prepared arrays. *)
From Coq Require Import QArith.
From Flocq Require Import Core BinarySingleNaN.
From Verif Require Import Base F64 Scalars CostDist.
Open Scope Z_scope.

(* A Raster: dtype, shape (bands, rows, columns), cells, mask and null value.  The cells
   of a raster of one band are flat; integers (and bools) are exact, floats of any width
   are float64s (every float16 and float32 is one).  float128 is left out. *)
Inductive cells :=
| Ints (l : list Z) (nv : option Z)
| Floats (l : list f64) (nv : option f64).
Record rst := Rst { v_dtype : dtype; v_shape : Z * Z * Z; v_cells : cells; v_mask : list bool }.

Definition shape_eqb (a b : Z * Z * Z) : bool :=
  let '(a0, a1, a2) := a in let '(b0, b1, b2) := b in
  (a0 =? b0) && (a1 =? b1) && (a2 =? b2).

(* the sources argument: a Raster (a path has been opened), something np.asarray makes an
   array of numbers of, with its shape and its items in order, or anything else *)
Inductive sources_arg :=
| SrcRaster (r : rst)
| SrcArray (shape : list Z) (items : list num)
| SrcOther.

(* astype(I64) of an integer wraps around *)
Definition wrap64 (z : Z) : Z := (z + 2 ^ 63) mod 2 ^ 64 - 2 ^ 63.
(* astype(int) of a number: towards zero; what does not fit (and NaN) gives the smallest
   integer (on x86) *)
Definition trunc_int (v : num) : Z :=
  match v with
  | Fin q => let z := Z.quot (Qnum q) (Zpos (Qden q)) in
             if (- 2 ^ 63 <=? z) && (z <? 2 ^ 63) then z else - 2 ^ 63
  | _ => - 2 ^ 63
  end.
(* the rows of an array of two columns *)
Fixpoint pairs (l : list Z) : list (Z * Z) :=
  match l with
  | r :: c :: t => (r, c) :: pairs t
  | _ => []
  end.

(* cost_distance.py:564-607: the array of sources and its null value *)
Definition prepare_sources (shape : Z * Z * Z) (sources : sources_arg) : res (list Z * Z) :=
  match sources with
  | SrcRaster r =>
      if negb (shape_eqb (v_shape r) shape) then Err ValueError
      else if negb (is_int_dtype (v_dtype r)) then Err TypeError
      else match v_cells r with
           | Ints l (Some nv) => Ok (map wrap64 l, nv)
           | _ => Err ValueError
           end
  | SrcArray s items =>
      match s with
      | [_; 2] =>
          let '(_, nrows, ncols) := shape in
          let* srcs := sources_of_indices nrows ncols (pairs (map trunc_int items)) in
          Ok (srcs, -1)
      | _ => Err ValueError
      end
  | SrcOther => Err ValueError
  end.

(* does the dtype hold the integer (np.where refuses a Python integer that the dtype of
   the other array does not hold, which dask reports as a ValueError; NumPy 2).  Bools
   become int64. *)
Definition holds (d : dtype) (z : Z) : bool :=
  match d with BOOL => true | _ => (int_min d <=? z) && (z <=? int_max d) end.

(* cost_distance.py:446-460 _normalize_raster_data for integers *)
Definition normalize_ints (d : dtype) (l : list Z) (mask : list bool) (nv : option Z) (missing : Z) : res (list Z) :=
  match nv with
  | None => Ok l
  | Some _ => if holds d missing then Ok (where_scalar mask missing l) else Err ValueError
  end.
(* The elevation as float64s.  The code subtracts and squares integer elevations as
   64-bit integers; the results are the same for elevations within 2^25 of 0. *)
Definition normalize_elev (e : rst) : res (list f64) :=
  match v_cells e with
  | Ints l nv => let* l := normalize_ints (v_dtype e) l (v_mask e) nv (-9999) in Ok (map f64_of_Z l)
  | Floats l nv => Ok (normalize_raster_data (mkRaster1 l (v_mask e) nv) fm9999)
  end.

(* cost + new_cost.  numba adds integers as 64-bit integers (unsigned when both are),
   which overflow only for costs of 64 bits, and makes the sum a float64 when it
   multiplies it with one. *)
Definition int_sum (d : dtype) (a b : Z) : f64 :=
  match d with
  | I64 => f64_of_Z (wrap64 (a + b))
  | U64 => f64_of_Z ((a + b) mod 2 ^ 64)
  | _ => f64_of_Z (a + b)
  end.
(* float32s are added in float32 (and 376-378 makes float16s float32s); the sum of two
   float32s rounded to float64 and then to float32 is their float32 sum *)
Definition round32 (x : f64) : f64 :=
  match x with
  | B754_finite s m e _ =>
      match @binary_normalize 24 128 eq_refl eq_refl mode_NE (cond_Zopp s (Zpos m)) e s with
      | B754_finite s m e _ => @binary_normalize 53 1024 f64_prec f64_emax mode_NE (cond_Zopp s (Zpos m)) e s
      | B754_zero s => B754_zero s
      | B754_infinity s => B754_infinity s
      | B754_nan => B754_nan
      end
  | _ => x
  end.
Definition float_sum (d : dtype) (a b : f64) : f64 :=
  match d with F64 => fadd a b | _ => round32 (fadd a b) end.
(* cost < 0 or cost == np.inf or np.isnan(cost), for an integer *)
Definition int_barrier (c : Z) : bool := c <? 0.

Record outputs := Outputs {
  o_distance : list f64; o_traceback : list Z; o_allocation : list Z;
  o_mask : list bool; o_nv : f64; o_traceback_nv : Z; o_allocation_nv : Z }.

(* cost_distance.py:617-660 on the prepared arrays *)
Definition run {C} (barrier : C -> bool) (csum : C -> C -> f64) (data : list C) (mask : list bool) (nv : option f64)
  (nrows ncols : Z) (sources : list Z) (snull : Z) (edata : option (list f64))
  (resolution : f64 * f64) (connectivity : Z) : res outputs :=
  let enull := match edata with Some _ => fm9999 | None => fzero end in
  let scaling := (fabs (snd resolution), fabs (fst resolution)) in
  let* '(cd, tr, al) :=
    cost_distance_numpy barrier csum data sources nrows ncols snull edata enull scaling connectivity in
  let nv := match nv with Some nv => nv | None => default_null_f64 end in
  let mask := map (fun md => fst md || negb (is_fin (snd md))) (combine mask cd) in
  Ok (Outputs (where_scalar mask nv cd)
        (map (fun t => t + 1) (where_scalar mask TRACEBACK_NOT_REACHED tr))
        (where_scalar mask snull al) mask nv (TRACEBACK_NOT_REACHED + 1) snull).

(* cost_distance.py:551-680 cost_distance_analysis.  Sources rasters of dtype uint64 with a
   null value above the largest int64 go wrong after the preparation too (writing the null
   value to the int64 allocation); that is not modelled. *)
Definition analysis (costs : rst) (sources : sources_arg) (elevation : option rst)
  (resolution : f64 * f64) (connectivity : Z) : res outputs :=
  let '(nb, nrows, ncols) := v_shape costs in
  if negb (nb =? 1) then Err ValueError
  else
    let* _ := match elevation with
              | None => Ok tt
              | Some e => let '(eb, _, _) := v_shape e in
                          if negb (eb =? 1) then Err ValueError
                          else if negb (shape_eqb (v_shape costs) (v_shape e)) then Err ValueError
                          else Ok tt
              end in
    let* '(srcs, snull) := prepare_sources (v_shape costs) sources in
    let elev := fun _ : unit =>
      match elevation with
      | None => Ok None
      | Some e => let* d := normalize_elev e in Ok (Some d)
      end in
    match v_cells costs with
    | Ints l nv =>
        let* data := normalize_ints (v_dtype costs) l (v_mask costs) nv (-1) in
        let* edata := elev tt in
        run int_barrier (int_sum (v_dtype costs)) data (v_mask costs) (option_map f64_of_Z nv)
          nrows ncols srcs snull edata resolution connectivity
    | Floats l nv =>
        let data := normalize_raster_data (mkRaster1 l (v_mask costs) nv) fminus1 in
        let* edata := elev tt in
        run f64_barrier (float_sum (v_dtype costs)) data (v_mask costs) nv
          nrows ncols srcs snull edata resolution connectivity
    end.

(* cost_distance.py:683-724 cda_cost_distance, 727-766 cda_traceback, 769-810
   cda_allocation: one of the three rasters, with the shared mask *)
Definition cda_cost_distance costs sources elevation resolution connectivity : res (list f64 * list bool * f64) :=
  let* o := analysis costs sources elevation resolution connectivity in
  Ok (o_distance o, o_mask o, o_nv o).
Definition cda_traceback costs sources elevation resolution connectivity : res (list Z * list bool * Z) :=
  let* o := analysis costs sources elevation resolution connectivity in
  Ok (o_traceback o, o_mask o, o_traceback_nv o).
Definition cda_allocation costs sources elevation resolution connectivity : res (list Z * list bool * Z) :=
  let* o := analysis costs sources elevation resolution connectivity in
  Ok (o_allocation o, o_mask o, o_allocation_nv o).
