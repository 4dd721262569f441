(* Model of rasterize.py for one chunk and any null value: what the dtype of the
   field makes of the null value, what rasterio accepts, and the detour of int8
   and 64-bit integers through another dtype.  Rasterize.v is the case where all of
   these change nothing.

   Numbers are in the range of the dtype (NumPy raises otherwise).  The null value
   is a Python number.  A feature that lies in the box of the chunk without touching
   a cell is left out: rasterio then checks the null value without need. *)
From Coq Require Import QArith Qabs.
From Verif Require Import Base Scalars Zonal Reconcile Rasterize.
Open Scope Z_scope.

(* np.array([v]).astype(d), np.full(.., v, dtype=d): floats are rounded, integers
   cut off; v itself when that is the same number *)
Definition stored (d : dtype) (v : num) : num :=
  let w := match v with
    | Fin q => if is_float_dtype d then round_to d v else of_Z (Z.quot (Qnum q) (Zpos (Qden q)))
    | _ => v
    end in
  if num_eqb w v then v else w.

(* rasterize.py:29-35 _get_rio_dtype; old is not _RIO_64BIT_INTS_SUPPORTED (24-26) *)
Definition get_rio_dtype (old : bool) (d : dtype) : dtype :=
  match d with
  | I8 => I16
  | I64 | U64 => if old then F64 else d
  | _ => d
  end.
(* rasterize.py:38-60 _rio_rasterize_wrapper: a value, or the fill, on its way
   through the dtype for rasterio.  The values have the dtype of the output. *)
Definition through (old : bool) (d : dtype) (v : num) : num := stored d (stored (get_rio_dtype old d) v).

(* rasterio.features.rasterize: fill must be castable, can_cast_dtype, that is
   np.allclose(fill, fill.astype(dtype), equal_nan=True); 0 is not checked *)
Definition can_cast (d : dtype) (fill : num) : bool :=
  match fill, stored d fill with
  | Fin p, Fin q => Qle_bool (Qabs (p - q)) ((1 # 100000000) + (1 # 100000) * Qabs q)
  | PInf, PInf | MInf, MInf => is_float_dtype d
  | NaN, _ => is_float_dtype d
  | _, _ => false
  end.

(* rasterize.py:73-148 _rasterize_onto_chunk: np.full where no feature is left
   after clipping *)
Definition fill_cell (old ui : bool) (d : dtype) (fill : num) (fs : list feature) (cell : Z) : num :=
  fold_left (fun acc f => if touches f cell then through old d (burned ui f) else acc) fs (through old d fill).
Definition fill_onto_chunk (old ui : bool) (m : overlap) (d : dtype) (fill : num) (n : Z) (gdf : list feature) : res (list num) :=
  if existsb (fun f => existsb (touches f) (zrange 0 n)) gdf then
    if can_cast (get_rio_dtype old d) fill then Ok (map (fill_cell old ui d fill (burn_order ui m gdf)) (zrange 0 n)) else Err ValueError
  else Ok (full n (stored d fill)).
(* rasterize.py:251-289: numba compares the cells with the null value as it was
   given, after promotion to float64 *)
Fixpoint fill_reduce (old ui : bool) (m : overlap) (d : dtype) (fill : num) (n : Z) (t : steps) : res (list num) :=
  match t with
  | Part gdf => fill_onto_chunk old ui m d fill n gdf
  | One t => fill_reduce old ui m d fill n t
  | Two t u =>
      let* a := fill_reduce old ui m d fill n t in
      let* b := fill_reduce old ui m d fill n u in
      Ok (resolve m fill a b)
  end.
(* rasterize.py:401-409: da.full_like of a chunk no partition matches *)
Definition fill_chunk (old ui : bool) (m : overlap) (d : dtype) (fill : num) (n : Z) (t : option steps) : res (list num) :=
  match t with
  | None => Ok (full n (stored d fill))
  | Some t => fill_reduce old ui m d fill n t
  end.

(* rasterize.py:219-240: np.where(_all_axis0(mask), fill, out) makes float64 of
   float32 in numba, so a chunk reduced by min or max holds float64 *)
Fixpoint reduced (t : steps) : bool :=
  match t with Part _ => false | One t => reduced t | Two _ _ => true end.
Definition widened (m : overlap) (t : option steps) : bool :=
  match m, t with (Min | Max), Some t => reduced t | _, _ => false end.
(* data == nv of masking.py:27-35: with floats NumPy brings the Python number nv to
   the dtype of data; integers and a fraction are compared as they are *)
Definition fill_mask (m : overlap) (d : dtype) (fill : num) (t : option steps) (data : list num) : list bool :=
  null_mask (if is_float_dtype d && negb (widened m t) then stored d fill else fill) data.
