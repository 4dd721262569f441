(* Model of general.py:178-336 (aggregate) on one band; the bands are treated
   alike.  xarray's coarsen and dask's reshape are modelled by what they do. *)
From Coq Require Import QArith.
From Verif Require Import Base Scalars Chunks Arr2 Stats Zonal.
Open Scope Z_scope.

(* coarsen(boundary="trim"): the array is cut to a multiple of the window ... *)
Definition trim {A} (fy fx ny nx : Z) (a : arr2 A) : arr2 A :=
  map (fun row => slice row 0 (nx / fx * fx)) (slice a 0 (ny / fy * fy)).
(* ... and reshaped to (ny / fy, fy, nx / fx, fx) *)
Definition groups {A} (f n : Z) (l : list A) : list (list A) :=
  map (fun k => slice l (k * f) (k * f + f)) (zrange 0 n).
Definition coarsen {A} (fy fx ny nx : Z) (a : arr2 A) : list (list (list (list A))) :=
  map (fun rows => map (groups fx (nx / fx)) rows) (groups fy (ny / fy) (trim fy fx ny nx a)).
(* x[j, :, k, :], in row-major order *)
Definition window_of {A} (x : list (list (list (list A)))) (j k : Z) : res (list A) :=
  let* rows := get x j in
  let* cells := traverse (fun row => get row k) rows in
  Ok (concat cells).
(* a reduction over the two window axes: the built-in statistics *)
Definition reduce {A B} (f : list A -> res B) (n m : Z) (x : list (list (list (list A)))) : res (arr2 B) :=
  traverse (fun j => traverse (fun k => let* w := window_of x j k in f w) (zrange 0 m)) (zrange 0 n).
(* general.py:178-192 _coarsen_chunk on a block of n x m windows *)
Definition coarsen_chunk (func : list num -> res num) (check_nan : bool) (n m : Z) (x : list (list (list (list num)))) : res (arr2 num) :=
  reduce (fun w => let* v := func w in Ok (if check_nan && is_nan v then of_Z 0 else v)) n m x.
(* general.py:195-209 _coarsen_block_map: map_blocks over the blocks of windows; dask's
   reshape keeps every window within one block *)
Definition coarsen_block_map (func : list num -> res num) (check_nan : bool) (ycs xcs : list Z) (x : list (list (list (list num)))) : res (arr2 num) :=
  let* rows :=
    traverse (fun '(r0, r1) =>
      let* blocks :=
        traverse (fun '(c0, c1) =>
          coarsen_chunk func check_nan (r1 - r0) (c1 - c0) (map (map (fun row => slice row c0 c1)) (slice x r0 r1)))
          (chunks_to_array_locations xcs) in
      Ok (hcat blocks)) (chunks_to_array_locations ycs) in
  Ok (concat rows).

(* 223-238: the built-in statistics (given as functions of the window's values,
   NaN standing for null) and the custom ones, with check_nan for mode only *)
Inductive statistic := Builtin (f : list num -> num) | Custom (f : list num -> res num) | SMode.
Definition run_statistic (s : statistic) (ycs xcs : list Z) (n m : Z) (x : list (list (list (list num)))) : res (arr2 num) :=
  match s with
  | Builtin f => reduce (fun w => Ok (f w)) n m x
  | Custom f => coarsen_block_map f false ycs xcs x
  | SMode => coarsen_block_map nanmode true ycs xcs x
  end.
(* general.py:251-336 aggregate.  [promote] is the conversion to a float dtype that makes
   room for NaN (get_raster(null_to_nan=True), masked rasters only); nv the
   default null value of the result's dtype.  A masked band has a mask. *)
Definition where2 {A} (m : arr2 bool) (x : A) (a : arr2 A) : arr2 A :=
  map (fun '(mr, ar) => map (fun '(b, v) => if b : bool then x else v) (combine mr ar)) (combine m a).
Definition aggregate (promote : num -> num) (nv : num) (s : statistic) (ny nx fy fx : Z) (ycs xcs : list Z)
  (data : arr2 num) (mask : option (arr2 bool)) : res (arr2 num * option (arr2 bool)) :=
  if (fy =? 1) && (fx =? 1) then Err ValueError
  else if negb ((1 <=? fy) && (1 <=? fx)) then Err ValueError
  else
    let n := ny / fy in
    let m := nx / fx in
    match mask with
    | Some mask =>
        let data := where2 mask NaN (map (map promote) data) in
        let* out := run_statistic s ycs xcs n m (coarsen fy fx ny nx data) in
        let* omask := reduce (fun w => Ok (forallb (fun b => b) w)) n m (coarsen fy fx ny nx mask) in
        Ok (where2 omask nv out, Some omask)
    | None =>
        let* out := run_statistic s ycs xcs n m (coarsen fy fx ny nx data) in
        Ok (out, None)
    end.
(* the coordinates of the result: the mean of each window's coordinates *)
Definition coarsen_coords (f n : Z) (x : list Q) : list Q :=
  map (fun w => (fold_left Qplus w 0 / inject_Z f)%Q) (groups f (n / f) (slice x 0 (n / f * f))).
(* general.py:241-248 _get_unique_dtype *)
Definition get_unique_dtype (d : dtype) : dtype :=
  match d with
  | I8 | U8 => I16
  | U16 => I32
  | U32 => I64
  | d => d
  end.
