(* Model of the functions of general.py that combine the bands of a raster cell
   by cell: local_stats (594-738) and model_predict_raster (411-492).  An array is
   a list of bands; dask's map_blocks cuts all bands at the same rows and columns. *)
From Coq Require Import QArith.
From Verif Require Import Base Scalars Dtypes Chunks Arr2 Stats Focal Aggregate.
Open Scope Z_scope.

Definition arr3 A := list (arr2 A).
(* x[:, r0:r1, c0:c1] *)
Definition cut3 {A} (r0 r1 c0 c1 : Z) (x : arr3 A) : arr3 A :=
  map (fun band => map (fun row => slice row c0 c1) (slice band r0 r1)) x.
(* x[:, r, c] *)
Definition column {A} (x : arr3 A) (r c : Z) : res (list A) := traverse (fun band => get2 band r c) x.
(* da.map_blocks with one chunk over all bands: f gets the position and the size
   of the block; the results, of nout bands each, are put together *)
Definition join {A B} (cat : list A -> B) (nout : Z) (blocks : list (list A)) : res (list B) :=
  traverse (fun o => let* bs := traverse (fun b => get b o) blocks in Ok (cat bs)) (zrange 0 nout).
Definition map_blocks3 {A B} (f : Z -> Z -> Z -> Z -> arr3 A -> res (arr3 B)) (nout : Z) (ycs xcs : list Z) (x : arr3 A) : res (arr3 B) :=
  let* rows :=
    traverse (fun '(r0, r1) =>
      let* blocks :=
        traverse (fun '(c0, c1) => f r0 c0 (r1 - r0) (c1 - c0) (cut3 r0 r1 c0 c1 x)) (chunks_to_array_locations xcs) in
      join hcat nout blocks) (chunks_to_array_locations ycs) in
  join (fun bs => concat bs) nout rows.
(* np.where(mask, x, a) *)
Definition where3 {A} (m : arr3 bool) (x : A) (a : arr3 A) : arr3 A :=
  map (fun '(mb, ab) => where2 mb x ab) (combine m a).
(* mask.all(axis=0), mask.any(axis=0) *)
Definition all_bands (ny nx : Z) (m : arr3 bool) : res (arr2 bool) :=
  traverse (fun r => traverse (fun c => let* bs := column m r c in Ok (forallb (fun b => b) bs)) (zrange 0 nx)) (zrange 0 ny).
Definition any_band (ny nx : Z) (m : arr3 bool) : res (arr2 bool) :=
  traverse (fun r => traverse (fun c => let* bs := column m r c in Ok (existsb (fun b => b) bs)) (zrange 0 nx)) (zrange 0 ny).

(* ---------------- local_stats ---------------- *)

(* The statistics: numpy's (mean, std, var, max, min, prod, sum, median) with the
   dtype of their result, asm and entropy (their sums are in Stats.v), and the
   other custom functions. *)
Inductive local_stat := LNumpy (f : list num -> num) (d : dtype) | LSum (f : list num -> num) | LMode | LUnique | LMinBand | LMaxBand.

Section Local.
(* x.astype(d) of one value; storing a float in an array of dtype d *)
Variable cast : dtype -> num -> num.
(* what np.empty holds: the value at a position of the result *)
Variable junk : Z -> Z -> num.

(* storing an integer in an array of unsigned dtype: wraps around *)
Definition store_int (d : dtype) (z : Z) : num := of_Z (z mod (int_max d + 1)).
(* general.py:597-606 _local_chunk.  farr is a view; nanmode_jit reorders it, but
   each column is looked at once. *)
Definition local_chunk (func : list num -> res num) (n m : Z) (out : arr2 num) (x : arr3 num) : res (arr2 num) :=
  foldM (fun out r => foldM (fun out c =>
    let* farr := column x r c in
    let* v := func farr in
    set2 out r c v) (zrange 0 m) out) (zrange 0 n) out.
(* general.py:609-615 _get_local_chunk_func and 650-656 map_blocks *)
Definition local_blocks (func : list num -> res num) (ycs xcs : list Z) (x : arr3 num) : res (arr2 num) :=
  let* out := map_blocks3 (fun r0 c0 n m block =>
    let empty := map (fun r => map (fun c => junk (r0 + r) (c0 + c)) (zrange 0 m)) (zrange 0 n) in
    let* out := local_chunk func n m empty block in
    Ok [out]) 1 ycs xcs x in
  get out 0.
(* general.py:641-663 _local: the dtype and the function of a custom statistic; d is the
   dtype of the data.  np.min_scalar_type of a count is unique_dtype. *)
Definition local_func (s : local_stat) (nbands : Z) (d : dtype) : res (dtype * (list num -> res num)) :=
  match s with
  | LNumpy f d => Ok (d, fun x => Ok (f x))
  | LUnique =>
      match unique_dtype nbands with
      | Some o => Ok (o, fun x => Ok (store_int o (nan_unique_count x)))
      | None => Err TypeError
      end
  | LMode => Ok (d, nanmode)
  | LMinBand =>
      match unique_dtype (nbands - 1) with
      | Some o => Ok (o, fun x => Ok (store_int o (nanargmin x)))
      | None => Err TypeError
      end
  | LMaxBand =>
      match unique_dtype (nbands - 1) with
      | Some o => Ok (o, fun x => Ok (store_int o (nanargmax x)))
      | None => Err TypeError
      end
  | LSum f =>
      let o := match d with F32 => F32 | _ => F64 end in
      Ok (o, fun x => Ok (cast o (f x)))
  end.
(* the reductions of numpy along the band axis *)
Definition reduce_bands (f : list num -> res num) (ny nx : Z) (x : arr3 num) : res (arr2 num) :=
  traverse (fun r => traverse (fun c => let* v := column x r c in f v) (zrange 0 nx)) (zrange 0 ny).
Definition run_stat (s : local_stat) (func : list num -> res num) (ny nx : Z) (ycs xcs : list Z) (data : arr3 num) : res (arr2 num) :=
  match s with
  | LNumpy _ _ => reduce_bands func ny nx data
  | _ => local_blocks func ycs xcs data
  end.
(* 726-734: the dtype of the result of a masked raster *)
Definition result_cast (s : local_stat) (d d2 : dtype) (out : arr2 num) : dtype * arr2 num :=
  match s with
  | LUnique | LMinBand | LMaxBand => (get_unique_dtype d2, map (map (cast (get_unique_dtype d2))) out)
  | LMode => (d, map (map (cast d)) out)
  | _ => (d2, out)
  end.
(* raster.py:3208-3214 get_raster(null_to_nan=True); d1 is the float dtype *)
Definition null_to_nan (d1 d : dtype) (data : arr3 num) (m : arr3 bool) : arr3 num :=
  where3 m NaN (if dtype_eqb d1 d then data else map (map (map (cast d1))) data).
(* general.py:675-738 local_stats: dtype, null value, data and mask of the only band *)
Definition local_stats (s : local_stat) (ny nx : Z) (ycs xcs : list Z) (d : dtype) (data : arr3 num) (mask : option (arr3 bool))
  : res (dtype * option num * arr2 num * option (arr2 bool)) :=
  let nb := len data in
  let '(d1, data) :=
    match mask with
    | Some m => (promote_dtype_to_float d, null_to_nan (promote_dtype_to_float d) d data m)
    | None => (d, data)
    end in
  let* '(d2, func) := local_func s nb d1 in
  let* out := run_stat s func ny nx ycs xcs data in
  match mask with
  | None => Ok (d2, None, out, None)
  | Some m =>
      let* omask := all_bands ny nx m in
      let '(d3, out) := result_cast s d d2 out in
      let nv := default_null d3 in
      Ok (d3, Some nv, where2 omask nv out, Some omask)
  end.
End Local.

(* ---------------- model_predict_raster ---------------- *)

Section Predict.
Context {V : Type}.
(* model.predict: one row of values per cell to a one- or two-dimensional array *)
Inductive prediction := P1 (l : list V) | P2 (l : list (list V)).
Variable predict : list (list num) -> res prediction.
(* np.nan_to_num: NaN becomes 0, infinities the largest finite numbers *)
Variable largest : num.
Definition nan_to_num (v : num) : num :=
  match v with
  | NaN => of_Z 0
  | PInf => largest
  | MInf => match largest with Fin q => Fin (- q) | v => v end
  | v => v
  end.
(* l.reshape(n, m) *)
Definition reshape2 {A} (n m : Z) (l : list A) : res (arr2 A) :=
  if len l =? n * m then Ok (map (fun i => slice l (i * m) (i * m + m)) (zrange 0 n)) else Err ValueError.
(* l.reshape(k, n, m) *)
Definition reshape3 {A} (k n m : Z) (l : list A) : res (arr3 A) :=
  if len l =? k * (n * m) then traverse (fun o => reshape2 n m (slice l (o * (n * m)) (o * (n * m) + n * m))) (zrange 0 k)
  else Err ValueError.
(* np.moveaxis(a, -1, 0) of an array with w columns: the list of its columns *)
Definition transpose {A} (w : Z) (a : arr2 A) : res (arr2 A) :=
  traverse (fun o => traverse (fun row => get row o) a) (zrange 0 w).
(* general.py:411-417 _pred_raster; y and x are the size of the block.  A
   two-dimensional prediction has rows of equal length. *)
Definition pred_raster (nbands y x : Z) (xarr : arr3 num) : res (arr3 V) :=
  let* rows := traverse (fun i => traverse (fun j => column xarr i j) (zrange 0 x)) (zrange 0 y) in
  let* pred := predict (map (map nan_to_num) (concat rows)) in
  let pred := match pred with P1 l => map (fun v => [v]) l | P2 l => l end in
  let w := match pred with row :: _ => len row | [] => 0 end in
  let* cols := transpose w pred in
  reshape3 nbands y x (concat cols).
(* general.py:457-492 model_predict_raster, without null handling of single values: data and
   mask band by band.  nv is the default null value of float64. *)
Definition model_predict_raster (nv : V) (n_outputs ny nx : Z) (ycs xcs : list Z) (data : arr3 num) (mask : option (arr3 bool))
  : res (arr3 V * option (arr3 bool)) :=
  if n_outputs <? 1 then Err ValueError
  else
    let data := match mask with Some m => where3 m NaN data | None => data end in
    let* out := map_blocks3 (fun _ _ y x block => pred_raster n_outputs y x block) n_outputs ycs xcs data in
    match mask with
    | None => Ok (out, None)
    | Some m =>
        let* any := any_band ny nx m in
        let omask := full n_outputs any in
        Ok (where3 omask nv out, Some omask)
    end.
End Predict.
