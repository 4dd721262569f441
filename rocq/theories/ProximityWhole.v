(* Model of pa_proximity, pa_allocation and pa_direction on a whole raster: checks
   of the arguments, the overlap of the chunks, rechunking, every band. *)
From Verif Require Import Base F64 Bands BlockArgs Blocks Chunks GridsF64 MapBlocks Proximity.
Open Scope Z_scope.

(* np.ceil(x).astype(int); NaN and infinities give an int that depends on the
   machine, an error here *)
Definition fceil (x : f64) : res Z :=
  if BinarySingleNaN.is_finite x then Ok (- ffloor (fopp x)) else Err ValueError.

(* proximity.py:508-523 _validate_lonlat_coords *)
Definition validate_lonlat (lon lat : list f64) : res unit :=
  if existsb (fun v => fltb v (f64_of_Z (-90)) || fltb (f64_of_Z 90) v) lat then Err ValueError
  else if existsb (fun v => fltb (f64_of_Z 360) v) lon || existsb (fun v => fltb v (f64_of_Z (-180))) lon
  then Err ValueError
  else if existsb (fun v => fltb (f64_of_Z 180) v) lon && existsb (fun v => fltb v fzero) lon
  then Err ValueError
  else Ok tt.

(* lat.max() *)
Definition flist_max (l : list f64) : res f64 :=
  match l with
  | [] => Err ValueError
  | a :: t => Ok (fold_left (fun m v => if fltb m v then v else m) t a)
  end.
(* np.partition(lat, -2)[-2:]: the second largest and the largest; latitudes are not NaN *)
Definition largest_two (l : list f64) : res (f64 * f64) :=
  match l with
  | a :: b :: t =>
      Ok (fold_left (fun '(y1, y2) v =>
            if fltb y2 v then (y2, v) else if fltb y1 v then (v, y2) else (y1, y2)) t
            (if fltb b a then (b, a) else (a, b)))
  | _ => Err ValueError
  end.

Definition distance := f64 -> f64 -> f64 -> f64 -> f64.

(* proximity.py:526-537 _estimate_min_resolution *)
Definition estimate_min_resolution (dist : distance) (lon lat : list f64) : res (f64 * f64) :=
  let* x1 := get lon 0 in
  let* y1 := flist_max lat in
  let* x2 := get lon 1 in
  let xmin := fsqrt (dist x1 y1 x2 y1) in
  let* '(y1, y2) := largest_two lat in
  Ok (xmin, fsqrt (dist x1 y1 x1 y2)).

(* raster.resolution, raster.py:1439-1441: rioxarray's resolution(recalc=True).
   cached: the resolution of the transform stored with the raster *)
Definition resolution (cached : option (f64 * f64)) (xc yc : list f64) : res (f64 * f64) :=
  let nx := len xc in
  let ny := len yc in
  match cached, (nx =? 1) || (ny =? 1) with
  | Some r, true => Ok r
  | None, true => Err ValueError
  | _, false =>
      let* x0 := get xc 0 in
      let* x1 := get xc (nx - 1) in
      let* y0 := get yc 0 in
      let* y1 := get yc (ny - 1) in
      Ok (fdiv (fsub x1 x0) (f64_of_Z (nx - 1)), fdiv (fsub y1 y0) (f64_of_Z (ny - 1)))
  end.

Definition is_great_circle (m : metric) : bool := match m with GreatCircle => true | _ => false end.

(* proximity.py:564-587: None when the whole raster is one chunk, otherwise
   (ydepth, xdepth) *)
Definition pa_depth (m : metric) (dist : distance) (cached : option (f64 * f64)) (xc yc : list f64) (M : f64)
  : res (option (Z * Z)) :=
  let* x0 := get xc 0 in
  let* y0 := get yc 0 in
  let* x1 := get xc (len xc - 1) in
  let* y1 := get yc (len yc - 1) in
  if fleb (fsqrt (dist x0 y0 x1 y1)) M then Ok None
  else
    let* '(rx, ry) := (if is_great_circle m then estimate_min_resolution dist xc yc
                       else resolution cached xc yc) in
    let* xdepth := fceil (fdiv M (fabs rx)) in
    let* ydepth := fceil (fdiv M (fabs ry)) in
    Ok (Some (ydepth, xdepth)).

(* proximity.py:540-622 _proximity_analysis, after get_raster(null_to_nan=True): a
   null cell of bands is NaN.  run is _proximity_analysis_chunk on one band.
   targets_finite: np.isfinite(target_values).all().  The coordinates of a chunk
   (proximity.py:446-457) are cut along the chunks that dask's overlap makes of
   the raster's with the same depths as it makes for the data. *)
Definition proximity_analysis {A R} (m : metric) (dist : distance) (targets_finite : bool)
  (cached : option (f64 * f64)) (xc yc : list f64) (M : f64) (chunks : chunks3) (bands : arr3 A)
  (run : list (list A) -> Z * Z -> chunk -> res (list (list R))) : res (arr3 R) :=
  if negb targets_finite then Err ValueError
  else if fleb M fzero then Err ValueError
  else
    let* _ := (if is_great_circle m then validate_lonlat xc yc else Ok tt) in
    let* d := pa_depth m dist cached xc yc M in
    let '((bcs, ycs, xcs), depth) :=
      match d with
      | None => ((full (len bands) 1, [len yc], [len xc]), (0, 0))
      | Some depth => (chunks, depth)
      end in
    let* ycs := grow (fst depth) ycs in
    let* xcs := grow (snd depth) xcs in
    dask_map_blocks (fun _ '(kb, ky, kx) =>
      let* bs := get (chunks_to_array_locations bcs) kb in
      let* rs := get (chunks_to_array_locations ycs) ky in
      let* cs := get (chunks_to_array_locations xcs) kx in
      (* utils.py:67-106 single_band_mappable *)
      if 1 <? snd bs - fst bs then Err TypeError
      else
        let* band := get bands (fst bs) in
        let* out := run band depth (mkChunk (fst rs) (snd rs) (fst cs) (snd cs)) in
        Ok [out]) (fun bs => snd bs - fst bs) (bcs, ycs, xcs) [].

(* data_to_raster_like(out_data, raster, nv=nodata): a cell is null when it has
   the null value (raster.py:485-505) *)
Definition with_mask {R} (eqb : R -> R -> bool) (nodata : R) (data : arr3 R) : arr3 R * arr3 bool :=
  (data, map3 (fun v => eqb v nodata) data).

Section Modes.
Context {A O : Type}.
Variables (m : metric) (hav : distance) (st : store) (target : A -> bool) (targets_finite : bool).
Variable boundary : A.                  (* np.nan, in the dtype of the raster *)
Variables (cached : option (f64 * f64)) (xc yc : list f64) (M : f64) (chunks : chunks3) (bands : arr3 A).
Variable junk : Z -> Z -> list (list f64).    (* what np.empty returns *)
Let dist : distance := metric_dist_sqr hav m.
Let ar := f64_arith st dist M.
Let empty (depth : Z * Z) (k : chunk) := junk (k_ny depth k) (k_nx depth k).

(* proximity.py:625-707, 710-792, 795-878: pa_proximity, pa_allocation, pa_direction *)
Definition pa_proximity (nodata : f64) : res (arr3 f64 * arr3 bool) :=
  let* data := proximity_analysis m dist targets_finite cached xc yc M chunks bands
    (fun src depth k => run_proximity ar target boundary xc yc src depth k (empty depth k) nodata) in
  Ok (with_mask feqb nodata data).
Definition pa_allocation (cast : A -> O) (eqb : O -> O -> bool) (nodata : f64) (nodata2 : O)
  : res (arr3 O * arr3 bool) :=
  let* data := proximity_analysis m dist targets_finite cached xc yc M chunks bands
    (fun src depth k => run_allocation ar target boundary xc yc src depth k cast (empty depth k) nodata nodata2) in
  Ok (with_mask eqb nodata2 data).
Definition pa_direction (bearing : distance) (to_out : f64 -> f64) (nodata : f64)
  : res (arr3 f64 * arr3 bool) :=
  let* data := proximity_analysis m dist targets_finite cached xc yc M chunks bands
    (fun src depth k => run_direction ar target boundary bearing xc yc src depth k to_out (empty depth k) nodata) in
  Ok (with_mask feqb nodata data).
End Modes.
