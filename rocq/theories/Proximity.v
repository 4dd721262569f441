(* Model of /repo/raster_tools/distance/proximity.py: the scan-line search
   behind pa_proximity, pa_allocation and pa_direction.

   The arithmetic is a parameter: [N] is the type of squared distances and [P]
   the dtype of the proximity array (float64, or float32 unless
   double_precision).  [f64_arith] below gives the float64 instance.

   Simplified: scan_line is read directly from src (it is a copy of the row);
   the pairs of arrays pan_near_xi/pan_near_yi and pan_nearest_xi/
   pan_nearest_yi are lists of pairs; the blocks of lines 299-364 and 373-438
   share one definition.  Not modelled: rechunking when max_distance covers the
   raster (then there is one chunk of depth 0), the coordinate checks of the
   great-circle metric, the trigonometric functions (parameters). *)
From Verif Require Import Base F64 F32.

Record arith (X N P : Type) := mkArith {
  dist_sqr : X -> X -> X -> X -> N;  (* dist_sqr_func(x1, y1, x2, y2) *)
  max2 : N;                          (* max_distance * max_distance *)
  max2_2 : N;                        (* max_dist_sqr * 2.0 *)
  nlt : N -> N -> bool;
  nle : N -> N -> bool;
  psqrt : N -> P;                    (* np.sqrt(.), stored in the array *)
  pzero : P;                         (* 0 *)
  pminus1 : P;                       (* -1 *)
  pneg : P -> bool;                  (* . < 0 *)
  pnonneg : P -> bool;               (* . >= 0 *)
  lt_sqr : N -> P -> bool            (* d < p ** 2 *)
}.
Arguments dist_sqr {X N P}. Arguments max2 {X N P}. Arguments max2_2 {X N P}.
Arguments nlt {X N P}. Arguments nle {X N P}. Arguments psqrt {X N P}.
Arguments pzero {X N P}. Arguments pminus1 {X N P}. Arguments pneg {X N P}.
Arguments pnonneg {X N P}. Arguments lt_sqr {X N P}.

(* proximity.py:179-187: which cells are targets *)
Definition is_target {A} (eqb : A -> A -> bool) (nonzero_finite : A -> bool)
  (targets : list A) (v : A) : bool :=
  match targets with
  | [] => nonzero_finite v
  | _ => existsb (eqb v) targets
  end.

Section Prox.
Context {A X N P S : Type}.
Variable ar : arith X N P.
Variable target : A -> bool.             (* is_target of a cell value *)
Variable track : bool.                   (* mode != _MODE_PROXIMITY *)
(* What secondary receives at cell (row, col) for nearest target (row, col):
   the target's value (allocation) or _direction (direction). *)
Variable second : Z -> Z -> Z -> Z -> res S.
Variables (xc yc : list X).

(* A candidate: (pan_near_xi, pan_near_yi); (-1, -1) if there is none. *)
Definition cand := (Z * Z)%type.
Definition none : cand := (-1, -1).

Record line := mkLine {
  l_prox : list P;          (* line_proximity *)
  l_near : list cand;       (* pan_near_xi, pan_near_yi *)
  l_nearest : list cand     (* pan_nearest_xi, pan_nearest_yi *)
}.

(* dist_sqr_func(xc[c.x], yc[c.y], xc[ipixel], yc[iline]) *)
Definition cand_dist (c : cand) (ipixel iline : Z) : res N :=
  let* x1 := get xc (fst c) in
  let* y1 := get yc (snd c) in
  let* x2 := get xc ipixel in
  let* y2 := get yc iline in
  Ok (dist_sqr ar x1 y1 x2 y2).

(* pan_nearest[ipixel] = c if mode != _MODE_PROXIMITY *)
Definition track_nearest (q : list cand) (ipixel : Z) (c : cand) : res (list cand) :=
  if track then set q ipixel c else Ok q.

(* proximity.py:212-239, the candidate of one of the two neighbours *)
Definition try_neighbour (ok : bool) (i ipixel iline : Z) (st : N * list cand)
  : res (N * list cand) :=
  let '(near_dist, near) := st in
  if ok then
    let* c := get near i in
    if 0 <=? fst c then
      let* d := cand_dist c ipixel iline in
      if nlt ar d near_dist
      then let* near' := set near ipixel c in Ok (d, near')
      else Ok st
    else Ok st
  else Ok st.

(* proximity.py:179-252, one iteration of the loop *)
Definition process_pixel (scan_line : list A) (start end_ step iline : Z)
  (s : line) (ipixel : Z) : res line :=
  let* v := get scan_line ipixel in
  if target v then
    let* prox := set (l_prox s) ipixel (pzero ar) in
    let* near := set (l_near s) ipixel (ipixel, iline) in
    let* nearest := track_nearest (l_nearest s) ipixel (ipixel, iline) in
    Ok (mkLine prox near nearest)
  else
    let* c := get (l_near s) ipixel in
    let* st :=
      (if 0 <=? fst c then
         let* d := cand_dist c ipixel iline in
         if nlt ar d (max2_2 ar) then Ok (d, l_near s)
         else let* near := set (l_near s) ipixel none in Ok (max2_2 ar, near)
       else Ok (max2_2 ar, l_near s)) in
    let* st := try_neighbour (negb (ipixel =? start)) (ipixel - step) ipixel iline st in
    let* st := try_neighbour (negb (ipixel + step =? end_)) (ipixel + step) ipixel iline st in
    let '(near_dist, near) := st in
    let* c := get near ipixel in
    let* p := get (l_prox s) ipixel in
    if (0 <=? fst c) && nle ar near_dist (max2 ar)
       && (pneg ar p || lt_sqr ar near_dist p) then
      let* prox := set (l_prox s) ipixel (psqrt ar near_dist) in
      let* nearest := track_nearest (l_nearest s) ipixel c in
      Ok (mkLine prox near nearest)
    else Ok (mkLine (l_prox s) near (l_nearest s)).

(* proximity.py:149-252 _process_proximity_line *)
Definition process_line (scan_line : list A) (forward : bool) (iline : Z) (s : line)
  : res line :=
  let nx := len scan_line in
  let start := if forward then 0 else nx - 1 in
  let end_ := if forward then nx else -1 in
  let step := if forward then 1 else -1 in
  foldM (process_pixel scan_line start end_ step iline)
    (if forward then zrange 0 nx else rev (zrange 0 nx)) s.

(* proximity.py:317-330 and the three repetitions: fill secondary[iline] *)
Definition write_secondary (iline : Z) (s : line) (row : list S) : res (list S) :=
  if track then
    foldM (fun row i =>
      let* q := get (l_nearest s) i in
      let* p := get (l_prox s) i in
      if (0 <=? fst q) && pnonneg ar p then
        let* v := second iline i (snd q) (fst q) in set row i v
      else Ok row) (zrange 0 (len (l_prox s))) row
  else Ok row.

(* pan_nearest[:] = -1; the arrays are empty in mode _MODE_PROXIMITY *)
Definition reset_nearest (nx : Z) : list cand := if track then full nx none else [].

(* proximity.py:298-364 / 373-438: two passes over one line.  [first] is the
   direction of the first pass. *)
Definition process_both (scan_line : list A) (first : bool) (iline : Z)
  (prox : list P) (near : list cand) (row : list S)
  : res (list P * list cand * list S) :=
  let nx := len scan_line in
  let* s := process_line scan_line first iline (mkLine prox near (reset_nearest nx)) in
  let* row := write_secondary iline s row in
  let* s := process_line scan_line (negb first) iline
              (mkLine (l_prox s) (l_near s) (reset_nearest nx)) in
  let* row := write_secondary iline s row in
  Ok (l_prox s, l_near s, row).

(* The arrays while going through the raster *)
Record scan := mkScan {
  s_prox : list (list P);       (* proximity *)
  s_second : list (list S);     (* secondary; not used in mode proximity *)
  s_near : list cand
}.

(* secondary[iline] (mode proximity: a dummy 1 x 1 array that is not accessed) *)
Definition second_row (sec : list (list S)) (iline : Z) : res (list S) :=
  if track then get sec iline else Ok [].
Definition set_second (sec : list (list S)) (iline : Z) (row : list S)
  : res (list (list S)) :=
  if track then set sec iline row else Ok sec.

(* proximity.py:294-364, body of the top-to-bottom loop *)
Definition down_line (src : list (list A)) (nx : Z) (s : scan) (iline : Z) : res scan :=
  let* scan_line := get src iline in
  let* row := second_row (s_second s) iline in
  let* '(prox, near, row) :=
    process_both scan_line true iline (full nx (pminus1 ar)) (s_near s) row in
  let* sec := set_second (s_second s) iline row in
  let* proximity := set (s_prox s) iline prox in
  Ok (mkScan proximity sec near).

(* proximity.py:369-443, body of the bottom-to-top loop *)
Definition up_line (src : list (list A)) (nodata : P) (s : scan) (iline : Z) : res scan :=
  let* scan_line := get src iline in
  let* line_proximity := get (s_prox s) iline in
  let* row := second_row (s_second s) iline in
  let* '(prox, near, row) :=
    process_both scan_line false iline line_proximity (s_near s) row in
  let* sec := set_second (s_second s) iline row in
  let filled := map (fun p => if pneg ar p then nodata else p) prox in
  let* proximity := set (s_prox s) iline filled in
  Ok (mkScan proximity sec near).

(* proximity.py:256-443 _compute_proximity.  [proximity] is np.empty, i.e. any
   array of the shape of src. *)
Definition compute_proximity (src : list (list A)) (ny nx : Z) (nodata : P)
  (proximity : list (list P)) (secondary : list (list S))
  : res (list (list P) * list (list S)) :=
  let* s := foldM (down_line src nx) (zrange 0 ny)
              (mkScan proximity secondary (full nx none)) in
  let* s := foldM (up_line src nodata) (rev (zrange 0 ny))
              (mkScan (s_prox s) (s_second s) (full nx none)) in
  Ok (s_prox s, s_second s).

End Prox.

(* ---------------- distances ---------------- *)

Inductive metric := Euclidean | Taxi | Chebyshev | GreatCircle.

(* proximity.py:28-31 _euclidean_dist_sqr *)
Definition euclidean_dist_sqr (x1 y1 x2 y2 : f64) : f64 :=
  let dx := fsub x1 x2 in
  let dy := fsub y1 y2 in
  fadd (fmul dx dx) (fmul dy dy).

(* proximity.py:41-45 _taxi_cab_dist_sqr *)
Definition taxi_dist_sqr (x1 y1 x2 y2 : f64) : f64 :=
  let dx := fsub x1 x2 in
  let dy := fsub y1 y2 in
  let dist := fadd (fabs dx) (fabs dy) in
  fmul dist dist.

(* proximity.py:55-59 _chebyshev_dist_sqr; max(dx, dy) *)
Definition chebyshev_dist_sqr (x1 y1 x2 y2 : f64) : f64 :=
  let dx := fabs (fsub x1 x2) in
  let dy := fabs (fsub y1 y2) in
  let dist := if fltb dx dy then dy else dx in
  fmul dist dist.

(* proximity.py:86-101 _DISTANCE_FUNC_MAP.  [hav] stands for lines 70-82, the
   great circle distance itself. *)
Definition metric_dist_sqr (hav : f64 -> f64 -> f64 -> f64 -> f64) (k : metric)
  (x1 y1 x2 y2 : f64) : f64 :=
  match k with
  | Euclidean => euclidean_dist_sqr x1 y1 x2 y2
  | Taxi => taxi_dist_sqr x1 y1 x2 y2
  | Chebyshev => chebyshev_dist_sqr x1 y1 x2 y2
  | GreatCircle => let d := hav x1 y1 x2 y2 in fmul d d
  end.

(* The dtype of the proximity array (proximity.py:478): storing a float64, and
   ** 2 of a stored value. *)
Record store := mkStore { st_round : f64 -> f64; st_sqr : f64 -> f64 }.
Definition single : store := mkStore to32 (fun p => to32 (fmul p p)).
Definition double : store := mkStore (fun x => x) (fun p => fmul p p).

(* Arithmetic of _process_proximity_line on floats.  float32 values are a
   subset of the float64 values. *)
Definition f64_arith (st : store) (dist : f64 -> f64 -> f64 -> f64 -> f64) (max_distance : f64)
  : arith f64 f64 f64 :=
  let m2 := fmul max_distance max_distance in
  mkArith _ _ _ dist m2 (fmul m2 (f64_of_Z 2)) fltb fleb
    (fun d => st_round st (fsqrt d)) fzero (f64_of_Z (-1))
    (fun p => fltb p fzero) (fun p => fleb fzero p)
    (fun d p => fltb d (st_sqr st p)).

(* proximity.py:111-140 _direction.  [bearing] stands for lines 131-140 (x1, y1:
   the cell, x2, y2: the target). *)
Definition direction (bearing : f64 -> f64 -> f64 -> f64 -> f64) (x1 y1 x2 y2 : f64) : f64 :=
  if feqb x1 x2 && feqb y1 y2 then fzero else bearing x1 y1 x2 y2.

(* ---------------- chunks ---------------- *)

(* Indices lo .. hi - 1 of an array, with [boundary] outside the array: what a
   chunk looks like after dask's overlap with a constant boundary. *)
Definition pad_axis {A} (boundary : A) (l : list A) (lo hi : Z) : list A :=
  map (fun i => match get l i with Ok x => x | Err _ => boundary end) (zrange lo hi).
Definition pad_block {A} (boundary : A) (src : list (list A)) (rlo rhi clo chi : Z)
  : list (list A) :=
  map (fun i => pad_axis boundary (match get src i with Ok row => row | Err _ => [] end) clo chi)
    (zrange rlo rhi).
(* Removal of the overlap from the result of a chunk. *)
Definition trim {A} (dy dx : Z) (a : list (list A)) : list (list A) :=
  map (fun row => slice row dx (len row - dx)) (slice a dy (len a - dy)).

Section Chunk.
Context {A O : Type}.
Variable ar : arith f64 f64 f64.
Variable target : A -> bool.
Variable boundary : A.                  (* np.nan, in the dtype of the raster *)
Variable bearing : f64 -> f64 -> f64 -> f64 -> f64.
Variables (xc yc : list f64) (src : list (list A)).
Variable depth : Z * Z.                 (* ydepth, xdepth *)

(* A chunk: rows r0 .. r1 - 1, columns c0 .. c1 - 1 *)
Record chunk := mkChunk { k_r0 : Z; k_r1 : Z; k_c0 : Z; k_c1 : Z }.
Variable k : chunk.

Definition k_ny : Z := k_r1 k - k_r0 k + 2 * fst depth.
Definition k_nx : Z := k_c1 k - k_c0 k + 2 * snd depth.

(* proximity.py:446-457 _get_coords_for_chunk *)
Definition chunk_xc : list f64 := pad_axis fzero xc (k_c0 k - snd depth) (k_c1 k + snd depth).
Definition chunk_yc : list f64 := pad_axis fzero yc (k_r0 k - fst depth) (k_r1 k + fst depth).
Definition chunk_src : list (list A) :=
  pad_block boundary src (k_r0 k - fst depth) (k_r1 k + fst depth)
    (k_c0 k - snd depth) (k_c1 k + snd depth).

(* secondary[iline, i] = src[nearest] (proximity.py:321-323); [cast] stores a
   cell value of the (possibly promoted) raster in the original dtype *)
Definition second_alloc (cast : A -> O) (i j ti tj : Z) : res O :=
  let* row := get chunk_src ti in
  let* v := get row tj in
  Ok (cast v).
(* secondary[iline, i] = _direction(...) (proximity.py:325-330) *)
Definition second_dir (i j ti tj : Z) : res f64 :=
  let* x1 := get chunk_xc j in
  let* y1 := get chunk_yc i in
  let* x2 := get chunk_xc tj in
  let* y2 := get chunk_yc ti in
  Ok (direction bearing x1 y1 x2 y2).

(* proximity.py:461-505 _proximity_analysis_chunk and the trimming by
   map_overlap, one definition per mode.  [junk] is what np.empty returns.
   [to_out] stores a value in the output dtype. *)
Definition run_proximity (junk : list (list f64)) (nodata : f64) : res (list (list f64)) :=
  let* r := compute_proximity ar target false (fun _ _ _ _ => Ok tt) chunk_xc chunk_yc
              chunk_src k_ny k_nx nodata junk [[tt]] in
  Ok (trim (fst depth) (snd depth) (fst r)).

Definition run_allocation (cast : A -> O) (junk : list (list f64)) (nodata : f64) (nodata2 : O)
  : res (list (list O)) :=
  let* r := compute_proximity ar target true (second_alloc cast) chunk_xc chunk_yc
              chunk_src k_ny k_nx nodata junk (full k_ny (full k_nx nodata2)) in
  Ok (trim (fst depth) (snd depth) (snd r)).

Definition run_direction (to_out : f64 -> f64) (junk : list (list f64)) (nodata : f64)
  : res (list (list f64)) :=
  let* r := compute_proximity ar target true
              (fun i j ti tj => let* d := second_dir i j ti tj in Ok (to_out d))
              chunk_xc chunk_yc
              chunk_src k_ny k_nx nodata junk (full k_ny (full k_nx nodata)) in
  Ok (trim (fst depth) (snd depth) (snd r)).

End Chunk.
