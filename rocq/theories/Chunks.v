(* Model of how raster_tools cuts a raster into pieces: dask chunk locations,
   Raster.to_quadrants, Raster.get_chunk_rasters and the file names of
   Raster.save_chunks.

   Simplified: a raster is its data, mask and coordinate arrays (CRS, null value
   and attributes are copied unchanged by the code).  The writing of a file is
   outside the model. *)
From Verif Require Import Base.
From Coq Require Import Ascii.

(* dask_utils.py:53-64 chunks_to_array_locations *)
Definition chunks_to_array_locations (dim_chunks : list Z) : list (Z * Z) :=
  snd (fold_left (fun '(start, spans) c => (start + c, spans ++ [(start, start + c)]))
         dim_chunks (0, [])).

(* enumerate(l) *)
Definition enumerate {A} (l : list A) : list (Z * A) := combine (zrange 0 (len l)) l.

(* Three-dimensional arrays *)
Definition arr3 (A : Type) := list (list (list A)).
Definition get3 {A} (a : arr3 A) (i j k : Z) : res A :=
  let* p := get a i in let* r := get p j in get r k.
Definition set3 {A} (a : arr3 A) (i j k : Z) (v : A) : res (arr3 A) :=
  let* p := get a i in
  let* r := get p j in
  let* r := set r k v in
  let* p := set p j r in
  set a i p.
(* a[b0:b1, y0:y1, x0:x1] *)
Definition slice3 {A} (a : arr3 A) (bs ys xs : Z * Z) : arr3 A :=
  map (fun p => map (fun r => slice r (fst xs) (snd xs)) (slice p (fst ys) (snd ys)))
    (slice a (fst bs) (snd bs)).
(* np.empty(shape, dtype=object) *)
Definition empty3 {A} (shape : Z * Z * Z) : arr3 (option A) :=
  let '(n, ny, nx) := shape in full n (full ny (full nx None)).

Record raster (A C : Type) := mkRaster {
  r_data : arr3 A;
  r_mask : arr3 bool;
  r_band : list Z;
  r_y : list C;
  r_x : list C
}.
Arguments mkRaster {A C}. Arguments r_data {A C}. Arguments r_mask {A C}.
Arguments r_band {A C}. Arguments r_y {A C}. Arguments r_x {A C}.

Section Pieces.
Context {A C : Type}.

(* raster.py:2807-2849 Raster.to_quadrants; in the order nw, ne, sw, se.  ny and
   nx are the last two entries of the shape. *)
Definition quadrant (r : raster A C) (ys xs : Z * Z) : raster A C :=
  let bs := (0, len (r_data r)) in
  mkRaster (slice3 (r_data r) bs ys xs) (slice3 (r_mask r) bs ys xs) (r_band r)
    (slice (r_y r) (fst ys) (snd ys)) (slice (r_x r) (fst xs) (snd xs)).
Definition to_quadrants (r : raster A C) (ny nx : Z) : list (raster A C) :=
  let slices := [ ((0, ny / 2), (0, nx / 2)); ((0, ny / 2), (nx / 2, nx));
                  ((ny / 2, ny), (0, nx / 2)); ((ny / 2, ny), (nx / 2, nx)) ] in
  map (fun s => quadrant r (fst s) (snd s)) slices.

(* self._ds.isel(...).copy().assign_coords(band=[1]): the new band coordinate
   must have one entry per band *)
Definition isel (r : raster A C) (bs ys xs : Z * Z) : res (raster A C) :=
  let d := slice3 (r_data r) bs ys xs in
  if len d =? 1
  then Ok (mkRaster d (slice3 (r_mask r) bs ys xs) [1]
             (slice (r_y r) (fst ys) (snd ys)) (slice (r_x r) (fst xs) (snd xs)))
  else Err ValueError.

(* raster.py:2931-2971 Raster.get_chunk_rasters; the loop variables b, y, x
   live across iterations *)
Definition get_chunk_rasters (r : raster A C) (bchunks ychunks xchunks : list Z)
  : res (arr3 (option (raster A C))) :=
  let out := empty3 (len bchunks, len ychunks, len xchunks) in
  let* '(out, _, _, _) :=
    foldM (fun '(out, b, y, x) '(band, bc) =>
      let* '(out, b, y, x) :=
        foldM (fun '(out, b, y, x) '(row, yc) =>
          let* '(out, b, y, x) :=
            foldM (fun '(out, b, y, x) '(col, xc) =>
              let* rs := isel r (b, b + bc) (y, y + yc) (x, x + xc) in
              let* out := set3 out band row col (Some rs) in
              Ok (out, b, y, x + xc)) (enumerate xchunks) (out, b, y, x) in
          Ok (out, b, y + yc, 0)) (enumerate ychunks) (out, b, y, x) in
      Ok (out, b + bc, 0, x)) (enumerate bchunks) (out, 0, 0, 0) in
  Ok out.

End Pieces.

(* ---------------- file names ---------------- *)

Definition digit (d : Z) : ascii := ascii_of_nat (48 + Z.to_nat d).

(* str(n) for n >= 0; the fuel is the number of binary digits *)
Fixpoint dec_loop (fuel : nat) (n : Z) (acc : list ascii) : list ascii :=
  match fuel with
  | O => acc
  | S k => if n <? 10 then digit n :: acc
           else dec_loop k (n / 10) (digit (n mod 10) :: acc)
  end.
Definition str_of (n : Z) : list ascii :=
  if n <? 0 then "-"%char :: dec_loop (S (Z.to_nat (Z.log2 (- n)))) (- n) []
  else dec_loop (S (Z.to_nat (Z.log2 n))) n [].

(* f"{n:0{w}d}" for n >= 0 *)
Definition zpad (w n : Z) : list ascii :=
  full (w - len (str_of n)) "0"%char ++ str_of n.

(* raster.py:1806-1808: the widths of the numbers *)
Definition width (n : Z) : Z := Z.max 1 (len (str_of (n - 1))).

(* raster.py:1814-1818, per_band=True *)
Definition name_band (prefix ext : list ascii) (bw rw cw b r c : Z) : list ascii :=
  prefix ++ ["_"; "b"]%char ++ zpad bw b ++ ["_"]%char ++ zpad rw r ++ ["_"]%char
    ++ zpad cw c ++ ext.
(* raster.py:1824 *)
Definition name_tile (prefix ext : list ascii) (rw cw r c : Z) : list ascii :=
  prefix ++ ["_"]%char ++ zpad rw r ++ ["_"]%char ++ zpad cw c ++ ext.

(* np.ndindex *)
Definition ndindex2 (ny nx : Z) : list (Z * Z) :=
  flat_map (fun r => map (fun c => (r, c)) (zrange 0 nx)) (zrange 0 ny).
Definition ndindex3 (n ny nx : Z) : list (Z * Z * Z) :=
  flat_map (fun b => map (fun rc => (b, fst rc, snd rc)) (ndindex2 ny nx)) (zrange 0 n).

(* raster.py:1804-1832 the paths written by save_chunks, in the order in which
   they are written *)
Definition save_names (prefix ext : list ascii) (per_band : bool) (nbands ny nx : Z)
  : list (list ascii) :=
  let rw := width ny in
  let cw := width nx in
  let bw := width nbands in
  if per_band
  then map (fun '(b, r, c) => name_band prefix ext bw rw cw b r c) (ndindex3 nbands ny nx)
  else map (fun '(r, c) => name_tile prefix ext rw cw r c) (ndindex2 ny nx).
