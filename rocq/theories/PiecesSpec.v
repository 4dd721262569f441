(* What a raster put together from its pieces must be. *)
From Coq Require Import QArith.
From Verif Require Import Base Scalars Raster RasterSpec MosaicWhole MosaicWholeSpec Grids Chunks ChunksSpec Pieces.
Open Scope Z_scope.

(* rows y0 .. y1 - 1 and columns x0 .. x1 - 1 *)
Record box := Box { y0 : Z; y1 : Z; x0 : Z; x1 : Z }.
Definition holds (k : box) (i j : Z) : Prop := y0 k <= i < y1 k /\ x0 k <= j < x1 k.
Definition box_in (ny nx : Z) (k : box) : Prop := 0 <= y0 k <= y1 k /\ y1 k <= ny /\ 0 <= x0 k <= x1 k /\ x1 k <= nx.
(* every cell is in some box; in exactly one *)
Definition covering (ny nx : Z) (ks : list box) : Prop := forall i j, 0 <= i < ny -> 0 <= j < nx -> exists k, In k ks /\ holds k i j.
Definition tiling (ny nx : Z) (ks : list box) : Prop := forall i j, 0 <= i < ny -> 0 <= j < nx -> exists! n, exists k, get ks n = Ok k /\ holds k i j.
(* p is the box k of the nb bands of r from b0 on *)
Definition piece_of (b0 nb : Z) (r : Chunks.raster num Q) (k : box) (p : Chunks.raster num Q) : Prop :=
  well_shaped nb (y1 k - y0 k) (x1 k - x0 k) p
  /\ (forall b i j, 0 <= b < nb -> 0 <= i < y1 k - y0 k -> 0 <= j < x1 k - x0 k ->
       get3 (Chunks.r_data p) b i j = get3 (Chunks.r_data r) (b0 + b) (y0 k + i) (x0 k + j)
       /\ get3 (Chunks.r_mask p) b i j = get3 (Chunks.r_mask r) (b0 + b) (y0 k + i) (x0 k + j))
  /\ (forall i, 0 <= i < y1 k - y0 k -> get (r_y p) i = get (r_y r) (y0 k + i))
  /\ (forall j, 0 <= j < x1 k - x0 k -> get (r_x p) j = get (r_x r) (x0 k + j)).
Definition distinct (l : list Q) : Prop := forall i j x y, get l i = Ok x -> get l j = Ok y -> (x == y)%Q -> i = j.
(* values of dtype d; the null cells, and no others, hold the null value *)
Definition clean (cast : dtype -> num -> num) (d : dtype) (nv : num) (r : Chunks.raster num Q) : Prop :=
  forall b i j v m, get3 (Chunks.r_data r) b i j = Ok v -> get3 (Chunks.r_mask r) b i j = Ok m ->
  cast d v = v /\ of_dtype d v /\ (if m : bool then v = nv else same_value v nv = false).
(* out has the values and nulls of the nb bands of r from b0 on *)
Definition gives_back (b0 nb : Z) (r : Chunks.raster num Q) (out : Raster.raster) : Prop :=
  forall b i j v m, 0 <= b < nb -> get3 (Chunks.r_data r) (b0 + b) i j = Ok v -> get3 (Chunks.r_mask r) (b0 + b) i j = Ok m ->
  null out b (i * len (r_x r) + j) = m /\ same_value (value out b (i * len (r_x r) + j)) v = true.

(* the same grid *)
Definition same_grid (g h : grid) : Prop :=
  g_crs g = g_crs h /\ g_ny g = g_ny h /\ g_nx g = g_nx h
  /\ (aa (g_affine g) == aa (g_affine h) /\ ab (g_affine g) == ab (g_affine h) /\ ac (g_affine g) == ac (g_affine h)
      /\ ad (g_affine g) == ad (g_affine h) /\ ae (g_affine g) == ae (g_affine h) /\ af (g_affine g) == af (g_affine h))%Q.

(* a run of mosaic for each method that gives nb bands of r from b0 on back; sums only
   of integers that are added modulo 2^bits *)
Definition puts_together (add : dtype -> num -> num -> num) (run : MosaicWhole.method -> res Raster.raster) (sums : Prop) (d : dtype) (nv : num) (b0 nb : Z) (r : Chunks.raster num Q) : Prop :=
  forall m, m = MosaicWhole.First \/ m = MosaicWhole.Last \/ (m = MosaicWhole.Min \/ m = MosaicWhole.Max) /\ d <> BOOL \/ m = MosaicWhole.Sum /\ is_int_dtype d = true /\ int_adds d (add d) /\ sums ->
  exists out, run m = Ok out /\ wf nb (len (r_y r) * len (r_x r)) out /\ r_dtype out = d /\ r_nv out = Some nv /\ gives_back b0 nb r out.
(* what mosaic needs of a raster, see C69 *)
Definition usable cast reconcile_other fill (result_type : list dtype -> dtype) (d : dtype) (nv : num) (r : Chunks.raster num Q) : Prop :=
  distinct (r_y r) /\ distinct (r_x r) /\ clean cast d nv r /\ null_value_for cast reconcile_other fill d nv /\ cast d nv = nv /\ forall k, 0 < k -> result_type (full k d) = d.

(* the boxes of the quadrants, of the chunks row by row, and their grids *)
Definition quad_boxes (ny nx : Z) : list box :=
  [Box 0 (ny / 2) 0 (nx / 2); Box 0 (ny / 2) (nx / 2) nx; Box (ny / 2) ny 0 (nx / 2); Box (ny / 2) ny (nx / 2) nx].
(* the range of chunk k *)
Definition span (cs : list Z) (k : Z) : Z * Z := match get (chunks_to_array_locations cs) k with Ok p => p | Err _ => (0, 0) end.
Definition chunk_box (ycs xcs : list Z) (k : Z * Z) : box := Box (fst (span ycs (fst k))) (snd (span ycs (fst k))) (fst (span xcs (snd k))) (snd (span xcs (snd k))).
Definition grid_boxes (ycs xcs : list Z) : list box := map (chunk_box ycs xcs) (ndindex2 (len ycs) (len xcs)).
Definition sub_of (g : grid) (k : box) : grid := subgrid g (y0 k) (y1 k) (x0 k) (x1 k).
