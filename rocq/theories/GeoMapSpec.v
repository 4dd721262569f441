(* What functions on georeferenced blocks have to give. *)
From Coq Require Import QArith.
From Verif Require Import Base Scalars Chunks FocalSpec FocalResults BandsSpec BlockArgs Blocks BlocksSpec MapBlocks MapBlocksSpec MapOverlapSpec GeoMap.
Open Scope Z_scope.

(* a raster on a grid of its shape that is not rotated, in no coordinate system or a
   projected one; no chunk is empty *)
Definition on_grid (ny nx : Z) (r : georaster) : Prop :=
  gb_ny (gr_box r) = ny /\ gb_nx (gr_box r) = nx /\ (af_b (gb_affine (gr_box r)) == 0)%Q /\ (af_d (gb_affine (gr_box r)) == 0)%Q
  /\ (forall n, gr_crs r <> Some (n, true)).
Definition no_empty_chunk (r : braster) : Prop :=
  let '(bcs, ycs, xcs) := b_chunks r in Forall (fun c => 0 < c) bcs /\ Forall (fun c => 0 < c) ycs /\ Forall (fun c => 0 < c) xcs.
(* the coordinates of a cell of a grid *)
Definition coordinates_of (g : geobox) (row col : Z) (yc xc : Q) : Prop := Qpair_eq (gb_coord g row col) (xc, yc).

(* the coordinates handed over with the cells rows ys, columns xs, bands bs of a raster
   are those of the cells *)
Definition place_of (g : geobox) (bs ys xs : Z * Z) (p : geo) : Prop :=
  len (geo_band p) = size bs /\ len (geo_y p) = size ys /\ len (geo_x p) = size xs
  /\ (forall b, 0 <= b < size bs -> get (geo_band p) b = Ok (fst bs + b))
  /\ (forall i j yc xc, get (geo_y p) i = Ok yc -> get (geo_x p) j = Ok xc -> coordinates_of g (fst ys + i) (fst xs + j) yc xc)
  /\ describes g (geo_info p) /\ win_of (geo_info p) = (fst ys, snd ys, fst xs, snd xs).

(* which arguments a function asks for *)
Definition asks (f : gfunc) : func := Func (g_wants_masks f) (g_wants_out_nv f) (fun _ _ _ _ => Err TypeError).
(* functions of the band, the coordinates and the values of a cell or of the cells
   around it *)
Definition respects {A B C} (g : A -> Q -> Q -> B -> C) : Prop := forall a y y' x x' l, (y == y')%Q -> (x == x')%Q -> g a y x l = g a y' x' l.
Definition geo_cellwise (f : gfunc) (count : Z) (nv : option (option num)) (g : Z -> Q -> Q -> list num -> option (list bool) -> num) : Prop :=
  respects g /\ forall n m k xs ms p, 0 <= n -> 0 <= m -> 0 <= k -> arguments (asks f) count n m k xs ms ->
  len (geo_band p) = n -> len (geo_y p) = m -> len (geo_x p) = k ->
  exists d, grun f xs ms nv p = Ok (RData d) /\ shaped3 n m k d
  /\ forall b i j band yc xc vals nulls, get (geo_band p) b = Ok band -> get (geo_y p) i = Ok yc -> get (geo_x p) j = Ok xc ->
       Forall2 (fun x v => data_cell x b i j v) xs vals -> masks_cell (asks f) ms b i j nulls -> at3 d b i j (g band yc xc vals nulls).
Definition geo_windowed (f : gfunc) (count : Z) (nv : option (option num)) (everywhere : Prop) (dy dx : axdepth)
  (g : Z -> Q -> Q -> list (Z -> Z -> option num) -> option (list (Z -> Z -> option bool)) -> num) : Prop :=
  respects g /\ forall n m k xs ms p, 0 <= n -> 0 <= m -> 0 <= k -> arguments (asks f) count n m k xs ms ->
  len (geo_band p) = n -> len (geo_y p) = m -> len (geo_x p) = k ->
  exists d, grun f xs ms nv p = Ok (RData d) /\ shaped3 n m k d
  /\ forall b i j band yc xc ws ns, get (geo_band p) b = Ok band -> get (geo_y p) i = Ok yc -> get (geo_x p) j = Ok xc -> everywhere \/ within dy dx m k i j ->
       block_windows dy dx m k xs b i j ws -> block_mask_windows dy dx m k ms b i j ns -> at3 d b i j (g band yc xc ws ns).
Definition geo_windowed_masked (f : gfunc) (count : Z) (nv : option (option num)) (everywhere : Prop) (dy dx : axdepth)
  (g : Z -> Q -> Q -> list (Z -> Z -> option num) -> option (list (Z -> Z -> option bool)) -> num * bool) : Prop :=
  respects g /\ forall n m k xs ms p, 0 <= n -> 0 <= m -> 0 <= k -> arguments (asks f) count n m k xs ms ->
  len (geo_band p) = n -> len (geo_y p) = m -> len (geo_x p) = k ->
  exists d o, grun f xs ms nv p = Ok (RPair d o) /\ shaped3 n m k d /\ shaped3 n m k o
  /\ forall b i j band yc xc ws ns, get (geo_band p) b = Ok band -> get (geo_y p) i = Ok yc -> get (geo_x p) j = Ok xc -> everywhere \/ within dy dx m k i j ->
       block_windows dy dx m k xs b i j ws -> block_mask_windows dy dx m k ms b i j ns ->
       at3 d b i j (fst (g band yc xc ws ns)) /\ at3 o b i j (snd (g band yc xc ws ns)).
(* as many cells are handed over before a chunk as after it: the depth is the same on
   both sides, and something lies beyond the edges; or nothing does and there is one
   chunk or no depth *)
Definition even (k : kind) (d : axdepth) (chunks : list Z) : Prop :=
  (exists n, d = Sym n /\ (k <> Unpadded \/ n = 0)) \/ (k = Unpadded /\ len chunks = 1).
