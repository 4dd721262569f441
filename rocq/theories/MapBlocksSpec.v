(* What applying a function to the blocks of rasters has to give. *)
From Verif Require Import Base Scalars Chunks FocalSpec FocalResults BandsSpec BlockArgs MapBlocks.
Open Scope Z_scope.

(* a raster of the given shape, cut into chunks in any way *)
Definition raster_of_shape (nb ny nx : Z) (r : braster) : Prop :=
  shaped3 nb ny nx (b_data r) /\ shaped3 nb ny nx (b_mask r)
  /\ (let '(bcs, ycs, xcs) := b_chunks r in cuts nb bcs /\ cuts ny ycs /\ cuts nx xcs /\ bcs <> [] /\ ycs <> [] /\ xcs <> []).
(* the block of every raster at one chunk location *)
Definition data_blocks (rs : list braster) (bs ys xs : Z * Z) : list blk := map (fun r => BData (slice3 (b_data r) bs ys xs)) rs.
Definition mask_blocks (f : func) (rs : list braster) (bs ys xs : Z * Z) : option (list blk) :=
  if wants_masks f then Some (map (fun r => BMask (slice3 (b_mask r) bs ys xs)) rs) else None.
(* the chunk locations of the raster and their positions *)
Definition block_at (chunks : chunks3) (id : Z * Z * Z) (bs ys xs : Z * Z) : Prop :=
  let '(bcs, ycs, xcs) := chunks in let '(kb, ky, kx) := id in
  get (chunks_to_array_locations bcs) kb = Ok bs /\ get (chunks_to_array_locations ycs) ky = Ok ys /\ get (chunks_to_array_locations xcs) kx = Ok xs.
Definition size (p : Z * Z) : Z := snd p - fst p.

(* a function that looks only at the cell: vals are the values of all rasters at the
   cell, masks whether they are null there *)
Definition value_at (r : braster) (b y x : Z) (v : num) : Prop := at3 (b_data r) b y x v.
Definition null_at (r : braster) (b y x : Z) (m : bool) : Prop := at3 (b_mask r) b y x m.
Definition data_cell (x : blk) (b i j : Z) (v : num) : Prop := match x with BData a => at3 a b i j v | BMask _ => False end.
Definition mask_cell (x : blk) (b i j : Z) (v : bool) : Prop := match x with BMask a => at3 a b i j v | BData _ => False end.
Definition masks_cell (f : func) (xs : option (list blk)) (b i j : Z) (ms : option (list bool)) : Prop :=
  match xs, ms with
  | None, None => True
  | Some xs, Some ms => Forall2 (fun x m => mask_cell x b i j m) xs ms
  | _, _ => False
  end.
(* the arguments func gets: a data block of every raster and, on request, a mask block *)
Definition data_blk (n m k : Z) (x : blk) : Prop := match x with BData a => shaped3 n m k a | BMask _ => False end.
Definition mask_blk (n m k : Z) (x : blk) : Prop := match x with BMask a => shaped3 n m k a | BData _ => False end.
Definition arguments (f : func) (count n m k : Z) (xs : list blk) (ms : option (list blk)) : Prop :=
  len xs = count /\ Forall (data_blk n m k) xs
  /\ if wants_masks f then exists l, ms = Some l /\ len l = count /\ Forall (mask_blk n m k) l else ms = None.
(* given blocks of count rasters and the null value nv, f gives g of the cell's own
   values at every cell of a block *)
Definition cellwise (f : func) (count : Z) (nv : option (option num)) (g : list num -> option (list bool) -> num) : Prop :=
  forall n m k xs ms id, 0 <= n -> 0 <= m -> 0 <= k -> arguments f count n m k xs ms ->
  exists d, run f xs ms nv id = Ok (RData d) /\ shaped3 n m k d
  /\ forall b i j vals nulls, 0 <= b < n -> 0 <= i < m -> 0 <= j < k ->
       Forall2 (fun x v => data_cell x b i j v) xs vals -> masks_cell f ms b i j nulls -> at3 d b i j (g vals nulls).
(* and g of the cell's own values is a pair of a value and whether it is null *)
Definition cellwise_masked (f : func) (count : Z) (nv : option (option num)) (g : list num -> option (list bool) -> num * bool) : Prop :=
  forall n m k xs ms id, 0 <= n -> 0 <= m -> 0 <= k -> arguments f count n m k xs ms ->
  exists d o, run f xs ms nv id = Ok (RPair d o) /\ shaped3 n m k d /\ shaped3 n m k o
  /\ forall b i j vals nulls, 0 <= b < n -> 0 <= i < m -> 0 <= j < k ->
       Forall2 (fun x v => data_cell x b i j v) xs vals -> masks_cell f ms b i j nulls ->
       at3 d b i j (fst (g vals nulls)) /\ at3 o b i j (snd (g vals nulls)).
(* the nulls of an array without explicit mask *)
Definition null_value_here (nv : option num) (v : num) : Prop :=
  exists n, nv = Some n /\ ((is_nan n = true /\ is_nan v = true) \/ num_eqb v n = true).
(* the values (nulls) of all rasters at a cell *)
Definition values_at (rs : list braster) (b y x : Z) (vals : list num) : Prop := Forall2 (fun r v => value_at r b y x v) rs vals.
Definition nulls_at (f : func) (rs : list braster) (b y x : Z) (nulls : option (list bool)) : Prop :=
  if wants_masks f then exists l, nulls = Some l /\ Forall2 (fun r m => null_at r b y x m) rs l else nulls = None.
(* all bands of all rasters at a cell *)
Definition columns_at (rs : list braster) (y x : Z) (cols : list (list num)) : Prop :=
  Forall2 (fun r col => len col = len (b_data r) /\ forall b v, get col b = Ok v -> value_at r b y x v) rs cols.
Definition columnwise (f : func) (count : Z) (nv : option (option num)) (nb nout : Z) (g : list (list num) -> list num) : Prop :=
  (forall cols, len (g cols) = nout)
  /\ forall m k xs ms id, 0 <= m -> 0 <= k -> arguments f count nb m k xs ms ->
  exists d, run f xs ms nv id = Ok (RData d) /\ shaped3 nout m k d
  /\ forall o i j cols v, 0 <= i < m -> 0 <= j < k ->
       Forall2 (fun x col => len col = nb /\ forall b u, get col b = Ok u -> data_cell x b i j u) xs cols ->
       get (g cols) o = Ok v -> at3 d o i j v.
