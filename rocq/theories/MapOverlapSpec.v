(* What applying a function to blocks with the cells around them has to give. *)
From Verif Require Import Base Scalars Chunks FocalSpec FocalResults BandsSpec BlockArgs BlockArgsSpec MapBlocks MapBlocksSpec.
Open Scope Z_scope.

(* how a raster goes on beyond its edge *)
Inductive kind := Unpadded | Mirrored | Repeated | Closest | Null | Number (v : num).
(* the boundary argument; words in upper or lower case *)
Inductive boundary_means : boundary -> kind -> Prop :=
| means_nothing : boundary_means BNone Unpadded
| means_none : forall s, lower s = s_none -> boundary_means (BStr s) Unpadded
| means_reflect : forall s, lower s = s_reflect -> boundary_means (BStr s) Mirrored
| means_periodic : forall s, lower s = s_periodic -> boundary_means (BStr s) Repeated
| means_nearest : forall s, lower s = s_nearest -> boundary_means (BStr s) Closest
| means_null : forall s, lower s = s_null \/ lower s = s_null_value \/ lower s = s_nodata -> boundary_means (BStr s) Null
| means_number : forall v, boundary_means (BNum v) (Number v).
(* the row (column) that is seen at position i of an axis of n *)
Definition source (k : kind) (n i : Z) : option Z :=
  if (0 <=? i) && (i <? n) then Some i
  else match k with
       | Mirrored => Some (if i <? 0 then - i - 1 else 2 * n - 1 - i)
       | Repeated => Some (if i <? 0 then n + i else i - n)
       | Closest => Some (if i <? 0 then 0 else n - 1)
       | _ => None
       end.
(* what is seen at (y, x) of an n x m array with the cells [cell]: a cell of the array,
   or what lies beyond it *)
Definition sees {A} (cell : Z -> Z -> A -> Prop) (beyond : option A -> Prop) (k : kind) (n m y x : Z) (v : option A) : Prop :=
  match source k n y, source k m x with
  | Some y', Some x' => exists u, v = Some u /\ cell y' x' u
  | _, _ => beyond v
  end.
(* beyond a raster: its null value (the default of the dtype if it has none), which is
   null; or the number, converted to the dtype, which is null if it is the null value;
   or nothing *)
Definition beyond_value (cast : dtype -> num -> num) (k : kind) (r : braster) (v : option num) : Prop :=
  match k with
  | Null => v = Some (cast (b_dtype r) (match b_nv r with Some n => n | None => default_null (b_dtype r) end))
  | Number u => v = Some (cast (b_dtype r) u)
  | _ => v = None
  end.
Definition beyond_null (k : kind) (r : braster) (m : option bool) : Prop :=
  match k with
  | Null => m = Some true
  | Number u => exists q, m = Some q /\ (q = true <-> null_value_here (b_nv r) u)
  | _ => m = None
  end.

(* a window: what is seen at every offset within the depth *)
Definition low (d : axdepth) : Z := match d with Sym n => n | Asym l _ => l end.
Definition high (d : axdepth) : Z := match d with Sym n => n | Asym _ r => r end.
Definition window {A} (dy dx : axdepth) (P : Z -> Z -> option A -> Prop) (w : Z -> Z -> option A) : Prop :=
  forall di dj, - low dy <= di <= high dy -> - low dx <= dj <= high dx -> P di dj (w di dj).
(* the windows of all rasters around a cell *)
Definition value_windows cast (k : kind) (dy dx : axdepth) (ny nx : Z) (rs : list braster) (b y x : Z) (ws : list (Z -> Z -> option num)) : Prop :=
  Forall2 (fun r w => window dy dx (fun di dj => sees (value_at r b) (beyond_value cast k r) k ny nx (y + di) (x + dj)) w) rs ws.
Definition null_windows (f : func) (k : kind) (dy dx : axdepth) (ny nx : Z) (rs : list braster) (b y x : Z) (ns : option (list (Z -> Z -> option bool))) : Prop :=
  if wants_masks f then exists l, ns = Some l
    /\ Forall2 (fun r w => window dy dx (fun di dj => sees (null_at r b) (beyond_null k r) k ny nx (y + di) (x + dj)) w) rs l
  else ns = None.
(* the windows inside blocks of n x m cells: nothing is seen beyond a block *)
Definition block_windows (dy dx : axdepth) (n m : Z) (xs : list blk) (b i j : Z) (ws : list (Z -> Z -> option num)) : Prop :=
  Forall2 (fun x w => window dy dx (fun di dj => sees (data_cell x b) (fun v => v = None) Unpadded n m (i + di) (j + dj)) w) xs ws.
Definition block_mask_windows (dy dx : axdepth) (n m : Z) (xs : option (list blk)) (b i j : Z) (ns : option (list (Z -> Z -> option bool))) : Prop :=
  match xs, ns with
  | None, None => True
  | Some xs, Some l => Forall2 (fun x w => window dy dx (fun di dj => sees (mask_cell x b) (fun v => v = None) Unpadded n m (i + di) (j + dj)) w) xs l
  | _, _ => False
  end.
(* a function whose result at a cell depends on nothing but the windows around it:
   wherever the windows lie inside the block or, with nothing beyond the rasters,
   everywhere *)
Definition within (dy dx : axdepth) (m k i j : Z) : Prop := low dy <= i < m - high dy /\ low dx <= j < k - high dx.
Definition windowed (f : func) (count : Z) (nv : option (option num)) (everywhere : Prop) (dy dx : axdepth)
  (g : list (Z -> Z -> option num) -> option (list (Z -> Z -> option bool)) -> num) : Prop :=
  forall n m k xs ms id, 0 <= n -> 0 <= m -> 0 <= k -> arguments f count n m k xs ms ->
  exists d, run f xs ms nv id = Ok (RData d) /\ shaped3 n m k d
  /\ forall b i j ws ns, 0 <= b < n -> 0 <= i < m -> 0 <= j < k -> everywhere \/ within dy dx m k i j ->
       block_windows dy dx m k xs b i j ws -> block_mask_windows dy dx m k ms b i j ns -> at3 d b i j (g ws ns).
Definition windowed_masked (f : func) (count : Z) (nv : option (option num)) (everywhere : Prop) (dy dx : axdepth)
  (g : list (Z -> Z -> option num) -> option (list (Z -> Z -> option bool)) -> num * bool) : Prop :=
  forall n m k xs ms id, 0 <= n -> 0 <= m -> 0 <= k -> arguments f count n m k xs ms ->
  exists d o, run f xs ms nv id = Ok (RPair d o) /\ shaped3 n m k d /\ shaped3 n m k o
  /\ forall b i j ws ns, 0 <= b < n -> 0 <= i < m -> 0 <= j < k -> everywhere \/ within dy dx m k i j ->
       block_windows dy dx m k xs b i j ws -> block_mask_windows dy dx m k ms b i j ns ->
       at3 d b i j (fst (g ws ns)) /\ at3 o b i j (snd (g ws ns)).
(* a function that also knows where the cell lies.  place id n m k b y x: the first cell
   of the n x m x k cells handed over for chunk id is band b, row y, column x. *)
Definition places := Z * Z * Z -> Z -> Z -> Z -> Z -> Z -> Z -> Prop.
Definition located (f : func) (count : Z) (nv : option (option num)) (place : places) (everywhere : Prop) (dy dx : axdepth)
  (g : Z -> Z -> Z -> list (Z -> Z -> option num) -> option (list (Z -> Z -> option bool)) -> num) : Prop :=
  forall n m k xs ms id b0 y0 x0, 0 <= n -> 0 <= m -> 0 <= k -> arguments f count n m k xs ms -> place id n m k b0 y0 x0 ->
  exists d, run f xs ms nv id = Ok (RData d) /\ shaped3 n m k d
  /\ forall b i j ws ns, 0 <= b < n -> 0 <= i < m -> 0 <= j < k -> everywhere \/ within dy dx m k i j ->
       block_windows dy dx m k xs b i j ws -> block_mask_windows dy dx m k ms b i j ns -> at3 d b i j (g (b0 + b) (y0 + i) (x0 + j) ws ns).
Definition located_masked (f : func) (count : Z) (nv : option (option num)) (place : places) (everywhere : Prop) (dy dx : axdepth)
  (g : Z -> Z -> Z -> list (Z -> Z -> option num) -> option (list (Z -> Z -> option bool)) -> num * bool) : Prop :=
  forall n m k xs ms id b0 y0 x0, 0 <= n -> 0 <= m -> 0 <= k -> arguments f count n m k xs ms -> place id n m k b0 y0 x0 ->
  exists d o, run f xs ms nv id = Ok (RPair d o) /\ shaped3 n m k d /\ shaped3 n m k o
  /\ forall b i j ws ns, 0 <= b < n -> 0 <= i < m -> 0 <= j < k -> everywhere \/ within dy dx m k i j ->
       block_windows dy dx m k xs b i j ws -> block_mask_windows dy dx m k ms b i j ns ->
       at3 d b i j (fst (g (b0 + b) (y0 + i) (x0 + j) ws ns)) /\ at3 o b i j (snd (g (b0 + b) (y0 + i) (x0 + j) ws ns)).
(* the depth fits the raster, and is the same on both sides if anything lies beyond *)
Definition fits (d : axdepth) (n : Z) : Prop := low d <= n /\ high d <= n.
Definition symmetric (d : axdepth) : Prop := exists n, d = Sym n.
