(* What clipping must give. *)
From Coq Require Import QArith.
From Verif Require Import Base Scalars Raster FocalSpec FocalResults RasterSpec Rasterize RasterizeRaster RasterizeRasterSpec Clipping.
Open Scope Z_scope.

(* nb bands of ny rows and nx columns *)
Definition located_ok (nb ny nx : Z) (l : located) : Prop := wf nb (ny * nx) (l_raster l) /\ grid_of ny nx (l_grid l).
(* value and null at a row and column of the lattice *)
Definition value_at (l : located) (nx b row col : Z) : num := value (l_raster l) b ((row - k_row (l_grid l)) * nx + (col - k_col (l_grid l))).
Definition null_at (l : located) (nx b row col : Z) : bool := null (l_raster l) b ((row - k_row (l_grid l)) * nx + (col - k_col (l_grid l))).
(* the lattice cells a raster covers *)
Definition has_cell (ny nx : Z) (l : located) (row col : Z) : Prop :=
  k_row (l_grid l) <= row < k_row (l_grid l) + ny /\ k_col (l_grid l) <= col < k_col (l_grid l) + nx.
(* a part of ny rows and nx columns, not empty *)
Definition is_window (ny nx : Z) (b : box) : Prop := 0 <= r0 b < r1 b /\ r1 b <= ny /\ 0 <= c0 b < c1 b /\ c1 b <= nx.
(* no chunk has exactly one of the rows lo .. hi - 1 *)
Definition no_single (lo hi : Z) (chunks : list Z) : Prop := forall before c after, chunks = before ++ c :: after ->
  let start := fold_right Z.add 0 before in Z.min hi (start + c) - Z.max lo start <> 1.
(* the window takes no single row or column out of a chunk *)
Definition thick_window (b : box) (k : grid) : Prop := no_single (r0 b) (r1 b) (k_ychunks k) /\ no_single (c0 b) (c1 b) (k_xchunks k).
(* the feature touches the cell in the raster's coordinate system *)
Definition touched (t : table) (crs row col : Z) : bool :=
  existsb (fun f => g_touches f (Some crs) row col) (concat (t_parts t)).
(* out is what is left of l when only the cells of keep stay *)
Definition left_of (nb nx nx' ny' : Z) (l out : located) (keep : Z -> Z -> bool) : Prop :=
  located_ok nb ny' nx' out /\ r_dtype (l_raster out) = r_dtype (l_raster l) /\ r_nv (l_raster out) = Some (null_value_of (l_raster l)) /\ k_crs (l_grid out) = k_crs (l_grid l)
  /\ forall b row col, 0 <= b < nb -> has_cell ny' nx' out row col ->
     null_at out nx' b row col = null_at l nx b row col || negb (keep row col)
     /\ (null_at out nx' b row col = false -> value_at out nx' b row col = value_at l nx b row col).
(* the bounds that are used: those given, or those of the features *)
Definition used_bounds (total_bounds : table -> list Q) (t : table) (crs : Z) (bounds : option (list Q)) : list Q :=
  match bounds with Some b => b | None => total_bounds (Table (t_parts t) None (Some crs) (t_columns t)) end.
(* two results with the same cells *)
Definition same_cells (nb n : Z) (a b : located) : Prop :=
  k_row (l_grid a) = k_row (l_grid b) /\ k_col (l_grid a) = k_col (l_grid b) /\ r_dtype (l_raster a) = r_dtype (l_raster b) /\ r_nv (l_raster a) = r_nv (l_raster b)
  /\ forall d i, 0 <= d < nb -> 0 <= i < n -> null (l_raster a) d i = null (l_raster b) d i /\ (null (l_raster a) d i = false -> value (l_raster a) d i = value (l_raster b) d i).
