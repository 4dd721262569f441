(* What rasterising a table onto a whole raster must give. *)
From Coq Require Import QArith String.
From Verif Require Import Base Scalars Raster FocalSpec FocalResults RasterSpec Rasterize RasterizeSpec RasterizeRaster.
Open Scope Z_scope.

(* the coordinate system in which like's cells are *)
Definition cells_crs (t : table) (k : grid) : option Z := match k_crs k with Some c => Some c | None => t_crs t end.
(* like has ny rows and nx columns, cut into chunks *)
Definition grid_of (ny nx : Z) (k : grid) : Prop := cuts ny (k_ychunks k) /\ cuts nx (k_xchunks k) /\ k_xchunks k <> [] /\ 0 < nx.
(* no chunk has a single row or column *)
Definition thick (k : grid) : Prop := Forall (fun c => 2 <= c) (k_ychunks k) /\ Forall (fun c => 2 <= c) (k_xchunks k).
(* the features touching a lattice cell, in table order *)
Definition touching_cell (crs : option Z) (parts : list (list gfeature)) (r c : Z) : list gfeature :=
  filter (fun f => g_touches f crs r c) (concat parts).
(* the value a feature is given: a field, or its index plus 1 *)
Definition feature_value (field : option string) (f : gfeature) : num :=
  match field with Some name => g_values f name | None => of_Z (g_index f + 1) end.
Definition field_of (a : field_arg) : option string := match a with FieldName name => Some name | _ => None end.
Definition inside (r c : Z) (b : box) : Prop := r0 b <= r < r1 b /\ c0 b <= c < c1 b.
Definition within (a b : box) : Prop := r0 b <= r0 a /\ r1 a <= r1 b /\ c0 b <= c0 a /\ c1 a <= c1 b.
(* a region meets every box in which a feature of the partition touches a cell, as
   far as the box lies in the window *)
Definition covers (crs : option Z) (window : box) (p : list gfeature) (reg : region) : Prop :=
  forall f b r c, In f p -> within b window -> inside r c b -> g_touches f crs r c = true -> reg b = true.
(* the spatial partitions of a table, if there are any, are right for like *)
Definition spatial_right (t : table) (k : grid) : Prop :=
  forall regs, t_spatial t = Some regs -> cells_crs t k = t_crs t -> Forall2 (covers (t_crs t) (grid_box k)) (t_parts t) regs.
(* the choice of field, dtype and null value *)
Definition chosen (t : table) (field : field_arg) (null_value : nv_arg) (d : dtype) (fill : num) : Prop :=
  match field with
  | NoField => d = I64
  | FieldName name => lookup name (t_columns t) = Some (Some d)
  | FieldOther => False
  end
  /\ match null_value with
     | NvNone => fill = match field with NoField => of_Z 0 | _ => default_null d end
     | NvScalar s => fill = scalar_num s
     | NvOther => False
     end.
(* the table can be brought to like's coordinate system *)
Definition can_transform (t : table) (k : grid) : Prop := t_crs t = None -> k_crs k = None.
Definition bad_field (t : table) (field : field_arg) : Prop :=
  match field with FieldName name => lookup name (t_columns t) = None \/ lookup name (t_columns t) = Some None | FieldOther => True | NoField => False end.
