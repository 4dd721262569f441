(* Model of GeoBlockInfo, geo_block_infos and the block resolver of
   geo_map_overlap (blocks.py).

   Simplified: the coefficients of an affine transform are rational numbers (the
   code uses binary64, so its coordinates are these up to rounding); the CRS is
   left out (every operation copies it). *)
From Verif Require Import Base Chunks.
From Coq Require Import QArith.
Open Scope Z_scope.

(* affine.Affine: (x, y) |-> (a x + b y + c, d x + e y + f) *)
Record affine := Affine { af_a : Q; af_b : Q; af_c : Q; af_d : Q; af_e : Q; af_f : Q }.
Definition apply (t : affine) (x y : Q) : Q * Q :=
  ((af_a t * x + af_b t * y + af_c t)%Q, (af_d t * x + af_e t * y + af_f t)%Q).
(* Affine.__mul__ *)
Definition compose (s t : affine) : affine :=
  Affine (af_a s * af_a t + af_b s * af_d t)%Q
         (af_a s * af_b t + af_b s * af_e t)%Q
         (af_a s * af_c t + af_b s * af_f t + af_c s)%Q
         (af_d s * af_a t + af_e s * af_d t)%Q
         (af_d s * af_b t + af_e s * af_e t)%Q
         (af_d s * af_c t + af_e s * af_f t + af_f s)%Q.
(* Affine.translation(xoff, yoff) *)
Definition translation (x y : Z) : affine :=
  Affine 1 0 (inject_Z x) 0 1 (inject_Z y).

(* odc.geo GeoBox: shape and affine *)
Record geobox := GeoBox { gb_ny : Z; gb_nx : Z; gb_affine : affine }.
(* centre of cell (i, j): GeoBox.coordinates *)
Definition gb_coord (g : geobox) (i j : Z) : Q * Q :=
  apply (gb_affine g) (inject_Z j + (1 # 2))%Q (inject_Z i + (1 # 2))%Q.
(* GeoBox.__getitem__[rs, cs] *)
Definition gb_window (g : geobox) (rs cs : Z * Z) : geobox :=
  GeoBox (snd rs - fst rs) (snd cs - fst cs)
    (compose (gb_affine g) (translation (fst cs) (fst rs))).

(* blocks.py:57-107 GeoBlockInfo; a slice is the pair (start, stop) *)
Record gbi := GBI {
  g_geobox : geobox;
  g_band : Z * Z;
  g_rows : Z * Z;
  g_cols : Z * Z;
  g_loc : Z * Z * Z;
  g_parent_affine : affine;
  g_parent_shape : Z * Z * Z
}.
(* blocks.py:124-131 shape *)
Definition g_shape (g : gbi) : Z * Z * Z :=
  (snd (g_band g) - fst (g_band g), gb_ny (g_geobox g), gb_nx (g_geobox g)).

(* A Python argument: an integer, or something else (is_int is False) *)
Inductive arg := Int (n : Z) | NotInt.
Definition neg (a : arg) : arg := match a with Int n => Int (- n) | NotInt => NotInt end.

(* blocks.py:205-236 _resize *)
Definition resize (g : gbi) (dy_top dy_bottom dx_left dx_right : arg) : res gbi :=
  match dy_top, dy_bottom, dx_left, dx_right with
  | Int dy_top, Int dy_bottom, Int dx_left, Int dx_right =>
      let new_ny := gb_ny (g_geobox g) + dy_top + dy_bottom in
      let new_nx := gb_nx (g_geobox g) + dx_left + dx_right in
      if (new_ny <? 0) || (new_nx <? 0) then Err ValueError
      else
        let new_affine := gb_affine (g_geobox g) in
        let new_affine :=
          if negb (dy_top =? 0) || negb (dx_left =? 0)
          then compose new_affine (translation (- dx_left) (- dy_top))
          else new_affine in
        Ok (GBI (GeoBox new_ny new_nx new_affine) (g_band g)
              (fst (g_rows g) - dy_top, snd (g_rows g) + dy_bottom)
              (fst (g_cols g) - dx_left, snd (g_cols g) + dx_right)
              (g_loc g) (g_parent_affine g) (g_parent_shape g))
  | _, _, _, _ => Err TypeError
  end.

(* blocks.py:238-268 *)
Definition pad_y g top bottom := resize g top bottom (Int 0) (Int 0).
Definition pad_x g left right := resize g (Int 0) (Int 0) left right.
Definition pad g y (x : option arg) :=
  let x := match x with Some x => x | None => y end in resize g y y x x.
Definition shift_y g n := resize g (neg n) n (Int 0) (Int 0).
Definition shift_x g n := resize g (Int 0) (Int 0) (neg n) n.
Definition shift g y (x : option arg) :=
  let x := match x with Some x => x | None => y end in resize g (neg y) y (neg x) x.

(* a call of one of the methods *)
Inductive op :=
| OpPadY (top bottom : arg) | OpPadX (left right : arg) | OpPad (y : arg) (x : option arg)
| OpShiftY (n : arg) | OpShiftX (n : arg) | OpShift (y : arg) (x : option arg).
Definition run_op (g : gbi) (o : op) : res gbi :=
  match o with
  | OpPadY t b => pad_y g t b
  | OpPadX l r => pad_x g l r
  | OpPad y x => pad g y x
  | OpShiftY n => shift_y g n
  | OpShiftX n => shift_x g n
  | OpShift y x => shift g y x
  end.
Definition run_ops (g : gbi) (ops : list op) : res gbi := foldM run_op ops g.

(* blocks.py:275-303 geo_block_infos of a raster with geobox gb and chunks
   (bcs, ycs, xcs) *)
Definition geo_block_infos (gb : geobox) (nbands : Z) (bcs ycs xcs : list Z)
  : res (arr3 (option gbi)) :=
  let band_slices := chunks_to_array_locations bcs in
  let row_slices := chunks_to_array_locations ycs in
  let col_slices := chunks_to_array_locations xcs in
  let numblocks := (len bcs, len ycs, len xcs) in
  foldM (fun out '(bi, yi, xi) =>
    let* rs := get row_slices yi in
    let* cs := get col_slices xi in
    let* bs := get band_slices bi in
    set3 out bi yi xi
      (Some (GBI (gb_window gb rs cs) bs rs cs (bi, yi, xi) (gb_affine gb)
               (nbands, gb_ny gb, gb_nx gb))))
    (ndindex3 (len bcs) (len ycs) (len xcs)) (empty3 numblocks).

(* gbi_lookup[chunk-location] *)
Definition lookup (l : arr3 (option gbi)) (loc : Z * Z * Z) : res gbi :=
  let '(b, y, x) := loc in
  let* o := get3 l b y x in
  match o with Some g => Ok g | None => Err KeyError end.

(* dask.array.overlap: the range of cells, along one axis, that the block of
   chunk k receives.  A boundary other than 'none' pads the array first, so every
   block is extended on both sides; with 'none' the first and the last chunk have
   no neighbour on the outer side. *)
Definition above (padded : bool) (depth : Z * Z) (k : Z) : Z :=
  if padded || negb (k =? 0) then fst depth else 0.
Definition below (padded : bool) (depth : Z * Z) (nchunks k : Z) : Z :=
  if padded || negb (k =? nchunks - 1) then snd depth else 0.

(* the shape of the array handed to the wrapper *)
Definition overlapped_shape (padded : bool) (dy dx : Z * Z) (ycs xcs : list Z)
  (loc : Z * Z * Z) (bs : Z) : res (Z * Z * Z) :=
  let '(bi, yi, xi) := loc in
  let* cy := get ycs yi in
  let* cx := get xcs xi in
  Ok (bs, cy + above padded dy yi + below padded dy (len ycs) yi,
          cx + above padded dx xi + below padded dx (len xcs) xi).

(* blocks.py:1571-1590 _resolve_gbi_with_overlap_pad *)
Definition resolve_gbi_with_overlap_pad (gbi_lookup : arr3 (option gbi)) (loc : Z * Z * Z)
  (actual_shape : Z * Z * Z) : res gbi :=
  let* base := lookup gbi_lookup loc in
  let '(_, by_, bx) := g_shape base in
  let '(_, ay, ax) := actual_shape in
  let tot_dy := ay - by_ in
  let tot_dx := ax - bx in
  let top := tot_dy / 2 in
  let bottom := tot_dy - tot_dy / 2 in
  let left := tot_dx / 2 in
  let right := tot_dx - tot_dx / 2 in
  let* g := if negb (top =? 0) || negb (bottom =? 0)
            then pad_y base (Int top) (Int bottom) else Ok base in
  if negb (left =? 0) || negb (right =? 0) then pad_x g (Int left) (Int right) else Ok g.
