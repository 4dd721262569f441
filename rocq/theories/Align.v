(* Model of element-wise operations between rasters with coordinates and between rasters
   and arrays, raster.py:160-275, 375-473 (the dtypes and masks of operands on one grid are
   in Raster.v).  The parts of xarray that are used are modelled: the automatic alignment
   of its binary operations (the coordinates that both have, each dimension by itself), the
   missing alignment of in-place operations, and the check that broadcasting does not
   change the size of a dimension. *)
From Coq Require Import QArith.
From Verif Require Import Base Scalars Arr2 BlockArgs Bands MapBlocks Normalize Ingest.
Open Scope Z_scope.

Section Labels.
Context {X : Type} (eqb : X -> X -> bool).
Fixpoint same_labels (a b : list X) : bool :=
  match a, b with [], [] => true | x :: a, y :: b => eqb x y && same_labels a b | _, _ => false end.
(* pandas: a.intersection(b), in the order of a *)
Definition common_labels (a b : list X) : list X := if same_labels a b then a else filter (fun x => existsb (eqb x) b) a.
(* index.get_indexer: the position of a label *)
Fixpoint position (l : list X) (x : X) : Z := match l with [] => 0 | y :: t => if eqb y x then 0 else 1 + position t x end.
(* reindex along one dimension *)
Definition take {A} (from to : list X) (l : list A) : res (list A) :=
  if same_labels from to then Ok l else traverse (fun x => get l (position from x)) to.
End Labels.

Definition reindex {A} (r : raster_array A) (bands : list Z) (ys xs : list Q) : res (arr3 A) :=
  let* a := take Z.eqb (r_band r) bands (r_data r) in
  traverse (fun band => let* rows := take Qeq_bool (r_y r) ys band in traverse (fun row => take Qeq_bool (r_x r) xs row) rows) a.
Definition same_coords {A B} (a : raster_array A) (b : raster_array B) : bool :=
  same_labels Z.eqb (r_band a) (r_band b) && same_labels Qeq_bool (r_y a) (r_y b) && same_labels Qeq_bool (r_x a) (r_x b).
(* xr.align(a, b, join="inner"), then f *)
Definition combine_aligned {A B C} (f : A -> B -> C) (a : raster_array A) (b : raster_array B) : res (raster_array C) :=
  let bands := common_labels Z.eqb (r_band a) (r_band b) in
  let ys := common_labels Qeq_bool (r_y a) (r_y b) in
  let xs := common_labels Qeq_bool (r_x a) (r_x b) in
  let* da := reindex a bands ys xs in
  let* db := reindex b bands ys xs in
  Ok (RasterArray bands ys xs (map3 (fun '(u, v) => f u v) (zip3 da db))).
(* utils.py:57-64 merge_masks of two masks; mask |= m raises MergeError (a ValueError)
   unless the coordinates are the same *)
Definition merge_two (a b : raster_array bool) : res (raster_array bool) :=
  if same_coords a b then Ok (with_data a (map3 (fun '(u, v) => u || v) (zip3 (r_data a) (r_data b)))) else Err ValueError.
Definition ds_masked (r : raster_ds) : bool := match fst (fst r) with Some _ => true | None => false end.
(* the rest of raster.py:221-262: mask and null value of the result, whose dtype is out;
   the mask of the operands is only used if one has a null value *)
Definition finish (out : dtype) (masked : bool) (data : raster_array num) (mask : res (raster_array bool)) : res raster_ds :=
  if masked then
    let* m := mask in
    Ok (Some (default_null out), with_data data (where3 (r_data m) (default_null out) (r_data data)), m)
  else Ok (None, data, with_data data (map3 (fun _ => false) (r_data data))).
Definition apply_rasters (f : num -> num -> num) (out : dtype) (a b : raster_ds) : res raster_ds :=
  let '(_, xa, ma) := a in
  let '(_, xb, mb) := b in
  let* data := combine_aligned f xa xb in
  finish out (ds_masked a || ds_masked b) data (merge_two ma mb).

(* An array: its shape and its values in C order. *)
Record ndarray := NdArray { nd_shape : list Z; nd_flat : list num }.
(* np.broadcast_shapes of two shapes, given last dimension first *)
Fixpoint broadcast_rev (a b : list Z) : option (list Z) :=
  match a, b with
  | [], s | s, [] => Some s
  | m :: a, n :: b =>
      match broadcast_rev a b with
      | None => None
      | Some s => if m =? n then Some (m :: s) else if m =? 1 then Some (n :: s) else if n =? 1 then Some (m :: s) else None
      end
  end.
(* utils.py:49-54 can_broadcast *)
Definition can_broadcast (a b : list Z) : bool :=
  match broadcast_rev (rev a) (rev b) with Some s => len s =? 3 | None => false end.
(* the position in C order of the element that goes with a cell: shape and index of the
   cell last dimension first, strides as in numpy (0 for a dimension of size 1) *)
Fixpoint flat_position (stride : Z) (shape ix : list Z) : Z :=
  match shape, ix with
  | n :: shape, i :: ix => (if n =? 1 then 0 else stride * i) + flat_position (stride * n) shape ix
  | _, _ => 0
  end.
Definition nd_shape3 {A} (r : raster_array A) : list Z := [len (r_band r); len (r_y r); len (r_x r)].
(* raster.py:160-184 _normalize_ufunc_other and raster.py:187-269 _apply_ufunc with an
   array; xarray refuses a result that is larger than the raster *)
Definition apply_array (f : num -> num -> num) (out : dtype) (r : raster_ds) (other : ndarray) : res raster_ds :=
  let '(_, x, m) := r in
  let shape := nd_shape3 x in
  if negb (can_broadcast shape (nd_shape other)) then Err ValueError
  else
    match broadcast_rev (rev shape) (rev (nd_shape other)) with
    | Some s => if negb (same_labels Z.eqb s (rev shape)) then Err ValueError
                else
                  let* data := traverse (fun '(b, band) => traverse (fun '(i, row) => traverse (fun '(j, v) =>
                                 let* o := get (nd_flat other) (flat_position 1 (rev (nd_shape other)) [j; i; b]) in Ok (f v o))
                                 (combine (zrange 0 (len row)) row)) (combine (zrange 0 (len band)) band)) (combine (zrange 0 (len (r_data x))) (r_data x)) in
                  finish out (ds_masked r) (with_data x data) (Ok m)
    | None => Err ValueError
    end.
(* raster.py:375-393 _normalize_bandwise_other *)
Definition normalize_bandwise_other (other : ndarray) (shape : list Z) : res ndarray :=
  if len (nd_flat other) =? 1 then Ok (NdArray [1] (nd_flat other))
  else if can_broadcast (nd_shape other) shape then Err ValueError
  else if (len (nd_shape other) =? 1) && (len (nd_flat other) =? nth 0 shape 0) then Ok (NdArray [len (nd_flat other); 1; 1] (nd_flat other))
  else Err ValueError.
(* raster.py:400-473 BandwiseOperationAdapter, two inputs *)
Definition apply_bandwise (f : num -> num -> num) (out : dtype) (r : raster_ds) (other : ndarray) : res raster_ds :=
  let* o := normalize_bandwise_other other (nd_shape3 (snd (fst r))) in
  apply_array f out r o.
