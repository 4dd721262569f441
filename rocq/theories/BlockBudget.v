(* blocks.py:1090-1141: the chunks that map_blocks and geo_map_blocks work on when
   out_bands is given.
   A raster is its shape, the bytes of a cell, its chunks and its cells, which stay as
   they are.  [auto] is dask's rechunk with "auto" for y and x: it is given the shape, the
   bytes of a cell, the old chunks and the limit in bytes; how it chooses is not modelled.
   Rasters have at least one band. *)
From Verif Require Import Base BlockArgs.
Open Scope Z_scope.

Record chunked (A : Type) := Chunked { k_shape : Z * Z * Z; k_itemsize : Z; k_chunks : chunks3; k_cells : A }.
Arguments Chunked {A}. Arguments k_shape {A}. Arguments k_itemsize {A}. Arguments k_chunks {A}. Arguments k_cells {A}.
Definition auto_chunks : Type := Z * Z * Z -> Z -> chunks3 -> Z -> chunks3.

Section Align.
Context {A : Type} (auto : auto_chunks).
(* dask refuses chunks that do not add up to the shape *)
Definition sum_of (l : list Z) : Z := fold_left Z.add l 0.
Definition fits (shape : Z * Z * Z) (c : chunks3) : bool :=
  let '(nb, ny, nx) := shape in let '(cb, cy, cx) := c in
  (sum_of cb =? nb) && (sum_of cy =? ny) && (sum_of cx =? nx).
(* raster.py:1542-1561 Raster.chunk *)
Definition chunk (r : chunked A) (c : chunks3) : res (chunked A) :=
  if fits (k_shape r) c then Ok (Chunked (k_shape r) (k_itemsize r) c (k_cells r)) else Err ValueError.
Fixpoint chunk_all (c : chunks3) (l : list (chunked A)) : res (list (chunked A)) :=
  match l with
  | [] => Ok []
  | r :: l =>
      let* r' := if chunks3_eqb (k_chunks r) c then Ok r else chunk r c in
      let* l' := chunk_all c l in
      Ok (r' :: l')
  end.
(* 1136-1137; chunk_size is array.chunk-size in bytes *)
Definition byte_limit (chunk_size nbands out_bands : Z) : Z :=
  Z.max 1 (chunk_size * nbands / Z.max nbands out_bands).
(* 1113-1141 _align_chunks_single_band *)
Definition align_single_band (chunk_size : Z) (rasters : list (chunked A)) (out_bands : Z) : res (list (chunked A)) :=
  match rasters with
  | [] => Err IndexError
  | ref :: _ =>
      let '(nbands, _, _) := k_shape ref in
      let target := auto (k_shape ref) (k_itemsize ref) (k_chunks ref) (byte_limit chunk_size nbands out_bands) in
      chunk_all target rasters
  end.
(* 1090-1096 _check_out_bands, for integers, and 717-719, 2085-2087: the chunks of the result *)
Definition prepare (chunk_size : Z) (rasters : list (chunked A)) (out_bands : Z) : res (list (chunked A) * chunks3) :=
  if out_bands <? 1 then Err ValueError
  else
    let* rs := align_single_band chunk_size rasters out_bands in
    match rs with
    | [] => Err IndexError
    | r :: _ => let '(_, cy, cx) := k_chunks r in Ok (rs, ([out_bands], cy, cx))
    end.
End Align.
