(* Model of map_overlap (blocks.py:1223-1535): a function applied to the blocks of
   several rasters together with the cells around them. *)
From Verif Require Import Base Scalars Chunks Arr2 BlockArgs Bands MapBlocks.
Open Scope Z_scope.

Definition before (d : axdepth) : Z := match d with Sym n => n | Asym l _ => l end.
Definition after (d : axdepth) : Z := match d with Sym n => n | Asym _ r => r end.

(* dask.array.overlap.boundaries: the array is continued along the rows, then along
   the columns; a constant is np.full_like(x, value), that is, converted to the
   array's dtype by conv.  Depths are the same on both sides where anything is
   added. *)
Definition bound_map {A B} (g : A -> B) (b : dbound A) : dbound B :=
  match b with DNone => DNone | DNamed s => DNamed s | DConst a => DConst (g a) end.
Definition pad3 {A} (b : dbound A) (dy dx nx : Z) (a : arr3 A) : arr3 A :=
  map (fun band => map (dask_pad b dx) (dask_pad (bound_map (full nx) b) dy band)) a.
Definition adds_nothing {A} (b : dbound A) : bool :=
  match b with DNone => true | DNamed s => str_eqb s s_none | DConst _ => false end.

(* dask.array.overlap.overlap_internal: the part of the continued array that is handed
   over for the k-th chunk, and how many cells of it lie before and after the chunk.
   Without boundary there is nothing before the first and after the last chunk. *)
Definition surroundings (none : bool) (d : axdepth) (chunks : list Z) (k : Z) : res ((Z * Z) * (Z * Z)) :=
  let* '(lo, hi) := get (chunks_to_array_locations chunks) k in
  let l := if none && (k =? 0) then 0 else before d in
  let r := if none && (k =? len chunks - 1) then 0 else after d in
  let added := if none then 0 else before d in
  Ok ((lo + added - l, hi + added + r), (l, r)).
(* dask.array.overlap.trim_internal *)
Definition trim3 {A} (ym xm : Z * Z) (a : arr3 A) : arr3 A :=
  map (fun band => map (fun row => slice row (fst xm) (len row - snd xm)) (slice band (fst ym) (len band - snd ym))) a.
(* dask.array.overlap.map_overlap of arrays that are continued already: chunks smaller
   than the depth are merged first (an array smaller than the depth is refused), the
   function is called for every chunk, and the margins are cut off the results *)
Definition dask_map_overlap {B} (f : list blk -> Z * Z * Z -> res (arr3 B)) (none : bool) (dy dx : axdepth) (chunks : chunks3) (inputs : list blk) : res (arr3 B) :=
  let '(bcs, ycs, xcs) := chunks in
  let* ycs := grow (depth_for_axis dy) ycs in
  let* xcs := grow (depth_for_axis dx) xcs in
  dask_map_blocks (fun _ '(kb, ky, kx) =>
    let* bs := get (chunks_to_array_locations bcs) kb in
    let* '(ys, ym) := surroundings none dy ycs ky in
    let* '(xs, xm) := surroundings none dx xcs kx in
    let* o := f (map (cut_blk bs ys xs) inputs) (kb, ky, kx) in
    Ok (trim3 ym xm o)) (fun bs => snd bs - fst bs) (bcs, ycs, xcs) [].

Section MapOverlap.
Variable cast : dtype -> num -> num.

(* blocks.py:1484-1486 with _resolve_boundary *)
Definition continued_data (b : boundary) (dy dx : axdepth) (r : braster) : res blk :=
  let* '(db, _) := resolve_boundary b (b_nv r) (b_dtype r) in
  Ok (BData (pad3 (bound_map (cast (b_dtype r)) db) (before dy) (before dx) (len (nth 0 (nth 0 (b_data r) []) [])) (b_data r))).
Definition continued_mask (b : boundary) (dy dx : axdepth) (r : braster) : res blk :=
  let* '(_, mb) := resolve_boundary b (b_nv r) (b_dtype r) in
  Ok (BMask (pad3 mb (before dy) (before dx) (len (nth 0 (nth 0 (b_mask r) []) [])) (b_mask r))).

(* blocks.py:1457-1535.  The checks of the keyword names are left out.  dask cuts the
   margins according to the boundary of the first array. *)
Definition map_overlap (f : func) (rasters : list braster) (depth : py) (b : boundary) (dtype_ meta : option dtype) (inferred : dtype)
  (null_value : nvarg) (return_mask : bool) : res braster :=
  match rasters with
  | [] => Err ValueError
  | ref :: _ =>
      let* _ := check_dtype_meta_agree dtype_ meta in
      if negb (forallb (fun r => same_shape3 (b_data r) (b_data ref)) rasters) then Err ValueError
      else
        let target := b_chunks ref in
        let rasters := align_to target rasters in
        let* '(d0, dy, dx) := normalize_depth depth in
        let* _ := check_asymmetric (d0, dy, dx) b in
        let hint := out_dtype_hint dtype_ meta in
        let n := len rasters in
        let out_nv := wrapper_out_nv return_mask dtype_ meta inferred null_value (b_dtype ref) (b_nv ref) n in
        let* data := traverse (continued_data b dy dx) rasters in
        let* masks := if wants_masks f then traverse (continued_mask b dy dx) rasters else Ok [] in
        let* '(db, _) := resolve_boundary b (b_nv ref) (b_dtype ref) in
        let none := adds_nothing db in
        let inputs := data ++ masks in
        let odt := out_data_dtype dtype_ meta inferred in
        let chunks := (full (len (b_data ref)) 1, snd (fst (b_chunks ref)), snd (b_chunks ref)) in
        if return_mask then
          let* struct := dask_map_overlap (fun args id => wrapper_pair cast f None hint args out_nv id) none dy dx target inputs in
          let data := map3 fst struct in
          let mask := map3 snd struct in
          let* nv := final_nv dtype_ meta inferred null_value (b_dtype ref) (b_nv ref) n in
          let nv := match nv with Some v => v | None => default_null odt end in
          Ok (BRaster odt (Some nv) chunks (where3 mask nv data) mask)
        else
          let* data := dask_map_overlap (fun args id => wrapper f None args out_nv id) none dy dx target inputs in
          let* nv := final_nv dtype_ meta inferred null_value (b_dtype ref) (b_nv ref) n in
          Ok (BRaster odt nv chunks data (map3 (is_null nv) data))
  end.
End MapOverlap.
