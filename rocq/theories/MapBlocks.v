(* Model of map_blocks (blocks.py:445-774) and its wrapper (776-958): a function
   applied to the blocks of several rasters. *)
From Verif Require Import Base Scalars Chunks Arr2 BlockArgs Bands.
Open Scope Z_scope.

(* a raster with its chunks along bands, rows and columns *)
Record braster := BRaster { b_dtype : dtype; b_nv : option num; b_chunks : chunks3; b_data : arr3 num; b_mask : arr3 bool }.
(* a block of data or of a mask, or the whole array *)
Inductive blk := BData (a : arr3 num) | BMask (a : arr3 bool).
Definition cut_blk (bs rs cs : Z * Z) (x : blk) : blk :=
  match x with BData a => BData (slice3 a bs rs cs) | BMask a => BMask (slice3 a bs rs cs) end.

(* what the caller's function returns: an array, or a pair (data, mask) *)
Inductive fresult := RData (d : arr3 num) | RPair (d : arr3 num) (m : arr3 bool).
(* the caller's function with the keywords it names (input_null_values and
   block_info are constant or derived from the block's position and left out) *)
Record func := Func { wants_masks : bool; wants_out_nv : bool;
  run : list blk -> option (list blk) -> option (option num) -> Z * Z * Z -> res fresult }.

Definition len3 {A} (a : arr3 A) : list (list Z) := map (fun band => map (fun row => len row) band) a.
Fixpoint lists_eqb (a b : list (list Z)) : bool :=
  match a, b with
  | [], [] => true
  | x :: a, y :: b => (if list_eq_dec Z.eq_dec x y then true else false) && lists_eqb a b
  | _, _ => false
  end.
Definition same_shape3 {A B} (a : arr3 A) (b : arr3 B) : bool := lists_eqb (len3 a) (len3 b).

Section MapBlocks.
(* x.astype(d) *)
Variable cast : dtype -> num -> num.
(* the y and x chunks that dask chooses for "auto" *)
Variable auto : list Z * list Z.

(* blocks.py:1069-1087 _align_chunks_to_ref; r.chunk changes only the chunks *)
Definition align_to (target : chunks3) (rasters : list braster) : list braster :=
  map (fun r => if chunks3_eqb (b_chunks r) target then r
                else BRaster (b_dtype r) (b_nv r) target (b_data r) (b_mask r)) rasters.

(* blocks.py:844-909 _wrapper and 914-958 _pack_data_mask on a real block
   (block_info is not None).  The meta call of dask on empty arrays, which only
   infers the dtype, is not modelled: the dtype is inferred. *)
Definition wrapper_args (f : func) (block_args : list blk) (out_nv : res (option num)) (id : Z * Z * Z) : res fresult :=
  let n := len block_args in
  let input_data := if wants_masks f then firstn (Z.to_nat (n / 2)) block_args else block_args in
  let input_masks := if wants_masks f then Some (skipn (Z.to_nat (n / 2)) block_args) else None in
  let* nv := if wants_out_nv f then let* nv := out_nv in Ok (Some nv) else Ok None in
  run f input_data input_masks nv id.
Definition wrapper (f : func) (out_bands : option Z) (block_args : list blk) (out_nv : res (option num)) (id : Z * Z * Z) : res (arr3 num) :=
  let* result := wrapper_args f block_args out_nv id in
  match result with
  | RPair _ _ => Err TypeError
  | RData d =>
      match out_bands with
      | Some k => if negb (len d =? k) then Err ValueError else Ok d
      | None => Ok d
      end
  end.
(* the structured array of pairs *)
Definition zip3 {A B} (a : arr3 A) (b : arr3 B) : arr3 (A * B) :=
  map (fun '(x, y) => map (fun '(u, v) => combine u v) (combine x y)) (combine a b).
Definition map3 {A B} (g : A -> B) (a : arr3 A) : arr3 B := map (map (map g)) a.
Definition wrapper_pair (f : func) (out_bands : option Z) (hint : option dtype) (block_args : list blk) (out_nv : res (option num)) (id : Z * Z * Z)
  : res (arr3 (num * bool)) :=
  let* result := wrapper_args f block_args out_nv id in
  match result with
  | RData _ => Err ValueError
  | RPair d m =>
      if match out_bands with Some k => negb (len d =? k) | None => false end then Err ValueError
      else if negb (same_shape3 m d) then Err ValueError
      else Ok (zip3 (match hint with Some h => map3 (cast h) d | None => d end) m)
  end.

(* da.map_blocks: the block at every chunk location of the (equally chunked)
   inputs, put together again; nout is the number of bands of the result of a block
   that covers the given bands *)
Definition enumerate {A} (l : list A) : list (Z * A) := combine (zrange 0 (len l)) l.
Definition dask_map_blocks {B} (f : list blk -> Z * Z * Z -> res (arr3 B)) (nout : Z * Z -> Z) (chunks : chunks3) (inputs : list blk) : res (arr3 B) :=
  let '(bcs, ycs, xcs) := chunks in
  let* bands := traverse (fun '(kb, bs) =>
    let* rows := traverse (fun '(ky, rs) =>
      let* blocks := traverse (fun '(kx, cs) => f (map (cut_blk bs rs cs) inputs) (kb, ky, kx))
        (enumerate (chunks_to_array_locations xcs)) in
      join hcat (nout bs) blocks) (enumerate (chunks_to_array_locations ycs)) in
    join (fun bs => concat bs) (nout bs) rows) (enumerate (chunks_to_array_locations bcs)) in
  Ok (concat bands).

(* raster.py:485-505 get_mask_from_data *)
Definition is_null (nv : option num) (x : num) : bool :=
  match nv with None => false | Some v => if is_nan v then is_nan x else num_eqb x v end.

(* blocks.py:695-774 map_blocks.  func is called with dtype_ and meta given and
   returns blocks of dtype inferred. *)
Definition map_blocks (f : func) (rasters : list braster) (dtype_ meta : option dtype) (inferred : dtype) (null_value : nvarg)
  (out_bands : option Z) (return_mask : bool) : res braster :=
  match rasters with
  | [] => Err ValueError
  | ref :: _ =>
      let* _ := check_dtype_meta_agree dtype_ meta in
      if negb (forallb (fun r => same_shape3 (b_data r) (b_data ref)) rasters) then Err ValueError
      else if match out_bands with Some k => k <? 1 | None => false end then Err ValueError
      else
        let nb := len (b_data ref) in
        let target := match out_bands with None => b_chunks ref | Some _ => ([nb], fst auto, snd auto) end in
        let rasters := align_to target rasters in
        (* da.map_blocks would bring other chunks into line by itself: not modelled *)
        if negb (forallb (fun r => chunks3_eqb (b_chunks r) target) rasters) then Err ValueError else
        let nout := fun bs => match out_bands with Some k => k | None => snd bs - fst bs end in
        let hint := out_dtype_hint dtype_ meta in
        let inputs := map (fun r => BData (b_data r)) rasters
                      ++ (if wants_masks f then map (fun r => BMask (b_mask r)) rasters else []) in
        let n := len rasters in
        let out_nv := wrapper_out_nv return_mask dtype_ meta inferred null_value (b_dtype ref) (b_nv ref) n in
        let odt := out_data_dtype dtype_ meta inferred in
        let chunks := (full (match out_bands with Some k => k | None => nb end) 1, snd (fst (b_chunks ref)), snd (b_chunks ref)) in
        if return_mask then
          let* struct := dask_map_blocks (fun args id => wrapper_pair f out_bands hint args out_nv id) nout target inputs in
          let data := map3 fst struct in
          let mask := map3 snd struct in
          let* nv := final_nv dtype_ meta inferred null_value (b_dtype ref) (b_nv ref) n in
          let nv := match nv with Some v => v | None => default_null odt end in
          Ok (BRaster odt (Some nv) chunks (where3 mask nv data) mask)
        else
          let* data := dask_map_blocks (fun args id => wrapper f out_bands args out_nv id) nout target inputs in
          let* nv := final_nv dtype_ meta inferred null_value (b_dtype ref) (b_nv ref) n in
          Ok (BRaster odt nv chunks data (map3 (is_null nv) data))
  end.
End MapBlocks.
