(* Model of the keyword arguments of map_blocks, map_overlap, geo_map_blocks and
   geo_map_overlap (blocks.py): which ones are refused, which ones the caller's function is
   called with, and the values that are put in for each block.  The blocks themselves and
   the results are in MapBlocks.v, MapOverlap.v and GeoMap.v. *)
From Coq Require Import String.
From Verif Require Import Base.
Open Scope Z_scope.

Inductive mapper := MapBlocks | MapOverlap | GeoMapBlocks | GeoMapOverlap.
Definition is_overlap (m : mapper) : bool := match m with MapOverlap | GeoMapOverlap => true | _ => false end.
Definition is_geo (m : mapper) : bool := match m with GeoMapBlocks | GeoMapOverlap => true | _ => false end.

Definition has (names : list string) (k : string) : bool := existsb (String.eqb k) names.

(* blocks.py:445-454, 1223-1233, 1807-1816, 2142-2152: keyword parameters of the functions
   themselves; the methods of Raster (raster.py:2353-2470) hand over theirs unchanged *)
Definition own (m : mapper) : list string :=
  ["func"; "dtype"; "null_value"; "meta"; "return_mask"]%string ++ (if is_overlap m then ["depth"; "boundary"]%string else ["out_bands"]%string).
(* blocks.py:318-326 and 1540-1542 *)
Definition map_blocks_reserved : list string := ["input_masks"; "input_null_values"; "block_info"; "block_id"; "out_null_value"]%string.
Definition reserved (m : mapper) : list string := map_blocks_reserved ++ (if is_geo m then ["geo_block_info"]%string else []).
(* blocks.py:338-351 *)
Definition dask_reserved : list string :=
  ["chunks"; "name"; "token"; "drop_axis"; "new_axis"; "enforce_ndim"; "concatenate"; "align_arrays"; "trim"; "allow_rechunk"]%string.

Section Dicts.
Context {V : Type}.
Definition dict := list (string * V).
Definition keys (d : dict) : list string := map fst d.
(* d.get(k) *)
Fixpoint lookup (k : string) (d : dict) : option V :=
  match d with [] => None | (k', v) :: d => if String.eqb k k' then Some v else lookup k d end.
(* d[k] = v *)
Fixpoint assign (k : string) (v : V) (d : dict) : dict :=
  match d with [] => [(k, v)] | (k', v') :: d => if String.eqb k k' then (k', v) :: d else (k', v') :: assign k v d end.
Definition without (names : list string) (d : dict) : dict := filter (fun p => negb (has names (fst p))) d.
(* the set & d.keys() is not empty *)
Definition collision (names : list string) (d : dict) : bool := existsb (has names) (keys d).
End Dicts.
Arguments dict : clear implicits.

(* what a keyword of the caller's function is given *)
Inductive value (V Block Info Loc Geo Nv : Type) :=
  | Given (v : V)                        (* by the caller *)
  | Masks (l : list Block)
  | Nulls (l : list Nv)
  | BlockInfo (i : option Info)
  | BlockId (i : option Loc)
  | OutNull (n : Nv)
  | GeoInfo (g : option Geo).
Arguments Given {V Block Info Loc Geo Nv}. Arguments Masks {V Block Info Loc Geo Nv}. Arguments Nulls {V Block Info Loc Geo Nv}.
Arguments BlockInfo {V Block Info Loc Geo Nv}. Arguments BlockId {V Block Info Loc Geo Nv}. Arguments OutNull {V Block Info Loc Geo Nv}.
Arguments GeoInfo {V Block Info Loc Geo Nv}.

Section Keywords.
Variables V Block Info Loc Geo Nv Dt : Type.
Notation value := (value V Block Info Loc Geo Nv).

(* block_info[None]["chunk-location"] and block_info[None]["dtype"] *)
Variable location : Info -> Loc.
Variable chunk_dtype : Info -> Dt.
(* gbi_resolver(block_info, block_args, gbi_lookup), see GeoMap.v *)
Variable geo_info : Info -> Geo.
(* GeoBlockInfo.to_dataarray and, without block_info, _meta_dataarray *)
Variable to_dataarray : option Geo -> Block -> Block.
(* _resolve_out_null_value with the arguments that do not depend on the block (C45) *)
Variable resolve : Dt -> Nv.
(* np.zeros((), dtype=ref_dtype)[()] *)
Variable placeholder : Nv.
(* Keywords that dask's map_blocks or map_overlap takes for itself, and ones that it also
   passes to the functions it calls: these are a TypeError if they are given *)
Variable dask_takes dask_passes : mapper -> list string.

(* blocks.py:384-391, 393-406 and 1098-1111 *)
Definition check_keywords (m : mapper) (kwargs : dict V) : res unit :=
  if collision dask_reserved kwargs then Err ValueError
  else if is_overlap m && has (keys kwargs) "out_bands" then Err ValueError
  else if collision (reserved m) kwargs then Err ValueError
  else Ok tt.

(* blocks.py:820-824, 1639-1644 dask.utils.has_keyword: the names of the parameters of the
   function (params), whatever their kind; the names of *args and **kwargs are left out *)

(* blocks.py:844-890 and 1663-1729 _wrapper, up to the call of the function: its
   positional and its keyword arguments *)
Definition wrapper (m : mapper) (params : list string) (nvs : list Nv) (hint : option Dt)
  (block_args : list Block) (block_info : option Info) (kwargs : dict value) : list Block * dict value :=
  let pass_masks := has params "input_masks" in
  let n := len block_args in
  let data := if pass_masks then slice block_args 0 (n / 2) else block_args in
  let masks := if pass_masks then slice block_args (n / 2) n else [] in
  let gbi := option_map geo_info block_info in
  let conv := if is_geo m then map (to_dataarray gbi) else (fun l => l) in
  let put k v d := if has params k then assign k v d else d in
  let kwargs := put "input_masks"%string (Masks (conv masks)) kwargs in
  let kwargs := put "block_info"%string (BlockInfo block_info) kwargs in
  let kwargs := put "block_id"%string (BlockId (option_map location block_info)) kwargs in
  let kwargs := put "input_null_values"%string (Nulls nvs) kwargs in
  let kwargs := if is_geo m then put "geo_block_info"%string (GeoInfo gbi) kwargs else kwargs in
  let out_nv := match block_info with
                | None => placeholder
                | Some i => resolve (match hint with Some d => d | None => chunk_dtype i end)
                end in
  let kwargs := put "out_null_value"%string (OutNull out_nv) kwargs in
  (conv data, kwargs).

(* blocks.py:703-707, 720-766 (and the same in the other three): from the call to the one
   of the function for one block, or for the inference of the dtype (no block_info).
   given: all keywords of the call; data, masks: the blocks of the rasters *)
Definition call (m : mapper) (params : list string) (nvs : list Nv) (hint : option Dt)
  (given : dict V) (data masks : list Block) (block_info : option Info) : res (list Block * dict value) :=
  let kwargs := without (own m) given in
  let* _ := check_keywords m kwargs in
  if collision (dask_passes m) kwargs then Err TypeError else
  let inputs := if has params "input_masks" then data ++ masks else data in
  let rest := without (dask_takes m) kwargs in
  Ok (wrapper m params nvs hint inputs block_info (map (fun p => (fst p, Given (snd p))) rest)).
End Keywords.
