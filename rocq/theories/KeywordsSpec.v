(* What the keywords of the four functions have to mean. *)
From Coq Require Import String.
From Verif Require Import Base Keywords.
Open Scope Z_scope.

(* documented as reserved for the values of each block *)
Inductive injected : mapper -> string -> Prop :=
  | i_masks m : injected m "input_masks"
  | i_nulls m : injected m "input_null_values"
  | i_info m : injected m "block_info"
  | i_id m : injected m "block_id"
  | i_out m : injected m "out_null_value"
  | i_geo_blocks : injected GeoMapBlocks "geo_block_info"
  | i_geo_overlap : injected GeoMapOverlap "geo_block_info".

(* options of dask, which cannot be used *)
Definition dask_option (k : string) : Prop :=
  List.In k ["allow_rechunk"; "align_arrays"; "chunks"; "concatenate"; "drop_axis"; "enforce_ndim"; "name"; "new_axis"; "token"; "trim"]%string.

(* parameters of the functions *)
Inductive parameter : mapper -> string -> Prop :=
  | p_func m : parameter m "func"
  | p_dtype m : parameter m "dtype"
  | p_meta m : parameter m "meta"
  | p_nv m : parameter m "null_value"
  | p_mask m : parameter m "return_mask"
  | p_bands : parameter MapBlocks "out_bands"
  | p_geo_bands : parameter GeoMapBlocks "out_bands"
  | p_depth : parameter MapOverlap "depth"
  | p_geo_depth : parameter GeoMapOverlap "depth"
  | p_boundary : parameter MapOverlap "boundary"
  | p_geo_boundary : parameter GeoMapOverlap "boundary".

(* names that the caller cannot hand to the function *)
Inductive refused : mapper -> string -> Prop :=
  | r_injected m k : injected m k -> refused m k
  | r_dask m k : dask_option k -> refused m k
  | r_bands : refused MapOverlap "out_bands"
  | r_geo_bands : refused GeoMapOverlap "out_bands".

(* the caller gives k the value v *)
Definition gives {V} (d : list (string * V)) (k : string) (v : V) : Prop := List.In (k, v) d.
(* keywords of a call are distinct *)
Definition keywords {V} (d : list (string * V)) : Prop := NoDup (map fst d).

Section Arguments.
Variables V Block Info Loc Geo Nv Dt : Type.
Variable location : Info -> Loc.
Variable chunk_dtype : Info -> Dt.
Variable geo_info : Info -> Geo.
Variable to_dataarray : option Geo -> Block -> Block.
Variable resolve : Dt -> Nv.
Variable placeholder : Nv.

(* the dtype of the result: the one asked for, or else the one that dask found *)
Definition result_dtype (hint : option Dt) (i : Info) : Dt := match hint with Some d => d | None => chunk_dtype i end.
(* the blocks are georeferenced by the functions that begin with geo_ *)
Inductive block_of : mapper -> option Info -> Block -> Block -> Prop :=
  | plain_blocks i b : block_of MapBlocks i b b
  | plain_overlap i b : block_of MapOverlap i b b
  | geo_blocks i b : block_of GeoMapBlocks i b (to_dataarray (option_map geo_info i) b)
  | geo_overlap i b : block_of GeoMapOverlap i b (to_dataarray (option_map geo_info i) b).

(* The keyword arguments that the function is called with: its parameters are named
   params, the caller's keywords are given.  i is None while the dtype is inferred. *)
Inductive argument (m : mapper) (params : list string) (nvs : list Nv) (hint : option Dt) (given : list (string * V))
  (masks : list Block) : option Info -> string -> value V Block Info Loc Geo Nv -> Prop :=
  | a_given i k v : gives given k v -> ~ parameter m k -> argument m params nvs hint given masks i k (Given v)
  | a_masks i l : List.In "input_masks"%string params -> Forall2 (block_of m i) masks l ->
      argument m params nvs hint given masks i "input_masks" (Masks l)
  | a_nulls i : List.In "input_null_values"%string params -> argument m params nvs hint given masks i "input_null_values" (Nulls nvs)
  | a_info i : List.In "block_info"%string params -> argument m params nvs hint given masks i "block_info" (BlockInfo i)
  | a_id i : List.In "block_id"%string params -> argument m params nvs hint given masks (Some i) "block_id" (BlockId (Some (location i)))
  | a_id_none : List.In "block_id"%string params -> argument m params nvs hint given masks None "block_id" (BlockId None)
  | a_out i : List.In "out_null_value"%string params ->
      argument m params nvs hint given masks (Some i) "out_null_value" (OutNull (resolve (result_dtype hint i)))
  | a_out_none : List.In "out_null_value"%string params -> argument m params nvs hint given masks None "out_null_value" (OutNull placeholder)
  | a_geo i : injected m "geo_block_info" -> List.In "geo_block_info"%string params ->
      argument m params nvs hint given masks (Some i) "geo_block_info" (GeoInfo (Some (geo_info i)))
  | a_geo_none : injected m "geo_block_info" -> List.In "geo_block_info"%string params ->
      argument m params nvs hint given masks None "geo_block_info" (GeoInfo None).
End Arguments.
