(* C88: the keywords of map_blocks, map_overlap, geo_map_blocks and geo_map_overlap. *)
From Coq Require Import String.
From Verif Require Import Base Keywords KeywordsSpec KeywordsProofs.
Open Scope Z_scope.

(* The function is called with one block of each raster, in order, and exactly with the
   caller's keywords and the values of the block that it asks for by name; dask takes only
   keywords that cannot be given (takes). *)
Theorem C88_arguments : forall V Block Info Loc Geo Nv Dt location chunk_dtype geo_info to_dataarray resolve placeholder takes passes
  m params nvs hint given data masks i out,
  (forall k, List.In k (takes m) -> refused m k \/ parameter m k) ->
  keywords given -> len data = len masks ->
  call V Block Info Loc Geo Nv Dt location chunk_dtype geo_info to_dataarray resolve placeholder takes passes m params nvs hint given data masks i = Ok out ->
  Forall2 (block_of Block Info Geo geo_info to_dataarray m i) data (fst out) /\ keywords (snd out) /\
  (forall k u, gives (snd out) k u <-> argument V Block Info Loc Geo Nv Dt location chunk_dtype geo_info to_dataarray resolve placeholder m params nvs hint given masks i k u).
Proof. exact call_arguments. Qed.
Print Assumptions C88_arguments.

(* A ValueError exactly if a keyword of the call is reserved, an option of dask, or
   out_bands for a function with overlap. *)
Theorem C88_refused : forall V Block Info Loc Geo Nv Dt location chunk_dtype geo_info to_dataarray resolve placeholder takes passes
  m params nvs hint given data masks i,
  call V Block Info Loc Geo Nv Dt location chunk_dtype geo_info to_dataarray resolve placeholder takes passes m params nvs hint given data masks i = Err ValueError
  <-> exists k v, gives given k v /\ refused m k.
Proof. exact call_refused. Qed.
Print Assumptions C88_refused.

(* Other calls are carried out, if no keyword has a name that dask uses internally
   (passes) ... *)
Theorem C88_accepted : forall V Block Info Loc Geo Nv Dt location chunk_dtype geo_info to_dataarray resolve placeholder takes passes
  m params nvs hint given data masks i,
  (forall k v, gives given k v -> ~ refused m k) -> (forall k v, gives given k v -> parameter m k \/ ~ List.In k (passes m)) ->
  exists out, call V Block Info Loc Geo Nv Dt location chunk_dtype geo_info to_dataarray resolve placeholder takes passes m params nvs hint given data masks i = Ok out.
Proof. exact call_accepted. Qed.
Print Assumptions C88_accepted.

(* ... and are a TypeError otherwise. *)
Theorem C88_clash : forall V Block Info Loc Geo Nv Dt location chunk_dtype geo_info to_dataarray resolve placeholder takes passes
  m params nvs hint given data masks i k v,
  (forall k v, gives given k v -> ~ refused m k) -> gives given k v -> ~ parameter m k -> List.In k (passes m) ->
  call V Block Info Loc Geo Nv Dt location chunk_dtype geo_info to_dataarray resolve placeholder takes passes m params nvs hint given data masks i = Err TypeError.
Proof. exact call_clash. Qed.
Print Assumptions C88_clash.

(* ---- examples ---- *)
(* The parameters of dask's map_blocks and map_overlap, and the keywords that its map_blocks
   sets when it calls blockwise (dask.array.core, dask.array.overlap) *)
Definition dask_takes (m : mapper) : list string :=
  ["func"; "name"; "token"; "dtype"; "chunks"; "drop_axis"; "new_axis"; "enforce_ndim"; "meta"]%string
  ++ (if is_overlap m then ["depth"; "boundary"; "trim"; "align_arrays"; "allow_rechunk"]%string else []).
Definition dask_passes (m : mapper) : list string := ["out_ind"; "new_axes"; "concatenate"; "align_arrays"; "adjust_chunks"]%string.
Lemma dask_takes_ok m k : List.In k (dask_takes m) -> refused m k \/ parameter m k.
Proof.
  assert (HP : forall l, Forall (fun k => refused m k \/ parameter m k) l -> forall k, List.In k l -> refused m k \/ parameter m k)
    by (intros l H; now apply Forall_forall).
  apply HP. unfold dask_takes.
  destruct m; cbn [is_overlap app]; repeat (constructor; [try (right; constructor; fail); try (left; apply r_dask; cbv; tauto)|]); constructor.
Qed.

(* blocks are numbers, locations numbers, dtypes widths *)
Definition ex_call (m : mapper) (params : list string) (given : list (string * Z)) : res (list Z * dict (value Z Z Z Z Z Z)) :=
  call Z Z Z Z Z Z Z (fun i => i + 100) (fun i => 8) (fun i => i + 200) (fun g b => match g with Some g => b + 1000 | None => b end)
    (fun d => - d) 0 dask_takes dask_passes m params [7; 8] None given [1; 2] [3; 4] (Some 5).
Example C88_ex :
  ex_call GeoMapOverlap ["a"; "b"; "input_masks"; "scale"; "out_null_value"; "geo_block_info"]%string [("depth", 1); ("scale", 3)]%string
  = Ok ([1001; 1002], [("scale", Given 3); ("input_masks", Masks [1003; 1004]); ("geo_block_info", GeoInfo (Some 205)); ("out_null_value", OutNull (-8))]%string)
  /\ ex_call MapBlocks ["a"; "b"; "block_id"; "geo_block_info"]%string [("geo_block_info", 3)]%string
     = Ok ([1; 2], [("geo_block_info", Given 3); ("block_id", BlockId (Some 105))]%string)
  /\ ex_call MapBlocks ["a"; "b"]%string [("trim", 1)]%string = Err ValueError
  /\ ex_call MapOverlap ["a"; "b"; "out_bands"]%string [("out_bands", 1)]%string = Err ValueError
  /\ ex_call MapBlocks ["a"; "b"]%string [("block_info", 1)]%string = Err ValueError.
Proof. vm_compute. repeat split. Qed.

(* ---- finding ---- *)
(* "**kwargs are forwarded to func": new_axes, adjust_chunks and out_ind are neither refused
   nor forwarded, dask ends with a TypeError. *)
Theorem C88_forwarded_refuted : ~ (forall m params given, keywords given -> (forall k v, gives given k v -> ~ refused m k) ->
  exists out, ex_call m params given = Ok out).
Proof.
  intros H. destruct (H MapBlocks ["a"; "b"; "new_axes"]%string [("new_axes", 1)]%string) as (out & E).
  - repeat constructor. intros [].
  - intros k v [E|[]] R. inversion E; subst. inversion R as [m k Hi|m k Hd| |]; subst.
    + inversion Hi.
    + cbv in Hd. repeat (destruct Hd as [Hd|Hd]; [discriminate Hd|]). destruct Hd.
  - vm_compute in E. discriminate E.
Qed.
Print Assumptions C88_forwarded_refuted.
