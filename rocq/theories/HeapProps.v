(* C01, C02, C03: the priority queue of raster_tools/distance/_heap.py with
   binary64 keys. *)
From Coq Require SpecFloat.
From Flocq Require BinarySingleNaN.
From Verif Require Import Base Heap HeapSpec HeapProofs HeapRefine F64 F64Facts.

(* All entry points at the key type the code uses. *)
Notation init64 := (init_heap finf).
Notation run64 := (run fleb fltb finf).
Notation pop64 := (pop fleb fltb finf).
Notation spec_run64 := (spec_run fleb fltb finf).
Notation keys_ok ops := (Forall (op_ok fok) ops).

(* Any history of calls with non-NaN keys gives exactly the results a map from
   cells to keys dictates, and the entry count is the size of that map. *)
Theorem C01_queue_is_map : forall capacity mx ops,
  1 <= capacity -> 1 <= mx -> keys_ok ops ->
  exists h0 h outs m,
    init64 capacity mx = Ok h0 /\ run64 h0 ops = Ok (h, outs)
    /\ spec_run64 mx empty_map ops outs m /\ has_size m (hcount h).
Proof. exact (queue_is_map f64_KeyOrder). Qed.
Print Assumptions C01_queue_is_map.

(* In every reachable state pop reports a present entry of minimal key; popping
   an empty queue reports infinity and changes nothing. *)
Theorem C02_pop_minimal : forall capacity mx ops h0 h outs,
  1 <= capacity -> 1 <= mx -> keys_ok ops ->
  init64 capacity mx = Ok h0 -> run64 h0 ops = Ok (h, outs) ->
  exists m h' k v,
    spec_run64 mx empty_map ops outs m /\ pop64 h = Ok (h', k, v)
    /\ ((forall w, m w = None) -> k = finf /\ h' = h)
    /\ ((exists w, m w <> None) ->
          m v = Some k /\ forall w kw, m w = Some kw -> fleb k kw = true).
Proof. exact (pop_minimal f64_KeyOrder). Qed.
Print Assumptions C02_pop_minimal.

(* Popping everything yields all entries, each once, sorted by key. *)
Theorem C02_drain_is_sorted : forall capacity mx ops h0 h outs,
  1 <= capacity -> 1 <= mx -> keys_ok ops ->
  init64 capacity mx = Ok h0 -> run64 h0 ops = Ok (h, outs) ->
  exists m h' l,
    spec_run64 mx empty_map ops outs m
    /\ run64 h (repeat Pop (Z.to_nat (hcount h)))
       = Ok (h', map (fun p => Popped (fst p) (snd p)) l)
    /\ hcount h' = 0 /\ NoDup (map snd l) /\ sorted_keys fleb l
    /\ (forall k v, In (k, v) l <-> m v = Some k).
Proof. exact (drain_is_sorted f64_KeyOrder). Qed.
Print Assumptions C02_drain_is_sorted.

(* No call of any history touches an array out of bounds (in the model every
   out-of-bounds or negative index is an error). *)
Theorem C03_queue_memory_safe : forall capacity mx ops,
  1 <= capacity -> 1 <= mx -> keys_ok ops ->
  exists h0 r, init64 capacity mx = Ok h0 /\ run64 h0 ops = Ok r.
Proof. exact (queue_memory_safe f64_KeyOrder). Qed.
Print Assumptions C03_queue_memory_safe.

(* Creating a queue without room or cells is rejected. *)
Theorem C03_bad_arguments : forall capacity mx,
  capacity < 1 \/ mx < 1 -> init64 capacity mx = Err ValueError.
Proof. exact (init_bad_arguments). Qed.
Print Assumptions C03_bad_arguments.

(* The restriction to non-NaN keys is needed: with a NaN key in the queue, pop
   reports a slot that is not in use and then indexes the cross references
   with -1. *)
Theorem C03_nan_key_refuted : exists capacity mx ops h0,
  init64 capacity mx = Ok h0 /\ run64 h0 ops = Err IndexError.
Proof.
  exists 4, 3, [Push fnan 0; Pop]. eexists. split; vm_compute; reflexivity.
Qed.
Print Assumptions C03_nan_key_refuted.

(* Non-vacuity: a history with growth, overwriting, infinite keys and pops. *)
Definition example_ops : list (@op f64) :=
  [Push (f64_of_Z 5) 0; Push (f64_of_Z 3) 1; PushIfLower (f64_of_Z 4) 0;
   Push finf 2; PushIfLower (f64_of_Z 9) 1; Push (f64_of 1 (-1)) 7;
   Pop; Pop; Push (f64_of_Z (-2)) 12; Pop].

(* Observable view of results without the proofs inside Flocq floats. *)
Definition view (x : @out f64) : Z * option (SpecFloat.spec_float * Z) :=
  match x with
  | Code c => (c, None)
  | Popped k v => (0, Some (BinarySingleNaN.B2SF k, v))
  end.

Example C01_example_hyps : 1 <= 2 /\ 1 <= 7 /\ keys_ok example_ops.
Proof. split; [lia|]. split; [lia|]. repeat constructor. Qed.

Example C01_example_run :
  (let* h0 := init64 2 7 in
   let* '(h, outs) := run64 h0 example_ops in
   Ok (map view outs, hcount h))
  = Ok (map view
          [Code 1; Code 1; Code 1; Code 1; Code 0; Code 1;
           Popped (f64_of 1 (-1)) 7; Popped (f64_of_Z 3) 1; Code (-1);
           Popped (f64_of_Z 4) 0], 1).
Proof. vm_compute. reflexivity. Qed.
