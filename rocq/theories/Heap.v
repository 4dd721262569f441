(* Model of /repo/raster_tools/distance/_heap.py (whole file): the priority
   queue used by the cost-distance search.

   Keys are elements of an arbitrary type K with the comparisons the code uses
   (leb is <=, ltb is <); HeapProps.v instantiates K with IEEE binary64.
   Machine integers (int64 counts, int8 levels) are unbounded here: levels is
   at most 63 for arrays that fit in memory. *)
From Verif Require Import Base.

(* 2 ** levels, 1 << levels *)
Definition pow2 (n : nat) : Z := 2 ^ Z.of_nat n.

Section Heap.
Context {K : Type} (leb ltb : K -> K -> bool) (inf : K).

(* _heap.py:11-16 and 59: the four arrays of a heap plus its record. *)
Record heap := mkHeap {
  hkeys : list K;       (* keys: float64, length 2 * 2**levels *)
  hvals : list Z;       (* values: int64, length 2**levels *)
  hxrefs : list Z;      (* crossrefs: int64, length max_value + 1 *)
  hmax : Z;             (* heap[0].max_value *)
  hlevels : nat;        (* heap[0].levels *)
  hmin : nat;           (* heap[0].min_levels *)
  hcount : Z            (* heap[0].count *)
}.

(* Python's min(a, b). *)
Definition kmin (a b : K) : K := if ltb b a then b else a.

(* `i % 2 == 0` used as an integer *)
Definition even01 (i : Z) : Z := if i mod 2 =? 0 then 1 else 0.

(* _heap.py:49-51, the while loop choosing the number of levels. *)
Fixpoint init_levels (fuel : nat) (levels : nat) (capacity : Z) : res nat :=
  match fuel with
  | O => Err OutOfFuel
  | S f => if pow2 levels <? capacity then init_levels f (S levels) capacity
           else Ok levels
  end.

(* _heap.py:37-59 init_heap_data *)
Definition init_heap (capacity max_value : Z) : res heap :=
  if capacity <? 1 then Err ValueError
  else if max_value <? 1 then Err ValueError
  else
    let* levels := init_levels (S (Z.to_nat (Z.log2_up capacity))) 1 capacity in
    let n := pow2 levels in
    Ok (mkHeap (full (2 * n) inf) (full n (-1)) (full (max_value + 1) (-1))
               max_value levels levels 0).

(* _heap.py:67-71, the loop of _sift, n iterations left. *)
Fixpoint sift_loop (n : nat) (keys : list K) (i : Z) : res (list K) :=
  match n with
  | O => Ok keys
  | S n' =>
      let iplvl := (i - 1) / 2 in
      let* a := get keys i in
      let* b := get keys (i + 1) in
      let* keys' := set keys iplvl (kmin a b) in
      sift_loop n' keys' (iplvl - even01 iplvl)
  end.

(* _heap.py:63-71 _sift *)
Definition sift (keys : list K) (levels : nat) (i : Z) : res (list K) :=
  sift_loop (levels - 1) keys (i - even01 i).

(* _heap.py:80-81, the loop of _sift_all over range(ilvl, ilvl + n, 2). *)
Fixpoint sift_all_loop (n : nat) (keys : list K) (levels : nat) (i : Z)
  : res (list K) :=
  match n with
  | O => Ok keys
  | S n' =>
      let* keys' := sift keys levels i in
      sift_all_loop n' keys' levels (i + 2)
  end.

(* _heap.py:75-81 _sift_all; range(ilvl, ilvl+n, 2) has (n + 1) // 2 items *)
Definition sift_all (keys : list K) (levels : nat) : res (list K) :=
  let ilvl := pow2 levels - 1 in
  let n := ilvl + 1 in
  sift_all_loop (Z.to_nat ((n + 1) / 2)) keys levels ilvl.

(* _heap.py:90-106 _resize_levels, with new_levels = levels + inc_dec
   computed by the caller.  Returns (keys, values); the caller stores
   new_levels in the record. *)
Definition resize_levels (keys : list K) (vals : list Z) (levels : nat)
  (count : Z) (new_levels : nat) : res (list K * list Z) :=
  let n := pow2 new_levels in
  let new_keys := full (2 * n) inf in
  let new_vals := full n (-1) in
  let* '(new_keys, new_vals) :=
    if negb (count =? 0) then
      let inew := pow2 new_levels - 1 in
      let iold := pow2 levels - 1 in
      let n := Z.min inew iold + 1 in
      let* nk := set_slice new_keys inew (inew + n) (slice keys iold (iold + n)) in
      let* nv := set_slice new_vals 0 n (slice vals 0 n) in
      Ok (nk, nv)
    else Ok (new_keys, new_vals) in
  let* new_keys := sift_all new_keys new_levels in
  Ok (new_keys, new_vals).

(* _heap.py:113-142 _remove *)
Definition remove (h : heap) (i : Z) : res heap :=
  let lvl_start := pow2 (hlevels h) - 1 in
  let ilast := lvl_start + hcount h - 1 in
  let i_val := i - lvl_start in
  let i_val_last := hcount h - 1 in
  let* value := get (hvals h) i_val_last in
  let* xrefs := set (hxrefs h) value i_val in
  let* value := get (hvals h) i_val in
  let* xrefs := set xrefs value (-1) in
  let* klast := get (hkeys h) ilast in
  let* keys := set (hkeys h) i klast in
  let* vlast := get (hvals h) i_val_last in
  let* vals := set (hvals h) i_val vlast in
  let* keys := set keys ilast inf in
  let count := hcount h - 1 in
  if (hmin h <? hlevels h)%nat && (count <? pow2 (hlevels h - 2)) then
    let* '(keys, vals) :=
      resize_levels keys vals (hlevels h) count (hlevels h - 1) in
    Ok (mkHeap keys vals xrefs (hmax h) (hlevels h - 1) (hmin h) count)
  else
    let* keys := sift keys (hlevels h) i in
    let* keys := sift keys (hlevels h) ilast in
    Ok (mkHeap keys vals xrefs (hmax h) (hlevels h) (hmin h) count).

(* _heap.py:149-161 _simple_push *)
Definition simple_push (h : heap) (key : K) (value : Z) : res heap :=
  let lvl_size := pow2 (hlevels h) in
  let* '(keys, vals, levels, lvl_size) :=
    if lvl_size <=? hcount h then
      let* '(keys, vals) :=
        resize_levels (hkeys h) (hvals h) (hlevels h) (hcount h)
                      (S (hlevels h)) in
      Ok (keys, vals, S (hlevels h), 2 * lvl_size)
    else Ok (hkeys h, hvals h, hlevels h, lvl_size) in
  let i := lvl_size - 1 + hcount h in
  let* keys := set keys i key in
  let* vals := set vals (hcount h) value in
  let* xrefs := set (hxrefs h) value (hcount h) in
  let* keys := sift keys levels i in
  Ok (mkHeap keys vals xrefs (hmax h) levels (hmin h) (hcount h + 1)).

(* _heap.py:170-186 push: new state and status code *)
Definition push (h : heap) (key : K) (value : Z) : res (heap * Z) :=
  if negb ((0 <=? value) && (value <=? hmax h)) then Ok (h, -1)
  else
    let lvl_size := pow2 (hlevels h) in
    let* ii := get (hxrefs h) value in
    if negb (ii =? -1) then
      let i := lvl_size - 1 + ii in
      let* keys := set (hkeys h) i key in
      let* keys := sift keys (hlevels h) i in
      Ok (mkHeap keys (hvals h) (hxrefs h) (hmax h) (hlevels h) (hmin h)
                 (hcount h), 0)
    else
      let* h' := simple_push h key value in
      Ok (h', 1).

(* _heap.py:195-211 push_if_lower *)
Definition push_if_lower (h : heap) (key : K) (value : Z) : res (heap * Z) :=
  if negb ((0 <=? value) && (value <=? hmax h)) then Ok (h, -1)
  else
    let* icr := get (hxrefs h) value in
    if negb (icr =? -1) then
      let i := pow2 (hlevels h) - 1 + icr in
      let* k := get (hkeys h) i in
      if ltb key k then                           (* keys[i] > key *)
        let* keys := set (hkeys h) i key in
        let* keys := sift keys (hlevels h) i in
        Ok (mkHeap keys (hvals h) (hxrefs h) (hmax h) (hlevels h) (hmin h)
                   (hcount h), 1)
      else Ok (h, 0)
    else
      let* h' := simple_push h key value in
      Ok (h', 1).

(* _heap.py:222-223, tracing the smallest key; n iterations left *)
Fixpoint trace (n : nat) (keys : list K) (i : Z) : res Z :=
  match n with
  | O => Ok i
  | S n' =>
      let* a := get keys i in
      let* b := get keys (i + 1) in
      trace n' keys (if leb a b then i * 2 + 1 else (i + 1) * 2 + 1)
  end.

(* _heap.py:218-233 pop: new state, popped key, popped value *)
Definition pop (h : heap) : res (heap * K * Z) :=
  let* i := trace (hlevels h - 1) (hkeys h) 1 in
  let* a := get (hkeys h) i in
  let* b := get (hkeys h) (i + 1) in
  let i := if ltb b a then i + 1 else i in         (* keys[i] > keys[i+1] *)
  let ii := i - (pow2 (hlevels h) - 1) in
  let* popped_key := get (hkeys h) i in
  let* popped_value := get (hvals h) ii in
  if 0 <? hcount h then
    let* h' := remove h i in
    Ok (h', popped_key, popped_value)
  else Ok (h, popped_key, popped_value).

(* One call on the queue and what it returns.  The `heap` state is threaded as
   the callers in cost_distance.py do. *)
Inductive op :=
| Push (key : K) (value : Z)
| PushIfLower (key : K) (value : Z)
| Pop.

Inductive out :=
| Code (c : Z)              (* status returned by push / push_if_lower *)
| Popped (key : K) (value : Z).

Definition step (h : heap) (o : op) : res (heap * out) :=
  match o with
  | Push k v => let* '(h', c) := push h k v in Ok (h', Code c)
  | PushIfLower k v => let* '(h', c) := push_if_lower h k v in Ok (h', Code c)
  | Pop => let* '(h', k, v) := pop h in Ok (h', Popped k v)
  end.

(* A history of calls; stops at the first error. *)
Fixpoint run (h : heap) (ops : list op) : res (heap * list out) :=
  match ops with
  | [] => Ok (h, [])
  | o :: ops' =>
      let* '(h1, x) := step h o in
      let* '(h2, xs) := run h1 ops' in
      Ok (h2, x :: xs)
  end.

End Heap.
