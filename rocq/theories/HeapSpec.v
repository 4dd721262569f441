(* Specification of the priority queue, independent of its implementation: a
   map from cell numbers to keys. *)
From Verif Require Import Base Heap.
From Coq Require Import Sorted.

Section HeapSpec.
Context {K : Type} (leb ltb : K -> K -> bool) (inf : K) (ok : K -> bool).

Definition qmap := Z -> option K.

Definition empty_map : qmap := fun _ => None.
Definition unchanged (m m' : qmap) : Prop := forall w, m' w = m w.
Definition put (m m' : qmap) (v : Z) (k : K) : Prop :=
  forall w, m' w = if w =? v then Some k else m w.
Definition del (m m' : qmap) (v : Z) : Prop :=
  forall w, m' w = if w =? v then None else m w.

(* What one call may do to the map and what it must return. [mx] is the
   largest cell number the queue was created for. *)
Definition spec_step (mx : Z) (m : qmap) (o : @op K) (x : @out K) (m' : qmap)
  : Prop :=
  match o, x with
  | Push k v, Code c =>
      (0 <= v <= mx -> m v = None -> c = 1 /\ put m m' v k)
      /\ (forall k0, 0 <= v <= mx -> m v = Some k0 -> c = 0 /\ put m m' v k)
      /\ (~ 0 <= v <= mx -> c = -1 /\ unchanged m m')
  | PushIfLower k v, Code c =>
      (0 <= v <= mx -> m v = None -> c = 1 /\ put m m' v k)
      /\ (forall k0, 0 <= v <= mx -> m v = Some k0 -> ltb k k0 = true ->
            c = 1 /\ put m m' v k)
      /\ (forall k0, 0 <= v <= mx -> m v = Some k0 -> ltb k k0 = false ->
            c = 0 /\ unchanged m m')
      /\ (~ 0 <= v <= mx -> c = -1 /\ unchanged m m')
  | Pop, Popped k v =>
      ((forall w, m w = None) /\ k = inf /\ unchanged m m')
      \/ (m v = Some k
          /\ (forall w kw, m w = Some kw -> leb k kw = true)
          /\ del m m' v)
  | _, _ => False
  end.

Inductive spec_run (mx : Z) : qmap -> list (@op K) -> list (@out K) -> qmap -> Prop :=
| spec_nil m m' : unchanged m m' -> spec_run mx m [] [] m'
| spec_cons m o x m1 ops xs m2 :
    spec_step mx m o x m1 -> spec_run mx m1 ops xs m2 ->
    spec_run mx m (o :: ops) (x :: xs) m2.

(* The map has exactly n entries. *)
Definition has_size (m : qmap) (n : Z) : Prop :=
  exists dom : list Z, NoDup dom /\ (forall v, In v dom <-> m v <> None)
    /\ len dom = n.

(* The keys of a history are acceptable (for floats: none is NaN). *)
Definition op_ok (o : @op K) : Prop :=
  match o with
  | Push k _ | PushIfLower k _ => ok k = true
  | Pop => True
  end.

(* Keys come out in non-decreasing order. *)
Definition sorted_keys (l : list (K * Z)) : Prop :=
  StronglySorted (fun a b => leb (fst a) (fst b) = true) l.

End HeapSpec.
