(* Shared vocabulary of the model: results with Python-style errors, and
   arrays as lists indexed by integers.  Nothing here models code in /repo by
   itself; the area files cite the code. *)
From Coq Require Export List ZArith Lia Bool Arith.
Export ListNotations.
Open Scope Z_scope.

(* Python / numba failure modes that the model makes explicit. *)
Inductive err :=
| IndexError    (* access outside an array *)
| ValueError
| TypeError
| KeyError
| OutOfFuel.    (* a model loop ran out of fuel: excluded by the theorems *)

Inductive res (A : Type) :=
| Ok (a : A)
| Err (e : err).
Arguments Ok {A} a.
Arguments Err {A} e.

Definition rbind {A B} (r : res A) (f : A -> res B) : res B :=
  match r with Ok a => f a | Err e => Err e end.

Notation "'let*' x ':=' r 'in' k" := (rbind r (fun x => k))
  (at level 200, x name, r at level 100, k at level 200, right associativity).
Notation "'let*' ' p ':=' r 'in' k" := (rbind r (fun p => k))
  (at level 200, p pattern, r at level 100, k at level 200, right associativity).

Definition is_ok {A} (r : res A) : Prop := exists a, r = Ok a.

(* Length of an array as an integer. *)
Definition len {A} (l : list A) : Z := Z.of_nat (length l).

(* a[i]: reading outside the array is an error.  Negative indices are an error
   too (Python would wrap around); the theorems show they never occur. *)
Definition get {A} (l : list A) (i : Z) : res A :=
  if i <? 0 then Err IndexError
  else match nth_error l (Z.to_nat i) with
       | Some x => Ok x
       | None => Err IndexError
       end.

Fixpoint upd {A} (l : list A) (n : nat) (x : A) : list A :=
  match l, n with
  | [], _ => []
  | _ :: t, O => x :: t
  | h :: t, S n' => h :: upd t n' x
  end.

(* a[i] = x *)
Definition set {A} (l : list A) (i : Z) (x : A) : res (list A) :=
  if (0 <=? i) && (i <? len l) then Ok (upd l (Z.to_nat i) x)
  else Err IndexError.

(* np.full(n, x) *)
Definition full {A} (n : Z) (x : A) : list A := repeat x (Z.to_nat n).

(* a[lo:hi] with 0 <= lo <= hi: like numpy, clipped to the array. *)
Definition slice {A} (l : list A) (lo hi : Z) : list A :=
  firstn (Z.to_nat (hi - lo)) (skipn (Z.to_nat lo) l).

(* dst[lo:hi] = src: an error unless the destination slice has exactly the
   length of the source. *)
Definition set_slice {A} (dst : list A) (lo hi : Z) (src : list A)
  : res (list A) :=
  if (0 <=? lo) && (lo <=? hi) && (hi <=? len dst) && (len src =? hi - lo)
  then Ok (firstn (Z.to_nat lo) dst ++ src ++ skipn (Z.to_nat hi) dst)
  else Err ValueError.

(* for x in l: s = f(s, x) *)
Fixpoint foldM {S A} (f : S -> A -> res S) (l : list A) (s : S) : res S :=
  match l with
  | [] => Ok s
  | x :: t => let* s' := f s x in foldM f t s'
  end.

(* range(a, b) *)
Definition zrange (a b : Z) : list Z :=
  map (fun k => a + Z.of_nat k) (seq 0 (Z.to_nat (b - a))).
