(* Model of stat_common.py: statistics of a collection of values that may contain
   NaN.  Values are exact numbers (Scalars.v); x is the array after ravel(). *)
From Coq Require Import QArith.
From Verif Require Import Base Scalars.
Open Scope Z_scope.

(* A numba dict from floats to counts, in insertion order.  Keys are compared
   with ==; NaN is never inserted. *)
Fixpoint bump (c : list (num * Z)) (v : num) : list (num * Z) :=
  match c with
  | [] => [(v, 1)]                                       (* c[v] = 1 *)
  | (k, n) :: t => if num_eqb k v then (k, n + 1) :: t   (* c[v] += 1 *)
                   else (k, n) :: bump t v
  end.
Fixpoint lookup_count (c : list (num * Z)) (v : num) : res Z :=
  match c with
  | [] => Err KeyError
  | (k, n) :: t => if num_eqb k v then Ok n else lookup_count t v
  end.

(* stat_common.py:95-104 nan_unique_count_jit; s is the set *)
Definition set_add (s : list num) (v : num) : list num :=
  if existsb (fun k => num_eqb k v) s then s else s ++ [v].
Definition nan_unique_count (x : list num) : Z :=
  len (fold_left (fun s v => if is_nan v then s else set_add s v) x []).

(* vals.sort() *)
Fixpoint insert (v : num) (l : list num) : list num :=
  match l with
  | [] => [v]
  | h :: t => if num_leb v h then v :: h :: t else h :: insert v t
  end.
Definition sort (l : list num) : list num := fold_right insert [] l.

(* np.argmax of a non-empty array: the first index of the largest entry *)
Fixpoint argmax_from (j m i : Z) (l : list Z) : Z :=
  match l with
  | [] => j
  | v :: t => if m <? v then argmax_from i v (i + 1) t else argmax_from j m (i + 1) t
  end.
Definition argmax (l : list Z) : res Z :=
  match l with
  | [] => Err ValueError
  | v :: t => Ok (argmax_from 0 v 1 t)
  end.

(* [f(v) for v in l] *)
Fixpoint mapE {A B} (f : A -> res B) (l : list A) : res (list B) :=
  match l with
  | [] => Ok []
  | x :: t => let* y := f x in let* ys := mapE f t in Ok (y :: ys)
  end.

(* stat_common.py:108-130 nanmode_jit.  The loop moves the valid values to the
   front of x itself. *)
Definition mode_step (s : list (num * Z) * list num * Z) (i : Z)
  : res (list (num * Z) * list num * Z) :=
  let '(c, x, j) := s in
  let* v := get x i in
  if is_nan v then Ok (c, x, j)
  else let* x := set x j v in Ok (bump c v, x, j + 1).
Definition nanmode (x : list num) : res num :=
  let* '(c, x, j) := foldM mode_step (zrange 0 (len x)) ([], x, 0) in
  let vals := slice x 0 j in
  if len vals =? 0 then Ok NaN
  else
    let vals := sort vals in
    let* cnts := mapE (lookup_count c) vals in
    let* k := argmax cnts in
    get vals k.

(* stat_common.py:134-172: the loop shared by nanentropy_jit and nanasm_jit *)
Definition counts (x : list num) : list (num * Z) * Z :=
  fold_left (fun '(c, n) v => if is_nan v then (c, n) else (bump c v, n + 1)) x ([], 0).

(* The sums over c.values(), for any arithmetic: [frac n] is 1.0 / n, [term frac
   acc cnt] the body of the loop. *)
Section Sums.
Context {S : Type}.
Variables (zero : S) (frac : Z -> S) (term : S -> S -> Z -> S).
Definition sum_counts (x : list num) : S :=
  let '(c, n) := counts x in
  if 0 <? n then fold_left (fun acc kc => term (frac n) acc (snd kc)) c zero else zero.
End Sums.

(* stat_common.py:176-220 nanargmin_jit, nanargmax_jit *)
Fixpoint argopt (better : num -> num -> bool) (x : list num) (i j : Z) (best : num) : Z :=
  match x with
  | [] => j
  | v :: t => if is_nan v then argopt better t (i + 1) j best
              else if better v best then argopt better t (i + 1) i v
              else argopt better t (i + 1) j best
  end.
Definition nanargmin (x : list num) : Z :=
  if len x =? 0 then -1
  else if forallb is_nan x then -2
  else argopt num_ltb x 0 0 PInf.
Definition nanargmax (x : list num) : Z :=
  if len x =? 0 then -1
  else if forallb is_nan x then -2
  else argopt (fun v m => num_ltb m v) x 0 0 MInf.
