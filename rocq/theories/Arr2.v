(* Two-dimensional arrays and dask's map_overlap, shared by the models of the
   neighbourhood operations (focal, surface, morphology).

   dask itself is not part of /repo.  Its map_overlap is modelled by what it does:
   extend the array by [depth] cells on every side, hand each chunk over together
   with [depth] cells around it, cut the same margin off the results and put them
   next to each other. *)
From Verif Require Import Base Chunks.
Open Scope Z_scope.

Definition arr2 (A : Type) := list (list A).
Definition get2 {A} (a : arr2 A) (i j : Z) : res A := let* r := get a i in get r j.
Definition set2 {A} (a : arr2 A) (i j : Z) (v : A) : res (arr2 A) :=
  let* r := get a i in let* r := set r j v in set a i r.

(* [f(x) for x in l] *)
Fixpoint traverse {A B} (f : A -> res B) (l : list A) : res (list B) :=
  match l with
  | [] => Ok []
  | x :: t => let* y := f x in let* ys := traverse f t in Ok (y :: ys)
  end.

(* How an array is continued beyond its edge: dask's boundary kinds, which are
   also the modes of scipy.ndimage (wrap = periodic). *)
Inductive boundary := Reflect | Nearest | Wrap | Constant.
(* the index that is used at position i of an axis of n cells; None: the constant *)
Definition extend (b : boundary) (n i : Z) : option Z :=
  if (0 <=? i) && (i <? n) then Some i
  else match b with
       | Constant => None
       | Nearest => Some (if i <? 0 then 0 else n - 1)
       | Wrap => Some (i mod n)
       | Reflect => let m := i mod (2 * n) in Some (if m <? n then m else 2 * n - 1 - m)
       end.
(* The extended array at (i, j) *)
Definition cell {A} (b : boundary) (cval : A) (a : arr2 A) (ny nx i j : Z) : res A :=
  match extend b ny i, extend b nx j with
  | Some i', Some j' => get2 a i' j'
  | _, _ => Ok cval
  end.
(* rows r0 .. r1 - 1 and columns c0 .. c1 - 1 of the extended array *)
Definition window {A} (b : boundary) (cval : A) (a : arr2 A) (ny nx r0 r1 c0 c1 : Z) : res (arr2 A) :=
  traverse (fun i => traverse (fun j => cell b cval a ny nx i j) (zrange c0 c1)) (zrange r0 r1).

(* a[dy:-dy, dx:-dx] *)
Definition trim2 {A} (dy dx : Z) (a : arr2 A) : arr2 A :=
  map (fun row => slice row dx (len row - dx)) (slice a dy (len a - dy)).

(* np.block of a row of blocks *)
Fixpoint hcat {A} (blocks : list (arr2 A)) : arr2 A :=
  match blocks with
  | [] => []
  | [b] => b
  | b :: t => map (fun '(x, y) => x ++ y) (combine b (hcat t))
  end.

(* data.map_overlap(f, depth={0: 0, 1: dy, 2: dx}, boundary=...) on one band with
   row chunks ycs and column chunks xcs.  dask refuses an overlap larger than the
   array; chunks smaller than the overlap are merged first, that is, another
   chunking is used. *)
Definition map_overlap {A B} (b : boundary) (cval : A) (ny nx dy dx : Z) (ycs xcs : list Z)
  (f : Z -> Z -> arr2 A -> res (arr2 B)) (a : arr2 A) : res (arr2 B) :=
  if (ny <? dy) || (nx <? dx) then Err ValueError
  else
    let* rows :=
      traverse (fun '(r0, r1) =>
        let* blocks :=
          traverse (fun '(c0, c1) =>
            let* w := window b cval a ny nx (r0 - dy) (r1 + dy) (c0 - dx) (c1 + dx) in
            let* o := f (r1 - r0 + 2 * dy) (c1 - c0 + 2 * dx) w in
            Ok (trim2 dy dx o)) (chunks_to_array_locations xcs) in
        Ok (hcat blocks)) (chunks_to_array_locations ycs) in
    Ok (concat rows).
