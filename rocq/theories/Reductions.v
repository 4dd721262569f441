(* Model of Raster.sum, prod, mean, var, std, all and any, raster.py:70-141.  The dask
   functions they call are modelled as reductions over a tree of blocks (see Zonal.v;
   min and max are there); float rounding is left out. *)
From Coq Require Import Reals ZArith List.
From Verif Require Import Base Zonal.
Import ListNotations.
Open Scope R_scope.

(* the value of a cell: a finite number or NaN (None); its mask *)
Definition value := option R.
Definition masked_block := list (value * bool).
(* raster.py:134-135 data[~mask] *)
Definition select {V} (block : list (V * bool)) : list V := map fst (filter (fun p => negb (snd p)) block).
(* da.reduction: chunk on every block, combine on inner nodes, aggregate at the root *)
Fixpoint subtree {A S} (chunk : list A -> S) (combine : list S -> S) (t : tree (list A)) : S :=
  match t with
  | Leaf block => chunk block
  | Node ts => combine (map (subtree chunk combine) ts)
  end.
Definition reduce {A S T} (chunk : list A -> S) (combine : list S -> S) (aggregate : list S -> T) (ts : list (tree (list A))) : T :=
  aggregate (map (subtree chunk combine) ts).

(* np.sum, np.prod; nansum and nanprod of a block skip NaN *)
Definition Rsum (l : list R) : R := fold_left Rplus l 0.
Definition Rprod (l : list R) : R := fold_left Rmult l 1.
Definition not_nans (l : list value) : list R := flat_map opt_list l.
Definition raster_sum (ts : list (tree masked_block)) : R :=
  reduce (fun b => Rsum (not_nans (select b))) Rsum Rsum ts.
Definition raster_prod (ts : list (tree masked_block)) : R :=
  reduce (fun b => Rprod (not_nans (select b))) Rprod Rprod ts.

(* dask's mean_chunk, mean_combine, mean_agg with nansum and nannumel: (n, total);
   0 / 0 is NaN *)
Definition divide (a : R) (n : Z) : value := if (n =? 0)%Z then None else Some (a / IZR n).
Definition mean_chunk (l : list value) : Z * R := (len (not_nans l), Rsum (not_nans l)).
Definition mean_combine (l : list (Z * R)) : Z * R := (Zsum (map fst l), Rsum (map snd l)).
Definition mean_agg (l : list (Z * R)) : value := divide (Rsum (map snd l)) (Zsum (map fst l)).
Definition raster_mean (ts : list (tree masked_block)) : value :=
  reduce (fun b => mean_chunk (select b)) mean_combine mean_agg ts.

(* dask's moment_chunk, moment_combine, moment_agg with order 2, ddof 0, nansum and
   nannumel: (n, total, M).  Sums skip NaN, that is blocks without values. *)
Definition moment := (Z * R * R)%type.
Definition m_n (m : moment) : Z := let '(n, _, _) := m in n.
Definition m_total (m : moment) : R := let '(_, t, _) := m in t.
Definition m_M (m : moment) : R := let '(_, _, M) := m in M.
Definition minus (a b : value) : value := match a, b with Some a, Some b => Some (a - b) | _, _ => None end.
Definition times_square (n : Z) (d : value) : value := option_map (fun d => IZR n * (d * d)) d.
Definition moment_chunk (l : list value) : moment :=
  let n := len (not_nans l) in
  let total := Rsum (not_nans l) in
  let u := divide total n in
  (n, total, Rsum (not_nans (map (fun a => times_square 1 (minus a u)) l))).
Definition moment_helper (ms : list moment) : moment :=
  let n := Zsum (map m_n ms) in
  let total := Rsum (map m_total ms) in
  let mu := divide total n in
  let inner m := minus (divide (m_total m) (m_n m)) mu in
  (n, total, Rsum (map m_M ms) + Rsum (not_nans (map (fun m => times_square (m_n m) (inner m)) ms))).
Definition moment_agg (ms : list moment) : value := let m := moment_helper ms in divide (m_M m) (m_n m).
Definition raster_var (ts : list (tree masked_block)) : value :=
  reduce (fun b => moment_chunk (select b)) moment_helper moment_agg ts.
Definition raster_std (ts : list (tree masked_block)) : value := option_map sqrt (raster_var ts).

(* np.all, np.any: NaN is true *)
Section AllAny.
Context {V : Type} (truth : V -> bool).
Definition raster_all (ts : list (tree (list (V * bool)))) : bool :=
  reduce (fun b => forallb truth (select b)) (forallb (fun x => x)) (forallb (fun x => x)) ts.
Definition raster_any (ts : list (tree (list (V * bool)))) : bool :=
  reduce (fun b => existsb truth (select b)) (existsb (fun x => x)) (existsb (fun x => x)) ts.
End AllAny.

(* sums and products of integers are in int64 or uint64: wrap is the integer modulo 2^64
   in the range of the dtype *)
Definition wrap (signed : bool) (x : Z) : Z :=
  (if signed then (x + 2 ^ 63) mod 2 ^ 64 - 2 ^ 63 else x mod 2 ^ 64)%Z.
Definition wsum (signed : bool) (l : list Z) : Z := fold_left (fun a x => wrap signed (a + x)) l 0%Z.
Definition wprod (signed : bool) (l : list Z) : Z := fold_left (fun a x => wrap signed (a * x)) l 1%Z.
Definition raster_int_sum (signed : bool) (ts : list (tree (list (Z * bool)))) : Z :=
  reduce (fun b => wsum signed (select b)) (wsum signed) (wsum signed) ts.
Definition raster_int_prod (signed : bool) (ts : list (tree (list (Z * bool)))) : Z :=
  reduce (fun b => wprod signed (select b)) (wprod signed) (wprod signed) ts.
