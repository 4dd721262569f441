(* Model of dask_utils.py (chunked minimum and maximum) and of the aggregations
   of zonal.py.  A tree is a reduction tree of dask: leaves are blocks or
   partitions, an inner node concatenates the results of its children and
   aggregates them.  The shape of the tree (split_every, chunk sizes, scheduling)
   is arbitrary. *)
From Coq Require Import QArith.
From Verif Require Import Base Scalars Stats.
Open Scope Z_scope.

Inductive tree (A : Type) := Leaf (a : A) | Node (ts : list (tree A)).
Arguments Leaf {A}. Arguments Node {A}.

(* np.fmin, np.fmax: NaN only if both are NaN *)
Definition fmin (a b : num) : num := if is_nan a then b else if is_nan b then a else if num_ltb b a then b else a.
Definition fmax (a b : num) : num := if is_nan a then b else if is_nan b then a else if num_ltb a b then b else a.
(* dask_utils.py:5-14 _handle_empty, 21-22: np.nanmin and np.nanmax of a
   non-empty array are the reductions of fmin and fmax; the empty array gives an
   empty array *)
Definition handle_empty (f : num -> num -> num) (x : list num) : list num :=
  match x with
  | [] => []
  | v :: l => [fold_left f l v]
  end.
(* dask_utils.py:25-50: da.reduction of a one-dimensional array with _nanmin_empty_safe
   (_nanmax_empty_safe) for the blocks, the combination and the final step *)
Fixpoint reduction (f : num -> num -> num) (t : tree (list num)) : list num :=
  match t with
  | Leaf block => handle_empty f block
  | Node ts => handle_empty f (flat_map (reduction f) ts)
  end.
Definition dask_nanmin (blocks : tree (list num)) : list num := reduction fmin blocks.
Definition dask_nanmax (blocks : tree (list num)) : list num := reduction fmax blocks.
(* raster.py:132-136: data[~mask], flattened block by block *)
Definition unmasked (block : list (num * bool)) : list num := map fst (filter (fun p => negb (snd p)) block).
Fixpoint tree_map {A B} (f : A -> B) (t : tree A) : tree B :=
  match t with
  | Leaf a => Leaf (f a)
  | Node ts => Node (map (tree_map f) ts)
  end.
Definition raster_min (blocks : tree (list (num * bool))) : list num := dask_nanmin (tree_map unmasked blocks).
Definition raster_max (blocks : tree (list (num * bool))) : list num := dask_nanmax (tree_map unmasked blocks).

(* ---- zonal statistics ---- *)
(* A row of the combined data frame: zone and value of one cell of one band. *)
Definition row : Type := num * num.
(* zonal.py:240-245 null values become NaN (the cast to float64 is not modelled) *)
Definition null_to_nan (null_value : option num) (v : num) : num :=
  match null_value with
  | Some n => if is_nan n then v else if num_eqb v n then NaN else v
  | None => v
  end.
(* zonal.py:256-260 cells whose zone is the null value are dropped *)
Definition keep_zone (null_value : option num) (z : num) : bool :=
  match null_value with
  | Some n => negb (num_eqb z n)
  | None => true
  end.
Definition prepare (zone_null data_null : option num) (part : list row) : list row :=
  map (fun '(z, v) => (z, null_to_nan data_null v)) (filter (fun r => keep_zone zone_null (fst r)) part).
(* groupby("zone"): the series of zone z in a partition.  groupby drops NaN
   keys, and num_eqb never holds of NaN. *)
Definition group (z : num) (part : list row) : list num := map snd (filter (fun r => num_eqb z (fst r)) part).

(* groupby(...).agg(stat): each partition gives one entry for each zone it
   contains; an inner node gives one entry for each zone its children contain;
   at the end every entry is finalised.  (The data frame of all zones is
   represented by the function from zones to entries.) *)
Section Aggregate.
Context {C : Type}.
Variables (chunk : list num -> C) (agg : list C -> C).
Definition present {A B} (f : list A -> B) (l : list A) : option B :=
  match l with [] => None | _ => Some (f l) end.
Definition opt_list {A} (o : option A) : list A := match o with Some a => [a] | None => [] end.
Fixpoint agg_tree (z : num) (t : tree (list row)) : option C :=
  match t with
  | Leaf part => present chunk (group z part)
  | Node ts => present agg (flat_map (fun t => opt_list (agg_tree z t)) ts)
  end.
End Aggregate.
(* the aggregation step is applied at least once: the root is a node *)
Definition zonal_agg {C T} (chunk : list num -> C) (agg : list C -> C) (finalize : C -> T)
  (zone_null data_null : option num) (ts : list (tree (list row))) (z : num) : option T :=
  option_map finalize (agg_tree chunk agg z (tree_map (prepare zone_null data_null) (Node ts))).

(* Counts of values, ascending, NaN last *)
Definition before (v w : num) : bool := num_ltb v w || (is_nan w && negb (is_nan v)).
Fixpoint add_count (v : num) (n : Z) (c : list (num * Z)) : list (num * Z) :=
  match c with
  | [] => [(v, n)]
  | (w, m) :: c' =>
      if nan_equal v w then (w, m + n) :: c'
      else if before v w then (v, n) :: c
      else (w, m) :: add_count v n c'
  end.
(* zonal.py:51-52 np.unique(s, return_counts=True): all NaN are one value *)
Definition unique_with_counts (vs : list num) : list (num * Z) :=
  fold_left (fun c v => add_count v 1 c) vs [].
(* zonal.py:55-71 _combine_values_and_counts: groupby drops NaN and sorts *)
Definition combine_values_and_counts (entries : list (list (num * Z))) : list (num * Z) :=
  fold_left (fun c '(v, n) => if is_nan v then c else add_count v n c) (concat entries) [].
(* zonal.py:74-89 _mode_fin: the first entry when sorted by descending count and
   ascending value *)
Definition better (a b : num * Z) : bool :=
  (snd b <? snd a) || ((snd a =? snd b) && num_ltb (fst a) (fst b)).
Definition mode_fin (c : list (num * Z)) : num :=
  match c with
  | [] => NaN
  | e :: c => fst (fold_left (fun best e => if better e best then e else best) c e)
  end.
(* zonal.py:22-48, 92-99: _entropy and _asm for any arithmetic: frac n is 1 / n,
   term f acc cnt the body of the loop; None is NaN *)
Definition counts_fin {S : Type} (zero : S) (frac : Z -> S) (term : S -> S -> Z -> S) (c : list (num * Z)) : option S :=
  match c with
  | [] => None
  | _ => Some (fold_left (fun acc e => term (frac (fold_left (fun n e => n + snd e) c 0)) acc (snd e)) c zero)
  end.
Definition zonal_mode := zonal_agg unique_with_counts combine_values_and_counts mode_fin.
Definition zonal_counts {S : Type} (zero : S) frac term :=
  zonal_agg unique_with_counts combine_values_and_counts (counts_fin zero frac term).
(* zonal.py:133-140 nunique: list(set(x.dropna())) (in first-occurrence order;
   the order does not matter), concatenation, len(set(...)) *)
Definition to_set (vs : list num) : list num := fold_left set_add vs [].
Definition not_nan (v : num) : bool := negb (is_nan v).
Definition zonal_nunique := zonal_agg (fun vs => to_set (filter not_nan vs)) (@concat num) (fun s => len (to_set s)).

(* dask's own count, size, min, max (pandas skips NaN) *)
Definition Zsum (l : list Z) : Z := fold_left Z.add l 0.
Definition zonal_count := zonal_agg (fun vs => len (filter not_nan vs)) Zsum (fun n => n).
Definition zonal_size := zonal_agg (fun vs => len vs) Zsum (fun n => n).
Definition extreme (f : num -> num -> num) (vs : list num) : num := fold_left f vs NaN.
Definition zonal_min := zonal_agg (extreme fmin) (extreme fmin) (fun v => v).
Definition zonal_max := zonal_agg (extreme fmax) (extreme fmax) (fun v => v).
(* sum and prod for any arithmetic: [inj] embeds the values *)
Section Sums.
Context {S : Type}.
Variables (inj : num -> S) (zero : S) (add : S -> S -> S).
Definition total (vs : list num) : S := fold_left add (map inj (filter not_nan vs)) zero.
Definition zonal_total := zonal_agg total (fun l => fold_left add l zero) (fun s => s).
(* mean: sum / count *)
Variable (div : S -> S -> S) (of_int : Z -> S) (mul sub : S -> S -> S).
Definition zonal_mean :=
  zonal_agg (fun vs => (total vs, len (filter not_nan vs)))
    (fun l => (fold_left add (map fst l) zero, Zsum (map snd l)))
    (fun '(s, n) => if n =? 0 then None else Some (div s (of_int n))).
(* var (ddof = 1): dask's _var_chunk and _var_agg on count, sum and sum of squares *)
Definition total2 (vs : list num) : S := fold_left add (map (fun v => mul (inj v) (inj v)) (filter not_nan vs)) zero.
Definition zonal_var :=
  zonal_agg (fun vs => (len (filter not_nan vs), total vs, total2 vs))
    (fun l => (Zsum (map (fun e => fst (fst e)) l), fold_left add (map (fun e => snd (fst e)) l) zero, fold_left add (map snd l) zero))
    (fun '(n, x, x2) => if n <=? 1 then None else Some (div (sub x2 (div (mul x x) (of_int n))) (of_int (n - 1)))).
End Sums.
