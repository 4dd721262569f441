(* Model of general.py:91-175: regions of equal values.

   Values are the exact numbers of Scalars.v, labels integers (the code holds
   them in uint64).  The labelling of connected components
   (dask_image.ndmeasure.label) is not part of /repo: it is a parameter. *)
From Coq Require Import QArith.
From Verif Require Import Base Scalars Arr2 Focal.
Open Scope Z_scope.

(* da.unique: the values in increasing order, each once, NaN last *)
Definition before (a b : num) : bool := if is_nan b then negb (is_nan a) else num_ltb a b.
Definition same (a b : num) : bool := (is_nan a && is_nan b) || num_eqb a b.
Fixpoint insert_unique (a : num) (l : list num) : list num :=
  match l with
  | [] => [a]
  | b :: t => if same a b then l else if before a b then a :: l else b :: insert_unique a t
  end.
Definition unique (x : arr2 num) : list num := fold_left (fun l a => insert_unique a l) (concat x) [].

Section Label.
(* label(input, structure): the labels and their number *)
Variable label : arr2 Z -> arr2 bool -> arr2 Z * Z.

Definition add2 (a b : arr2 Z) : arr2 Z := map (fun '(r, s) => map (fun '(x, y) => x + y) (combine r s)) (combine a b).
(* general.py:91-105 _create_labels *)
Definition create_labels (xarr : arr2 num) (wd : arr2 Z) (uarr : option (list num)) : arr2 Z :=
  let uarr := match uarr with None => unique xarr | Some u => u end in
  let uarr := filter (fun v => negb (num_eqb v (of_Z 0))) uarr in
  let zeros := map (map (fun _ => 0)) xarr in
  snd (fold_left (fun '(cum_num, result) v =>
         let '(labeled, num_features) := label wd (map (map (fun x => num_eqb x v)) xarr) in
         (cum_num + num_features, add2 result (map (map (fun l => if 0 <? l then l + cum_num else 0)) labeled)))
       uarr (0, zeros)).

(* 146-154: the structure; other values raise ValueError *)
Definition structure (neighbors : Z) : res (arr2 Z) :=
  if neighbors =? 4 then Ok [[0; 1; 0]; [1; 1; 1]; [0; 1; 0]]
  else if neighbors =? 8 then Ok [[1; 1; 1]; [1; 1; 1]; [1; 1; 1]]
  else Err ValueError.
(* general.py:108-175 regions of a list of bands; [mask] is given for masked rasters, nv is
   the null value reconciled with uint64 *)
Definition regions (neighbors : Z) (unique_values : option (list num)) (nv : Z)
  (bands : list (arr2 num)) (mask : option (list (arr2 bool))) : res (list (arr2 Z)) :=
  let* wd := structure neighbors in
  let data := match mask with
              | Some ms => map (fun '(m, b) => where2 m (of_Z 0) b) (combine ms bands)
              | None => bands
              end in
  let data_out := map (fun band => create_labels band wd unique_values) data in
  Ok (match mask with
      | Some ms => map (fun '(m, b) => where2 m nv b) (combine ms data_out)
      | None => data_out
      end).
End Label.

(* A labelling of components, to run the model with: every cell starts with its
   own label; for every pair of adjacent cells the labels are made equal. *)
Definition offsets (wd : arr2 Z) : list (Z * Z) :=
  filter (fun '(di, dj) => match get2 wd (di + 1) (dj + 1) with Ok w => negb (w =? 0) | Err _ => false end)
    [(-1, -1); (-1, 0); (-1, 1); (0, -1); (0, 1); (1, -1); (1, 0); (1, 1)].
Definition merge (lab : arr2 Z) (c d : Z * Z) : arr2 Z :=
  match get2 lab (fst c) (snd c), get2 lab (fst d) (snd d) with
  | Ok lc, Ok ld => if (0 <? lc) && (0 <? ld) then map (map (fun l => if l =? lc then ld else l)) lab else lab
  | _, _ => lab
  end.
Definition label_by_merging (wd : arr2 Z) (b : arr2 bool) : arr2 Z * Z :=
  let nx := match b with [] => 0 | r :: _ => len r end in
  let start := map (fun '(i, r) => map (fun '(j, x) => if x : bool then i * nx + j + 1 else 0) (combine (zrange 0 nx) r)) (combine (zrange 0 (len b)) b) in
  let cells := flat_map (fun i => map (fun j => (i, j)) (zrange 0 nx)) (zrange 0 (len b)) in
  (fold_left (fun lab c => fold_left (fun lab o => merge lab c (fst c + fst o, snd c + snd o)) (offsets wd) lab) cells start,
   len b * nx).
