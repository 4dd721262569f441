(* Model of vector.py: delayed reading, sizes, element access and object ids.
   The rows of a layer are its features 0, 1, ...; geometries and attributes are
   not modelled. *)
From Coq Require Import String DecimalString DecimalN NArith.
From Verif Require Import Base.
Open Scope Z_scope.

Inductive read_error := ZeroDivisionError | UnboundLocalError | LoopFuel.
(* vector.py:95-116 _read_file_delayed: the row ranges [left, right) of the
   partitions, the last [right], and the divisions *)
Fixpoint read_loop (fuel : nat) (total batch row_offset : Z) (parts : list (Z * Z)) (divs : list Z) (last : option Z)
  : option (list (Z * Z) * list Z * option Z) :=
  match fuel with
  | O => None
  | S fuel =>
      if row_offset <? total then
        let lft := row_offset in
        let rgt := Z.min (row_offset + batch) total in
        read_loop fuel total batch (row_offset + batch) (parts ++ [(lft, rgt)]) (divs ++ [lft]) (Some rgt)
      else Some (parts, divs, last)
  end.
Definition read_file_delayed (total npartitions : Z) : (list (Z * Z) * list Z) + read_error :=
  if npartitions =? 0 then inr ZeroDivisionError
  else
    let batch := total / npartitions + 1 in
    match read_loop (S (Z.to_nat total)) total batch 0 [] [] None with
    | None => inr LoopFuel
    | Some (parts, divs, last) =>
        match last with
        | None => inr UnboundLocalError       (* divs.append(right - 1) *)
        | Some rgt => inl (parts, divs ++ [rgt - 1])
        end
    end.
(* the rows a partition reads, with the index _df_asign_index gives them; the
   index pd.RangeIndex(left, right) fits exactly rows=slice(left, right) *)
Definition part_rows (p : Z * Z) : list (Z * Z) := map (fun i => (i, i)) (zrange (fst p) (snd p)).

(* vector.py:291-318 _get_len_from_divisions *)
Definition get_len_from_divisions (divs : list Z) : res Z :=
  foldM (fun n i =>
    let* lft := get divs i in
    let* rgt := get divs (i + 1) in
    Ok (n + (rgt - lft))) (zrange 0 (len divs - 1)) 0.
(* vector.py:330-339 _get_best_effort_geo_len of a dask collection with known
   divisions; last_len is the length of the last partition *)
Definition best_effort_len (divs : list Z) (last_len : Z) : res Z :=
  if len divs =? 2 then Ok last_len
  else
    let* n := get_len_from_divisions (slice divs 0 (len divs - 1)) in
    Ok (n + last_len).
(* vector.py:387-404 Vector.__init__, the size *)
Definition vector_size (divs : list Z) (last_len : Z) (size : option Z) : res Z :=
  match size with
  | None => best_effort_len divs last_len
  | Some s =>
      let* guess := get_len_from_divisions divs in
      if (s =? guess) || (s =? guess + 1) then Ok s else Err ValueError
  end.
(* vector.py:707-734 Vector.__getitem__: the index label that is looked up *)
Definition getitem (size idx : Z) : res Z :=
  if size <=? idx then Err IndexError
  else if idx <? 0 then if size + idx <? 0 then Err IndexError else Ok (size + idx)
  else Ok idx.

(* vector.py:235-240 _add_objid; n is the number of features of the partition *)
Definition add_objid (number base n : Z) : list Z := map (fun k => k + number * base) (zrange 1 (n + 1)).
(* vector.py:274 map_partitions: the ids of all partitions (sizes given) *)
Definition object_ids (base : Z) (sizes : list Z) : list (list Z) :=
  map (fun '(p, n) => add_objid p base n) (combine (zrange 0 (len sizes)) sizes).
(* vector.py:262-273, the column name *)
Definition objectid_n (n : N) : string := String.append "OBJECTID_"%string (NilZero.string_of_uint (N.to_uint n)).
Definition in_columns (name : string) (columns : list string) : bool := existsb (String.eqb name) columns.
Fixpoint name_loop (fuel : nat) (n : N) (columns : list string) : res string :=
  match fuel with
  | O => Err OutOfFuel
  | S fuel => if in_columns (objectid_n n) columns then name_loop fuel (n + 1) columns else Ok (objectid_n n)
  end.
Definition objectid_name (columns : list string) (name : option string) : res string :=
  match name with
  | Some name => if in_columns name columns then Err ValueError else Ok name
  | None =>
      if in_columns "OBJECTID"%string columns then name_loop (S (length columns)) 1 columns
      else Ok "OBJECTID"%string
  end.
