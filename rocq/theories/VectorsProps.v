(* C36, C37: reading vector layers in partitions; object ids.
   The rows of a layer are numbered 0 .. total-1; part_rows p is the list of
   (row, index) pairs partition p holds. *)
From Coq Require Import String DecimalString DecimalN NArith.
From Verif Require Import Base Vectors VectorsProofs.
Open Scope Z_scope.

(* C36: a non-empty layer can be read with any positive number of partitions *)
Theorem C36_read_total : forall total np, 0 < total -> 0 < np -> exists parts divs, read_file_delayed total np = inl (parts, divs).
Proof. exact read_total. Qed.
Print Assumptions C36_read_total.

(* C36: every row exactly once, in order, with its position as index; at most
   the requested number of partitions, none empty; partition i starts at
   divs[i] and ends before divs[i + 1], except that the last division is the
   last row *)
Theorem C36_reads_every_row_once : forall total np parts divs, 0 < total -> 0 < np -> read_file_delayed total np = inl (parts, divs) ->
  concat (map part_rows parts) = map (fun i => (i, i)) (zrange 0 total) /\ 1 <= len parts <= np /\ len divs = len parts + 1 /\
  forall i p, get parts i = Ok p -> fst p < snd p /\ get divs i = Ok (fst p) /\
    (i < len parts - 1 -> get divs (i + 1) = Ok (snd p)) /\ (i = len parts - 1 -> snd p = total /\ get divs (i + 1) = Ok (total - 1)).
Proof. exact read_all. Qed.
Print Assumptions C36_reads_every_row_once.

(* C36: the size of the resulting Vector is the number of rows, whether it is
   given (open_vectors passes the count) or found from the divisions *)
Theorem C36_size : forall total np parts divs, 0 < total -> 0 < np -> read_file_delayed total np = inl (parts, divs) ->
  vector_size divs (snd (List.last parts (0, 0)) - fst (List.last parts (0, 0))) None = Ok total
  /\ vector_size divs (snd (List.last parts (0, 0)) - fst (List.last parts (0, 0))) (Some total) = Ok total.
Proof. exact read_size. Qed.
Print Assumptions C36_size.

(* C36: indexing a Vector looks up Python's element *)
Theorem C36_getitem : forall size idx, 0 <= size ->
  (- size <= idx < size -> getitem size idx = Ok (idx mod size)) /\ (idx < - size \/ size <= idx -> getitem size idx = Err IndexError).
Proof. exact getitem_spec. Qed.
Print Assumptions C36_getitem.

(* finding: a layer without features cannot be read *)
Theorem C36_empty_layer_refuted : ~ (forall total np, 0 <= total -> 0 < np -> exists parts divs, read_file_delayed total np = inl (parts, divs)).
Proof. intros H. destruct (H 0 1) as (parts & divs & E); [easy|easy|]. vm_compute in E. discriminate. Qed.
Print Assumptions C36_empty_layer_refuted.

Example C36_ten_rows : read_file_delayed 10 3 = inl ([(0, 4); (4, 8); (8, 10)], [0; 4; 8; 9]).
Proof. vm_compute. reflexivity. Qed.
(* fewer partitions than requested *)
Example C36_four_rows : read_file_delayed 4 4 = inl ([(0, 2); (2, 4)], [0; 2; 3]).
Proof. vm_compute. reflexivity. Qed.
Example C36_size_ten : vector_size [0; 4; 8; 9] 2 None = Ok 10 /\ vector_size [0; 4; 8; 9] 2 (Some 10) = Ok 10 /\ vector_size [0; 4; 8; 9] 2 (Some 11) = Err ValueError.
Proof. vm_compute. auto. Qed.
Example C36_last_item : getitem 10 (-1) = Ok 9 /\ getitem 10 10 = Err IndexError /\ getitem 10 (-11) = Err IndexError.
Proof. vm_compute. auto. Qed.

(* C37: ids are unique over all partitions, one per feature *)
Theorem C37_ids_unique : forall base sizes, 0 <= base -> Forall (fun n => 0 <= n <= base) sizes ->
  NoDup (concat (object_ids base sizes)) /\ Forall2 (fun ids n => len ids = n) (object_ids base sizes) sizes.
Proof. exact object_ids_unique. Qed.
Print Assumptions C37_ids_unique.

(* C37: the chosen column name does not exist yet, and is the first free one of
   OBJECTID, OBJECTID_1, OBJECTID_2, ... *)
Theorem C37_name_is_new : forall columns, exists name, objectid_name columns None = Ok name /\ ~ In name columns
  /\ (name = "OBJECTID"%string \/ In "OBJECTID"%string columns /\ exists m, name = objectid_n m /\ (1 <= m)%N /\ forall k, (1 <= k < m)%N -> In (objectid_n k) columns).
Proof. exact objectid_name_new. Qed.
Print Assumptions C37_name_is_new.

Theorem C37_name_given : forall columns name, objectid_name columns (Some name) = if in_dec string_dec name columns then Err ValueError else Ok name.
Proof. exact objectid_name_given. Qed.
Print Assumptions C37_name_given.

(* the bound on the partition size is needed: the first id of the next
   partition is the (base + 1)-th of this one *)
Theorem C37_large_partition_refuted : ~ (forall base sizes, 0 < base -> Forall (fun n => 0 <= n) sizes -> NoDup (concat (object_ids base sizes))).
Proof.
  intros H. specialize (H 2 [3; 1] eq_refl). vm_compute in H. assert (N : NoDup [1; 2; 3; 3]) by (apply H; repeat constructor; discriminate).
  inversion N as [|? ? _ N1]; subst. inversion N1 as [|? ? _ N2]; subst. inversion N2 as [|? ? F _]; subst. apply F. now left.
Qed.
Print Assumptions C37_large_partition_refuted.

Example C37_ids : object_ids 1000000000 [3; 0; 2] = [[1; 2; 3]; []; [2000000001; 2000000002]].
Proof. vm_compute. reflexivity. Qed.
Example C37_name : objectid_name ["OBJECTID_1"; "OBJECTID"]%string None = Ok "OBJECTID_2"%string /\ objectid_name ["OBJECTID_1"]%string None = Ok "OBJECTID"%string.
Proof. vm_compute. auto. Qed.
