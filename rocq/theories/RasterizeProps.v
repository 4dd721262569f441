(* C35: rasterising overlapping features. *)
From Coq Require Import QArith.
From Verif Require Import Base Scalars Zonal Rasterize RasterizeSpec RasterizeProofs.
Open Scope Z_scope.

(* For every feature table split into partitions, every choice of the
   partitions matched with the chunk that leaves out only partitions without a
   feature in the chunk, and every reduction over the matched partitions: each
   cell gets the value resolving the overlap of all features of the table
   touching it, in table order, and is null exactly when none does.
   The null value is not NaN and no feature has it (or NaN) as value. *)
Theorem C35_rasterize : forall ui m fill n parts matches t, is_nan fill = false -> 0 <= n ->
  (forall f, In f (concat parts) -> is_nan (burned ui f) = false /\ num_eqb (burned ui f) fill = false) ->
  (forall p f i, In p parts -> matches p = false -> In f p -> 0 <= i < n -> touches f i = false) ->
  match t with None => filter matches parts = [] | Some t => partitions t = filter matches parts end ->
  len (rasterize_chunk ui m fill n t) = n /\
  forall i, 0 <= i < n -> exists v, get (rasterize_chunk ui m fill n t) i = Ok v /\ resolves m fill (touching ui (concat parts) i) v /\
    get (null_mask fill (rasterize_chunk ui m fill n t)) i = Ok (match touching ui (concat parts) i with [] => true | _ => false end).
Proof. exact rasterize_spec. Qed.
Print Assumptions C35_rasterize.

(* mask=True: 1 in the touched cells and 0 elsewhere, or the other way round;
   the cells with 0 are the null cells *)
Theorem C35_mask : forall invert n parts matches, 0 <= n ->
  (forall p f i, In p parts -> matches p = false -> In f p -> 0 <= i < n -> touches f i = false) ->
  len (mask_chunk invert n (filter matches parts)) = n /\
  forall i, 0 <= i < n -> get (mask_chunk invert n (filter matches parts)) i = Ok (if xorb (existsb (fun f => touches f i) (concat parts)) invert then 1 else 0).
Proof. exact mask_spec. Qed.
Print Assumptions C35_mask.

Definition on (cells : list Z) (i : Z) : bool := existsb (Z.eqb i) cells.
Definition feat (v : Z) (cells : list Z) : feature := Feature 0 (of_Z v) (on cells).
Definition ex_parts : list (list feature) := [[feat 5 [0; 1]; feat 3 [1; 2]]; [feat 4 [1]]; []; [feat 9 [2; 3]; feat 1 [3]]].
Definition ex_steps : steps := Two (Two (Part (nth 0 ex_parts [])) (Part (nth 1 ex_parts []))) (Two (Part []) (One (Part (nth 3 ex_parts [])))).
Example C35_ex_partitions : partitions ex_steps = filter (fun _ => true) ex_parts.
Proof. reflexivity. Qed.
Example C35_ex_values : Forall (fun f => is_nan (burned false f) = false /\ num_eqb (burned false f) (of_Z 0) = false) (concat ex_parts).
Proof. repeat constructor. Qed.
Example C35_ex : rasterize_chunk false First (of_Z 0) 5 (Some ex_steps) = map of_Z [5; 5; 3; 9; 0]
  /\ rasterize_chunk false Last (of_Z 0) 5 (Some ex_steps) = map of_Z [5; 4; 9; 1; 0]
  /\ rasterize_chunk false Min (of_Z 0) 5 (Some ex_steps) = map of_Z [5; 3; 3; 1; 0]
  /\ rasterize_chunk false Max (of_Z 0) 5 (Some ex_steps) = map of_Z [5; 5; 9; 9; 0]
  /\ rasterize_chunk false Max (of_Z 0) 3 None = map of_Z [0; 0; 0].
Proof. vm_compute. auto. Qed.
Example C35_ex_index : rasterize_chunk true Max (of_Z 0) 3 (Some (Part [Feature 7 NaN (on [0; 1]); Feature 3 NaN (on [1; 2])])) = map of_Z [8; 8; 4].
Proof. vm_compute. reflexivity. Qed.
Example C35_ex_mask : mask_chunk false 5 ex_parts = [1; 1; 1; 1; 0] /\ mask_chunk true 5 ex_parts = [0; 0; 0; 0; 1].
Proof. vm_compute. auto. Qed.

(* Finding: with a NaN null value the reduction cannot recognise untouched
   cells, and features of other partitions are lost. *)
Theorem C35_nan_null_value_refuted : ~ (forall m n parts t, 0 <= n ->
  (forall f, In f (concat parts) -> is_nan (burned false f) = false) -> partitions t = parts ->
  forall i, 0 <= i < n -> exists v, get (rasterize_chunk false m NaN n (Some t)) i = Ok v /\ resolves m NaN (touching false (concat parts) i) v).
Proof.
  intros H. destruct (H Last 1 [[feat 5 [0]]; []] (Two (Part [feat 5 [0]]) (Part [])) ltac:(easy)) with (i := 0) as (v & E & R).
  - intros f [<-|[]]. reflexivity.
  - reflexivity.
  - easy.
  - vm_compute in E. injection E as <-. vm_compute in R. discriminate.
Qed.
Print Assumptions C35_nan_null_value_refuted.
(* Finding: a feature whose value is the null value hides other features within
   its partition but not across partitions: the result depends on the
   partitioning. *)
Theorem C35_value_equal_null_refuted : ~ (forall m fill n t u, is_nan fill = false -> 0 <= n -> concat (partitions t) = concat (partitions u) ->
  (forall f, In f (concat (partitions t)) -> is_nan (burned false f) = false) ->
  rasterize_chunk false m fill n (Some t) = rasterize_chunk false m fill n (Some u)).
Proof.
  intros H. specialize (H Last (of_Z 0) 1 (Part [feat 5 [0]; feat 0 [0]]) (Two (Part [feat 5 [0]]) (Part [feat 0 [0]])) eq_refl ltac:(easy) eq_refl).
  assert (E : forall f, In f (concat (partitions (Part [feat 5 [0]; feat 0 [0]]))) -> is_nan (burned false f) = false) by (intros f [<-|[<-|[]]]; reflexivity).
  specialize (H E). vm_compute in H. discriminate.
Qed.
Print Assumptions C35_value_equal_null_refuted.
(* Finding: features with the value NaN give way to other features for min and
   max within a partition, but win across partitions. *)
Theorem C35_nan_value_refuted : ~ (forall m fill n t u, is_nan fill = false -> 0 <= n -> concat (partitions t) = concat (partitions u) ->
  (forall f, In f (concat (partitions t)) -> num_eqb (burned false f) fill = false) ->
  rasterize_chunk false m fill n (Some t) = rasterize_chunk false m fill n (Some u)).
Proof.
  intros H. specialize (H Min (of_Z 0) 1 (Part [feat 5 [0]; Feature 0 NaN (on [0])]) (Two (Part [feat 5 [0]]) (Part [Feature 0 NaN (on [0])])) eq_refl ltac:(easy) eq_refl).
  assert (E : forall f, In f (concat (partitions (Part [feat 5 [0]; Feature 0 NaN (on [0])]))) -> num_eqb (burned false f) (of_Z 0) = false) by (intros f [<-|[<-|[]]]; reflexivity).
  specialize (H E). vm_compute in H. discriminate.
Qed.
Print Assumptions C35_nan_value_refuted.
