(* C38: line lengths do not depend on batching or partitioning. *)
From Coq Require Import Lia String.
From Verif Require Import Base F64 F32 LineStats LineStatsSpec LineStatsProofs.
Open Scope Z_scope.

(* Any positive batch size splits the geometries into non-empty batches of at
   most that size, which together are the geometries, each once and in order. *)
Theorem C38_batches : forall A b (l : list A), 1 <= b ->
  exists bs, batches (List.length l) b l = Ok bs /\ concat bs = l /\ Forall (fun x => 1 <= len x <= b) bs.
Proof. intros A b l H. exact (batches_spec b H (List.length l) l (Nat.le_refl _)). Qed.
Print Assumptions C38_batches.
Theorem C38_batch_size : forall nverts n b, 0 <= n -> batch_size_of nverts n = Some b -> 1 <= b <= 700.
Proof. exact batch_size_range. Qed.
Print Assumptions C38_batch_size.

(* With or without batches (whatever the numbers of vertices), every cell of a
   block gets the sum over all lines of all features, in exact arithmetic. *)
Theorem C38_length_block : forall S (zero : S) add mul, exact zero add -> forall weighted n fs, 0 <= n -> buffers_cover n fs ->
  exists out, length_block zero add mul weighted n fs = Ok out /\ len out = n /\
    forall c, 0 <= c < n -> get out c = Ok (cell_total zero add mul weighted fs c).
Proof. intros S zero add mul HX. exact (length_block_spec zero add mul HX). Qed.
Print Assumptions C38_length_block.
(* The same for the sum over the partitions of the feature table. *)
Theorem C38_length : forall S (zero : S) add mul, exact zero add -> forall weighted n parts, 0 <= n -> buffers_cover n (concat parts) ->
  exists out, length_raster zero add mul weighted n parts = Ok out /\ len out = n /\
    forall c, 0 <= c < n -> get out c = Ok (cell_total zero add mul weighted (concat parts) c).
Proof. intros S zero add mul HX. exact (length_raster_spec zero add mul HX). Qed.
Print Assumptions C38_length.

Definition ex_line (verts from to l : Z) : @line Z :=
  Line verts (fun c => (from - 1 <=? c) && (c <=? to + 1)) (fun c => if (from <=? c) && (c <=? to) then Some l else None).
Definition ex_features : list (@feature Z) :=
  [Feature [ex_line 40 0 2 5; ex_line 50 1 1 7] 2; Feature [ex_line 30 4 4 1] 3; Feature [ex_line 20 2 4 10; ex_line 30 1 4 100; ex_line 15 0 0 1000] 1].
Example C38_ex_exact : exact 0 Z.add.
Proof. repeat split; intros; lia. Qed.
Example C38_ex_cover : forallb (fun f => forallb (fun l => forallb (fun c => match l_clip l c with None => true | Some _ => l_near l c end) (zrange 0 6)) (f_lines f)) ex_features = true.
Proof. reflexivity. Qed.
(* six lines, 185 vertices: two batches of three lines *)
Example C38_ex_batches : batch_size_of 185 6 = Some 3.
Proof. reflexivity. Qed.
Example C38_ex : length_block 0 Z.add Z.mul true 6 ex_features = Ok [1010; 124; 120; 110; 113; 0]
  /\ length_raster 0 Z.add Z.mul true 6 [firstn 1 ex_features; skipn 1 ex_features] = Ok [1010; 124; 120; 110; 113; 0]
  /\ length_raster 0 Z.add Z.mul false 6 [[]; ex_features] = Ok [1005; 112; 115; 110; 111; 0].
Proof. vm_compute. auto. Qed.

(* The hypothesis on buffers is needed: a cell outside the buffers of one batch
   but inside those of another loses the lengths of the former. *)
Theorem C38_buffers_refuted : ~ (forall n fs fs', 0 <= n ->
  (forall c, 0 <= c < n -> cell_total 0 Z.add Z.mul false fs c = cell_total 0 Z.add Z.mul false fs' c) ->
  (forall c, 0 <= c < n -> existsb (fun f => existsb (fun l => l_near l c) (f_lines f)) fs = existsb (fun f => existsb (fun l => l_near l c) (f_lines f)) fs') ->
  length_block 0 Z.add Z.mul false n fs = length_block 0 Z.add Z.mul false n fs').
Proof.
  pose (bad v := Feature [Line v (fun _ => false) (fun _ => Some 1); Line v (fun _ => true) (fun _ => Some 1)] 1).
  intros H. specialize (H 1 [bad 2] [bad 40] ltac:(lia)). 
  assert (E : length_block 0 Z.add Z.mul false 1 [bad 2] = length_block 0 Z.add Z.mul false 1 [bad 40]) by (apply H; reflexivity).
  vm_compute in E. discriminate.
Qed.
Print Assumptions C38_buffers_refuted.

(* In binary32 the totals depend on the batches: the same four lines with few
   and with many vertices. *)
Definition add32 (x y : f64) : f64 := to32 (fadd x y).
Definition line32 (v : Z) (x : f64) : @line f64 := Line v (fun _ => true) (fun _ => Some x).
Definition four (v : Z) : list (@feature f64) :=
  [Feature [line32 v (f64_of 1 0); line32 v (f64_of 1 (-24)); line32 v (f64_of 1 (-24)); line32 v (f64_of 1 (-24))] (f64_of 1 0)].
Definition same32 (a b : res (list f64)) : bool :=
  match a, b with Ok [x], Ok [y] => feqb x y | _, _ => false end.
Theorem C38_binary32_refuted : exists v w, same32 (length_block fzero add32 fmul false 1 (four v)) (length_block fzero add32 fmul false 1 (four w)) = false
  /\ same32 (length_block fzero add32 fmul false 1 (four v)) (length_block fzero add32 fmul false 1 (four v)) = true.
Proof. exists 2, 30. vm_compute. auto. Qed.
Print Assumptions C38_binary32_refuted.

(* Finding: weighting by a field fails unless the field is called "weights". *)
Theorem C38_weights_refuted : ~ (forall field, exists w, weights_column field = inl w).
Proof. intros H. destruct (H (Some "speed"%string)) as [w E]. vm_compute in E. discriminate. Qed.
Print Assumptions C38_weights_refuted.
Example C38_weights_ex : weights_column (Some "weights"%string) = inl (Some "weights"%string) /\ weights_column None = inl None.
Proof. vm_compute. auto. Qed.
