(* C57: predictions for the rows of a vector. *)
From Coq Require Import QArith String Lia.
From Verif Require Import Base Scalars NumFacts Bands BandsSpec Frames FramesSpec FramesProofs.
Open Scope Z_scope.

(* Every model that treats rows by itself, every partitioning: each partition
   keeps its index and columns and gets the columns prefix1, ..., prefixN (all names
   different); row i of column o holds the o-th output of the model for the
   row's own field values, or NaN if one of them is NaN. *)
Theorem C57_predict : forall predict nout f names parts fields prefix,
  rowwise predict (len fields) nout f -> 1 <= nout -> NoDup names -> Forall (frame_ok names) parts ->
  (forall name, In name fields -> In name names) -> Forall (fun df => Forall (numeric df) fields) parts ->
  (forall o, 1 <= o <= nout -> ~ In (numbered prefix o) names) ->
  exists parts', model_predict_vector predict names parts fields nout prefix = Ok parts'
  /\ NoDup (names ++ map (numbered prefix) (zrange 1 (nout + 1)))
  /\ Forall2 (fun df df' => extends df df' (map (numbered prefix) (zrange 1 (nout + 1)))
       /\ forall i vals, 0 <= i < len (index df) -> Forall2 (fun name v => holds_at df name i v) fields vals ->
          forall o, 1 <= o <= nout ->
          if existsb is_nan vals then holds_at df' (numbered prefix o) i NaN
          else exists v, get (f vals) (o - 1) = Ok v /\ holds_at df' (numbered prefix o) i v) parts parts'.
Proof. exact predict_vector_spec. Qed.
Print Assumptions C57_predict.

(* Whatever the model does: success means the fields exist and hold numbers, and no
   column is written twice; an unknown field is a KeyError. *)
Theorem C57_checks : forall predict nout names parts fields prefix,
  (forall parts', model_predict_vector predict names parts fields nout prefix = Ok parts' ->
     (forall name, In name fields -> In name names) /\ 1 <= nout /\ (forall o, 1 <= o <= nout -> ~ In (numbered prefix o) names)
     /\ Forall (fun df => Forall (numeric df) fields) parts)
  /\ ((exists name, In name fields /\ ~ In name names) -> model_predict_vector predict names parts fields nout prefix = Err KeyError).
Proof. exact predict_vector_errors. Qed.
Print Assumptions C57_checks.

Definition ex_names : list string := ["a"; "geometry"; "b"]%string.
Definition ex_part1 : frame := Frame [0; 1] [("a", NumCol [of_Z 1; of_Z 2]); ("geometry", ObjCol [5; 6]); ("b", NumCol [of_Z 3; NaN])]%string.
Definition ex_part2 : frame := Frame [2] [("a", NumCol [of_Z 4]); ("geometry", ObjCol [7]); ("b", NumCol [of_Z 8])]%string.
(* returns each row as it is *)
Definition ex_same (rows : list (list num)) : res (@prediction num) := Ok (P2 rows).
Example C57_ex_hyps : rowwise ex_same 2 2 (fun r => r) /\ NoDup ex_names /\ Forall (frame_ok ex_names) [ex_part1; ex_part2]
  /\ Forall (fun df => Forall (numeric df) ["b"; "a"]%string) [ex_part1; ex_part2].
Proof.
  split; [split; [auto|intros rows _; left; unfold ex_same; now rewrite map_id]|].
  split; [repeat constructor; cbn; intuition discriminate|].
  split; repeat constructor; try (eexists; cbn; intuition reflexivity).
Qed.
Example C57_ex : model_predict_vector ex_same ex_names [ex_part1; ex_part2] ["b"; "a"]%string 2 "pred_"
  = Ok [Frame [0; 1] [("a", NumCol [of_Z 1; of_Z 2]); ("geometry", ObjCol [5; 6]); ("b", NumCol [of_Z 3; NaN]);
                      ("pred_1", NumCol [of_Z 3; NaN]); ("pred_2", NumCol [of_Z 1; NaN])];
        Frame [2] [("a", NumCol [of_Z 4]); ("geometry", ObjCol [7]); ("b", NumCol [of_Z 8]);
                   ("pred_1", NumCol [of_Z 8]); ("pred_2", NumCol [of_Z 4])]]%string
  /\ model_predict_vector ex_same ex_names [ex_part1] ["c"]%string 1 "pred_" = Err KeyError
  /\ model_predict_vector ex_same ex_names [ex_part1] ["a"; "b"; "a"]%string 2 "pred_" = Err ValueError.
Proof. vm_compute. repeat split. Qed.

(* Finding: a model with one output is accepted when more are announced; its
   output is repeated in every column.  (model_predict_raster rejects it,
   C56_wrong_outputs.) *)
Theorem C57_one_output_refuted : ~ (forall predict f w nout names parts fields prefix parts',
  rowwise predict (len fields) w f -> w <> nout -> parts <> [] -> Forall (fun df => index df <> []) parts ->
  model_predict_vector predict names parts fields nout prefix = Ok parts' -> False).
Proof.
  intros H.
  apply (H ex_same (fun r => r) 1 2 ["a"]%string [Frame [0] [("a"%string, NumCol [of_Z 5])]] ["a"]%string "p"%string
    [Frame [0] [("a", NumCol [of_Z 5]); ("p1", NumCol [of_Z 5]); ("p2", NumCol [of_Z 5])]%string]).
  - split; [auto|]. intros rows _. left. unfold ex_same. now rewrite map_id.
  - discriminate.
  - discriminate.
  - repeat constructor. discriminate.
  - vm_compute. reflexivity.
Qed.
Print Assumptions C57_one_output_refuted.
