(* Model of model_predict_vector (general.py:493-592): predictions for the rows of
   a partitioned data frame. *)
From Coq Require Import QArith String DecimalString NArith.
From Verif Require Import Base Scalars Arr2 Vectors Bands.
Open Scope Z_scope.

(* A column of numbers, or of other objects (texts, geometries). *)
Inductive column_data := NumCol (l : list num) | ObjCol (l : list Z).
Record frame := Frame { index : list Z; columns : list (string * column_data) }.
Fixpoint find_column (cols : list (string * column_data)) (name : string) : option column_data :=
  match cols with
  | [] => None
  | (k, c) :: cols => if String.eqb k name then Some c else find_column cols name
  end.
(* f"{prefix}{n}" *)
Definition numbered (prefix : string) (n : Z) : string := String.append prefix (NilZero.string_of_uint (N.to_uint (Z.to_N n))).

Section PredictFrame.
Variable predict : list (list num) -> res (@prediction num).

(* np.isnan of an array of objects raises TypeError *)
Definition numbers (df : frame) (name : string) : res (list num) :=
  match find_column (columns df) name with
  | Some (NumCol l) => Ok l
  | Some (ObjCol _) => Err TypeError
  | None => Err KeyError
  end.
(* x[valid_mask] *)
Definition where_true {A} (valid : list bool) (x : list A) : list A := map snd (filter fst (combine valid x)).
(* the array y assigned to k rows of n values: numpy repeats single rows and single
   columns (for k = 0 numpy also compares the widths) *)
Definition broadcast_row (n : Z) (row : list num) : res (list num) :=
  if len row =? n then Ok row else match row with [v] => Ok (full n v) | _ => Err ValueError end.
Definition broadcast_rows (k n : Z) (y : list (list num)) : res (list (list num)) :=
  let* rows := if len y =? k then Ok y else match y with [row] => Ok (full k row) | _ => Err ValueError end in
  traverse (broadcast_row n) rows.
(* pred[valid_mask] = y; pred[~valid_mask] = np.nan *)
Fixpoint scatter (n : Z) (valid : list bool) (y : list (list num)) : res (list (list num)) :=
  match valid with
  | [] => Ok []
  | false :: valid => let* rows := scatter n valid y in Ok (full n NaN :: rows)
  | true :: valid =>
      match y with
      | row :: y => let* rows := scatter n valid y in Ok (row :: rows)
      | [] => Err ValueError
      end
  end.
(* general.py:493-511 _pred_df.  pred.squeeze() of a single row is a scalar, which
   pandas spreads over the one row of the index. *)
Definition pred_df (df : frame) (cols : list string) (n_outputs : Z) (prefix : string) : res frame :=
  let* data := traverse (numbers df) cols in
  let* x := traverse (fun i => traverse (fun col => get col i) data) (zrange 0 (len (index df))) in
  let valid := map (fun row => negb (existsb is_nan row)) x in
  let* y := predict (where_true valid x) in
  let y := match y with P1 l => map (fun v => [v]) l | P2 l => l end in
  let* y := broadcast_rows (len (where_true valid x)) n_outputs y in
  let* pred := scatter n_outputs valid y in
  let* new := traverse (fun o =>
    let* col := traverse (fun row => get row o) pred in
    Ok (numbered prefix (o + 1), NumCol col)) (zrange 0 n_outputs) in
  Ok (Frame (index df) (columns df ++ new)).
(* general.py:555-592 model_predict_vector; names are the columns of the collection's meta
   frame.  fields and out_prefix are of the right types. *)
Definition model_predict_vector (names : list string) (parts : list frame) (fields : list string) (n_outputs : Z) (prefix : string)
  : res (list frame) :=
  if negb (forallb (fun f => in_columns f names) fields) then Err KeyError
  else if n_outputs <? 1 then Err ValueError
  else if existsb (fun o => in_columns (numbered prefix (o + 1)) names) (zrange 0 n_outputs) then Err KeyError
  else traverse (fun df => pred_df df fields n_outputs prefix) parts.
End PredictFrame.
