(* What Vectors must hold. *)
From Coq Require Import QArith String.
From Verif Require Import Base Scalars VectorTable.
Open Scope Z_scope.

(* the features of a collection with their index labels, in order *)
Definition features (c : coll) : list (Z * row) := concat (c_parts c).
Definition rows_of (v : vector) : list (Z * row) := features (v_geo v).
(* The labels are a, a + 1, ...; no partition is empty; division i is the first label
   of partition i; the last division is the last label (as dask has it) or one more. *)
Record regular (a : Z) (c : coll) : Prop := {
  reg_some : c_parts c <> [];
  reg_full : Forall (fun p => p <> []) (c_parts c);
  reg_labels : map fst (features c) = zrange a (a + len (features c));
  reg_divs : exists divs, c_divs c = Some divs /\ len divs = len (c_parts c) + 1
    /\ (forall i p, get (c_parts c) i = Ok p -> exists r, get p 0 = Ok r /\ get divs i = Ok (fst r))
    /\ (List.last divs 0 = a + len (features c) - 1 \/ List.last divs 0 = a + len (features c)) }.
(* a Vector with the right size *)
Definition good (a : Z) (v : vector) : Prop := regular a (v_geo v) /\ v_size v = len (rows_of v).
(* w is v with every row changed by f, and the columns s *)
Definition changed (a : Z) (s : schema) (f : row -> row) (v w : vector) : Prop :=
  good a w /\ c_schema (v_geo w) = s /\ v_size w = v_size v /\ rows_of w = map (fun '(i, x) => (i, f x)) (rows_of v).
(* v is layer l *)
Definition holds (l : layer) (v : vector) : Prop :=
  good 0 v /\ c_schema (v_geo v) = l_schema l /\ v_size v = len (l_rows l) /\ map snd (rows_of v) = l_rows l.
(* reading gives the features in partitions, numbered from 0 *)
Definition reads (read_file : layer -> coll) (l : layer) : Prop :=
  regular 0 (read_file l) /\ map snd (features (read_file l)) = l_rows l /\ c_schema (read_file l) = l_schema l.
(* the value of column name changed by f *)
Definition cast_column (name : string) (f : num -> num) (columns : list string) (w x : row) : Prop :=
  w_geom x = w_geom w /\ len (w_vals x) = len (w_vals w)
  /\ forall i c y, get columns i = Ok c -> get (w_vals w) i = Ok y -> get (w_vals x) i = Ok (if String.eqb c name then f y else y).
(* one Vector is returned by itself, several as a list *)
Definition as_opened (vs : list vector) : vres opened := match vs with [] => VRaise (VErr IndexError) | [v] => VOk (One v) | _ => VOk (Many vs) end.
