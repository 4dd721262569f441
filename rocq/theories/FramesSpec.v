(* What adding predicted columns has to give. *)
From Coq Require Import QArith String.
From Verif Require Import Base Scalars Frames.
Open Scope Z_scope.

(* columns as long as the index, with the names of the meta frame *)
Definition frame_ok (names : list string) (df : frame) : Prop :=
  map fst (columns df) = names
  /\ Forall (fun '(_, c) => match c with NumCol l => len l = len (index df) | ObjCol l => len l = len (index df) end) (columns df).
Definition numeric (df : frame) (name : string) : Prop := exists l, In (name, NumCol l) (columns df).
(* row i of column name holds v *)
Definition holds_at (df : frame) (name : string) (i : Z) (v : num) : Prop :=
  exists l, In (name, NumCol l) (columns df) /\ get l i = Ok v.
(* df' is df with columns of the names new_names after its own *)
Definition extends (df df' : frame) (new_names : list string) : Prop :=
  index df' = index df /\ exists new, columns df' = columns df ++ new /\ map fst new = new_names.
