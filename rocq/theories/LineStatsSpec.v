(* What line lengths mean: the total for a cell is the sum, over all lines of
   all features, of the (weighted) length within the circle around the cell. *)
From Verif Require Import Base LineStats.
Open Scope Z_scope.

Section Spec.
Context {S : Type}.
Variables (zero : S) (add mul : S -> S -> S).
(* exact arithmetic: a commutative monoid *)
Definition exact : Prop :=
  (forall a, add zero a = a) /\ (forall a b, add a b = add b a) /\ (forall a b c, add a (add b c) = add (add a b) c).
Definition sum_of {A} (f : A -> S) (l : list A) : S := fold_right (fun x s => add (f x) s) zero l.
Definition line_length (weighted : bool) (w : S) (c : Z) (l : @line S) : S :=
  match l_clip l c with
  | None => zero
  | Some x => if weighted then mul x w else x
  end.
Definition cell_total (weighted : bool) (fs : list feature) (c : Z) : S :=
  sum_of (fun f => sum_of (line_length weighted (f_weight f) c) (f_lines f)) fs.
(* a line with a part in the circle around a cell's centre has a buffer that
   touches the cell *)
Definition buffers_cover (n : Z) (fs : list (@feature S)) : Prop :=
  forall f l c, In f fs -> In l (f_lines f) -> 0 <= c < n -> l_clip l c <> None -> l_near l c = true.
End Spec.
