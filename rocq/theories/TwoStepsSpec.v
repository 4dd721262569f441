(* aggregate in two steps *)
From Verif Require Import Base Scalars.
(* equal numbers, or both NaN *)
Definition same_num (a b : num) : Prop := num_eqb a b = true \/ is_nan a = true /\ is_nan b = true.
