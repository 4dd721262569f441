(* reclassify and remap_range with ranges of one whole number *)
From Coq Require Import QArith List.
From Verif Require Import Base Scalars Raster.
Import ListNotations.
Open Scope Z_scope.

(* not a fraction: a whole number, an infinity or NaN *)
Definition whole (v : num) : Prop := match v with Fin q => exists n, (q == inject_Z n)%Q | _ => True end.
(* the dict {k: o, ...} and the ranges [(k, k + 1, o), ...] *)
Definition as_dict (ms : list (Z * option scalar)) : list (num * option scalar) := map (fun '(k, o) => (of_Z k, o)) ms.
Definition as_ranges (ms : list (Z * option scalar)) : list (scalar * scalar * option scalar) := map (fun '(k, o) => (SInt k, SInt (k + 1), o)) ms.
(* without the changed dict *)
Definition result_of {A B} (x : res (A * B)) : res A := let* '(a, _) := x in Ok a.
