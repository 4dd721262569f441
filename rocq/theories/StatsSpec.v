(* What the statistics have to be: functions of the valid values. *)
From Coq Require Import QArith.
From Verif Require Import Base Scalars.
Open Scope Z_scope.

(* the valid values *)
Definition valid (x : list num) : list num := filter (fun v => negb (is_nan v)) x.
(* how often v occurs *)
Definition occurrences (v : num) (x : list num) : Z := len (filter (num_eqb v) x).
(* D lists the distinct valid values of x, each once *)
Definition distinct_values (x D : list num) : Prop :=
  (forall v, In v D -> 0 < occurrences v x)
  /\ (forall v, In v x -> is_nan v = false -> exists k, In k D /\ num_eqb k v = true)
  /\ ForallOrdPairs (fun a b => num_eqb a b = false) D.
(* m is the smallest of the most frequent valid values *)
Definition is_mode (x : list num) (m : num) : Prop :=
  In m x /\ is_nan m = false
  /\ (forall v, In v x -> is_nan v = false -> occurrences v x <= occurrences m x)
  /\ (forall v, In v x -> is_nan v = false -> occurrences v x = occurrences m x -> num_leb m v = true).
(* two collections with the same valid values *)
Definition same_values (x y : list num) : Prop := forall v, occurrences v x = occurrences v y.
(* j is the first index of the smallest value / the largest value *)
Definition is_argmin (x : list num) (j : Z) : Prop :=
  exists m, get x j = Ok m /\ is_nan m = false
  /\ (forall i v, get x i = Ok v -> is_nan v = false -> num_leb m v = true)
  /\ (forall i v, get x i = Ok v -> i < j -> is_nan v = false -> num_ltb m v = true).
Definition is_argmax (x : list num) (j : Z) : Prop :=
  exists m, get x j = Ok m /\ is_nan m = false
  /\ (forall i v, get x i = Ok v -> is_nan v = false -> num_leb v m = true)
  /\ (forall i v, get x i = Ok v -> i < j -> is_nan v = false -> num_ltb v m = true).
