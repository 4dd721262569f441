(* Rounding, independently of how it is done. *)
From Coq Require Import QArith Qabs.
From Verif Require Import Base Scalars.
Open Scope Z_scope.

(* y is a multiple of 10^-decimals, none is nearer to x, and of two that are equally near
   it is the even one *)
Definition rounds (decimals : Z) (x y : Q) : Prop :=
  let unit := (inject_Z 10 ^ (- decimals))%Q in
  exists k, (y == inject_Z k * unit)%Q /\ (forall j, Qabs (x - y) <= Qabs (x - inject_Z j * unit))%Q
  /\ (forall j, (Qabs (x - inject_Z j * unit) == Qabs (x - y))%Q -> j <> k -> Z.even k = true).
