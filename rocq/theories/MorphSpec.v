(* What dilation and erosion have to compute. *)
From Coq Require Import QArith.
From Verif Require Import Base Scalars FocalSpec.
Open Scope Z_scope.

(* The window of n cells around i, as the offset k.  The windows of even size
   reach one cell further down for dilation and up for erosion. *)
Definition reaches_down (n k : Z) : Prop := - ((n - 1) / 2) <= k <= n / 2.
Definition reaches_up (n k : Z) : Prop := - (n / 2) <= k <= (n - 1) / 2.

(* a cell of the raster that is not null *)
Definition valid_cell (mask : option (list (list bool))) (ny nx p q : Z) : Prop :=
  0 <= p < ny /\ 0 <= q < nx /\ match mask with Some m => val2 true m p q = false | None => True end.
(* the cell in the output *)
Definition null_cell (mask : option (list (list bool))) (i j : Z) : bool :=
  match mask with Some m => val2 true m i j | None => false end.

(* v is the value of a cell in W and bounds the values of the others *)
Definition greatest_in (W : Z -> Z -> Prop) (value : Z -> Z -> num) (v : num) : Prop :=
  (exists p q, W p q /\ num_eqb (value p q) v = true) /\ forall p q, W p q -> num_leb (value p q) v = true.
Definition least_in (W : Z -> Z -> Prop) (value : Z -> Z -> num) (v : num) : Prop :=
  (exists p q, W p q /\ num_eqb (value p q) v = true) /\ forall p q, W p q -> num_leb v (value p q) = true.

(* the values of a dtype (without NaN); the largest finite values of the floats
   are 65504, 2^128 - 2^104 and 2^1024 - 2^971 *)
Definition largest (d : dtype) : Z :=
  match d with F16 => 65504 | F32 => 2 ^ 128 - 2 ^ 104 | F64 => 2 ^ 1024 - 2 ^ 971 | _ => int_max d end.
Definition smallest (d : dtype) : Z :=
  match d with F16 | F32 | F64 => - largest d | _ => int_min d end.
Definition held_by (d : dtype) (v : num) : Prop :=
  match v with
  | Fin q => (inject_Z (smallest d) <= q <= inject_Z (largest d))%Q
  | PInf | MInf => is_float_dtype d = true
  | NaN => False
  end.
