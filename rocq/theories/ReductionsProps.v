(* C68: sum, prod, mean, var, std, all and any of a raster (min and max: C33). *)
From Coq Require Import Reals ZArith List Lra.
From Verif Require Import Base Scalars Zonal ZonalSpec Reductions ReductionsSpec ReductionsProofs.
Import ListNotations.
Open Scope R_scope.

(* For every division into blocks (also empty ones) and every tree of partial results: of
   the cells that are not masked and not NaN. *)
Theorem C68_sum : forall ts, raster_sum ts = sum (numbers (valid ts)).
Proof. exact sum_valid. Qed.
Print Assumptions C68_sum.
Theorem C68_prod : forall ts, raster_prod ts = product (numbers (valid ts)).
Proof. exact prod_valid. Qed.
Print Assumptions C68_prod.
(* NaN without such cells *)
Theorem C68_mean : forall ts, raster_mean ts = match numbers (valid ts) with [] => None | l => Some (mean l) end.
Proof. exact mean_valid. Qed.
Print Assumptions C68_mean.
(* the variance with divisor n, though every block subtracts its own mean *)
Theorem C68_var : forall ts, raster_var ts = match numbers (valid ts) with [] => None | l => Some (variance l) end.
Proof. exact var_valid. Qed.
Print Assumptions C68_var.
Theorem C68_std : forall ts, raster_std ts = match numbers (valid ts) with [] => None | l => Some (sqrt (variance l)) end.
Proof. exact std_valid. Qed.
Print Assumptions C68_std.
(* all and any: of the cells that are not masked *)
Theorem C68_all : forall {V} (truth : V -> bool) ts, raster_all truth ts = true <-> forall v, In v (valid ts) -> truth v = true.
Proof. exact @all_valid. Qed.
Print Assumptions C68_all.
Theorem C68_any : forall {V} (truth : V -> bool) ts, raster_any truth ts = true <-> exists v, In v (valid ts) /\ truth v = true.
Proof. exact @any_valid. Qed.
Print Assumptions C68_any.
(* integers: modulo 2^64, so exact if the result fits *)
Theorem C68_int_sum : forall signed ts,
  (exists k, raster_int_sum signed ts = zsum (valid ts) + k * 2 ^ 64)%Z /\ in_dtype signed (raster_int_sum signed ts).
Proof. exact int_sum_spec. Qed.
Print Assumptions C68_int_sum.
Theorem C68_int_prod : forall signed ts,
  (exists k, raster_int_prod signed ts = zproduct (valid ts) + k * 2 ^ 64)%Z /\ in_dtype signed (raster_int_prod signed ts).
Proof. exact int_prod_spec. Qed.
Print Assumptions C68_int_prod.

(* ---- examples ---- *)
(* three blocks, one of them masked: 1, 2, NaN, 6 are valid *)
Definition ex_blocks : list (tree masked_block) :=
  [Node [Leaf [(Some 1, false); (Some 50, true)]; Leaf [(Some 9, true)]]; Leaf [(Some 2, false); (None, false); (Some 6, false)]].
Example C68_example : raster_sum ex_blocks = 9 /\ raster_mean ex_blocks = Some 3 /\ raster_var ex_blocks = Some (14 / 3).
Proof.
  rewrite C68_sum, C68_mean, C68_var. cbn [ex_blocks valid flat_map leaves app filter map snd fst negb numbers].
  unfold variance, mean. cbn [sum map]. unfold len. cbn [length Z.of_nat Pos.of_succ_nat Pos.succ].
  split; [lra|]. split; f_equal; field.
Qed.
Example C68_example_empty : raster_mean [Leaf [(Some 1, true)]; Leaf [(None, false)]] = None /\ raster_var [] = None.
Proof. rewrite C68_mean, C68_var. split; reflexivity. Qed.
Definition ex_ints : list (tree (list (Z * bool))) := [Node [Leaf [(200, false); (255, true)]; Leaf []]; Leaf [(100, false); (0, false)]]%Z.
Example C68_example_ints : raster_int_sum false ex_ints = 300%Z /\ raster_int_prod false ex_ints = 0%Z
  /\ raster_all (fun v => negb (v =? 0)%Z) ex_ints = false /\ raster_any (fun v => negb (v =? 0)%Z) ex_ints = true
  /\ raster_int_sum true [Leaf [(2 ^ 63 - 1, false)]; Leaf [(1, false)]]%Z = (- 2 ^ 63)%Z.
Proof. vm_compute. auto. Qed.
