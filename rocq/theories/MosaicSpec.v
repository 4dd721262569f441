(* What mosaic is documented to return at one cell, given the values of the
   source rasters there in list order. *)
From Verif Require Import Base F64.

Section Spec.
Context {V : Type} (missing : V -> bool).

Definition valid (l : list V) : list V := filter (fun v => negb (missing v)) l.

(* 'first': the first value in list order that is not null *)
Definition is_first (l : list V) (v : V) : Prop :=
  match valid l with
  | x :: _ => v = x
  | [] => missing v = true
  end.

(* 'last' *)
Definition is_last (l : list V) (v : V) : Prop :=
  match rev (valid l) with
  | x :: _ => v = x
  | [] => missing v = true
  end.

(* 'min' ([le] is <=) and 'max' ([le] is >=).  [nan] marks values that are not
   numbers; they only surface where there is no number but not all are null. *)
Definition is_extremum (nan : V -> bool) (le : V -> V -> bool) (l : list V) (v : V) : Prop :=
  match filter (fun v => negb (nan v)) (valid l) with
  | [] => (valid l = [] -> missing v = true)
          /\ (valid l <> [] -> missing v = false /\ nan v = true)
  | numbers => In v numbers /\ forall u, In u numbers -> le v u = true
  end.

(* The values that take part in band i: those of the rasters that have it. *)
Definition band_values (d : V) (srcs : list (list V)) (i : nat) : list V :=
  map (fun bands => nth i bands d) (filter (fun bands => Nat.ltb i (length bands)) srcs).

(* The result has as many bands as the largest input. *)
Definition is_nbands (srcs : list (list V)) (n : nat) : Prop :=
  (forall bands, In bands srcs -> (length bands <= n)%nat)
  /\ exists bands, In bands srcs /\ length bands = n.

End Spec.

Definition zsum (l : list Z) : Z := fold_right Z.add 0 l.

(* 'sum': the sum of the non-null values, up to the wrap-around of the dtype
   [lo, hi]; null if all values are null *)
Definition is_sum (lo hi nodata : Z) (l : list Z) (v : Z) : Prop :=
  match valid (Z.eqb nodata) l with
  | [] => v = nodata
  | vs => lo <= v <= hi /\ exists k, v = zsum vs + k * (hi - lo + 1)
  end.

(* No run of consecutive rasters sums to the null value. *)
Definition sum_free (lo hi nodata : Z) (l : list Z) : Prop :=
  forall pre mid post, l = pre ++ mid ++ post -> valid (Z.eqb nodata) mid <> [] ->
    forall v, is_sum lo hi nodata mid v -> v <> nodata.
