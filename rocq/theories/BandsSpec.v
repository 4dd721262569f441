(* What combining bands cell by cell has to give. *)
From Coq Require Import QArith.
From Verif Require Import Base Scalars StatsSpec FocalSpec Bands.
Open Scope Z_scope.

Definition shaped3 {A} (nb ny nx : Z) (a : list (list (list A))) : Prop :=
  len a = nb /\ Forall (shaped2 ny nx) a.
(* cell (r, c) of every band *)
Definition through {A} (d : A) (a : list (list (list A))) (r c : Z) : list A := map (fun band => val2 d band r c) a.
(* its values, NaN where null *)
Definition band_values (data : list (list (list num))) (mask : option (list (list (list bool)))) (r c : Z) : list num :=
  match mask with
  | None => through NaN data r c
  | Some m => map (fun '(v, b) => if b : bool then NaN else v) (combine (through NaN data r c) (through true m r c))
  end.
Definition null_in_all (mask : option (list (list (list bool)))) (r c : Z) : bool :=
  match mask with None => false | Some m => forallb (fun b => b) (through true m r c) end.
Definition null_in_some (mask : option (list (list (list bool)))) (r c : Z) : bool :=
  match mask with None => false | Some m => existsb (fun b => b) (through true m r c) end.

(* v is the statistic of the values vals *)
Definition stat_value (s : local_stat) (round : num -> num) (vals : list num) (v : num) : Prop :=
  match s with
  | LNumpy f _ => v = f vals
  | LSum f => v = round (f vals)
  | LMode => (Forall (fun u => is_nan u = true) vals /\ v = NaN) \/ is_mode vals v
  | LUnique => forall D, distinct_values vals D -> v = of_Z (len D)
  | LMinBand => (exists u, In u vals /\ is_nan u = false /\ num_ltb u PInf = true) -> exists j, is_argmin vals j /\ v = of_Z j
  | LMaxBand => (exists u, In u vals /\ is_nan u = false /\ num_ltb MInf u = true) -> exists j, is_argmax vals j /\ v = of_Z j
  end.
(* the dtype of the result *)
Definition result_dtype (s : local_stat) (d : dtype) (nb : Z) (d' : dtype) : Prop :=
  match s with
  | LNumpy _ o => d' = o
  | LSum _ => d' = F32 \/ d' = F64
  | LMode => d' = d
  | LUnique => is_int_dtype d' = true /\ nb <= int_max d'
  | LMinBand | LMaxBand => is_int_dtype d' = true /\ nb - 1 <= int_max d'
  end.
(* astype keeps integers that the dtype holds *)
Definition exact_ints (cast : dtype -> num -> num) : Prop :=
  forall d z, is_int_dtype d = true -> int_min d <= z <= int_max d -> cast d (of_Z z) = of_Z z.

(* a[b, r, c] is x *)
Definition at3 {A} (a : list (list (list A))) (b r c : Z) (x : A) : Prop := exists band, get a b = Ok band /\ at2 band r c x.
(* a model that treats every row of nb values by itself: f gives nout values *)
Definition rowwise {V} (predict : list (list num) -> res (@prediction V)) (nb nout : Z) (f : list num -> list V) : Prop :=
  (forall row, len row = nb -> len (f row) = nout)
  /\ forall rows, Forall (fun row => len row = nb) rows ->
       predict rows = Ok (P2 (map f rows))
       \/ (nout = 1 /\ exists l, predict rows = Ok (P1 l) /\ map (fun v => [v]) l = map f rows).
(* what the model is given for v: numbers as they are, NaN as 0, infinities as the
   largest finite numbers *)
Definition input_of (largest : Q) (v w : num) : Prop :=
  match v with Fin _ => w = v | NaN => w = of_Z 0 | PInf => w = Fin largest | MInf => w = Fin (- largest) end.
