(* The documented meaning of the depth, boundary and null_value arguments. *)
From Verif Require Import Base Scalars.
From Verif Require Import BlockArgs. (* the argument types only *)

(* one axis: a non-negative int, or a pair of non-negative ints *)
Inductive axis_means : py -> axdepth -> Prop :=
| means_int : forall n, 0 <= n -> axis_means (PInt n) (Sym n)
| means_pair : forall l r, 0 <= l -> 0 <= r -> axis_means (PTuple [PInt l; PInt r]) (Asym l r).

(* the last value given for an axis; 0 when there is none *)
Fixpoint last_for (k : Z) (items : list (py * py)) : option py :=
  match items with
  | [] => None
  | (PInt a, v) :: t =>
      match last_for k t with
      | Some w => Some w
      | None => if a =? k then Some v else None
      end
  | _ :: t => last_for k t
  end.
Definition dict_axis (items : list (py * py)) (k : Z) (d : axdepth) : Prop :=
  match last_for k items with None => d = Sym 0 | Some v => axis_means v d end.

(* depth: (y, x) *)
Inductive depth_means : py -> axdepth -> axdepth -> Prop :=
| depth_int : forall n, 0 <= n -> depth_means (PInt n) (Sym n) (Sym n)
| depth_pair : forall a b y x, axis_means a y -> axis_means b x ->
    depth_means (PTuple [a; b]) y x
| depth_dict : forall items y x,
    Forall (fun it => exists k d, fst it = PInt k /\ 0 <= k <= 2 /\ axis_means (snd it) d) items ->
    dict_axis items 0 (Sym 0) -> dict_axis items 1 y -> dict_axis items 2 x ->
    depth_means (PDict items) y x.
