(* Rasters seen as cells at coordinates. *)
From Coq Require Import QArith.
From Verif Require Import Base Scalars FocalSpec BandsSpec BandConcat.
Open Scope Z_scope.

(* q is one of the labels *)
Definition label (l : list Q) (q : Q) : Prop := exists p, In p l /\ (p == q)%Q.
(* no label occurs twice *)
Definition distinct (l : list Q) : Prop := forall i j p q, get l i = Ok p -> get l j = Ok q -> (p == q)%Q -> i = j.
(* l' keeps the labels of l for which P holds, in their order *)
Inductive kept (P : Q -> Prop) : list Q -> list Q -> Prop :=
| kept_nil : kept P [] []
| kept_yes q l l' : P q -> kept P l l' -> kept P (q :: l) (q :: l')
| kept_no q l l' : ~ P q -> kept P l l' -> kept P (q :: l) l'.

(* the array has one item for every band, row and column *)
Definition shaped {A} (nb : Z) (r : bandsr) (a : list (list (list A))) : Prop :=
  len a = nb /\ Forall (shaped2 (len (b_y r)) (len (b_x r))) a.
Definition good (r : bandsr) : Prop :=
  shaped (len (b_data r)) r (b_data r) /\ shaped (len (b_data r)) r (b_mask r) /\ distinct (b_y r) /\ distinct (b_x r).
(* the item of a at band b and the coordinates y, x *)
Definition item {A} (r : bandsr) (a : list (list (list A))) (b : Z) (y x : Q) (v : A) : Prop :=
  exists i j p q, get (b_y r) i = Ok p /\ (p == y)%Q /\ get (b_x r) j = Ok q /\ (q == x)%Q
  /\ exists band, get a b = Ok band /\ at2 band i j v.
(* the cell at band b and the coordinates y, x: its value and whether it is null *)
Definition cell (r : bandsr) (b : Z) (y x : Q) (v : num) (m : bool) : Prop :=
  item r (b_data r) b y x v /\ item r (b_mask r) b y x m.
Definition nbands (r : bandsr) : Z := len (b_data r).
Definition bands_before (rs : list bandsr) : Z := fold_right (fun r n => nbands r + n) 0 rs.
