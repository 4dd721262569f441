(* What element-wise operations between rasters on different grids, and between rasters
   and arrays, give. *)
From Coq Require Import QArith.
From Verif Require Import Base Scalars FocalSpec BandsSpec Normalize Ingest Align.
Open Scope Z_scope.

Definition distinct_labels {X} (R : X -> X -> Prop) (l : list X) : Prop := forall i j p q, get l i = Ok p -> get l j = Ok q -> R p q -> i = j.
(* coordinates and values of one raster *)
Definition gridded {A} (r : raster_array A) : Prop :=
  0 < len (r_band r) /\ 0 < len (r_y r) /\ 0 < len (r_x r)
  /\ distinct_labels eq (r_band r) /\ distinct_labels Qeq (r_y r) /\ distinct_labels Qeq (r_x r)
  /\ shaped3 (len (r_band r)) (len (r_y r)) (len (r_x r)) (r_data r).
(* a raster: mask and values on one grid *)
Definition sound (r : raster_ds) : Prop :=
  let '(_, x, m) := r in
  gridded x /\ gridded m /\ r_band m = r_band x /\ r_y m = r_y x /\ r_x m = r_x x.
Definition values (r : raster_ds) : raster_array num := snd (fst r).
Definition nulls (r : raster_ds) : raster_array bool := snd r.
(* it has a null value *)
Definition has_null_value (r : raster_ds) : Prop := fst (fst r) <> None.
(* v is at the coordinates band, y, x *)
Definition value_of {A} (r : raster_array A) (band : Z) (y x : Q) (v : A) : Prop :=
  exists b i j y' x', get (r_band r) b = Ok band /\ get (r_y r) i = Ok y' /\ (y' == y)%Q /\ get (r_x r) j = Ok x' /\ (x' == x)%Q /\ at3 (r_data r) b i j v.
(* l: those of a that are in b, in the order of a *)
Definition common {X} (R : X -> X -> Prop) (a b l : list X) : Prop :=
  exists keep, l = filter keep a /\ forall x, In x a -> (keep x = true <-> exists y, In y b /\ R x y).
(* the same coordinates *)
Definition same_list {X} (R : X -> X -> Prop) (a b : list X) : Prop := Forall2 R a b.
Definition same_grid {A B} (a : raster_array A) (b : raster_array B) : Prop :=
  same_list eq (r_band a) (r_band b) /\ same_list Qeq (r_y a) (r_y b) /\ same_list Qeq (r_x a) (r_x b).

(* numpy broadcasting of an array of shape s to the shape of the raster: the last
   dimensions are matched, each has the same size or size 1 *)
Definition fits (s : list Z) (nb ny nx : Z) : Prop :=
  (length s <= 3)%nat /\ Forall2 (fun n size => n = size \/ n = 1) s (skipn (3 - length s) [nb; ny; nx]).
(* the index in C order of an element *)
Definition c_order (s ix : list Z) : Z := fold_left (fun acc '(n, i) => acc * n + i) (combine s ix) 0.
(* the element that goes with the cell b, i, j: the last indices, 0 where the size is 1 *)
Definition element (a : ndarray) (b i j : Z) (v : num) : Prop :=
  let ix := map (fun '(n, k) => if n =? 1 then 0 else k) (combine (nd_shape a) (skipn (3 - length (nd_shape a)) [b; i; j])) in
  get (nd_flat a) (c_order (nd_shape a) ix) = Ok v.
Definition nd_ok (a : ndarray) : Prop := Forall (fun n => 0 < n) (nd_shape a) /\ len (nd_flat a) = fold_right Z.mul 1 (nd_shape a).
(* result of an operation of r with an operand that has the value o at the cell b, i, j: r's
   coordinates and nulls; f of the values where not null, otherwise the default null value *)
Definition cellwise (f : num -> num -> num) (out : dtype) (r : raster_ds) (other : Z -> Z -> Z -> num -> Prop) (res : raster_ds) : Prop :=
  r_band (values res) = r_band (values r) /\ r_y (values res) = r_y (values r) /\ r_x (values res) = r_x (values r) /\ sound res
  /\ (has_null_value res <-> has_null_value r) /\ (has_null_value res -> fst (fst res) = Some (default_null out))
  /\ forall b i j v, at3 (r_data (values r)) b i j v -> exists o m w, other b i j o /\ at3 (r_data (nulls res)) b i j m /\ at3 (r_data (values res)) b i j w
     /\ (m = true <-> has_null_value r /\ at3 (r_data (nulls r)) b i j true) /\ w = if m then default_null out else f v o.
