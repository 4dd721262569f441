(* What cutting into pieces has to achieve. *)
From Verif Require Import Base.
From Verif Require Import Chunks. (* the raster record only *)
From Coq Require Import Ascii Sorted.

Definition sum (l : list Z) : Z := fold_right Z.add 0 l.

(* Half-open ranges that follow each other without gaps from a to b. *)
Fixpoint consecutive (a b : Z) (ranges : list (Z * Z)) : Prop :=
  match ranges with
  | [] => a = b
  | (lo, hi) :: rest => lo = a /\ lo <= hi /\ consecutive hi b rest
  end.

(* Shape of a three-dimensional array *)
Definition shape3 {A} (n ny nx : Z) (a : list (list (list A))) : Prop :=
  len a = n /\ Forall (fun p => len p = ny /\ Forall (fun r => len r = nx) p) a.

(* A raster whose arrays and coordinates belong together *)
Definition well_shaped {A C} (n ny nx : Z) (r : raster A C) : Prop :=
  shape3 n ny nx (r_data r) /\ shape3 n ny nx (r_mask r)
  /\ len (r_band r) = n /\ len (r_y r) = ny /\ len (r_x r) = nx.

(* Laying blocks side by side / on top of each other *)
Fixpoint beside {A} (l r : list (list A)) : list (list A) :=
  match l, r with
  | a :: l, b :: r => (a ++ b) :: beside l r
  | _, _ => []
  end.
Definition beside3 {A} (l r : list (list (list A))) : list (list (list A)) :=
  map (fun '(p, q) => beside p q) (combine l r).
Definition above3 {A} (l r : list (list (list A))) : list (list (list A)) :=
  map (fun '(p, q) => p ++ q) (combine l r).

(* Order of Python strings: code points, a proper prefix first *)
Fixpoint str_lt (a b : list ascii) : Prop :=
  match a, b with
  | _, [] => False
  | [], _ :: _ => True
  | x :: a, y :: b =>
      (nat_of_ascii x < nat_of_ascii y)%nat \/ (x = y /\ str_lt a b)
  end.

(* lexicographic order of block numbers *)
Definition lex2 (p q : Z * Z) : Prop := fst p < fst q \/ (fst p = fst q /\ snd p < snd q).
Definition lex3 (p q : Z * Z * Z) : Prop :=
  fst (fst p) < fst (fst q) \/ (fst (fst p) = fst (fst q) /\ lex2 (snd (fst p), snd p) (snd (fst q), snd q)).
