(* What a normalised raster is. *)
From Coq Require Import QArith String Permutation.
From Verif Require Import Base Scalars FocalSpec BandsSpec MapBlocksSpec Normalize.
Open Scope Z_scope.

(* the standard name of a dimension *)
Definition standard (name : string) : string :=
  if String.eqb name "time" then "band" else if String.eqb name "lon" then "x" else if String.eqb name "lat" then "y" else name.
(* An array of three dimensions in any order, named bd (nb bands), yd and xd, with
   coordinates. *)
Definition along (bd yd : string) {A} (d : string) (b i j : A) : A := if String.eqb d bd then b else if String.eqb d yd then i else j.
Definition array3 {A} (bd yd xd : string) (nb : Z) (cy cx : coordinate) (x : xarray A) : Prop :=
  exists d0 d1 d2 a, x_dims x = [d0; d1; d2] /\ Permutation [bd; yd; xd] [d0; d1; d2] /\ x_body x = Body3 a
  /\ (let n := fun d => along bd yd d nb (len (c_values cy)) (len (c_values cx)) in shaped3 (n d0) (n d1) (n d2) a)
  /\ NoDup (map standard [d0; d1; d2]) /\ NoDup (map fst (x_coords x)) /\ incl (map fst (x_coords x)) [d0; d1; d2]
  /\ In (yd, cy) (x_coords x) /\ In (xd, cx) (x_coords x).
(* the value with index b along the bands, i along y and j along x *)
Definition value_along {A} (bd yd : string) (x : xarray A) (b i j : Z) (v : A) : Prop :=
  exists d0 d1 d2 a, x_dims x = [d0; d1; d2] /\ x_body x = Body3 a
  /\ at3 a (along bd yd d0 b i j) (along bd yd d1 b i j) (along bd yd d2 b i j) v.
(* coordinates in order *)
Definition ordered (r : Q -> Q -> Prop) (l : list Q) : Prop := forall i p q, get l i = Ok p -> get l (i + 1) = Ok q -> r p q.
Definition increasing (l : list Q) : Prop := ordered Qlt l.
Definition decreasing (l : list Q) : Prop := ordered (fun p q => q < p)%Q l.
(* coordinates l became l', and index i became i': unchanged or turned round *)
Definition moved (l l' : list Q) (i i' : Z) : Prop := (l' = l /\ i' = i) \/ (l' = rev l /\ i' = len l - 1 - i).
(* the values of a (at bands, rows ys, columns xs) are those of the raster at the same
   coordinates; x never decreases and y never increases there *)
Definition same_places {A} (nb : Z) (ys xs : list Q) (at_ : Z -> Z -> Z -> A -> Prop) (r : raster_array A) : Prop :=
  r_band r = zrange 1 (nb + 1) /\ (shaped3 nb (len ys) (len xs) (r_data r) /\ len (r_y r) = len ys /\ len (r_x r) = len xs)
  /\ (increasing xs \/ decreasing xs -> increasing (r_x r)) /\ (increasing ys \/ decreasing ys -> decreasing (r_y r))
  /\ forall b i j v, 0 <= b < nb -> 0 <= i < len ys -> 0 <= j < len xs -> at_ b i j v ->
     exists i' j', moved ys (r_y r) i i' /\ moved xs (r_x r) j j' /\ at3 (r_data r) b i' j' v
       /\ get (r_y r) i' = get ys i /\ get (r_x r) j' = get xs j.
(* the coordinates at which an array is placed: given ones, or cells of size one with
   the lower left corner of the array at the origin *)
Definition coordinates_of (p : placement) (ny nx : Z) (ys xs : list Q) : Prop :=
  len ys = ny /\ len xs = nx /\
  match p with
  | Given xs' ys' | Affine xs' ys' => xs = xs' /\ ys = ys'
  | OnlyOne => False
  | Default => (forall j x, get xs j = Ok x -> x == inject_Z j + (1 # 2))%Q /\ (forall i y, get ys i = Ok y -> y == inject_Z (ny - i) - (1 # 2))%Q
  end.
(* the same up to equal rationals *)
Definition same_coord (a b : res Q) : Prop := match a, b with Ok p, Ok q => (p == q)%Q | _, _ => False end.
