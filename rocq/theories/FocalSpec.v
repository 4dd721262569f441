(* What the focal operations have to compute, cell by cell. *)
From Coq Require Import QArith.
From Verif Require Import Base Scalars.
Open Scope Z_scope.

(* a ny x nx array *)
Definition shaped2 {A} (ny nx : Z) (a : list (list A)) : Prop :=
  len a = ny /\ Forall (fun r => len r = nx) a.
(* a[i, j] is x *)
Definition at2 {A} (a : list (list A)) (i j : Z) (x : A) : Prop :=
  exists row, get a i = Ok row /\ get row j = Ok x.
(* a[i, j], or d outside *)
Definition val2 {A} (d : A) (a : list (list A)) (i j : Z) : A :=
  match get a i with
  | Ok row => match get row j with Ok x => x | Err _ => d end
  | Err _ => d
  end.

(* the cells of a ny x nx raster in row-major order *)
Definition cells (ny nx : Z) : list (Z * Z) :=
  concat (map (fun i => map (fun j => (i, j)) (zrange 0 nx)) (zrange 0 ny)).

(* Cell (p, q) lies under a true entry of the kernel when the kernel is centred
   on (i, j).  The centre of n entries is entry (n - 1) / 2. *)
Definition under (kernel : list (list bool)) (krows kcols i j p q : Z) : bool :=
  val2 false kernel (p - i + (krows - 1) / 2) (q - j + (kcols - 1) / 2).

(* The values a statistic has to look at: those of the valid raster cells under
   the kernel *)
Definition focal_values (data : list (list num)) (mask : Z -> Z -> bool)
  (kernel : list (list bool)) (krows kcols ny nx i j : Z) : list num :=
  filter (fun v => negb (is_nan v))
    (map (fun '(p, q) => val2 NaN data p q)
      (filter (fun '(p, q) => under kernel krows kcols i j p q && negb (mask p q)) (cells ny nx))).

(* the array continued beyond its edges *)
Inductive edge := EReflect | ENearest | EWrap | EConstant.
Definition beyond {A} (e : edge) (cval : A) (a : Z -> Z -> A) (ny nx i j : Z) : A :=
  let inside n k := (0 <=? k) && (k <? n) in
  let mirror n k := let m := k mod (2 * n) in if m <? n then m else 2 * n - 1 - m in
  match e with
  | EConstant => if inside ny i && inside nx j then a i j else cval
  | ENearest => a (Z.min (Z.max i 0) (ny - 1)) (Z.min (Z.max j 0) (nx - 1))
  | EWrap => a (i mod ny) (j mod nx)
  | EReflect => a (mirror ny i) (mirror nx j)
  end.

(* sum of f 0 .. f (n - 1) *)
Definition Zsum (n : Z) (f : Z -> Z) : Z := fold_right Z.add 0 (map f (zrange 0 n)).

(* no NaN, no infinity *)
Definition finite (v : num) : bool := match v with Fin _ => true | _ => false end.
Definition all_cells (P : num -> bool) (a : list (list num)) : Prop := Forall (Forall (fun v => P v = true)) a.

(* Moving a true entry of the kernel towards the centre gives a true entry
   (rectangles and circles; not an annulus) *)
Definition between (c a a' : Z) : Prop := c <= a' <= a \/ a <= a' <= c.
Definition solid (kernel : list (list bool)) (krows kcols : Z) : Prop :=
  forall a b a' b', val2 false kernel a b = true ->
    between ((krows - 1) / 2) a a' -> between ((kcols - 1) / 2) b b' -> val2 false kernel a' b' = true.

(* the disc of radius r - 1 around the centre of a square of 2 r - 1 entries *)
Definition in_disc (r : Z) (a b : Z) : Prop := (a - (r - 1)) ^ 2 + (b - (r - 1)) ^ 2 <= (r - 1) ^ 2.

(* The sum over the kernel, row by row, of kernel entry times cell; cells that are
   NaN are left out. *)
Definition correlation {V} (isnan : V -> bool) (vzero : V) (vadd vmul : V -> V -> V)
  (weight : Z -> Z -> V) (krows kcols : Z) (value : Z -> Z -> V) (i j : Z) : V :=
  fold_left (fun acc '(a, b) =>
      let v := value (i + a - (krows - 1) / 2) (j + b - (kcols - 1) / 2) in
      if isnan v then acc else vadd acc (vmul (weight a b) v))
    (cells krows kcols) vzero.
