(* Model of grid geometry: raster.py:2974-2999 (index <-> coordinate), _grids.py
   (grid comparison) and io.py:333-339 (overview factors). *)
From Coq Require Import QArith Qabs Qround.
From Verif Require Import Base.
Open Scope Z_scope.

(* affine.Affine: x = a col + b row + c, y = d col + e row + f, over any
   arithmetic *)
Record affine (T : Type) := Affine { aa : T; ab : T; ac : T; ad : T; ae : T; af : T }.
Arguments Affine {T}. Arguments aa {T}. Arguments ab {T}. Arguments ac {T}. Arguments ad {T}. Arguments ae {T}. Arguments af {T}.

Section Arithmetic.
Variable T : Type.
Variables (add mul div : T -> T -> T) (opp : T -> T) (zero half one : T) (of_int : Z -> T) (floor : T -> Z).
Infix "+!" := add (at level 50, left associativity).
Infix "*!" := mul (at level 40, left associativity).
(* the affine package (not part of /repo): A * B, A * (x, y), ~A *)
Definition affine_mul (s o : affine T) : affine T :=
  Affine (aa s *! aa o +! ab s *! ad o) (aa s *! ab o +! ab s *! ae o) (aa s *! ac o +! ab s *! af o +! ac s)
         (ad s *! aa o +! ae s *! ad o) (ad s *! ab o +! ae s *! ae o) (ad s *! ac o +! ae s *! af o +! af s).
Definition affine_apply (s : affine T) (v : T * T) : T * T :=
  let '(x, y) := v in (x *! aa s +! y *! ab s +! ac s, x *! ad s +! y *! ae s +! af s).
Definition affine_inv (s : affine T) : affine T :=
  let idet := div one (aa s *! ae s +! opp (ab s *! ad s)) in
  let ra := ae s *! idet in
  let rb := opp (ab s) *! idet in
  let rd := opp (ad s) *! idet in
  let re := aa s *! idet in
  Affine ra rb (opp (ac s) *! ra +! opp (af s *! rb)) rd re (opp (ac s) *! rd +! opp (af s *! re)).

(* raster.py:2974-2980 _offset_name_to_rc_offset *)
Inductive offset := OCenter | OUl | OUr | OLl | OLr.
Definition rc_offset (o : offset) : T * T :=
  match o with
  | OCenter => (half, half) | OUl => (zero, zero) | OUr => (zero, one) | OLl => (one, zero) | OLr => (one, one)
  end.
(* raster.py:2983-2989 rowcol_to_xy *)
Definition rowcol_to_xy (row col : T) (t : affine T) (o : offset) : T * T :=
  let '(roffset, coffset) := rc_offset o in
  affine_apply (affine_mul t (Affine one zero coffset zero one roffset)) (col, row).
(* raster.py:2992-2999 xy_to_rowcol *)
Definition xy_to_rowcol (x y : T) (t : affine T) : Z * Z :=
  let '(col, row) := affine_apply (affine_inv t) (x, y) in (floor row, floor col).
End Arithmetic.

(* exact arithmetic *)
Definition qxy (row col : Q) (t : affine Q) (o : offset) : Q * Q :=
  rowcol_to_xy Q Qplus Qmult (0 # 1) (1 # 2) (1 # 1) row col t o.
Definition qindex (x y : Q) (t : affine Q) : Z * Z :=
  xy_to_rowcol Q Qplus Qmult Qdiv Qopp (1 # 1) Qfloor x y t.

(* a GeoBox: crs (any identifier), shape and affine; coefficients are exact here *)
Record grid := Grid { g_crs : Z; g_ny : Z; g_nx : Z; g_affine : affine Q }.
Definition tolerance : Q := 1 # 1000.
(* _grids.py:35-47 grids_close *)
Definition grids_close (a b : grid) (tol : Q) : bool :=
  if negb (g_crs a =? g_crs b) || negb ((g_ny a =? g_ny b) && (g_nx a =? g_nx b)) then false
  else
    let p := g_affine a in let q := g_affine b in
    let qmax x y := if Qle_bool x y then y else x in
    let atol := (tol * qmax (Qabs (aa p)) (Qabs (ae p)))%Q in
    forallb (fun '(x, y) => Qle_bool (Qabs (x - y)) atol)
      (combine [aa p; ab p; ac p; ad p; ae p; af p] [aa q; ab q; ac q; ad q; ae q; af q]).
(* _grids.py:50-56 are_all_grids_same *)
Definition are_all_grids_same (gs : list grid) : bool :=
  match gs with
  | [] => true
  | g :: gs => forallb (fun h => grids_close g h tolerance) gs
  end.

(* io.py:333-339 _auto_overview_factors; the quotient of two Python ints is taken
   as exact (it is, up to 2^53 rows and columns) *)
Fixpoint overview_loop (fuel : nat) (m min_size f : Z) (factors : list Z) : res (list Z) :=
  match fuel with
  | O => Err OutOfFuel
  | S fuel => if min_size * f <=? m then overview_loop fuel m min_size (f * 2) (factors ++ [f]) else Ok factors
  end.
Definition auto_overview_factors (height width min_size : Z) : res (list Z) :=
  let m := Z.min height width in
  overview_loop (S (Z.to_nat (Z.log2_up m))) m min_size 2 [].
