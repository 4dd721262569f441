(* Model of _padding.py.  A raster is given by its bands of ny x nx cells.  How many
   rows and columns rioxarray's pad_box adds on each side is taken as given
   (top, bottom, left, right); so are bounds and CRS. *)
From Coq Require Import QArith.
From Verif Require Import Base Scalars Arr2 Raster.
Open Scope Z_scope.

(* rioxarray pad_box(..., constant_values=x) of one band *)
Definition pad_box {A} (top bottom lft rgt : Z) (x : A) (nx : Z) (a : arr2 A) : arr2 A :=
  full top (full (lft + nx + rgt) x)
  ++ map (fun row => full lft x ++ row ++ full rgt x) a
  ++ full bottom (full (lft + nx + rgt) x).

(* fill_values: None, a scalar, a list, or something else *)
Inductive fill := FNone | FScalar (v : num) | FList (vs : list num) | FOther.
(* _padding.py:28-31 _equals_null *)
Definition equals_null (v : num) (nv : option num) : bool :=
  match nv with None => false | Some n => nan_equal v n end.
(* _padding.py:80-112 _validate_fill_values *)
Definition validate_fill_values (nbands : Z) (nv : option num) (d : dtype) (f : fill) : res (list num * list bool * option num) :=
  match f with
  | FNone =>
      let out := match nv with Some v => v | None => default_null d end in
      Ok (full nbands out, full nbands true, Some out)
  | FScalar v => Ok (full nbands v, full nbands (equals_null v nv), nv)
  | FList vs =>
      if negb (len vs =? nbands) then Err ValueError
      else Ok (vs, map (fun v => equals_null v nv) vs, nv)
  | FOther => Err TypeError
  end.

(* _padding.py:173-200, one band: the new cells get the fill value, and are null when marked *)
Definition pad_band (cast : num -> num) (masked : bool) (nx top bottom lft rgt : Z)
  (data : arr2 num) (mask : arr2 bool) (v : num) (marked : bool) : arr2 num * arr2 bool :=
  let is_new := pad_box top bottom lft rgt true nx (map2 (fun _ => false) mask) in
  let data := zip2 (fun (n : bool) x => if n then cast v else x) is_new (pad_box top bottom lft rgt (of_Z 0) nx data) in
  let mask := if masked : bool then pad_box top bottom lft rgt false nx mask else map2 (fun _ => false) is_new in
  (data, zip2 orb mask (map2 (fun n => n && marked) is_new)).
(* _padding.py:115-203 pad.  bands: data and mask of every band; cast is
   astype(dtype) of a fill value.  Returns the bands and the null value. *)
Definition pad (cast : num -> num) (d : dtype) (nv : option num) (nx : Z) (bands : list (arr2 num * arr2 bool))
  (top bottom lft rgt : Z) (f : fill) : res (list (arr2 num * arr2 bool) * option num) :=
  let* '(per_band, mark, out_nv) := validate_fill_values (len bands) nv d f in
  let masked := match nv with Some _ => true | None => false end in
  Ok (map (fun x => pad_band cast masked nx top bottom lft rgt (fst (fst (fst x))) (snd (fst (fst x))) (snd (fst x)) (snd x))
          (combine (combine bands per_band) mark), out_nv).
