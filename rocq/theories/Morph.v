(* Model of general.py:741-910: dilation and erosion of one band.

   Values are the exact numbers of Scalars.v.  scipy.ndimage's filters are not
   part of /repo: they are modelled by Focal.ndfilter, with the origin scipy uses. *)
From Coq Require Import QArith.
From Verif Require Import Base Scalars Chunks Arr2 Focal.
Open Scope Z_scope.

Inductive morph := Dilation | Erosion.
(* scipy.ndimage: the entry of n footprint entries that lies on the cell.
   Dilation reflects the footprint, which moves the origin of even ones. *)
Definition origin (op : morph) (n : Z) : Z :=
  match op with Erosion => 0 | Dilation => if n mod 2 =? 0 then -1 else 0 end.
Definition centre (op : morph) (n : Z) : Z := n / 2 + origin op n.
Definition chosen {A} (kw : list (bool * A)) : list A := map snd (filter fst kw).
Definition extremum (op : morph) (cval : num) (x : list num) : num :=
  match x with
  | [] => cval
  | a :: t => fold_left (match op with Dilation => num_max | Erosion => num_min end) t a
  end.
(* general.py:741-753 _morph_op_chunk: grey_dilation, grey_erosion with mode="constant";
   binary_dilation, binary_erosion with border value 0 *)
Definition morph_chunk (op : morph) (cval : num) (krows kcols : Z) (footprint : arr2 bool)
  (rows cols : Z) (x : arr2 num) : res (arr2 num) :=
  ndfilter Constant cval rows cols krows kcols (centre op krows) (centre op kcols) footprint
    (fun kw => extremum op cval (chosen kw)) x.
Definition binary_chunk (op : morph) (krows kcols : Z) (footprint : arr2 bool)
  (rows cols : Z) (x : arr2 bool) : res (arr2 bool) :=
  ndfilter Constant false rows cols krows kcols (centre op krows) (centre op kcols) footprint
    (fun kw => match op with Dilation => existsb (fun b => b) (chosen kw) | Erosion => forallb (fun b => b) (chosen kw) end) x.

(* general.py:756-771 _get_footprint: the shape and the footprint.  Numbers are ints (other
   types give TypeError). *)
Inductive size := OneSize (n : Z) | SizeSeq (l : list Z).
Definition get_footprint (s : size) : res (Z * Z * arr2 bool) :=
  let* '(a, b) := match s with
                  | OneSize n => Ok (n, n)
                  | SizeSeq [a; b] => Ok (a, b)
                  | SizeSeq _ => Err ValueError
                  end in
  if negb ((0 <? a) && (0 <? b)) then Err ValueError
  else if (a =? 1) && (b =? 1) then Err ValueError
  else Ok (a, b, full a (full b true)).

(* np.finfo(dtype).max *)
Definition float_max (d : dtype) : Z :=
  match d with
  | F16 => (2 ^ 11 - 1) * 2 ^ 5
  | F32 => (2 ^ 24 - 1) * 2 ^ 104
  | F64 => (2 ^ 53 - 1) * 2 ^ 971
  | _ => 0
  end.
(* general.py:774-776 _get_fill; np.finfo(bool) raises ValueError *)
Definition get_fill (d : dtype) (op : morph) : res num :=
  if is_int_dtype d then Ok (of_Z (match op with Erosion => int_max d | Dilation => int_min d end))
  else if is_float_dtype d then Ok (of_Z (match op with Erosion => float_max d | Dilation => - float_max d end))
  else Err ValueError.

(* general.py:779-824 _erosion_or_dilation_filter *)
Definition morph_filter (d : dtype) (nv : num) (op : morph) (ny nx : Z) (ycs xcs : list Z)
  (krows kcols : Z) (footprint : arr2 bool) (rs : band) : res band :=
  let* fill := get_fill d op in
  let '((kr_top, kr_bot), (kc_left, kc_right)) := get_offsets krows kcols in
  let dy := Z.max kr_top kr_bot in
  let dx := Z.max kc_left kc_right in
  let data := match b_mask rs with Some mask => where2 mask fill (b_data rs) | None => b_data rs end in
  let* data := map_overlap Constant fill ny nx dy dx ycs xcs (morph_chunk op fill krows kcols footprint) data in
  match b_mask rs with
  | Some mask =>
      let* valid := map_overlap Constant false ny nx dy dx ycs xcs (binary_chunk op krows kcols footprint) (map (map negb) mask) in
      let mask := map (map negb) valid in
      Ok (Band (where2 mask nv data) (Some mask))
  | None => Ok (Band data None)
  end.
(* general.py:827-865 dilate, 868-908 erode *)
Definition dilate_or_erode (op : morph) (s : size) (d : dtype) (nv : num) (ny nx : Z) (ycs xcs : list Z) (rs : band) : res band :=
  let* '(krows, kcols, footprint) := get_footprint s in
  morph_filter d nv op ny nx ycs xcs krows kcols footprint rs.
