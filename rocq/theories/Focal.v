(* Model of focal.py: focal statistics, correlation and convolution of one band.

   The functions of the code work on all bands with band chunks of one band
   (focal.py:49, 82 single_band_mappable); bands do not interact.  Values are
   exact numbers (Scalars.v); the conversions between dtypes in the code
   (promotion to float, casting back) are the identity here. *)
From Coq Require Import QArith.
From Verif Require Import Base Scalars Chunks Arr2 Stats.
Open Scope Z_scope.

(* focal.py:115-130 _get_offsets *)
Definition get_offsets (krows kcols : Z) : (Z * Z) * (Z * Z) :=
  let kr_top := (krows - 1) / 2 in
  let kr_bot := krows / 2 in
  let kc_left := (kcols - 1) / 2 in
  let kc_right := kcols / 2 in
  ((kr_top, kr_bot), (kc_left, kc_right)).

Section Chunk.
Context {V : Type}.
Variable nanv : V.

(* focal.py:66-77: the body of the loops over a chunk; kernel is flat *)
Definition focal_cell (kernel : list bool) (krows kcols : Z) (chunk : arr2 V) (r c : Z)
  : res (list V) :=
  let '((kr_top, kr_bot), (kc_left, kc_right)) := get_offsets krows kcols in
  let kernel_values := full (krows * kcols) nanv in
  let* '(kernel_values, _) :=
    foldM (fun s kr =>
      foldM (fun '(kv, ki) kc =>
        let* k := get kernel ki in
        let* kv := if k then let* v := get2 chunk kr kc in set kv ki v else Ok kv in
        Ok (kv, ki + 1)) (zrange (c - kc_left) (c + kc_right + 1)) s)
      (zrange (r - kr_top) (r + kr_bot + 1)) (kernel_values, 0) in
  Ok kernel_values.

(* focal.py:49-79 _focal_chunk; junk is np.empty_like(chunk) *)
Definition focal_chunk (kernel : arr2 bool) (krows kcols : Z) (kernel_func : list V -> V)
  (junk : arr2 V) (rows cols : Z) (chunk : arr2 V) : res (arr2 V) :=
  let '((kr_top, kr_bot), (kc_left, kc_right)) := get_offsets krows kcols in
  let r_ovlp := Z.max kr_top kr_bot in
  let c_ovlp := Z.max kc_left kc_right in
  let kernel := concat kernel in
  foldM (fun out r =>
    foldM (fun out c =>
      let* kernel_values := focal_cell kernel krows kcols chunk r c in
      set2 out r c (kernel_func kernel_values)) (zrange c_ovlp (cols - c_ovlp)) out)
    (zrange r_ovlp (rows - r_ovlp)) junk.

(* focal.py:100-111; the sum of one cell *)
Variable isnan : V -> bool.
Variables (vzero : V) (vadd vmul : V -> V -> V).
Definition correlate_cell (kernel : list V) (krows kcols : Z) (chunk : arr2 V) (r c : Z) : res V :=
  let '((kr_top, kr_bot), (kc_left, kc_right)) := get_offsets krows kcols in
  let* '(v, _) :=
    foldM (fun s kr =>
      foldM (fun '(v, ki) kc =>
        let* val := get2 chunk kr kc in
        let* v := if isnan val then Ok v else let* k := get kernel ki in Ok (vadd v (vmul k val)) in
        Ok (v, ki + 1)) (zrange (c - kc_left) (c + kc_right + 1)) s)
      (zrange (r - kr_top) (r + kr_bot + 1)) (vzero, 0) in
  Ok v.
(* focal.py:82-112 _correlate2d_chunk.  The prange loops run in any order; every
   iteration writes its own cell. *)
Definition correlate2d_chunk (kernel : arr2 V) (krows kcols : Z)
  (junk : arr2 V) (rows cols : Z) (chunk : arr2 V) : res (arr2 V) :=
  let '((kr_top, kr_bot), (kc_left, kc_right)) := get_offsets krows kcols in
  let r_ovlp := Z.max kr_top kr_bot in
  let c_ovlp := Z.max kc_left kc_right in
  let kernel := concat kernel in
  foldM (fun out r =>
    foldM (fun out c =>
      let* v := correlate_cell kernel krows kcols chunk r c in
      set2 out r c v) (zrange c_ovlp (cols - c_ovlp)) out)
    (zrange r_ovlp (rows - r_ovlp)) junk.
End Chunk.

(* dask_image.ndfilters (scipy.ndimage), not part of /repo: the whole array is
   extended at its edges and the footprint is laid on it with the entry
   (cr, cc) on the cell; f gets the pairs of kernel entry and value. *)
Definition ndfilter {W A B} (b : boundary) (cval : A) (ny nx krows kcols cr cc : Z)
  (kernel : arr2 W) (f : list (W * A) -> B) (a : arr2 A) : res (arr2 B) :=
  traverse (fun r => traverse (fun c =>
    let* w := window b cval a ny nx (r - cr) (r - cr + krows) (c - cc) (c - cc + kcols) in
    Ok (f (combine (concat kernel) (concat w)))) (zrange 0 nx)) (zrange 0 ny).

(* ---------------- statistics ---------------- *)

Definition num_add (a b : num) : num :=
  match a, b with
  | NaN, _ | _, NaN | PInf, MInf | MInf, PInf => NaN
  | PInf, _ | _, PInf => PInf
  | MInf, _ | _, MInf => MInf
  | Fin p, Fin q => Fin (p + q)%Q
  end.
Definition drop_nan (l : list num) : list num := filter (fun v => negb (is_nan v)) l.
(* np.nanmin, np.nanmax, np.nansum *)
Definition num_min (a b : num) : num := if num_ltb b a then b else a.
Definition num_max (a b : num) : num := if num_ltb a b then b else a.
Definition nanmin (l : list num) : num :=
  match drop_nan l with [] => NaN | a :: t => fold_left num_min t a end.
Definition nanmax (l : list num) : num :=
  match drop_nan l with [] => NaN | a :: t => fold_left num_max t a end.
Definition nansum (l : list num) : num := fold_left num_add (drop_nan l) (of_Z 0).

(* The remaining statistics (asm, entropy, mean, median, std, var) of a list of
   valid values are left abstract. *)
Inductive stat := SMin | SMax | SSum | SMode | SUnique | SOther (o : Z).
Section Public.
Variable other : Z -> list num -> num.
(* focal.py:258-270 _STAT_TO_FUNC *)
Definition stat_func (s : stat) (x : list num) : num :=
  match s with
  | SMin => nanmin x
  | SMax => nanmax x
  | SSum => nansum x
  | SMode => match nanmode x with Ok v => v | Err _ => NaN end
  | SUnique => of_Z (nan_unique_count x)
  | SOther o => other o (drop_nan x)
  end.
Definition is_fast (s : stat) : bool := match s with SMin | SMax | SSum => true | _ => false end.

(* the selected values of a footprint *)
Definition selected (kw : list (bool * num)) : list num := map snd (filter fst kw).
(* np.min, np.max, sum over the footprint (a value outside the footprint weighs 0
   in the sum; the model leaves it out, which is the same for finite values) *)
Definition fast_filter (s : stat) (ny nx krows kcols : Z) (kernel : arr2 bool) (data : arr2 num)
  : res (arr2 num) :=
  match s with
  | SSum => ndfilter Constant (of_Z 0) ny nx krows kcols (krows / 2) (kcols / 2) kernel
              (fun kw => nansum (selected kw)) data
  | _ => ndfilter Nearest NaN ny nx krows kcols (krows / 2) (kcols / 2) kernel
              (fun kw => stat_func s (selected kw)) data
  end.

(* focal.py:273-323 _focal; junk rows cols is what np.empty_like returns *)
Definition focal_data (junk : Z -> Z -> arr2 num) (ny nx : Z) (ycs xcs : list Z)
  (kernel : arr2 bool) (krows kcols : Z) (s : stat) (nan_aware : bool) (data : arr2 num)
  : res (arr2 num) :=
  if negb nan_aware && is_fast s
  then fast_filter s ny nx krows kcols kernel data
  else
    let offsets := get_offsets krows kcols in
    let rpad := Z.max (fst (fst offsets)) (snd (fst offsets)) in
    let cpad := Z.max (fst (snd offsets)) (snd (snd offsets)) in
    map_overlap Constant NaN ny nx rpad cpad ycs xcs
      (fun rows cols => focal_chunk NaN kernel krows kcols (stat_func s) (junk rows cols) rows cols)
      data.

(* One band of a raster; no mask: raster._masked is False *)
Record band := Band { b_data : arr2 num; b_mask : option (arr2 bool) }.
Definition where2 {A} (m : arr2 bool) (x : A) (a : arr2 A) : arr2 A :=
  map (fun '(mr, ar) => map (fun '(b, v) => if (b : bool) then x else v) (combine mr ar)) (combine m a).
Definition or2 (m n : arr2 bool) : arr2 bool :=
  map (fun '(x, y) => map (fun '(b, c) => (b || c)%bool) (combine x y)) (combine m n).

(* focal.py:390-429 focal *)
Definition focal (junk : Z -> Z -> arr2 num) (ny nx : Z) (ycs xcs : list Z)
  (kernel : arr2 bool) (krows kcols : Z) (s : stat) (ignore_null : bool) (rs : band)
  : res band :=
  match b_mask rs with
  | Some mask =>
      let data := where2 mask NaN (b_data rs) in
      let* data := focal_data junk ny nx ycs xcs kernel krows kcols s true data in
      let data := match s with
                  | SUnique => map (map (fun v => if num_eqb v (of_Z 0) then NaN else v)) data
                  | _ => data
                  end in
      let mask := if ignore_null then mask else or2 mask (map (map is_nan) data) in
      Ok (Band (where2 mask NaN data) (Some mask))
  | None =>
      let* data := focal_data junk ny nx ycs xcs kernel krows kcols s false (b_data rs) in
      Ok (Band data None)
  end.
End Public.

(* focal.py:408-416: the dtype of the unique counts *)
Definition unique_dtype (n : Z) : option dtype :=
  find (fun dt => n <=? int_max dt) [U8; U16; U32; U64].

(* ---------------- focal windows ---------------- *)

(* focal.py:484-494: one circle.  sqrt(d) <= r is written d <= r * r, which is
   the same for the integers d and r >= 0 (sqrt is correctly rounded and r is
   exact). *)
Definition circle (rvalue : Z) : arr2 bool :=
  let width := (rvalue - 1) * 2 + 1 in
  let r := (width - 1) / 2 in
  map (fun x => map (fun y => (x - r) * (x - r) + (y - r) * (y - r) <=? r * r) (zrange 0 width))
    (zrange 0 width).
(* np.pad(w, p, constant_values=False) *)
Definition pad_false (p n : Z) (w : arr2 bool) : arr2 bool :=
  full p (full (n + 2 * p) false)
    ++ map (fun r => full p false ++ r ++ full p false) w
    ++ full p (full (n + 2 * p) false).

(* The arguments width_or_radius and height of get_focal_window; numbers are
   ints *)
Inductive wr := One (v : Z) | Two (v1 v2 : Z).
(* focal.py:454-517 get_focal_window *)
Definition get_focal_window (width_or_radius : wr) (height : option Z) : res (arr2 bool) :=
  let values := match width_or_radius with One v => [v] | Two v1 v2 => [v1; v2] end in
  if match width_or_radius with Two v1 v2 => v2 <=? v1 | One _ => false end then Err ValueError
  else if existsb (fun v => v <=? 0) values then Err ValueError
  else match width_or_radius, height with
       | Two _ _, Some _ => Err ValueError
       | One width, Some height =>
           if height <=? 0 then Err ValueError
           else Ok (full width (full height true))      (* np.ones((width, height)) *)
       | One v, None => Ok (circle v)
       | Two v1 v2, None =>
           let w1 := circle v1 in
           let w2 := circle v2 in
           let padding := (len w2 - len w1) / 2 in
           Ok (where2 (pad_false padding (len w1) w1) false w2)
       end.

(* ---------------- correlate, convolve ---------------- *)

(* focal.py:166-171 *)
Inductive mode := MReflect | MNearest | MWrap | MConstant.
Definition mode_boundary (m : mode) : boundary :=
  match m with MReflect => Reflect | MNearest => Nearest | MWrap => Wrap | MConstant => Constant end.

Section Correlate.
Context {V : Type}.
Variable nanv : V.
Variable isnan : V -> bool.
Variables (vzero : V) (vadd vmul : V -> V -> V).
(* focal.py:173-240 _correlate.  scipy's origin -1 of an even dimension moves the
   centre from d / 2 to d / 2 - 1. *)
Definition correlate_data (junk : Z -> Z -> arr2 V) (ny nx : Z) (ycs xcs : list Z)
  (kernel : arr2 V) (krows kcols : Z) (m : mode) (cval : V) (nan_aware : bool) (data : arr2 V)
  : res (arr2 V) :=
  if nan_aware
  then
    let offsets := get_offsets krows kcols in
    let rpad := Z.max (fst (fst offsets)) (snd (fst offsets)) in
    let cpad := Z.max (fst (snd offsets)) (snd (snd offsets)) in
    map_overlap (mode_boundary m) cval ny nx rpad cpad ycs xcs
      (fun rows cols => correlate2d_chunk isnan vzero vadd vmul kernel krows kcols (junk rows cols) rows cols)
      data
  else
    let shift d := if d mod 2 =? 0 then -1 else 0 in
    ndfilter (mode_boundary m) cval ny nx krows kcols (krows / 2 + shift krows) (kcols / 2 + shift kcols)
      kernel (fun kw => fold_left (fun acc p => vadd acc (vmul (fst p) (snd p))) kw vzero) data.

Record vband := VBand { v_data : arr2 V; v_mask : option (arr2 bool) }.
(* focal.py:520-590 correlate; [nv] is the null value, [cast] the conversion back
   to the original dtype *)
Definition correlate (junk : Z -> Z -> arr2 V) (ny nx : Z) (ycs xcs : list Z)
  (kernel : arr2 V) (krows kcols : Z) (m : mode) (cval : V) (nv : V) (cast : V -> V) (rs : vband)
  : res vband :=
  if existsb (existsb isnan) kernel then Err ValueError
  else match v_mask rs with
  | Some mask =>
      let data := where2 mask nanv (v_data rs) in
      let* data := correlate_data junk ny nx ycs xcs kernel krows kcols m cval true data in
      Ok (VBand (where2 mask nv (map (map cast) data)) (Some mask))
  | None =>
      let* data := correlate_data junk ny nx ycs xcs kernel krows kcols m cval false (v_data rs) in
      Ok (VBand data None)
  end.
(* focal.py:629-632 convolve *)
Definition convolve (junk : Z -> Z -> arr2 V) (ny nx : Z) (ycs xcs : list Z)
  (kernel : arr2 V) (krows kcols : Z) (m : mode) (cval : V) (nv : V) (cast : V -> V) (rs : vband)
  : res vband :=
  if existsb (existsb isnan) kernel then Err ValueError
  else correlate junk ny nx ycs xcs (rev (map (@rev V) kernel)) krows kcols m cval nv cast rs.
End Correlate.
