(* Model of null handling in raster.py, general.py (remap_range, where,
   reclassify), clipping.py and _stack.py.

   A raster is its dtype, its null value (None: the raster is not masked), its
   data and its mask.  Data and mask are given band by band, the cells of a band in
   row-major order: none of the functions below looks at the x/y position of a
   cell.  Rasters on different grids, georeferencing, attributes and chunks are
   left out.  Operands of one operation must have equal shapes here (xarray would
   align their coordinates). *)
From Coq Require Import QArith Qabs.
From Verif Require Import Base Scalars Arr2 Dtypes.
Open Scope Z_scope.

Record raster := Raster { r_dtype : dtype; r_nv : option num; r_data : arr2 num; r_mask : arr2 bool }.

(* element-wise operation on two arrays *)
Definition zip2 {A B C} (f : A -> B -> C) (a : arr2 A) (b : arr2 B) : arr2 C :=
  map (fun '(ra, rb) => map (fun '(x, y) => f x y) (combine ra rb)) (combine a b).
Definition map2 {A B} (f : A -> B) (a : arr2 A) : arr2 B := map (map f) a.
(* np.where(mask, x, a) *)
Definition fill_where {A} (m : arr2 bool) (x : A) (a : arr2 A) : arr2 A :=
  zip2 (fun b y => if b : bool then x else y) m a.
Definition shape2 {A} (a : arr2 A) : list Z := map (fun r => len r) a.
Fixpoint list_eqb (a b : list Z) : bool :=
  match a, b with
  | [], [] => true
  | x :: a, y :: b => (x =? y) && list_eqb a b
  | _, _ => false
  end.
Definition same_shape {A B} (a : arr2 A) (b : arr2 B) : bool := list_eqb (shape2 a) (shape2 b).

(* raster.py: Raster._masked *)
Definition masked (r : raster) : bool := match r_nv r with Some _ => true | None => false end.

(* raster.py:485-505 get_mask_from_data *)
Definition mask_from_data (data : arr2 num) (nv : option num) : arr2 bool :=
  match nv with
  | None => map2 (fun _ => false) data
  | Some v => map2 (fun x => if is_nan v then is_nan x else num_eqb x v) data
  end.

(* raster.py:825-886 data_to_xr_raster_ds, without the coordinates *)
Definition data_to_raster (d : dtype) (data : arr2 num) (mask : option (arr2 bool)) (nv : option num) (burn : bool) : res raster :=
  match mask with
  | None => Ok (Raster d nv data (mask_from_data data nv))
  | Some m =>
      if negb (same_shape data m) then Err ValueError
      else
        let nv := match nv with None => default_null d | Some v => v end in
        Ok (Raster d (Some nv) (if burn then fill_where m nv data else data) m)
  end.

(* raster.py:2145-2163 Raster.burn_mask *)
Definition burn_mask (r : raster) : raster :=
  match r_nv r with
  | None => r
  | Some nv =>
      let nv := match r_dtype r with BOOL => default_null BOOL | _ => nv end in
      Raster (r_dtype r) (r_nv r) (fill_where (r_mask r) nv (r_data r)) (r_mask r)
  end.

Section WithCast.
(* x.astype(d): not computed here.  float_dtype is dtypes.py:85-103
   safe_min_scalar_type of a float. *)
Variable cast : dtype -> num -> num.
Variable float_dtype : num -> dtype.

(* A scalar argument: a Python int or a Python float *)
Inductive scalar := SInt (z : Z) | SFloat (v : num).
Definition scalar_num (s : scalar) : num := match s with SInt z => of_Z z | SFloat v => v end.
Definition scalar_item (s : scalar) : item := match s with SInt z => IInt z | SFloat v => IOther (float_dtype v) end.

(* raster.py:2048-2076, the choice of new_dtype in set_null_value *)
Definition null_value_dtype (d : dtype) (value : scalar) : res (option dtype) :=
  match value with
  | SFloat v =>
      if is_nan v then
        if is_int_dtype d then let* n := int_dtype_to_float_dtype d in Ok (Some n)
        else Ok None
      else let* n := get_common_dtype [IOther (float_dtype v); IDtype d] in Ok (Some n)
  | SInt z =>
      if is_float_dtype d then let* n := get_common_dtype [IOther (float_dtype (of_Z z)); IDtype d] in Ok (Some n)
      else if is_int_dtype d && ((int_min d <=? z) && (z <=? int_max d)) then Ok None
      else let* n := get_common_dtype [IInt z; IDtype d] in Ok (Some n)
  end.
(* raster.py:2015-2089 Raster.set_null_value *)
Definition set_null_value (r : raster) (value : option scalar) : res raster :=
  match value with
  | None =>
      let b := burn_mask r in
      Ok (Raster (r_dtype b) None (r_data b) (map2 (fun _ => false) (r_data b)))
  | Some value =>
      let* new_dtype := null_value_dtype (r_dtype r) value in
      let '(d, data, v) :=
        match new_dtype with
        | Some d => (d, map2 (cast d) (r_data r), scalar_num value)
        | None => (r_dtype r, r_data r, cast (r_dtype r) (scalar_num value))
        end in
      let temp_mask := mask_from_data data (Some v) in
      let mask := if masked r then zip2 orb (r_mask r) temp_mask else temp_mask in
      Ok (burn_mask (Raster d (Some v) data mask))
  end.
(* raster.py:2165- Raster.replace_null is set_null_value *)

(* numpy broadcasting of the band dimension *)
Definition broadcast_bands {A} (n : Z) (a : arr2 A) : arr2 A :=
  match a with [row] => full n row | _ => a end.
(* raster.py:2091-2143 Raster.set_null.  The data of an int8/uint8 mask raster is
   cast to bool: true where it is not zero.  (What the cast puts into the masked
   cells of the mask raster does not matter: they are not selected.) *)
Definition set_null (r m : raster) : res raster :=
  let nb := len (r_data r) in
  if (1 <? len (r_data m)) && negb (len (r_data m) =? nb) then Err ValueError
  else if negb (list_eqb (firstn 1 (shape2 (r_data m))) (firstn 1 (shape2 (r_data r)))) then Err ValueError
  else if negb (match r_dtype m with BOOL | I8 | U8 => true | _ => false end) then Err TypeError
  else
    let data := map2 (fun x => negb (num_eqb x (of_Z 0))) (r_data m) in
    let selected := if masked m then zip2 (fun x y => x && negb y) data (r_mask m) else data in
    let mask := zip2 orb (r_mask r) (broadcast_bands nb selected) in
    let nv := match r_nv r with Some v => v | None => default_null (r_dtype r) end in
    Ok (burn_mask (Raster (r_dtype r) (Some nv) (r_data r) mask)).

(* masking.py:69-112 reconcile_nullvalue_with_dtype: the value and whether it
   warned.  Not computed here, except that NaN gives the default silently. *)
Variable reconcile_other : num -> dtype -> num * bool.
Definition reconcile (v : num) (d : dtype) : num * bool :=
  if is_nan v then (default_null d, false) else reconcile_other v d.
(* np.allclose(a, b, equal_nan=True) *)
Definition num_close (a b : num) : bool :=
  match a, b with
  | Fin p, Fin q => Qle_bool (Qabs (p - q)) ((1 # 100000000) + (1 # 100000) * Qabs q)
  | PInf, PInf | MInf, MInf | NaN, NaN => true
  | _, _ => false
  end.
(* raster.py:1868-1940 Raster.astype *)
Definition astype (r : raster) (d : dtype) (new_null_value : option num) : res raster :=
  if dtype_eqb d (r_dtype r)
     && (match new_null_value with None => true | Some _ => null_values_equal (r_nv r) new_null_value end)
  then Ok r
  else
    let casted := map2 (cast d) (r_data r) in
    match r_nv r with
    | None => Ok (Raster d None casted (r_mask r))
    | Some old =>
        match new_null_value with
        | Some new =>
            if num_close new old then Ok (Raster d (Some old) casted (r_mask r))
            else
              let '(nv, warned) := reconcile new d in
              if warned : bool then Err ValueError
              else Ok (Raster d (Some nv) (fill_where (r_mask r) nv casted) (r_mask r))
        | None =>
            let '(nv, _) := reconcile old d in
            Ok (Raster d (Some nv) (fill_where (r_mask r) nv casted) (r_mask r))
        end
    end.

(* raster.py:1942-1981 Raster.get_bands *)
Definition get_bands (r : raster) (bands : list Z) : res raster :=
  let nb := len (r_data r) in
  if len bands =? 0 then Err ValueError
  else if existsb (fun b => (b <? 1) || (nb <? b)) bands then Err IndexError
  else
    let* data := traverse (fun b => get (r_data r) (b - 1)) bands in
    let* mask := traverse (fun b => get (r_mask r) (b - 1)) bands in
    Ok (Raster (r_dtype r) (r_nv r) data mask).
(* _stack.py:16-19 _cast_if_needed *)
Definition cast_if_needed (d : dtype) (nodata : num) (r : raster) : res raster :=
  if dtype_eqb (r_dtype r) d && null_values_equal (r_nv r) (Some nodata) then Ok r
  else astype r d (Some nodata).
(* _stack.py:22-246 stack_bands, inputs on one grid and no other destination
   grid; null_value is None or a scalar ("default" is default_null of the dtype) *)
Definition stack_bands (rs : list raster) (dt : option dtype) (null_value : option num) : res raster :=
  match rs with
  | [] => Err ValueError
  | r0 :: others =>
      let d := match dt with Some d => d | None => fold_left promote_types (map r_dtype others) (r_dtype r0) end in
      let nodata :=
        match null_value with
        | Some v => v
        | None =>
            match flat_map (fun r => match r_nv r with Some v => [v] | None => [] end) rs with
            | v :: _ => v
            | [] => default_null d
            end
        end in
      match others with
      | [] => cast_if_needed d nodata r0
      | _ =>
          let* rs' := traverse (cast_if_needed d nodata) rs in
          data_to_raster d (concat (map r_data rs')) (Some (concat (map r_mask rs'))) (Some nodata) false
      end
  end.
(* _stack.py:249- split_bands *)
Definition split_bands (r : raster) : res (list raster) :=
  traverse (fun b => get_bands r [b]) (zrange 1 (len (r_data r) + 1)).

(* raster.py:187-269 _apply_ufunc.  f is the element-wise function and out the
   dtype of its result; outputs gives one pair per output (ufunc.nout).  A
   scalar operand is given by its value and whether it is a float.  Without a null
   value, raster.py:230 gives the tuple of outputs to get_mask_from_data, which
   raises TypeError for tuples (raster.py:485-494). *)
Inductive operand := ORaster (r : raster) | OScalar (v : num) (is_float : bool).
Definition op_masked (o : operand) : bool := match o with ORaster r => masked r | OScalar _ _ => false end.
Definition op_float (o : operand) : bool :=
  match o with ORaster r => is_float_dtype (r_dtype r) | OScalar _ b => b end.
(* utils.py:57-64 merge_masks *)
Definition merge_masks (ms : list (arr2 bool)) : option (arr2 bool) :=
  fold_left (fun acc m => match acc with None => Some m | Some a => Some (zip2 orb a m) end) ms None.
Definition op_masks (os : list operand) : list (arr2 bool) :=
  flat_map (fun o => match o with ORaster r => [r_mask r] | OScalar _ _ => [] end) os.
(* ufunc of one or two operands, at least one of them a raster *)
Definition ufunc_data (f : list num -> num) (os : list operand) : res (arr2 num) :=
  match os with
  | [ORaster a] => Ok (map2 (fun x => f [x]) (r_data a))
  | [ORaster a; OScalar v _] => Ok (map2 (fun x => f [x; v]) (r_data a))
  | [OScalar v _; ORaster b] => Ok (map2 (fun y => f [v; y]) (r_data b))
  | [ORaster a; ORaster b] =>
      if same_shape (r_data a) (r_data b) then Ok (zip2 (fun x y => f [x; y]) (r_data a) (r_data b)) else Err ValueError
  | _ => Err TypeError
  end.
Definition apply_ufunc (int_only : bool) (outputs : list ((list num -> num) * dtype)) (os : list operand) : res (list raster) :=
  if int_only && existsb op_float os then Err TypeError
  else if negb (existsb op_masked os) && (1 <? len outputs) then Err TypeError
  else
    traverse (fun '(f, d) =>
      let* out := ufunc_data f os in
      if negb (existsb op_masked os) then Ok (Raster d None out (mask_from_data out None))
      else
        match merge_masks (op_masks os) with
        | None => Err TypeError
        | Some m =>
            let nv := default_null d in
            Ok (Raster d (Some nv) (fill_where m nv out) m)
        end) outputs.

(* general.py:958-985 _remap_values, one cell.  The arrays of limits and new
   values are as given (no rounding when ints and floats meet in one array). *)
Inductive inclusivity := ILeft | IRight | IBoth | INone.
Definition in_range (inc : inclusivity) (lo hi v : num) : bool :=
  match inc with
  | ILeft => num_leb lo v && num_ltb v hi
  | IRight => num_ltb lo v && num_leb v hi
  | IBoth => num_leb lo v && num_leb v hi
  | INone => num_ltb lo v && num_ltb v hi
  end.
Fixpoint remap_cell (inc : inclusivity) (ranges : list (num * num * num)) (v : num) : num :=
  match ranges with
  | [] => v
  | (lo, hi, new) :: ranges => if in_range inc lo hi v then new else remap_cell inc ranges v
  end.
Definition remap_values (inc : inclusivity) (null : num) (ranges : list (num * num * num)) (data : arr2 num) (mask : arr2 bool) : arr2 num :=
  zip2 (fun m x => if m : bool then null else remap_cell inc ranges x) mask data.
(* general.py:988-1031 _normalize_mappings, for a list of 3-tuples *)
Definition check_mapping (m : scalar * scalar * option scalar) : res unit :=
  let '(lo, hi, _) := m in
  if is_nan (scalar_num lo) || is_nan (scalar_num hi) then Err ValueError
  else if num_leb (scalar_num hi) (scalar_num lo) then Err ValueError
  else Ok tt.
Definition normalize_mappings (ms : list (scalar * scalar * option scalar)) : res (list (scalar * scalar * option scalar)) :=
  match ms with
  | [] => Err ValueError
  | _ => let* _ := traverse check_mapping ms in Ok ms
  end.
(* general.py:1034-1124 remap_range *)
Definition remap_range (r : raster) (ms : list (scalar * scalar * option scalar)) (inc : inclusivity) : res raster :=
  let* ms := normalize_mappings ms in
  let outs := flat_map (fun '(_, _, o) => match o with Some v => [scalar_item v] | None => [] end) ms in
  let* common := match outs with [] => Ok (r_dtype r) | _ => get_common_dtype outs end in
  let out_dtype := promote_types (r_dtype r) common in
  let nv :=
    match r_nv r with
    | Some v => Some v
    | None => if existsb (fun '(_, _, o) => match o with None => true | Some _ => false end) ms
              then Some (default_null out_dtype) else None
    end in
  let nv0 := match nv with Some v => v | None => of_Z 0 end in
  let ranges := map (fun '(lo, hi, o) =>
    (scalar_num lo, scalar_num hi, cast out_dtype (match o with Some v => scalar_num v | None => nv0 end))) ms in
  let data := if dtype_eqb out_dtype (r_dtype r) then r_data r else map2 (cast out_dtype) (r_data r) in
  data_to_raster out_dtype (remap_values inc (cast out_dtype nv0) ranges data (r_mask r)) None nv false.

(* general.py:1127-1142 _get_where_nv.  Branches of where() *)
Inductive branch := BRaster (r : raster) | BScalar (s : scalar) | BNone.
Definition branch_item (b : branch) : list item := match b with BScalar s => [scalar_item s] | _ => [] end.
Definition where_nv (x y : branch) : res num :=
  match x, y with
  | BRaster a, BRaster b => Ok (default_null (promote_types (r_dtype a) (r_dtype b)))
  | BRaster a, _ => Ok (match r_nv a with Some v => v | None => default_null (r_dtype a) end)
  | _, BRaster b => Ok (match r_nv b with Some v => v | None => default_null (r_dtype b) end)
  | _, _ => let* d := get_common_dtype (branch_item x ++ branch_item y) in Ok (default_null d)
  end.
(* a branch as an array of the shape of the condition *)
Definition branch_data (shape : arr2 num) (nv : num) (b : branch) : arr2 num :=
  match b with
  | BRaster r => r_data r
  | BScalar s => map2 (fun _ => scalar_num s) shape
  | BNone => map2 (fun _ => nv) shape
  end.
Definition branch_mask (shape : arr2 num) (b : branch) : arr2 bool :=
  match b with
  | BRaster r => r_mask r
  | _ => map2 (fun _ => false) shape
  end.
Definition select {A} (c : arr2 bool) (x y : arr2 A) : arr2 A :=
  zip2 (fun (b : bool) (xy : A * A) => if b then fst xy else snd xy) c (zip2 pair x y).
Definition branch_masked (b : branch) : bool :=
  match b with BRaster r => masked r | BScalar _ => false | BNone => true end.
(* general.py:1145-1256 where.  The dtype of the result is left out of the model
   (xarray's promotion): out is given. *)
Definition where_raster (out : dtype) (cond : raster) (x y : branch) : res raster :=
  if is_float_dtype (r_dtype cond) then Err TypeError
  else match x, y with BNone, BNone => Err ValueError | _, _ =>
    let shape := r_data cond in
    let shape_ok b := match b with BRaster r => same_shape shape (r_data r) | _ => true end in
    if negb (shape_ok x && shape_ok y) then Err ValueError
    else
      let cd := map2 (fun v => match r_dtype cond with
                               | BOOL => negb (num_eqb v (of_Z 0))
                               | _ => num_ltb (of_Z 0) v
                               end) (r_data cond) in
      if masked cond || branch_masked x || branch_masked y then
        let* nv := where_nv x y in
        let cd := fill_where (r_mask cond) false cd in
        let data := select cd (branch_data shape nv x) (branch_data shape nv y) in
        let mask := select cd (branch_mask shape x) (branch_mask shape y) in
        let mask := fill_where (r_mask cond) true mask in
        let data := fill_where mask (cast out nv) (map2 (cast out) data) in
        Ok (Raster out (Some nv) data (mask_from_data data (Some nv)))
      else
        let data := select cd (branch_data shape NaN x) (branch_data shape NaN y) in
        let data := map2 (cast out) data in
        Ok (Raster out None data (map2 (fun _ => false) data))
  end.

(* general.py:1260-1280 _reclassify_chunk, one cell; the dict is built from the
   pairs in order, so the last pair with a given key counts (the keys of a Python
   dict are distinct anyway) *)
Definition lookup (pairs : list (num * num)) (v : num) : option num :=
  fold_left (fun acc '(k, w) => if num_eqb k v then Some w else acc) pairs None.
Definition reclassify_cell (pairs : list (num * num)) (unmapped_to_null : bool) (null : num) (m : bool) (v : num) : num :=
  if m then null
  else match lookup pairs v with
       | Some w => w
       | None => if unmapped_to_null then null else v
       end.
(* general.py:1338-1400 reclassify.  Returns the raster and the caller's dict
   after the call. *)
Definition reclassify (r : raster) (remapping : list (num * option scalar)) (unmapped_to_null : bool)
  : res (raster * list (num * option num)) :=
  let outs := flat_map (fun '(_, o) => match o with Some v => [scalar_item v] | None => [] end) remapping in
  let* out_dtype :=
    match outs with
    | [] => Ok (r_dtype r)
    | _ => let* c := get_common_dtype outs in Ok (promote_types c (r_dtype r))
    end in
  let nv := match r_nv r with Some v => v | None => default_null out_dtype end in
  let any_none := existsb (fun '(_, o) => match o with None => true | Some _ => false end) remapping in
  let is_masked := masked r || unmapped_to_null || any_none in
  let remapping' := map (fun '(k, o) => (k, match o with Some v => scalar_num v | None => nv end)) remapping in
  let data := zip2 (fun m x => cast out_dtype (reclassify_cell remapping' unmapped_to_null nv m x)) (r_mask r) (r_data r) in
  let* out := data_to_raster out_dtype data None (if is_masked then Some nv else None) false in
  Ok (out, map (fun '(k, w) => (k, Some w)) remapping').

(* clipping.py:19-78 _clip after trimming, without envelope.  touched is the
   footprint of the feature (where the rasterised feature is not null), one band;
   it is stacked to the number of bands. *)
Definition clip (r : raster) (has_crs envelope invert : bool) (touched : list bool) : res raster :=
  if negb has_crs then Err ValueError
  else if envelope && invert then Err ValueError
  else
    let band := if envelope then map (fun _ => true) touched
                else if invert then map negb touched else touched in
    let clip_mask := full (len (r_data r)) band in
    if negb (same_shape (r_data r) clip_mask) then Err ValueError
    else
      let nv := match r_nv r with Some v => v | None => default_null (r_dtype r) end in
      let data := zip2 (fun (c : bool) x => if c then x else nv) clip_mask (r_data r) in
      let mask := map2 negb clip_mask in
      let mask := if masked r then zip2 orb mask (r_mask r) else mask in
      Ok (Raster (r_dtype r) (Some nv) data mask).
End WithCast.
