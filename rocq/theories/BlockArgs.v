(* Model of how map_blocks / map_overlap and their geo variants resolve their
   arguments: overlap depth, chunk sizes for overlap, boundary, null value. *)
From Verif Require Import Base Scalars Chunks.
From Coq Require Import Ascii.

(* A Python value as far as the depth argument distinguishes them *)
Inductive py :=
| PInt (n : Z)                  (* int, numpy integer, bool *)
| PTuple (l : list py)
| PDict (l : list (py * py))    (* items in insertion order *)
| POther.

(* depth along one axis: the same on both sides, or (before, after) *)
Inductive axdepth := Sym (n : Z) | Asym (l r : Z).

(* blocks.py:1020-1037 _normalize_depth_axis *)
Definition normalize_depth_axis (value : py) : res axdepth :=
  match value with
  | PInt n => if n <? 0 then Err ValueError else Ok (Sym n)
  | PTuple [pl; pr] =>
      match pl, pr with
      | PInt l, PInt r => if (l <? 0) || (r <? 0) then Err ValueError else Ok (Asym l r)
      | _, _ => Err TypeError
      end
  | _ => Err TypeError
  end.

(* the dict {0: .., 1: .., 2: ..} *)
Definition depths : Type := axdepth * axdepth * axdepth.
Definition put (d : depths) (axis : Z) (v : axdepth) : depths :=
  let '(a, b, c) := d in
  if axis =? 0 then (v, b, c) else if axis =? 1 then (a, v, c) else (a, b, v).

(* blocks.py:1040-1066 _normalize_depth *)
Definition normalize_depth (depth : py) : res depths :=
  match depth with
  | PDict items =>
      let* out := foldM (fun out '(axis, value) =>
        match axis with
        | PInt k =>
            if (k =? 0) || (k =? 1) || (k =? 2)
            then let* v := normalize_depth_axis value in Ok (put out k v)
            else Err ValueError
        | _ => Err ValueError
        end) items (Sym 0, Sym 0, Sym 0) in
      match out with
      | (Sym 0, _, _) => Ok out
      | _ => Err ValueError
      end
  | PInt n =>
      let* norm := normalize_depth_axis (PInt n) in Ok (Sym 0, norm, norm)
  | PTuple [dy; dx] =>
      let* y := normalize_depth_axis dy in
      let* x := normalize_depth_axis dx in
      Ok (Sym 0, y, x)
  | _ => Err TypeError
  end.

(* ---------------- chunks for overlap ---------------- *)

Definition list_min (l : list Z) : res Z :=
  match l with [] => Err ValueError | a :: t => Ok (fold_left Z.min t a) end.

(* output[-1] += new *)
Fixpoint add_last (l : list Z) (n : Z) : list Z :=
  match l with [] => [] | [a] => [a + n] | a :: t => a :: add_last t n end.

(* dask.array.overlap.ensure_minimum_chunksize *)
Definition ensure_minimum_chunksize (size : Z) (chunks : list Z) : res (list Z) :=
  let* m := list_min chunks in
  if size <=? m then Ok chunks
  else
    let '(output, new) :=
      fold_left (fun '(output, new) c =>
        let '(output, new) :=
          if c <? size then
            if new >? size + (size - c)
            then (output ++ [new - (size - c)], size)
            else (output, new + c)
          else (output, new) in
        let '(output, new) :=
          if new >=? size then (output ++ [new], 0) else (output, new) in
        if c >=? size then (output, new + c) else (output, new)) chunks ([], 0) in
    if new >=? size then Ok (output ++ [new])
    else if 1 <=? len output then Ok (add_last output new)
    else Err ValueError.

(* blocks.py:1163-1167 _depth_for_axis *)
Definition depth_for_axis (d : axdepth) : Z :=
  match d with Sym n => n | Asym l r => Z.max l r end.

(* blocks.py:1144-1183 _ensure_chunks_for_overlap; a raster is the chunks of its
   band, y and x axes, and r.chunk(target) gives it the chunks target *)
Definition chunks3 : Type := list Z * list Z * list Z.
Definition chunks3_eqb (a b : chunks3) : bool :=
  let eqb := fun l l' => if list_eq_dec Z.eq_dec l l' then true else false in
  let '(a1, a2, a3) := a in let '(b1, b2, b3) := b in
  eqb a1 b1 && eqb a2 b2 && eqb a3 b3.
Definition grow (d : Z) (c : list Z) : res (list Z) :=
  if d =? 0 then Ok c else ensure_minimum_chunksize d c.
Definition ensure_chunks_for_overlap (rasters : list chunks3) (d : depths) : res (list chunks3) :=
  match rasters with
  | [] => Err IndexError
  | (cb, cy, cx) :: _ =>
      let '(_, dy, dx) := d in
      let* ny := grow (depth_for_axis dy) cy in
      let* nx := grow (depth_for_axis dx) cx in
      let target := (cb, ny, nx) in
      Ok (map (fun r => if chunks3_eqb r target then r else target) rasters)
  end.

(* ---------------- boundary ---------------- *)

Definition str := list ascii.
Definition str_eqb (a b : str) : bool := if list_eq_dec ascii_dec a b then true else false.
(* str.lower on ASCII letters *)
Definition lower_char (c : ascii) : ascii :=
  let n := nat_of_ascii c in
  if (65 <=? n)%nat && (n <=? 90)%nat then ascii_of_nat (n + 32) else c.
Definition lower (s : str) : str := map lower_char s.

Definition s_reflect : str := ["r"; "e"; "f"; "l"; "e"; "c"; "t"]%char.
Definition s_periodic : str := ["p"; "e"; "r"; "i"; "o"; "d"; "i"; "c"]%char.
Definition s_nearest : str := ["n"; "e"; "a"; "r"; "e"; "s"; "t"]%char.
Definition s_none : str := ["n"; "o"; "n"; "e"]%char.
Definition s_null : str := ["n"; "u"; "l"; "l"]%char.
Definition s_null_value : str := ["n"; "u"; "l"; "l"; "_"; "v"; "a"; "l"; "u"; "e"]%char.
Definition s_nodata : str := ["n"; "o"; "d"; "a"; "t"; "a"]%char.

(* the boundary argument *)
Inductive boundary := BNone | BStr (s : str) | BNum (v : num).
(* what is handed to dask for the data and for the mask *)
Inductive dbound (A : Type) := DNone | DNamed (s : str) | DConst (a : A).
Arguments DNone {A}. Arguments DNamed {A}. Arguments DConst {A}.

(* blocks.py:992-1011 _check_asymmetric_depth_compatible_with_boundary *)
Definition is_tuple (d : axdepth) : bool := match d with Asym _ _ => true | Sym _ => false end.
Definition check_asymmetric (d : depths) (b : boundary) : res unit :=
  let none := match b with BNone => true | BStr s => str_eqb (lower s) s_none | BNum _ => false end in
  if none then Ok tt
  else let '(_, dy, dx) := d in
       if is_tuple dy then Err ValueError else if is_tuple dx then Err ValueError else Ok tt.

(* blocks.py:1186-1220 _resolve_boundary for a raster with null value nv and
   dtype d *)
Definition resolve_boundary (b : boundary) (nv : option num) (d : dtype)
  : res (dbound num * dbound bool) :=
  match b with
  | BNone => Ok (DNone, DNone)
  | BStr s =>
      let b := lower s in
      if str_eqb b s_null || str_eqb b s_null_value || str_eqb b s_nodata then
        let v := match nv with None => default_null d | Some v => v end in
        Ok (DConst v, DConst true)
      else if str_eqb b s_reflect || str_eqb b s_periodic || str_eqb b s_nearest || str_eqb b s_none
      then Ok (DNamed b, DNamed b)
      else Err ValueError
  | BNum v =>
      match nv with
      | Some n => if nan_equal v n then Ok (DConst v, DConst true) else Ok (DConst v, DConst false)
      | None => Ok (DConst v, DConst false)
      end
  end.

(* dask.array.overlap.boundaries along one axis: constant, reflect, periodic,
   nearest; None and 'none' add nothing.  depth <= length. *)
Definition dask_pad {A} (b : dbound A) (depth : Z) (l : list A) : list A :=
  let n := len l in
  match b with
  | DNone => l
  | DConst a => full depth a ++ l ++ full depth a
  | DNamed s =>
      if str_eqb s s_reflect then
        rev (slice l 0 depth) ++ l ++ rev (slice l (n - depth) n)
      else if str_eqb s s_periodic then
        slice l (n - depth) n ++ l ++ slice l 0 depth
      else if str_eqb s s_nearest then
        flat_map (fun a => full depth a) (slice l 0 1) ++ l
          ++ flat_map (fun a => full depth a) (slice l (n - 1) n)
      else l
  end.

(* ---------------- the output null value ---------------- *)

(* the null_value argument *)
Inductive nvarg := NvNone | NvStr | NvNum (v : num).

(* a block's dtype as dask reports it: in return_mask mode the wrapper returns a
   structured array *)
Inductive blkdtype := Plain (d : dtype) | Struct (d : dtype).

(* masking.py:63-66 get_default_null_value; a structured dtype is no key *)
Definition get_default_null_value (d : blkdtype) : res num :=
  match d with Plain d => Ok (default_null d) | Struct _ => Err KeyError end.

(* blocks.py:961-989 _resolve_out_null_value *)
Definition resolve_out_null_value (null_value : nvarg) (ref_dtype : dtype) (ref_nv : option num)
  (n_rasters : Z) (out_dtype : blkdtype) : res (option num) :=
  match null_value with
  | NvNone =>
      if (n_rasters =? 1) && match out_dtype with Plain d => dtype_eqb ref_dtype d | Struct _ => false end
      then Ok ref_nv
      else let* v := get_default_null_value out_dtype in Ok (Some v)
  | NvStr => Err ValueError
  | NvNum v => Ok (Some v)
  end.

(* blocks.py:368-381 _out_dtype_hint, 427-442 _check_dtype_meta_agree *)
Definition out_dtype_hint (dtype_ meta : option dtype) : option dtype :=
  match meta with Some m => Some m | None => dtype_ end.
Definition check_dtype_meta_agree (dtype_ meta : option dtype) : res unit :=
  match dtype_, meta with
  | Some d, Some m => if dtype_eqb d m then Ok tt else Err ValueError
  | _, _ => Ok tt
  end.

(* The dtype the wrapper reads from block_info[None]["dtype"] (None when meta= is
   given) and the dtype of the array dask returns, when func computes data of
   dtype inferred.  In return_mask mode the data-side hint is folded into a
   structured meta, blocks.py:723-737. *)
Definition block_info_dtype (return_mask : bool) (dtype_ meta : option dtype) (inferred : dtype)
  : option blkdtype :=
  if return_mask then
    match out_dtype_hint dtype_ meta with Some _ => None | None => Some (Struct inferred) end
  else match meta with
       | Some _ => None
       | None => Some (Plain (match dtype_ with Some d => d | None => inferred end))
       end.
Definition out_data_dtype (dtype_ meta : option dtype) (inferred : dtype) : dtype :=
  match out_dtype_hint dtype_ meta with Some d => d | None => inferred end.

(* blocks.py:871-893: the out_null_value handed to func *)
Definition wrapper_out_nv (return_mask : bool) (dtype_ meta : option dtype) (inferred : dtype)
  (null_value : nvarg) (ref_dtype : dtype) (ref_nv : option num) (n_rasters : Z) : res (option num) :=
  let chunk_dtype := block_info_dtype return_mask dtype_ meta inferred in
  let resolved := match out_dtype_hint dtype_ meta with
                  | Some h => Some (Plain h)
                  | None => chunk_dtype
                  end in
  match resolved with
  | Some d => resolve_out_null_value null_value ref_dtype ref_nv n_rasters d
  | None => Err KeyError
  end.
(* blocks.py:761-767: the null value of the returned raster, from which (without
   return_mask) its mask is built *)
Definition final_nv (dtype_ meta : option dtype) (inferred : dtype)
  (null_value : nvarg) (ref_dtype : dtype) (ref_nv : option num) (n_rasters : Z) : res (option num) :=
  resolve_out_null_value null_value ref_dtype ref_nv n_rasters (Plain (out_data_dtype dtype_ meta inferred)).
