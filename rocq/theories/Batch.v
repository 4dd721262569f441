(* Model of batch.py: batch scripts.
   Characters are ASCII.  Rasters and what can be done with them, the file
   system, float() and int() of a string are parameters. *)
From Coq Require Import QArith Ascii String.
From Verif Require Import Base Scalars RemapFile.
Open Scope Z_scope.

Inductive batch_error :=
| BatchScriptParseError (line_no : Z)
| PyValueError | PyKeyError | PyIndexError | PyAttributeError | PyTypeError
| OperationError.        (* whatever the raster operation or the file system raises *)
Definition outcome (A : Type) : Type := A + batch_error.
Definition andthen {A B} (x : outcome A) (k : A -> outcome B) : outcome B :=
  match x with inl a => k a | inr e => inr e end.
Notation "'do' x := a 'in' k" := (andthen a (fun x => k)) (at level 200, x name, a at level 100, k at level 200, right associativity).
Notation "'do' ' p := a 'in' k" := (andthen a (fun p => k)) (at level 200, p strict pattern, a at level 100, k at level 200, right associativity).
Definition orelse {A} (x : option A) (e : batch_error) : outcome A := match x with Some a => inl a | None => inr e end.

(* str.split(d) *)
Fixpoint split (d : ascii) (s : chars) : list chars :=
  match s with
  | [] => [[]]
  | c :: s' => if is_char d c then [] :: split d s'
               else match split d s' with h :: t => (c :: h) :: t | [] => [[c]] end
  end.
(* batch.py:12-13 _split_strip *)
Definition split_strip (s : chars) (d : ascii) : list chars := map strip (split d s).
(* str.upper *)
Definition upper (s : chars) : chars :=
  map (fun c => if (97 <=? code c) && (code c <=? 122) then ascii_of_N (N_of_ascii c - 32) else c) s.
(* posixpath.isabs, posixpath.join of two paths *)
Definition isabs (p : chars) : bool := match p with c :: _ => is_char "/" c | [] => false end.
Definition path_join (a b : chars) : chars :=
  if isabs b then b
  else match rev a with
       | [] => b
       | c :: _ => if is_char "/" c then a ++ b else a ++ "/"%char :: b
       end.
Definition str := list_ascii_of_string.
Definition is_letter (c : ascii) : bool := ((65 <=? code c) && (code c <=? 90)) || ((97 <=? code c) && (code c <=? 122)).
(* batch.py:49 _FUNC_PATTERN *)
Definition func_pattern : re :=
  RSeq (RGroup (RPlus is_letter)) (RSeq (RClass (is_char "("))
    (RSeq (RGroup (RPlus (fun c => negb (is_char "(" c || is_char ")" c)))) (RClass (is_char ")")))).
(* batch.py:35-48 _ESRI_OP_TO_OP *)
Definition esri_op_to_op : list (chars * chars) :=
  map (fun '(a, b) => (str a, str b))
    [("esriRasterPlus", "+"); ("+", "+"); ("esriRasterMinus", "-"); ("-", "-"); ("esriRasterMultiply", "*"); ("*", "*");
     ("esriRasterDivide", "/"); ("/", "/"); ("esriRasterMode", "%"); ("%", "%"); ("esriRasterPower", "**"); ("**", "**")]%string.

Section Batch.
(* rasters; the state of the file system *)
Variables (R W : Type).
Variable open_raster : W -> chars -> option R.        (* validate_file(path); Raster(path) *)
Variable replace_null : R -> num -> option R.
Variable stack_bands : list R -> option R.
(* save(path, null_value, blocksize); the blocksize is one number or (height, width) *)
Variable save : W -> R -> chars -> num -> option (Z + Z * Z) -> option (R * W).
Variable py_float : chars -> option num.              (* None: ValueError *)
Variable parse_int : chars -> option Z.
Variable location : chars.                            (* the directory of the script *)

(* state.rasters: a dict *)
Definition dict := list (chars * R).
Fixpoint lookup (d : dict) (k : chars) : option R :=
  match d with
  | [] => None
  | (k', v) :: d => if chars_eqb k k' then Some v else lookup d k
  end.
Fixpoint assign (d : dict) (k : chars) (v : R) : dict :=
  match d with
  | [] => [(k, v)]
  | (k', v') :: d => if chars_eqb k k' then (k', v) :: d else (k', v') :: assign d k v
  end.

(* batch.py:60-68 get_raster *)
Definition get_raster (w : W) (d : dict) (name_or_path : chars) : outcome R :=
  match lookup d name_or_path with
  | Some r => inl r
  | None =>
      let p := if isabs name_or_path then name_or_path else path_join location name_or_path in
      orelse (open_raster w p) OperationError
  end.
Fixpoint mapO {A B} (f : A -> outcome B) (l : list A) : outcome (list B) :=
  match l with [] => inl [] | a :: l => do b := f a in do bs := mapO f l in inl (b :: bs) end.
Fixpoint find_op (l : list (chars * chars)) (k : chars) : option chars :=
  match l with [] => None | (k', v) :: l => if chars_eqb k k' then Some v else find_op l k end.
(* float(arg), else a raster *)
Definition operand (w : W) (d : dict) (arg : chars) : outcome (num + R) :=
  match py_float arg with
  | Some q => inl (inl q)
  | None => do r := get_raster w d arg in inl (inr r)
  end.
(* batch.py:71-85 _batch_parse_arithmetic; neither float nor Raster has the method
   _binary_arithmetic that is called at the end *)
Definition parse_arithmetic (w : W) (d : dict) (args : chars) (line_no : Z) : outcome (R * W) :=
  match split_strip args ";" with
  | [left_arg; right_arg; op] =>
      do op := orelse (find_op esri_op_to_op op) PyKeyError in
      do op := orelse (find_op esri_op_to_op op) (BatchScriptParseError line_no) in
      do l := operand w d left_arg in
      do r := operand w d right_arg in
      inr PyAttributeError
  | _ => inr PyValueError
  end.
(* batch.py:104-109 _batch_parse_null_to_value *)
Definition parse_null_to_value (w : W) (d : dict) (args : chars) (line_no : Z) : outcome (R * W) :=
  match split_strip args ";" with
  | [] => inr PyValueError
  | l :: rest =>
      if 1 <? len rest then inr (BatchScriptParseError line_no)
      else match rest with
           | [] => inr PyIndexError
           | v :: _ =>
               do v := orelse (py_float v) PyValueError in
               do r := get_raster w d l in
               do r := orelse (replace_null r v) OperationError in inl (r, w)
           end
  end.
(* batch.py:112-138 _batch_parse_remap; Raster.remap_range takes a mapping, not 3 or more
   numbers *)
Definition remap_group (group : chars) (line_no : Z) : outcome (num * num * num) :=
  do values := mapO (fun v => orelse (py_float v) (BatchScriptParseError line_no)) (split_strip group ":") in
  match values with
  | [l; r; new] => if num_leb r l then inr (BatchScriptParseError line_no) else inl (l, r, new)
  | _ => inr (BatchScriptParseError line_no)
  end.
Definition parse_remap (w : W) (d : dict) (args : chars) (line_no : Z) : outcome (R * W) :=
  match split_strip args ";" with
  | [] => inr PyValueError
  | raster :: rest =>
      if 1 <? len rest then inr (BatchScriptParseError line_no)
      else match rest with
           | [] => inr PyIndexError
           | groups :: _ =>
               do remaps := mapO (fun g => remap_group g line_no) (split_strip groups ",") in
               match remaps with
               | [] => inr (BatchScriptParseError line_no)
               | _ => do r := get_raster w d raster in inr PyTypeError
               end
           end
  end.
(* batch.py:141-149 _batch_parse_composite (the message of the error repeats the line) *)
Definition parse_composite (w : W) (d : dict) (args : chars) (line_no : Z) : outcome (R * W) :=
  do rasters := mapO (get_raster w d) (split_strip args ";") in
  if len rasters <? 2 then inr (BatchScriptParseError line_no)
  else do r := orelse (stack_bands rasters) OperationError in inl (r, w).
(* batch.py:152-156 _batch_parse_open: the argument is not stripped *)
Definition parse_open (w : W) (d : dict) (args : chars) (line_no : Z) : outcome (R * W) :=
  match get_raster w d args with
  | inl r => inl (r, w)
  | inr _ => inr (BatchScriptParseError line_no)
  end.
(* batch.py:159-192 _batch_parse_save *)
Definition parse_save (w : W) (d : dict) (args : chars) (line_no : Z) : outcome (R * W) :=
  match split_strip args ";" with
  | in_rs :: out_name :: out_dir :: type_ :: extra =>
      do nodata := match extra with e0 :: _ => orelse (py_float e0) PyValueError | [] => inl (of_Z 0) end in
      do bwidth := match extra with _ :: e1 :: _ => do z := orelse (parse_int e1) PyValueError in inl (Some z) | _ => inl None end in
      do bheight := match extra with [_; _; e2] => do z := orelse (parse_int e2) PyValueError in inl (Some z) | _ => inl None end in
      if 3 <? len extra then inr (BatchScriptParseError line_no)
      else if negb (chars_eqb type_ (str "TIFF")) then inr (BatchScriptParseError line_no)
      else
        do raster := get_raster w d in_rs in
        let out_name := path_join out_dir out_name ++ str ".tif" in
        let blocksize := match bwidth, bheight with
                         | Some bw, Some bh => Some (inr (bh, bw))
                         | Some bw, None => Some (inl bw)
                         | None, _ => None
                         end in
        orelse (save w raster out_name nodata blocksize) OperationError
  | _ => inr (BatchScriptParseError line_no)
  end.
(* batch.py:88-101 _batch_parse_extract_band, 195-210 _batch_parse_set_null: the first
   thing they do is args_str.pop(0), and str has no pop *)
Definition parse_extract_band (w : W) (d : dict) (args : chars) (line_no : Z) : outcome (R * W) := inr PyAttributeError.
Definition parse_set_null (w : W) (d : dict) (args : chars) (line_no : Z) : outcome (R * W) := inr PyAttributeError.

(* batch.py:213-222 _FUNC_TO_PARSER *)
Definition func_to_parser : list (chars * (W -> dict -> chars -> Z -> outcome (R * W))) :=
  [(str "ARITHMETIC", parse_arithmetic); (str "COMPOSITE", parse_composite); (str "EXTRACTBAND", parse_extract_band);
   (str "NULLTOVALUE", parse_null_to_value); (str "OPENRASTER", parse_open); (str "REMAP", parse_remap);
   (str "SAVEFUNCTIONRASTER", parse_save); (str "SETNULL", parse_set_null)].
(* batch.py:242-250 _parse_raster *)
Definition parse_raster (w : W) (d : dict) (expr : chars) (line_no : Z) : outcome (R * W) :=
  match re_match func_pattern expr with
  | Some [func; args] =>
      match find (fun '(k, _) => chars_eqb (upper func) k) func_to_parser with
      | Some (_, p) => p w d args line_no
      | None => inr (BatchScriptParseError line_no)
      end
  | _ => inr (BatchScriptParseError line_no)
  end.
(* 236-246: the lines from number line_no on.  (readlines keeps the newline at
   the end of a line; strip removes it.) *)
Fixpoint run_lines (lines : list chars) (line_no : Z) (w : W) (d : dict) (last_raster : option chars) : outcome (W * dict * option chars) :=
  match lines with
  | [] => inl (w, d, last_raster)
  | line :: lines =>
      match split_strip line "#" with
      | [] => inr PyValueError
      | [] :: _ => run_lines lines (line_no + 1) w d last_raster
      | line :: _ =>
          match split_strip line "=" with
          | [lh; rh] =>
              do '(r, w) := parse_raster w d rh line_no in
              run_lines lines (line_no + 1) w (assign d lh r) (Some lh)
          | _ => inr PyValueError
          end
      end
  end.
(* batch.py:225-239 parse_batch_script: the final raster, the named rasters and the file
   system afterwards *)
Definition parse_batch_script (content : chars) (w : W) : outcome (R * dict * W) :=
  do '(w, d, last_raster) := run_lines (file_lines [] content) 1 w [] None in
  match last_raster with
  | None => inr PyKeyError
  | Some lh => do r := orelse (lookup d lh) PyKeyError in inl (r, d, w)
  end.
End Batch.
