(* Model of general.py:1283-1345: remap files.
   Characters are ASCII (the class name of the parser says so; Python's \d and
   \s also match some other characters). *)
From Coq Require Import QArith Ascii String.
From Verif Require Import Base Scalars.
Open Scope Z_scope.

Notation chars := (list ascii).
Definition code (c : ascii) : Z := Z.of_N (N_of_ascii c).
Definition is_char (d c : ascii) : bool := Ascii.eqb d c.
(* \d *)
Definition is_digit (c : ascii) : bool := (48 <=? code c) && (code c <=? 57).
Definition digit (c : ascii) : Z := code c - 48.
(* \s, str.strip: str.isspace *)
Definition is_space (c : ascii) : bool := ((9 <=? code c) && (code c <=? 13)) || ((28 <=? code c) && (code c <=? 32)).
Definition is_sign (c : ascii) : bool := is_char "-" c || is_char "+" c.
Definition is_e (c : ascii) : bool := is_char "e" c || is_char "E" c.

(* ---- regular expressions with Python's backtracking order ---- *)
Inductive re :=
| RClass (p : ascii -> bool)
| RStar (p : ascii -> bool)          (* p*, greedy; only character classes are repeated *)
| RSeq (r s : re)
| RAlt (r s : re)
| ROpt (r : re)                      (* r?, greedy *)
| RGroup (r : re).                   (* a capturing group *)
Definition RPlus p := RSeq (RClass p) (RStar p).
Fixpoint RStr (s : string) : re :=
  match s with
  | EmptyString => ROpt (RClass (fun _ => false))
  | String c EmptyString => RClass (is_char c)
  | String c s => RSeq (RClass (is_char c)) (RStr s)
  end.
(* p*: the possible matches, longest first *)
Fixpoint star (p : ascii -> bool) (s : chars) : list (chars * chars) :=
  match s with
  | c :: s' => if p c then map (fun '(m, rest) => (c :: m, rest)) (star p s') ++ [([], s)] else [([], s)]
  | [] => [([], [])]
  end.
(* the possible matches at the start of s, in the order in which they are tried:
   the text matched, the captured groups and the rest *)
Definition match_result : Type := chars * list chars * chars.
Fixpoint matches (r : re) (s : chars) : list match_result :=
  match r with
  | RClass p => match s with c :: s' => if p c then [([c], [], s')] else [] | [] => [] end
  | RStar p => map (fun '(m, rest) => (m, [], rest)) (star p s)
  | RSeq r1 r2 =>
      flat_map (fun '(m1, g1, s1) => map (fun '(m2, g2, s2) => (m1 ++ m2, g1 ++ g2, s2)) (matches r2 s1)) (matches r1 s)
  | RAlt r1 r2 => matches r1 s ++ matches r2 s
  | ROpt r => matches r s ++ [([], [], s)]
  | RGroup r => map (fun '(m, g, rest) => (m, m :: g, rest)) (matches r s)
  end.
(* pattern.match with $ at the end: the rest is empty or a final newline *)
Definition at_end (s : chars) : bool :=
  match s with [] => true | [c] => is_char "010" c | _ => false end.
Definition re_match (r : re) (s : chars) : option (list chars) :=
  match find (fun '(_, _, rest) => at_end rest) (matches r s) with
  | Some (_, g, _) => Some g
  | None => None
  end.

(* general.py:1284-1286 _INT_OR_FLOAT_RE *)
Definition int_or_float_re : re :=
  RSeq
    (RSeq (ROpt (RClass is_sign))
          (ROpt (RAlt (RSeq (RAlt (RClass (is_char "0")) (RSeq (RClass (fun c => is_digit c && negb (is_char "0" c))) (RStar is_digit)))
                            (ROpt (RSeq (RClass (is_char ".")) (RStar is_digit))))
                      (RSeq (RClass (is_char ".")) (RPlus is_digit)))))
    (ROpt (RSeq (RClass is_e) (RSeq (ROpt (RClass is_sign)) (RPlus is_digit)))).
(* general.py:1287-1290 _REMAPPING_LINE_PATTERN *)
Definition remapping_line_pattern : re :=
  RSeq (RStar is_space) (RSeq (RGroup int_or_float_re) (RSeq (RStar is_space) (RSeq (RClass (is_char ":"))
    (RSeq (RStar is_space) (RSeq (RGroup (RAlt int_or_float_re (RStr "NoData"))) (RStar is_space)))))).

(* ---- int() and float() of a string without spaces and underscores ---- *)
Fixpoint digits_value (acc : Z) (s : chars) : Z :=
  match s with [] => acc | c :: s => digits_value (10 * acc + digit c) s end.
Fixpoint take_digits (s : chars) : chars * chars :=
  match s with
  | c :: s' => if is_digit c then let '(d, rest) := take_digits s' in (c :: d, rest) else ([], s)
  | [] => ([], [])
  end.
Definition take_sign (s : chars) : Z * chars :=
  match s with
  | c :: s' => if is_char "-" c then (-1, s') else if is_char "+" c then (1, s') else (1, s)
  | [] => (1, [])
  end.
(* None: ValueError.  (Python's limit of 4300 digits is not modelled.) *)
Definition py_int (s : chars) : option Z :=
  let '(sg, s) := take_sign s in
  let '(d, rest) := take_digits s in
  match d, rest with
  | _ :: _, [] => Some (sg * digits_value 0 d)
  | _, _ => None
  end.
Definition pow10 (e : Z) : Q := Qpower (10 # 1) e.
(* the exact decimal value *)
Definition py_decimal (s : chars) : option Q :=
  let '(sg, s) := take_sign s in
  let '(ip, s) := take_digits s in
  let '(fp, s) := match s with c :: s' => if is_char "." c then take_digits s' else ([], s) | [] => ([], []) end in
  let '(ex, ok, s) :=
    match s with
    | c :: s' =>
        if is_e c then
          let '(esg, s') := take_sign s' in
          let '(ed, rest) := take_digits s' in
          (esg * digits_value 0 ed, match ed with [] => false | _ => true end, rest)
        else (0, true, s)
    | [] => (0, true, [])
    end in
  match ip ++ fp, s with
  | _ :: _, [] => if ok : bool then Some (inject_Z (sg * digits_value 0 (ip ++ fp)) * pow10 (ex - len fp))%Q else None
  | _, _ => None
  end.

Section Float.
(* rounding a decimal to binary64 *)
Variable to_float : Q -> num.
(* general.py:1293-1298 _str_to_float_or_int *)
Definition str_to_float_or_int (s : chars) : option num :=
  if existsb (fun c => is_char "." c || is_char "e" c || is_char "E" c) s then option_map to_float (py_decimal s)
  else option_map of_Z (py_int s).

Inductive remap_error := RemapFileParseError | RemapValueError.
(* str.strip *)
Fixpoint lstrip (s : chars) : chars :=
  match s with c :: s' => if is_space c then lstrip s' else s | [] => [] end.
Definition strip (s : chars) : chars := rev (lstrip (rev (lstrip s))).
Definition chars_eqb (a b : chars) : bool := if list_eq_dec ascii_dec a b then true else false.
(* 1305-1318: one line *)
Definition parse_line (line : chars) : (num * option num) + remap_error :=
  match re_match remapping_line_pattern line with
  | Some [from; to] =>
      match from, to with
      | [], _ | _, [] => inr RemapFileParseError
      | _, _ =>
          match str_to_float_or_int from with
          | None => inr RemapValueError
          | Some k =>
              if chars_eqb to (list_ascii_of_string "NoData") then inl (k, None)
              else match str_to_float_or_int to with
                   | None => inr RemapValueError
                   | Some v => inl (k, Some v)
                   end
          end
      end
  | _ => inr RemapFileParseError
  end.
(* general.py:1301-1319 _parse_ascii_remap_file; a dict keeps the order of insertion *)
Fixpoint parse_lines (lines : list chars) (mapping : list (num * option num)) : list (num * option num) + remap_error :=
  match lines with
  | [] => inl mapping
  | line :: lines =>
      match strip line with
      | [] => parse_lines lines mapping
      | line =>
          match parse_line line with
          | inr e => inr e
          | inl (k, v) =>
              if existsb (fun '(k', _) => num_eqb k k') mapping then inr RemapValueError
              else parse_lines lines (mapping ++ [(k, v)])
          end
      end
  end.
(* iterating over a text file with universal newlines *)
Fixpoint file_lines (cur : chars) (s : chars) : list chars :=
  match s with
  | [] => match cur with [] => [] | _ => [rev cur] end
  | c :: s' =>
      if is_char "010" c then rev cur :: file_lines [] s'
      else if is_char "013" c then
        match s' with
        | d :: s'' => if is_char "010" d then rev cur :: file_lines [] s'' else rev cur :: file_lines [] s'
        | [] => [rev cur]
        end
      else file_lines (c :: cur) s'
  end.
(* general.py:1322-1335 _get_remapping of an existing file *)
Definition get_remapping (content : chars) : list (num * option num) + remap_error :=
  match parse_lines (file_lines [] content) [] with
  | inl [] => inr RemapValueError
  | r => r
  end.
End Float.
