(* The documented form of remap files: lines "a:b", a a number, b a number or
   NoData, with any space around them.  Numbers: see the comment at
   general.py:1283. *)
From Coq Require Import QArith Ascii String.
From Verif Require Import Base Scalars.
Open Scope Z_scope.

Definition digit_char (d : Z) : ascii := nth (Z.to_nat d) (list_ascii_of_string "0123456789") "0"%char.
Definition digits (ds : list Z) : Prop := Forall (fun d => 0 <= d <= 9) ds.
Definition digits_text (ds : list Z) : list ascii := map digit_char ds.
Definition number_of (ds : list Z) : Z := fold_left (fun a d => 10 * a + d) ds 0.

Inductive sign := NoSign | Plus | Minus.
Definition sign_text (s : sign) : list ascii := match s with NoSign => [] | Plus => ["+"%char] | Minus => ["-"%char] end.
Definition sign_value (s : sign) : Z := match s with Minus => -1 | _ => 1 end.
(* 12, 12. and 12.5; .5 *)
Inductive mantissa := Whole (ip : list Z) (fp : option (list Z)) | Fraction (fp : list Z).
Definition mantissa_text (m : mantissa) : list ascii :=
  match m with
  | Whole ip None => digits_text ip
  | Whole ip (Some fp) => digits_text ip ++ "."%char :: digits_text fp
  | Fraction fp => "."%char :: digits_text fp
  end.
(* no leading zeros *)
Definition mantissa_ok (m : mantissa) : Prop :=
  match m with
  | Whole ip fp => digits ip /\ (ip = [0] \/ exists d t, ip = d :: t /\ d <> 0) /\ match fp with Some fp => digits fp | None => True end
  | Fraction fp => digits fp /\ fp <> []
  end.
Definition fraction_value (fp : list Z) : Q := (inject_Z (number_of fp) / Qpower (10 # 1) (len fp))%Q.
Definition mantissa_value (m : mantissa) : Q :=
  match m with
  | Whole ip None => inject_Z (number_of ip)
  | Whole ip (Some fp) => (inject_Z (number_of ip) + fraction_value fp)%Q
  | Fraction fp => fraction_value fp
  end.
(* e, E; sign; digits *)
Record exponent := Exponent { e_capital : bool; e_sign : sign; e_digits : list Z }.
Definition exponent_text (e : option exponent) : list ascii :=
  match e with
  | None => []
  | Some e => (if e_capital e then "E"%char else "e"%char) :: sign_text (e_sign e) ++ digits_text (e_digits e)
  end.
Definition exponent_ok (e : option exponent) : Prop :=
  match e with None => True | Some e => digits (e_digits e) /\ e_digits e <> [] end.
Definition exponent_value (e : option exponent) : Z :=
  match e with None => 0 | Some e => sign_value (e_sign e) * number_of (e_digits e) end.

Record numeral := Numeral { n_sign : sign; n_mantissa : mantissa; n_exponent : option exponent }.
Definition numeral_text (n : numeral) : list ascii := sign_text (n_sign n) ++ mantissa_text (n_mantissa n) ++ exponent_text (n_exponent n).
Definition numeral_ok (n : numeral) : Prop := mantissa_ok (n_mantissa n) /\ exponent_ok (n_exponent n).
(* integers are exact, other numerals are rounded to float *)
Definition numeral_value (to_float : Q -> num) (n : numeral) : num :=
  match n_mantissa n, n_exponent n with
  | Whole ip None, None => of_Z (sign_value (n_sign n) * number_of ip)
  | m, e => to_float (inject_Z (sign_value (n_sign n)) * mantissa_value m * Qpower (10 # 1) (exponent_value e))%Q
  end.

(* white space: tab to carriage return, the four separators, space *)
Definition space (c : ascii) : Prop := In c (map ascii_of_nat [9; 10; 11; 12; 13; 28; 29; 30; 31; 32]%nat).
Definition spaces (s : list ascii) : Prop := Forall space s.
Inductive target (to_float : Q -> num) : list ascii -> option num -> Prop :=
| ToNumber n : numeral_ok n -> target to_float (numeral_text n) (Some (numeral_value to_float n))
| ToNull : target to_float (list_ascii_of_string "NoData") None.
Inductive documented_line (to_float : Q -> num) : list ascii -> num * option num -> Prop :=
| DocumentedLine w1 w2 w3 w4 a t v : spaces w1 -> spaces w2 -> spaces w3 -> spaces w4 -> numeral_ok a -> target to_float t v ->
    documented_line to_float (w1 ++ numeral_text a ++ w2 ++ ":"%char :: w3 ++ t ++ w4) (numeral_value to_float a, v).
(* the non-blank lines have the documented form and describe the mapping *)
Inductive described (to_float : Q -> num) : list (list ascii) -> list (num * option num) -> Prop :=
| DNil : described to_float [] []
| DBlank l ls m : spaces l -> described to_float ls m -> described to_float (l :: ls) m
| DLine l e ls m : documented_line to_float l e -> described to_float ls m -> described to_float (l :: ls) (e :: m).
Definition distinct_keys (m : list (num * option num)) : Prop := ForallOrdPairs (fun a b => num_eqb (fst b) (fst a) = false) m.
