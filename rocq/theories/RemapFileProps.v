(* C41: remap files. *)
From Coq Require Import QArith Ascii String Lia.
From Verif Require Import Base BaseFacts Scalars RemapFile RemapFileSpec RemapFileProofs.
Open Scope Z_scope.

(* Every file content: it is accepted with the mapping m exactly when its
   non-blank lines have the documented form, m is the mapping they write, no
   key occurs twice and there is at least one line.  to_float is the rounding
   of a decimal number to float, a function of its value. *)
Theorem C41_parse : forall to_float, (forall p q, (p == q)%Q -> to_float p = to_float q) -> forall content m,
  get_remapping to_float content = inl m <-> described to_float (file_lines [] content) m /\ distinct_keys m /\ m <> [].
Proof. exact get_remapping_spec. Qed.
Print Assumptions C41_parse.

(* The lines write one mapping only. *)
Theorem C41_unambiguous : forall to_float, (forall p q, (p == q)%Q -> to_float p = to_float q) -> forall ls m, described to_float ls m -> forall m', described to_float ls m' -> m = m'.
Proof. exact described_fun. Qed.
Print Assumptions C41_unambiguous.

(* The lines of a text: those ended by LF or CR LF and what follows the last. *)
Theorem C41_lines : forall ls last, Forall (fun '(l, e) => no_newline l /\ (e = ["010"%char] \/ e = ["013"%char; "010"%char])) ls -> no_newline last ->
  file_lines [] (flat_map (fun '(l, e) => l ++ e) ls ++ last) = map fst ls ++ (match last with [] => [] | _ => [last] end).
Proof. exact file_lines_text. Qed.
Print Assumptions C41_lines.

(* Examples; to_float is exact. *)
Definition exact_float (q : Q) : num := Fin (Qred q).
Example exact_float_ok : forall p q, (p == q)%Q -> exact_float p = exact_float q.
Proof. intros p q H. unfold exact_float. f_equal. apply Qred_complete, H. Qed.
Definition text (ls : list string) : list ascii := flat_map (fun l => list_ascii_of_string l ++ ["010"%char]) ls.
Example C41_accepts : get_remapping exact_float (text [" 1 : 2"; ""; "-2.5:NoData "; "3.e1:-.25"; "  "; "+07e-1:0" ; ""]%string) = inr RemapFileParseError
  /\ get_remapping exact_float (text [" 1 : 2"; ""; "-2.5:NoData "; "3.e1:-.25"; "  "; "+7E-1:0" ; ""]%string)
     = inl [(of_Z 1, Some (of_Z 2)); (Fin (-5 # 2), None); (Fin 30, Some (Fin (-1 # 4))); (Fin (7 # 10), Some (of_Z 0))].
Proof. split; vm_compute; reflexivity. Qed.
(* what is not of the documented form *)
Example C41_rejects : Forall (fun l => exists e, get_remapping exact_float (text ["5:6"; l]%string) = inr e)
  ["1 2:3"; "1"; "1:"; ":1"; ":"; "1:2:3"; "1:nodata"; "NoData:1"; "1:NoData x"; "01:2"; "1_0:2"; "+:1"; "e5:1"; "1:-"; "1e:2"; "0x1:2"; "inf:1"; "# 1:2"; "1:."]%string.
Proof. repeat constructor; eexists; vm_compute; reflexivity. Qed.
(* duplicate keys, written differently; no lines *)
Example C41_duplicates : get_remapping exact_float (text ["1:2"; "1.0:3"]%string) = inr RemapValueError /\ get_remapping exact_float (text ["5:2"; "50e-1:2"]%string) = inr RemapValueError
  /\ get_remapping exact_float (text [""; " "]%string) = inr RemapValueError.
Proof. repeat split; vm_compute; reflexivity. Qed.
(* the numeral -12.50e+3 *)
Example C41_numeral : let n := Numeral Minus (Whole [1; 2] (Some [5; 0])) (Some (Exponent false Plus [3])) in
  numeral_ok n /\ string_of_list_ascii (numeral_text n) = "-12.50e+3"%string /\ numeral_value exact_float n = Fin (-12500).
Proof.
  split; [|split; vm_compute; reflexivity].
  repeat split; try (repeat constructor; lia); try discriminate. right. exists 1, [2]. split; [reflexivity|lia].
Qed.
