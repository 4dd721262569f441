(* Batch scripts: lines "name = FUNCTION(arguments)", with comments after #. *)
From Coq Require Import QArith Ascii String.
From Verif Require Import Base Scalars RemapFileSpec.
Open Scope Z_scope.

Definition text := list ascii.
Definition lit : string -> text := list_ascii_of_string.
Definition lacks (c : ascii) (s : text) : Prop := ~ In c s.
(* no space at either end *)
Definition trimmed (s : text) : Prop :=
  (forall c t, s = c :: t -> ~ space c) /\ (forall t c, s = t ++ [c] -> ~ space c).
(* s surrounded by space *)
Definition padded (s t : text) : Prop := trimmed s /\ exists w1 w2, spaces w1 /\ spaces w2 /\ t = w1 ++ s ++ w2.
Fixpoint joined_with (d : ascii) (parts : list text) : text :=
  match parts with
  | [] => []
  | [p] => p
  | p :: ps => p ++ d :: joined_with d ps
  end.
(* a list of arguments written with ; between them and any space around them *)
Definition written_args (args : list text) (t : text) : Prop :=
  args <> [] /\ exists parts, Forall2 padded args parts /\ Forall (lacks ";") parts /\ t = joined_with ";" parts.
Definition capital (c : ascii) : ascii :=
  match find (fun p => Ascii.eqb (fst p) c) (combine (lit "abcdefghijklmnopqrstuvwxyz") (lit "ABCDEFGHIJKLMNOPQRSTUVWXYZ")) with
  | Some (_, C) => C
  | None => c
  end.
Definition letters (s : text) : Prop := forall c, In c s -> In c (lit "abcdefghijklmnopqrstuvwxyzABCDEFGHIJKLMNOPQRSTUVWXYZ").

Section Meaning.
Variables (R W : Type).
Variable open_raster : W -> text -> option R.
Variable replace_null : R -> num -> option R.
Variable stack_bands : list R -> option R.
Variable save : W -> R -> text -> num -> option (Z + Z * Z) -> option (R * W).
Variable float_text : text -> option num.
Variable int_text : text -> option Z.
Variable directory : text.

(* the assignments made so far, the latest first *)
Definition history := list (text * R).
(* the latest assignment to a name *)
Definition latest (h : history) (name : text) (r : R) : Prop :=
  exists later earlier, h = later ++ (name, r) :: earlier /\ ~ In name (map fst later).
Definition absolute (p : text) : Prop := exists t, p = "/"%char :: t.
(* path q seen from directory p *)
Definition relative_to (p q r : text) : Prop :=
  absolute q /\ r = q
  \/ ~ absolute q /\ (p = [] /\ r = q \/ (exists t, p = t ++ ["/"%char]) /\ r = p ++ q
                      \/ p <> [] /\ (forall t, p <> t ++ ["/"%char]) /\ r = p ++ "/"%char :: q).
(* a name stands for its latest assignment, and otherwise for a file *)
Inductive refers (w : W) (h : history) (name : text) (r : R) : Prop :=
| ByName : latest h name r -> refers w h name r
| ByPath p : ~ In name (map fst h) -> relative_to directory name p -> open_raster w p = Some r -> refers w h name r.

(* the functions of which a call can succeed *)
Inductive call (w : W) (h : history) : text -> text -> R -> W -> Prop :=
| Open name r : refers w h name r -> call w h (lit "OPENRASTER") name r w
| Composite names t rs r : written_args names t -> 2 <= len names -> Forall2 (refers w h) names rs -> stack_bands rs = Some r ->
    call w h (lit "COMPOSITE") t r w
| NullToValue name v t r r' q : written_args [name; v] t -> refers w h name r -> float_text v = Some q -> replace_null r q = Some r' ->
    call w h (lit "NULLTOVALUE") t r' w
| Save name out dir path opts t r r' w' nodata block : written_args ([name; out; dir; lit "TIFF"] ++ opts) t -> refers w h name r ->
    relative_to dir out path ->
    match opts, block with
    | [], None => nodata = of_Z 0
    | [v], None => float_text v = Some nodata
    | [v; bw], Some (inl x) => float_text v = Some nodata /\ int_text bw = Some x
    | [v; bw; bh], Some (inr (y, x)) => float_text v = Some nodata /\ int_text bw = Some x /\ int_text bh = Some y
    | _, _ => False
    end ->
    save w r (path ++ lit ".tif") nodata block = Some (r', w') ->
    call w h (lit "SAVEFUNCTIONRASTER") t r' w'.

Definition comment (t : text) : Prop := t = [] \/ exists c, t = "#"%char :: c.
(* what the lines do, one after the other *)
Inductive runs : list text -> W -> history -> W -> history -> Prop :=
| RunsNil w h : runs [] w h w h
| RunsBlank sp cm ls w h w' h' : spaces sp -> comment cm -> runs ls w h w' h' -> runs ((sp ++ cm) :: ls) w h w' h'
| RunsLine name f args lhs rhs cm ls w h r w1 w2 h2 :
    padded name lhs -> lacks "#" name -> lacks "=" name ->
    letters f -> f <> [] -> args <> [] -> lacks "(" args -> lacks ")" args -> lacks "#" args -> lacks "=" args ->
    padded (f ++ "("%char :: args ++ [")"%char]) rhs -> comment cm ->
    call w h (map capital f) args r w1 -> runs ls w1 ((name, r) :: h) w2 h2 ->
    runs ((lhs ++ "="%char :: rhs ++ cm) :: ls) w h w2 h2.
End Meaning.
