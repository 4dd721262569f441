(* C42: batch scripts. *)
From Coq Require Import QArith Ascii String.
From Verif Require Import Base Scalars RemapFile RemapFileSpec Batch BatchSpec BatchProofs.
Open Scope Z_scope.

(* Whatever rasters are and whatever can be done with them: a script has the
   final raster r exactly when its lines, evaluated one after the other, end
   with an assignment of r. *)
Theorem C42_script : forall R W open_raster replace_null stack_bands save py_float parse_int location content w r w',
  (exists d, parse_batch_script R W open_raster replace_null stack_bands save py_float parse_int location content w = inl (r, d, w'))
  <-> exists n h, runs R W open_raster replace_null stack_bands save py_float parse_int location (file_lines [] content) w [] w' ((n, r) :: h).
Proof. exact script_spec. Qed.
Print Assumptions C42_script.

(* The names that the state keeps are the latest assignments. *)
Theorem C42_names : forall R W open_raster replace_null stack_bands save py_float parse_int location content w r d w',
  parse_batch_script R W open_raster replace_null stack_bands save py_float parse_int location content w = inl (r, d, w') ->
  exists h, runs R W open_raster replace_null stack_bands save py_float parse_int location (file_lines [] content) w [] w' h
    /\ forall k x, lookup R d k = Some x <-> latest R h k x.
Proof. exact names_spec. Qed.
Print Assumptions C42_names.

(* A parse error names the first line that cannot be evaluated. *)
Theorem C42_error_line : forall R W open_raster replace_null stack_bands save py_float parse_int location content w n,
  parse_batch_script R W open_raster replace_null stack_bands save py_float parse_int location content w = inr (BatchScriptParseError n) ->
  exists pre line post w1 h1, file_lines [] content = pre ++ line :: post /\ n = len pre + 1
    /\ runs R W open_raster replace_null stack_bands save py_float parse_int location pre w [] w1 h1
    /\ forall w2 h2, ~ runs R W open_raster replace_null stack_bands save py_float parse_int location [line] w1 h1 w2 h2.
Proof. exact script_error. Qed.
Print Assumptions C42_error_line.

(* Half of the functions can never be used. *)
Theorem C42_dead_functions : forall R W open_raster replace_null stack_bands save py_float parse_int location w d f args ln r,
  letters f -> In (map capital f) (map lit ["ARITHMETIC"; "EXTRACTBAND"; "REMAP"; "SETNULL"]%string) ->
  parse_raster R W open_raster replace_null stack_bands save py_float parse_int location w d (f ++ "("%char :: args ++ [")"%char]) ln <> inl r.
Proof. exact dead_functions. Qed.
Print Assumptions C42_dead_functions.

(* An instance: rasters are the expressions that made them, a file system is the
   list of its files. *)
Inductive expr := File (p : list ascii) | NoNull (r : expr) (v : num) | Stack (rs : list expr).
Definition files := list (list ascii * expr).
Definition open_file (w : files) (p : list ascii) : option expr := lookup expr w p.
Definition save_file (w : files) (r : expr) (p : list ascii) (v : num) (b : option (Z + Z * Z)) : option (expr * files) := Some (File p, assign expr w p (NoNull r v)).
Definition stack (rs : list expr) : option expr := Some (Stack rs).
Definition nonull (r : expr) (v : num) : option expr := Some (NoNull r v).
Definition integer (s : list ascii) : option num := option_map of_Z (py_int s).
Definition run := parse_batch_script expr files open_file nonull stack save_file integer py_int (lit "/data").
Definition script (ls : list string) : list ascii := flat_map (fun l => list_ascii_of_string l ++ ["010"%char]) ls.
Definition disk : files := [(lit "/data/a.tif", File (lit "A")); (lit "/b.tif", File (lit "B"))].
Example C42_run : exists d,
  run (script ["# two rasters"; "a = OPENRASTER(a.tif)"; "b= openRaster(/b.tif) # absolute"; ""; "a =NULLTOVALUE( a ; 5)";
               "c = SAVEFUNCTIONRASTER(a; out; /tmp/; TIFF; 7; 256)"; "d = COMPOSITE(a;b; /tmp/out.tif;a.tif)"]%string) disk
  = inl (Stack [NoNull (File (lit "A")) (of_Z 5); File (lit "B"); NoNull (NoNull (File (lit "A")) (of_Z 5)) (of_Z 7); File (lit "A")], d,
         disk ++ [(lit "/tmp/out.tif", NoNull (NoNull (File (lit "A")) (of_Z 5)) (of_Z 7))]).
Proof. eexists. vm_compute. reflexivity. Qed.
(* A name shadows the path that it was opened from. *)
Example C42_shadow : exists d, run (script ["a.tif = OPENRASTER(/b.tif)"; "x = OPENRASTER(a.tif)"]%string) disk = inl (File (lit "B"), d, disk).
Proof. eexists. vm_compute. reflexivity. Qed.
(* errors: an unknown function, a missing file, two equal signs, no lines, a
   space inside OPENRASTER, operations on numbers and rasters *)
Example C42_errors :
  run (script ["a = OPENRASTER(a.tif)"; ""; "b = BUFFER(a;2)"]%string) disk = inr (BatchScriptParseError 3)
  /\ run (script ["a = OPENRASTER(c.tif)"]%string) disk = inr (BatchScriptParseError 1)
  /\ run (script ["a = b = OPENRASTER(a.tif)"]%string) disk = inr PyValueError
  /\ run (script ["# nothing"]%string) disk = inr PyKeyError
  /\ run (script ["a = OPENRASTER(a.tif)"; "b = OPENRASTER(a )"]%string) disk = inr (BatchScriptParseError 2)
  /\ run (script ["a = OPENRASTER(a.tif)"; "b = ARITHMETIC(a; 2; +)"]%string) disk = inr PyAttributeError
  /\ run (script ["b = REMAP(a.tif; 0:1:5, 1:2:6)"]%string) disk = inr PyTypeError.
Proof. repeat split; vm_compute; reflexivity. Qed.
