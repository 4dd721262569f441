(* Model of how io.py turns the options of Raster.save into what is asked of rasterio
   and GDAL, of the files involved, and of which paths are opened.  The cells and the
   null value are those of Saving.v; what rasterio does with the options is not
   modelled, except that each of its calls may raise.

   Strings are ASCII.  A numpy integer as blocksize is given as BlockOther. *)
From Coq Require Import Ascii String.
From Verif Require Import Base Grids Saving.
Open Scope Z_scope.

(* str.lower and str.upper *)
Definition shift (lo hi : Z) (by_ : Z) (c : ascii) : ascii :=
  let n := Z.of_nat (nat_of_ascii c) in if (lo <=? n) && (n <=? hi) then ascii_of_nat (Z.to_nat (n + by_)) else c.
Fixpoint smap (f : ascii -> ascii) (s : string) : string := match s with EmptyString => EmptyString | String c t => String (f c) (smap f t) end.
Definition lower : string -> string := smap (shift 65 90 32).
Definition upper : string -> string := smap (shift 97 122 (-32)).

(* os.path.splitext on POSIX (genericpath._splitext), the second part *)
Definition rfind (c : ascii) (l : list ascii) : Z :=
  fst (fold_left (fun '(found, i) x => (if Ascii.eqb x c then i else found, i + 1)) l (-1, 0)).
Definition slash : ascii := "/"%char.
Definition dot : ascii := "."%char.
Definition splitext1 (p : list ascii) : list ascii :=
  let sep_index := rfind slash p in
  let dot_index := rfind dot p in
  (* the loop skips leading dots of the file name *)
  if (sep_index <? dot_index) && existsb (fun c => negb (Ascii.eqb c dot)) (slice p (sep_index + 1) dot_index)
  then slice p dot_index (len p) else [].
(* io.py:24-25 _get_extension *)
Definition get_extension (path : string) : string := lower (string_of_list_ascii (splitext1 (list_ascii_of_string path))).

(* values of creation options; a dict keeps the place of a key that is set again *)
Inductive value := VStr (s : string) | VInt (z : Z) | VBool (b : bool).
Definition dict := list (string * value).
Fixpoint dput (k : string) (v : value) (d : dict) : dict :=
  match d with
  | [] => [(k, v)]
  | (k', v') :: t => if String.eqb k k' then (k, v) :: t else (k', v') :: dput k v t
  end.
Fixpoint dget (d : dict) (k : string) : option value :=
  match d with [] => None | (k', v) :: t => if String.eqb k k' then Some v else dget t k end.
Definition update (d e : dict) : dict := fold_left (fun d '(k, v) => dput k v d) e d.

Inductive blocksize := BlockInt (n : Z) | BlockSeq (l : list Z) | BlockOther.
Inductive predictor := PredInt (z : Z) | PredStr (s : string).
Inductive bigtiff := BigBool (b : bool) | BigStr (s : string).
Inductive overviews := OvNone | OvFlag (b : bool) | OvFactors (l : list Z).
Record opts := Opts {
  o_tiled : option bool; o_blocksize : option blocksize; o_compress : option string; o_level : option Z; o_predictor : option predictor;
  o_bigtiff : option bigtiff; o_overviews : overviews; o_resampling : option string }.
Inductive warning := WLevel | WPredictor | WFactors.

(* h, w = bs *)
Definition unpack (l : list Z) : res (Z * Z) := match l with [h; w] => Ok (h, w) | _ => Err ValueError end.
Definition put_compress (o : opts) (d : dict) : dict :=
  dput "compress" (VStr (match o_compress o with None => "none" | Some c => lower c end)%string) d.
Definition compressor (d : dict) : string := match dget d "compress" with Some (VStr s) => s | _ => ""%string end.
(* io.py:214-226, 277-297: the keys of the compressors that have a level *)
Definition put_level (key : string -> option string) (o : opts) (d : dict) : dict * list warning :=
  match o_level o with
  | None => (d, [])
  | Some level => match key (compressor d) with Some k => (dput k (VInt level) d, []) | None => (d, [WLevel]) end
  end.
(* io.py:228-246, 298-316 *)
Definition put_predictor (horizontal float_ : value) (o : opts) (d : dict) : res (dict * list warning) :=
  match o_predictor o with
  | None => Ok (d, [])
  | Some p =>
      if String.eqb (compressor d) "jpeg" then Ok (d, [WPredictor])
      else match p with
           | PredInt z => Ok (dput "predictor" (VInt z) d, [])
           | PredStr s =>
               if String.eqb s "horizontal" then Ok (dput "predictor" horizontal d, [])
               else if String.eqb s "float" then Ok (dput "predictor" float_ d, [])
               else Err ValueError
           end
  end.
Definition put_bigtiff (o : opts) (d : dict) : dict :=
  match o_bigtiff o with
  | Some (BigBool b) => dput "bigtiff" (VStr (if b then "yes" else "no")%string) d
  | Some (BigStr s) => dput "bigtiff" (VStr (lower s)) d
  | None => d
  end.
Definition gtiff_level (c : string) : option string :=
  (if String.eqb c "deflate" then Some "zlevel" else if String.eqb c "zstd" then Some "zstd_level" else if String.eqb c "jpeg" then Some "jpeg_quality" else None)%string.
Definition cog_level (c : string) : option string :=
  (if existsb (String.eqb c) ["deflate"; "zstd"; "lzw"; "lerc"; "lerc_deflate"; "lerc_zstd"] then Some "level" else if String.eqb c "jpeg" then Some "quality" else None)%string.
(* io.py:192-247 _gtiff_translate *)
Definition gtiff_translate (o : opts) : res (dict * list warning) :=
  let out := match o_tiled o with Some b => dput "tiled" (VBool b) [] | None => [] end in
  let* out :=
    match o_blocksize o with
    | None => Ok out
    | Some bs =>
        let* '(h, w) := match bs with BlockInt n => Ok (n, n) | BlockSeq l => unpack l | BlockOther => Err TypeError end in
        Ok (dput "blockysize" (VInt h) (dput "blockxsize" (VInt w) out))
    end in
  let out := put_compress o out in
  let '(out, w1) := put_level gtiff_level o out in
  let* '(out, w2) := put_predictor (VInt 2) (VInt 3) o out in
  Ok (put_bigtiff o out, w1 ++ w2).
(* io.py:250-327 _cog_translate *)
Definition cog_translate (o : opts) : res (dict * list warning) :=
  let out := [] in
  let* out :=
    match o_blocksize o with
    | None => Ok out
    | Some (BlockInt n) => Ok (dput "blocksize" (VInt n) out)
    | Some (BlockSeq l) => let* '(h, w) := unpack l in if negb (h =? w) then Err ValueError else Ok (dput "blocksize" (VInt h) out)
    | Some BlockOther => Err TypeError
    end in
  let out := put_compress o out in
  let '(out, w1) := put_level cog_level o out in
  let* '(out, w2) := put_predictor (VStr "STANDARD") (VStr "FLOATING_POINT") o out in
  let out := put_bigtiff o out in
  let '(out, w3) :=
    match o_overviews o with
    | OvNone | OvFlag false => (dput "overviews" (VStr "none") out, [])
    | OvFactors _ => (dput "overviews" (VStr "auto") out, [WFactors])
    | OvFlag true => (dput "overviews" (VStr "auto") out, [])
    end in
  let out := match o_resampling o with Some s => dput "overview_resampling" (VStr (lower s)) out | None => out end in
  Ok (out, w1 ++ w2 ++ w3).
(* io.py:334 _DRIVER_TRANSLATORS and io.py:413-435: the creation options *)
Definition creation_opts (driver : option string) (is_bool : bool) (o : opts) (gdal_kwargs : dict) : res (dict * list warning) :=
  let is name := match driver with Some d => String.eqb d name | None => false end in
  let* '(out, w) :=
    if is "GTiff"%string then let* '(out, w) := gtiff_translate o in Ok (if is_bool then dput "nbits" (VInt 1) out else out, w)
    else if is "COG"%string then cog_translate o
    else Ok ([], []) in
  Ok (update out gdal_kwargs, w).

(* what is done to files; the keyword arguments of rasterio's to_raster without lock
   and compute, of rasterio.shutil.copy and of build_overviews *)
Inductive op :=
| MakeTemp (path : string)
| ToRaster (path : string) (driver : option string) (o : dict)
| Copy (src dst : string) (driver : string) (o : dict)
| Unlink (path : string)
| BuildOverviews (path : string) (factors : list Z) (resampling : string) (threads : option string).

Section Write.
(* what an operation raises, and the names of rasterio.enums.Resampling *)
Variable raises : op -> option err.
Variable resampling_name : string -> bool.
(* a new name in the folder of the path *)
Variable temp_name : string -> string.

(* operations done, in order, and how it ended; an operation that raises is the last *)
Definition trace := (list op * res unit)%type.
Definition perform (x : op) : trace := ([x], match raises x with Some e => Err e | None => Ok tt end).
Definition refuse (e : err) : trace := ([], Err e).
Definition nothing : trace := ([], Ok tt).
Definition andthen (t u : trace) : trace := match t with (l, Ok _) => (l ++ fst u, snd u) | (l, Err e) => (l, Err e) end.
(* finally; what it raises replaces the exception *)
Definition finally (t u : trace) : trace := (fst t ++ fst u, match snd u with Err e => Err e | Ok _ => snd t end).

(* io.py:436-475: the writing itself, then the overviews *)
Definition write_file (path : string) (driver resolved : option string) (out : dict) : trace :=
  if match resolved with Some d => String.eqb d "COG" | None => false end then
    let tmp := temp_name path in
    andthen (perform (MakeTemp tmp))
      (finally (andthen (perform (ToRaster tmp None [])) (perform (Copy tmp path "COG" out))) (perform (Unlink tmp)))
  else perform (ToRaster path driver out).
Definition build_factors (path : string) (o : opts) (threads : option string) (factors : list Z) : trace :=
  match factors with
  | [] => nothing
  | _ => match o_resampling o with
         | Some s => if resampling_name s then perform (BuildOverviews path factors s (option_map upper threads)) else refuse KeyError
         | None => refuse KeyError
         end
  end.
Definition build_overviews (path : string) (resolved : option string) (o : opts) (threads : option string) (height width : Z) : trace :=
  if match resolved with Some d => String.eqb d "COG" | None => false end then nothing
  else match o_overviews o with
       | OvNone | OvFlag false => nothing
       | OvFlag true => match auto_overview_factors height width 256 with Ok l => build_factors path o threads l | Err e => refuse e end
       | OvFactors l => build_factors path o threads l
       end.
(* io.py:342-475 write_raster of height x width cells; is_bool: the dtype is bool *)
Definition write_raster (path : string) (driver : option string) (is_bool : bool) (height width : Z) (o : opts) (threads : option string) (gdal_kwargs : dict) : trace * list warning :=
  let ext := get_extension path in
  if existsb (String.eqb ext) write_not_implemented then (refuse ValueError, [])     (* NotImplementedError *)
  else
    let resolved := resolve_driver ext driver in
    match creation_opts resolved is_bool o gdal_kwargs with
    | Err e => (refuse e, [])
    | Ok (out, w) => (andthen (write_file path driver resolved out) (build_overviews path resolved o threads height width), w)
    end.
End Write.

(* io.py:106-139, which paths are given to rioxarray.open_rasterio *)
Inductive path_arg := PathLike (suffix : string) | PathStr (s : string) | PathOther.
Inductive decision := NotImplemented | NotAPath | NotFound | Open.
Definition open_decision (exists_ : string -> bool) (p : path_arg) : decision :=
  (* urllib.parse.urlparse(path) is a tuple, which is not equal to any string *)
  let parse_result_is_empty_string (s : string) := false in
  match p with
  | PathOther => NotAPath
  | PathLike suffix => if existsb (String.eqb suffix) write_not_implemented then NotImplemented else Open
  | PathStr s =>
      if parse_result_is_empty_string s then
        if exists_ s then if existsb (String.eqb (get_extension s)) write_not_implemented then NotImplemented else Open else NotFound
      else Open
  end.
(* io.py:74-75 is_batch_file *)
Definition is_batch_file (path : string) : bool := String.eqb (get_extension path) ".bch".
