(* C76: options and files of writing, and which paths are opened *)
From Coq Require Import Ascii String.
From Verif Require Import Base Saving WriteOptions WriteOptionsSpec WriteOptionsProofs.
Open Scope Z_scope.

(* the options of GTiff; those of gdal_kwargs win *)
Theorem C76_gtiff : forall is_bool o kw, NoDup (map fst kw) -> match creation_opts (Some "GTiff"%string) is_bool o kw with
  | Ok (d, _) => forall k v, dget d k = Some v <-> dget kw k = Some v \/ (dget kw k = None /\ (gtiff_option o k v \/ (is_bool = true /\ k = "nbits"%string /\ v = VInt 1)))
  | Err e => (bad_block false o \/ bad_predictor o) /\ (e = ValueError \/ e = TypeError) end.
Proof. exact creation_gtiff. Qed.
Print Assumptions C76_gtiff.
Theorem C76_cog : forall is_bool o kw, NoDup (map fst kw) -> match creation_opts (Some "COG"%string) is_bool o kw with
  | Ok (d, _) => forall k v, dget d k = Some v <-> dget kw k = Some v \/ (dget kw k = None /\ cog_option o k v)
  | Err e => (bad_block true o \/ bad_predictor o) /\ (e = ValueError \/ e = TypeError) end.
Proof. exact creation_cog. Qed.
Print Assumptions C76_cog.
(* what is refused and what is warned about *)
Theorem C76_gtiff_warnings : forall o, match gtiff_translate o with
  | Ok (d, w) => (forall k v, dget d k = Some v <-> gtiff_option o k v) /\ ~ bad_block false o /\ ~ bad_predictor o
      /\ (In WLevel w <-> no_level ["deflate"; "zstd"; "jpeg"]%string o) /\ (In WPredictor w <-> lost_predictor o) /\ ~ In WFactors w
  | Err e => (bad_block false o \/ bad_predictor o) /\ (e = ValueError \/ e = TypeError)
  end.
Proof. exact gtiff_ok. Qed.
Print Assumptions C76_gtiff_warnings.
Theorem C76_cog_warnings : forall o, match cog_translate o with
  | Ok (d, w) => (forall k v, dget d k = Some v <-> cog_option o k v) /\ ~ bad_block true o /\ ~ bad_predictor o
      /\ (In WLevel w <-> no_level ["deflate"; "zstd"; "lzw"; "lerc"; "lerc_deflate"; "lerc_zstd"; "jpeg"]%string o) /\ (In WPredictor w <-> lost_predictor o)
      /\ (In WFactors w <-> exists l, o_overviews o = OvFactors l)
  | Err e => (bad_block true o \/ bad_predictor o) /\ (e = ValueError \/ e = TypeError)
  end.
Proof. exact cog_ok. Qed.
Print Assumptions C76_cog_warnings.
Theorem C76_other_driver : forall driver is_bool o kw, driver <> Some "GTiff"%string -> driver <> Some "COG"%string -> NoDup (map fst kw) -> creation_opts driver is_bool o kw = Ok (kw, []).
Proof. exact creation_other. Qed.
Print Assumptions C76_other_driver.
(* extensions *)
Theorem C76_extension : forall p e, has_ext p e <-> splitext1 p = e /\ e <> [].
Proof. exact splitext_ok. Qed.
Print Assumptions C76_extension.
Theorem C76_lower : forall s, Forall2 is_lower_of (list_ascii_of_string s) (list_ascii_of_string (lower s)).
Proof. exact lower_chars. Qed.
Print Assumptions C76_lower.
(* a COG is staged in a temporary file; other files are written in place, and then
   get the overviews that were asked for *)
Theorem C76_write_cog : forall raises names temp path driver is_bool height width o threads kw ops w,
  resolve_driver (get_extension path) driver = Some "COG"%string -> write_raster raises names temp path driver is_bool height width o threads kw = ((ops, Ok tt), w) ->
  exists out, creation_opts (Some "COG"%string) is_bool o kw = Ok (out, w) /\ ops = [MakeTemp (temp path); ToRaster (temp path) None []; Copy (temp path) path "COG" out; Unlink (temp path)].
Proof. exact write_raster_cog. Qed.
Print Assumptions C76_write_cog.
Theorem C76_write : forall raises names temp path driver is_bool height width o threads kw ops w, let resolved := resolve_driver (get_extension path) driver in
  write_raster raises names temp path driver is_bool height width o threads kw = ((ops, Ok tt), w) -> resolved <> Some "COG"%string ->
  exists out l, creation_opts resolved is_bool o kw = Ok (out, w) /\ factors_of o height width l
    /\ ops = ToRaster path driver out :: match l with [] => [] | _ => match o_resampling o with Some s => [BuildOverviews path l s (option_map upper threads)] | None => [] end end
    /\ (l <> [] -> exists s, o_resampling o = Some s /\ names s = true).
Proof. exact write_plain. Qed.
Print Assumptions C76_write.
(* whatever raises, the temporary file does not stay *)
Theorem C76_temp_removed : forall raises names temp path driver is_bool height width o threads kw ops r w, (forall p, raises (Unlink p) = None) ->
  write_raster raises names temp path driver is_bool height width o threads kw = ((ops, r), w) ->
  forall tmp, In (MakeTemp tmp) ops -> raises (MakeTemp tmp) = None -> exists before, ops = before ++ [Unlink tmp].
Proof. exact temp_removed. Qed.
Print Assumptions C76_temp_removed.
Theorem C76_refused_first : forall raises names temp path driver is_bool height width o threads kw, let resolved := resolve_driver (get_extension path) driver in
  In (get_extension path) write_not_implemented \/ (exists e, creation_opts resolved is_bool o kw = Err e) ->
  exists e, write_raster raises names temp path driver is_bool height width o threads kw = (([], Err e), []).
Proof. exact refused_first. Qed.
Print Assumptions C76_refused_first.
(* only a PathLike is refused for its extension; a str never is *)
Theorem C76_opened : forall ex, (forall s, open_decision ex (PathStr s) = Open) /\ (forall s, open_decision ex (PathLike s) = NotImplemented <-> In s write_not_implemented)
  /\ (forall s, ~ In s write_not_implemented -> open_decision ex (PathLike s) = Open) /\ open_decision ex PathOther = NotAPath.
Proof. exact opened. Qed.
Print Assumptions C76_opened.

(* examples *)
Definition opts0 := Opts (Some true) (Some (BlockSeq [256; 512])) (Some "DEFLATE"%string) (Some 6) (Some (PredStr "horizontal")) (Some (BigStr "IF_SAFER")) (OvFactors [2; 4]) (Some "average"%string).
Example C76_gtiff_example : creation_opts (Some "GTiff"%string) true opts0 [("compress", VStr "lzw"); ("sparse_ok", VBool true)]%string
  = Ok ([("tiled", VBool true); ("blockxsize", VInt 512); ("blockysize", VInt 256); ("compress", VStr "lzw"); ("zlevel", VInt 6); ("predictor", VInt 2); ("bigtiff", VStr "if_safer");
         ("nbits", VInt 1); ("sparse_ok", VBool true)]%string, []).
Proof. vm_compute. reflexivity. Qed.
Definition opts1 := Opts (Some true) (Some (BlockInt 512)) (Some "Jpeg"%string) (Some 75) (Some (PredInt 2)) None (OvFactors []) (Some "Average"%string).
Definition ok_ (o : op) : option err := None.
Definition fails (o : op) : option err := match o with Copy _ _ _ _ => Some ValueError | _ => None end.
Definition tmp (p : string) : string := "dir/tmp.tif"%string.
Definition out1 : dict := [("blocksize", VInt 512); ("compress", VStr "jpeg"); ("quality", VInt 75); ("overviews", VStr "auto"); ("overview_resampling", VStr "average")]%string.
Example C76_cog_example : write_raster ok_ (fun _ => true) tmp "dir/a.tif" (Some "COG"%string) false 1000 1000 opts1 (Some "all_cpus"%string) []
  = (([MakeTemp "dir/tmp.tif"; ToRaster "dir/tmp.tif" None []; Copy "dir/tmp.tif" "dir/a.tif" "COG" out1; Unlink "dir/tmp.tif"], Ok tt), [WPredictor; WFactors]).
Proof. vm_compute. reflexivity. Qed.
Example C76_failure_example : fst (write_raster fails (fun _ => true) tmp "dir/a.tif" (Some "COG"%string) false 1000 1000 opts1 None [])
  = ([MakeTemp "dir/tmp.tif"; ToRaster "dir/tmp.tif" None []; Copy "dir/tmp.tif" "dir/a.tif" "COG" out1; Unlink "dir/tmp.tif"], Err ValueError).
Proof. vm_compute. reflexivity. Qed.
Example C76_overviews_example : fst (fst (write_raster ok_ (String.eqb "average") tmp "a.TIF" None false 1100 500 (Opts None None None None None None (OvFlag true) (Some "average"%string)) (Some "all_cpus"%string) []))
  = [ToRaster "a.TIF" None [("compress"%string, VStr "none")]].
Proof. vm_compute. reflexivity. Qed.
Example C76_overviews_example2 : fst (fst (write_raster ok_ (String.eqb "average") tmp "a.tiff" None false 1100 1030 (Opts None None None None None None (OvFlag true) (Some "average"%string)) (Some "all_cpus"%string) []))
  = [ToRaster "a.tiff" None [("compress"%string, VStr "none")]; BuildOverviews "a.tiff" [2; 4] "average" (Some "ALL_CPUS"%string)].
Proof. vm_compute. reflexivity. Qed.
Example C76_extension_example : map get_extension ["a.b/c.TIF"; "a.b/c"; "a/.tif"; "a/..tif"; "x/.y.Nc"; "c.tar.gz"; "c."]%string = [".tif"; ""; ""; ""; ".nc"; ".gz"; "."]%string.
Proof. vm_compute. reflexivity. Qed.

(* the same file is refused as a Path and accepted as a str, and accepted as a Path
   when its extension is in capitals *)
Theorem C76_opened_refuted : open_decision (fun _ => true) (PathLike ".nc") = NotImplemented /\ open_decision (fun _ => true) (PathStr "a.nc") = Open
  /\ open_decision (fun _ => false) (PathStr "a.nc") = Open /\ open_decision (fun _ => true) (PathLike ".NC") = Open.
Proof. repeat split; vm_compute; reflexivity. Qed.
Print Assumptions C76_opened_refuted.
(* the name of the driver has to be spelled as in the table: otherwise the options are
   dropped without a warning *)
Theorem C76_driver_case_refuted : creation_opts (Some "gtiff"%string) false opts0 [] = Ok ([], []).
Proof. vm_compute. reflexivity. Qed.
Print Assumptions C76_driver_case_refuted.
(* an unknown resampling is noticed after the file has been written *)
Theorem C76_resampling_late_refuted : fst (write_raster ok_ (String.eqb "average") tmp "a.tif" None false 1100 1030 (Opts None None None None None None (OvFactors [2]) (Some "Average"%string)) None [])
  = ([ToRaster "a.tif" None [("compress"%string, VStr "none")]], Err KeyError).
Proof. vm_compute. reflexivity. Qed.
Print Assumptions C76_resampling_late_refuted.
(* an empty list of overviews: none for a GTiff, all for a COG *)
Theorem C76_empty_overviews_refuted : let o := Opts None None None None None None (OvFactors []) (Some "average"%string) in
  fst (fst (write_raster ok_ (String.eqb "average") tmp "a.tif" None false 1100 1030 o None [])) = [ToRaster "a.tif" None [("compress"%string, VStr "none")]]
  /\ (let* '(d, _) := cog_translate o in Ok (dget d "overviews")) = Ok (Some (VStr "auto")).
Proof. vm_compute. split; reflexivity. Qed.
Print Assumptions C76_empty_overviews_refuted.
