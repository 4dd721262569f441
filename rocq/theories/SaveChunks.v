(* Model of Raster.save_chunks, raster.py:143-157 and 1783-1832, with the names of C18,
   the files of C70 and the extensions of paths of C76.

   The chunks are given by their place (band, row, column); they are those of C17.  A
   file system is the list of the files written, the last one first.  Directories are not
   modelled, nor the warning about no_data_value.  Keywords of save other than driver,
   null_value and no_data_value only change how files are written (C76). *)
From Coq Require Import QArith Ascii String.
From Verif Require Import Base Scalars Chunks Dtypes Raster Reconcile Saving WriteOptions.
Open Scope Z_scope.

Definition str := list_ascii_of_string.
Definition unstr := string_of_list_ascii.

(* the keywords of save_chunks that are looked at *)
Record save_kwargs := Kwargs { k_path : bool; k_null_value : option scalar; k_no_data_value : option scalar; k_driver : option string }.

Definition files := list (list ascii * file).

Section SaveChunks.
Variable cast : dtype -> num -> num.
Variable float_dtype : num -> dtype.
Variable reconcile_other : num -> dtype -> num * bool.
Variable gdal_has : dtype -> bool.
Variable gdal_nodata : dtype -> num -> num.
(* rasterio.drivers.raster_driver_extensions(): extension and driver *)
Variable driver_extensions : list (string * string).

(* raster.py:143-157 _ext_for_driver *)
Definition ext_for_driver (driver : option string) : string :=
  match driver with
  | None => ".tif"
  | Some d =>
      if String.eqb d "COG" then ".tif"
      else
        match find (fun '(e, drv) => String.eqb drv d) driver_extensions with
        | Some (e, _) => "." ++ e
        | None => ".tif"
        end
  end%string.
(* raster.py:1800-1803 *)
Definition tile_ext (ext : option string) (driver : option string) : string :=
  let ext := match ext with Some e => e | None => ext_for_driver driver end in
  match ext with
  | EmptyString => EmptyString
  | String c _ => if Ascii.eqb c dot then ext else ("." ++ ext)%string
  end.
(* raster.py:1789-1798 *)
Definition tile_null_value (kw : save_kwargs) : option scalar :=
  match k_no_data_value kw with
  | Some v => match k_null_value kw with None => Some v | Some w => Some w end
  | None => k_null_value kw
  end.

(* one file: Raster.save gives the raster at the path *)
Definition save_file (kw : save_kwargs) (state : list raster * files) (job : list ascii * res raster) : res (list raster * files) :=
  let '(out, fs) := state in
  let '(path, tile) := job in
  let* tile := tile in
  let* f := save cast float_dtype reconcile_other gdal_has gdal_nodata (get_extension (unstr path)) (k_driver kw) (tile_null_value kw) None tile in
  let* r := open_raster cast f in
  Ok (out ++ [r], (path, f) :: fs).

(* raster.py:1783-1832 Raster.save_chunks: the rasters of the saved files, in the order of
   np.ndindex, and the files *)
Definition save_chunks (kw : save_kwargs) (prefix : list ascii) (per_band : bool) (ext : option string)
    (nbands ny nx : Z) (chunk : Z -> Z -> Z -> raster) (fs : files) : res (list raster * files) :=
  if k_path kw then Err TypeError
  else
    let ext := str (tile_ext ext (k_driver kw)) in
    let rw := width ny in
    let cw := width nx in
    let bw := width nbands in
    let jobs :=
      if per_band
      then map (fun '(b, r, c) => (name_band prefix ext bw rw cw b r c, Ok (chunk b r c))) (ndindex3 nbands ny nx)
      else map (fun '(r, c) =>
             (name_tile prefix ext rw cw r c,
              if nbands =? 1 then Ok (chunk 0 r c)
              else stack_bands cast reconcile_other (map (fun b => chunk b r c) (zrange 0 nbands)) None None)) (ndindex2 ny nx) in
    foldM (save_file kw) jobs ([], fs).
End SaveChunks.
