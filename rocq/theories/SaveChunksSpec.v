(* What Raster.save_chunks should write. *)
From Coq Require Import QArith Ascii String.
From Verif Require Import Base Scalars Chunks Dtypes Raster FocalSpec RasterSpec ReconcileSpec Saving SavingSpec WriteOptions WriteOptionsSpec SaveChunks.
Open Scope Z_scope.

(* what was last written to the path *)
Definition holds (fs : files) (p : list ascii) (f : file) : Prop :=
  exists later earlier, fs = later ++ (p, f) :: earlier /\ ~ In p (map fst later).

(* the extension that goes with a driver: .tif unless the table has one, the first counts *)
Inductive driver_ext (table : list (string * string)) : option string -> string -> Prop :=
| no_driver : driver_ext table None ".tif"
| cog_driver : driver_ext table (Some "COG"%string) ".tif"
| listed_driver d e before after : d <> "COG"%string -> table = before ++ (e, d) :: after -> ~ In d (map snd before) -> driver_ext table (Some d) (String dot e)
| other_driver d : d <> "COG"%string -> ~ In d (map snd table) -> driver_ext table (Some d) ".tif".
(* the extension of the files: that of the caller with a dot put before it if it has none,
   "" for none *)
Inductive file_ext (table : list (string * string)) : option string -> option string -> string -> Prop :=
| none_given driver e : driver_ext table driver e -> file_ext table None driver e
| empty_given driver : file_ext table (Some ""%string) driver ""
| dot_given driver e : file_ext table (Some (String dot e)) driver (String dot e)
| bare_given driver c e : c <> dot -> file_ext table (Some (String c e)) driver (String dot (String c e)).

(* the null value asked for: null_value goes before no_data_value *)
Definition asked (kw : save_kwargs) (v : option scalar) : Prop :=
  match k_null_value kw with Some w => v = Some w | None => v = k_no_data_value kw end.

(* an extension that is a dot and a word *)
Definition plain_ext (e : string) : Prop := exists w, e = String dot w /\ ~ In dot (str w) /\ ~ In slash (str w).

(* rasters that files keep, as in C70 *)
Definition kept (gdal_has : dtype -> bool) (ext : string) (driver : option string) (nb nc : Z) (r : raster) : Prop :=
  wf nb nc r /\ burned nb nc r /\ typed_raster nb nc r
  /\ (r_dtype r = U64 -> ~ large_null r)
  /\ (exists d, file_dtype (native_int64 gdal_has ext driver) r d /\ gdal_has d = true
      /\ (r_dtype r = I64 -> d = F64 -> forall b c, in_raster nb nc b c -> null r b c = false -> exact_double (RasterSpec.value r b c)))
  /\ (forall b c, in_raster nb nc b c -> null r b c = false -> hits r (RasterSpec.value r b c) = false)
  /\ (r_nv r = None -> is_float_dtype (r_dtype r) = true -> forall b c, in_raster nb nc b c -> RasterSpec.value r b c <> NaN).
(* the same cells: those of r are null in r' where they are in r, and have its values *)
Definition same_cells (nb nc : Z) (r r' : raster) : Prop :=
  wf nb nc r' /\ forall b c, in_raster nb nc b c -> null r' b c = null r b c /\ (null r b c = false -> RasterSpec.value r' b c = RasterSpec.value r b c).
