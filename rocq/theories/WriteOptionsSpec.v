(* What the creation options, the extension of a path and the work on files must be. *)
From Coq Require Import Ascii String.
From Verif Require Import Base Grids WriteOptions.
Open Scope Z_scope.

(* c with ASCII capitals replaced *)
Definition is_lower_of (c c' : ascii) : Prop :=
  let n := nat_of_ascii c in let n' := nat_of_ascii c' in
  (65 <= n <= 90 /\ n' = n + 32)%nat \/ (~ (65 <= n <= 90) /\ n' = n)%nat.

(* e is the extension of the file name in p: it begins with the last dot of the name,
   and the name has something else than dots before it *)
Definition has_ext (p e : list ascii) : Prop :=
  exists dir stem rest, p = dir ++ stem ++ dot :: rest /\ (dir = [] \/ exists d, dir = d ++ [slash])
  /\ ~ In slash stem /\ ~ In slash rest /\ ~ In dot rest /\ (exists c, In c stem /\ c <> dot) /\ e = dot :: rest.

(* the compressor asked for *)
Definition compression (o : opts) : string := match o_compress o with None => "none" | Some c => lower c end.
Definition block (bs : blocksize) (h w : Z) : Prop := bs = BlockSeq [h; w] \/ (bs = BlockInt h /\ h = w).

Inductive gtiff_option (o : opts) : string -> value -> Prop :=
| g_tiled b : o_tiled o = Some b -> gtiff_option o "tiled" (VBool b)
| g_width bs h w : o_blocksize o = Some bs -> block bs h w -> gtiff_option o "blockxsize" (VInt w)
| g_height bs h w : o_blocksize o = Some bs -> block bs h w -> gtiff_option o "blockysize" (VInt h)
| g_compress : gtiff_option o "compress" (VStr (compression o))
| g_zlevel l : o_level o = Some l -> compression o = "deflate"%string -> gtiff_option o "zlevel" (VInt l)
| g_zstd l : o_level o = Some l -> compression o = "zstd"%string -> gtiff_option o "zstd_level" (VInt l)
| g_quality l : o_level o = Some l -> compression o = "jpeg"%string -> gtiff_option o "jpeg_quality" (VInt l)
| g_pred z : o_predictor o = Some (PredInt z) -> compression o <> "jpeg"%string -> gtiff_option o "predictor" (VInt z)
| g_horizontal : o_predictor o = Some (PredStr "horizontal") -> compression o <> "jpeg"%string -> gtiff_option o "predictor" (VInt 2)
| g_float : o_predictor o = Some (PredStr "float") -> compression o <> "jpeg"%string -> gtiff_option o "predictor" (VInt 3)
| g_big b : o_bigtiff o = Some (BigBool b) -> gtiff_option o "bigtiff" (VStr (if b then "yes" else "no"))
| g_bigstr s : o_bigtiff o = Some (BigStr s) -> gtiff_option o "bigtiff" (VStr (lower s)).
Definition no_overviews (v : overviews) : Prop := v = OvNone \/ v = OvFlag false.
Inductive cog_option (o : opts) : string -> value -> Prop :=
| c_size bs h : o_blocksize o = Some bs -> block bs h h -> cog_option o "blocksize" (VInt h)
| c_compress : cog_option o "compress" (VStr (compression o))
| c_level l : o_level o = Some l -> In (compression o) ["deflate"; "zstd"; "lzw"; "lerc"; "lerc_deflate"; "lerc_zstd"]%string -> cog_option o "level" (VInt l)
| c_quality l : o_level o = Some l -> compression o = "jpeg"%string -> cog_option o "quality" (VInt l)
| c_pred z : o_predictor o = Some (PredInt z) -> compression o <> "jpeg"%string -> cog_option o "predictor" (VInt z)
| c_horizontal : o_predictor o = Some (PredStr "horizontal") -> compression o <> "jpeg"%string -> cog_option o "predictor" (VStr "STANDARD")
| c_float : o_predictor o = Some (PredStr "float") -> compression o <> "jpeg"%string -> cog_option o "predictor" (VStr "FLOATING_POINT")
| c_big b : o_bigtiff o = Some (BigBool b) -> cog_option o "bigtiff" (VStr (if b then "yes" else "no"))
| c_bigstr s : o_bigtiff o = Some (BigStr s) -> cog_option o "bigtiff" (VStr (lower s))
| c_none : no_overviews (o_overviews o) -> cog_option o "overviews" (VStr "none")
| c_auto : ~ no_overviews (o_overviews o) -> cog_option o "overviews" (VStr "auto")
| c_resampling s : o_resampling o = Some s -> cog_option o "overview_resampling" (VStr (lower s)).
(* what is wrong with the options *)
Definition bad_predictor (o : opts) : Prop := exists s, o_predictor o = Some (PredStr s) /\ s <> "horizontal"%string /\ s <> "float"%string /\ compression o <> "jpeg"%string.
Definition bad_block (square : bool) (o : opts) : Prop := exists bs, o_blocksize o = Some bs /\ ~ exists h w, block bs h w /\ (square = true -> h = w).
(* what is warned about *)
Definition no_level (names : list string) (o : opts) : Prop := o_level o <> None /\ ~ In (compression o) names.
Definition lost_predictor (o : opts) : Prop := o_predictor o <> None /\ compression o = "jpeg"%string.
(* the factors of the overviews that are asked for *)
Definition factors_of (o : opts) (height width : Z) (l : list Z) : Prop :=
  (o_overviews o = OvFlag true /\ auto_overview_factors height width 256 = Ok l) \/ o_overviews o = OvFactors l \/ ((o_overviews o = OvNone \/ o_overviews o = OvFlag false) /\ l = []).
