(* C55: local statistics; C56: predictions per cell. *)
From Coq Require Import QArith Lia.
From Verif Require Import Base Scalars NumFacts Dtypes Stats StatsSpec Focal FocalSpec FocalResults AggregateSpec Zonal ZonalStats Bands BandsSpec BandsProofs.
Open Scope Z_scope.

(* Every raster, mask, chunking, content of np.empty and statistic: the result
   has one band; a cell is null exactly when it is null in all bands, and
   otherwise holds the statistic (BandsSpec.stat_value) of its values in the
   bands, null bands left out as NaN.  The last hypothesis says that converting
   the valid values to the float dtype and back is exact. *)
Theorem C55_local_stats : forall cast junk s nb ny nx ycs xcs d data mask,
  0 <= nb -> nb <= int_max U64 -> 0 <= ny -> 0 <= nx -> cuts ny ycs -> cuts nx xcs -> xcs <> [] ->
  shaped3 nb ny nx data -> match mask with Some m => shaped3 nb ny nx m | None => True end -> exact_ints cast ->
  (forall m band mband r c, mask = Some m -> In (band, mband) (combine data m) -> 0 <= r < ny -> 0 <= c < nx -> val2 true mband r c = false ->
     cast (promote_dtype_to_float d) (val2 NaN band r c) = val2 NaN band r c /\ cast d (val2 NaN band r c) = val2 NaN band r c) ->
  exists d' nv out omask, local_stats cast junk s ny nx ycs xcs d data mask = Ok (d', nv, out, omask)
  /\ result_dtype s d nb d'
  /\ nv = (match mask with Some _ => Some (default_null d') | None => None end)
  /\ shaped2 ny nx out
  /\ match omask with Some m => mask <> None /\ shaped2 ny nx m | None => mask = None end
  /\ forall r c, 0 <= r < ny -> 0 <= c < nx ->
     null_of omask r c = null_in_all mask r c
     /\ if null_in_all mask r c then val2 NaN out r c = default_null d'
        else stat_value s (cast d') (band_values data mask r c) (val2 NaN out r c).
Proof. exact local_stats_spec. Qed.
Print Assumptions C55_local_stats.

(* three bands of 1 x 3 cells; the second cell is null in band 3, the last cell
   in all bands *)
Definition ex_bands : list (list (list num)) := [[[of_Z 7; of_Z 2; of_Z 0]]; [[of_Z 3; of_Z 2; of_Z 0]]; [[of_Z 7; of_Z 1; of_Z 0]]].
Definition ex_bmask : list (list (list bool)) := [[[false; false; true]]; [[false; false; true]]; [[false; true; true]]].
Definition id_cast (_ : dtype) (v : num) : num := v.
Definition ex_junk (r c : Z) : num := of_Z (r + c - 77).
Example C55_ex_shapes : shaped3 3 1 3 ex_bands /\ shaped3 3 1 3 ex_bmask /\ cuts 1 [1] /\ cuts 3 [1; 2] /\ exact_ints id_cast.
Proof. repeat split; repeat constructor; cbn; try lia. Qed.
Example C55_ex : local_stats id_cast ex_junk LMode 1 3 [1] [1; 2] I16 ex_bands (Some ex_bmask)
    = Ok (I16, Some (of_Z (-32768)), [[of_Z 7; of_Z 2; of_Z (-32768)]], Some [[false; false; true]])
  /\ local_stats id_cast ex_junk LMinBand 1 3 [1] [1; 2] I16 ex_bands (Some ex_bmask)
    = Ok (I16, Some (of_Z (-32768)), [[of_Z 1; of_Z 0; of_Z (-32768)]], Some [[false; false; true]])
  /\ local_stats id_cast ex_junk LMinBand 1 3 [1] [1; 2] I16 ex_bands None = Ok (U8, None, [[of_Z 1; of_Z 2; of_Z 0]], None)
  /\ local_stats id_cast ex_junk LUnique 1 3 [1] [3] I16 ex_bands None = Ok (U8, None, [[of_Z 2; of_Z 2; of_Z 1]], None)
  /\ local_stats id_cast ex_junk (LNumpy (extreme fmax) F32) 1 3 [1] [3] I16 ex_bands (Some ex_bmask)
    = Ok (F32, Some (of_Z (-999999)), [[of_Z 7; of_Z 2; of_Z (-999999)]], Some [[false; false; true]]).
Proof. vm_compute. repeat split. Qed.

(* Finding: in a raster without null value, a cell that is NaN in all bands gets
   254 as its minband, the -2 of nanargmin stored in a uint8. *)
Theorem C55_minband_nan_refuted : ~ (forall data d nv out omask,
  local_stats id_cast ex_junk LMinBand 1 1 [1] [1] F32 data None = Ok (d, nv, out, omask) ->
  exists j, val2 NaN out 0 0 = of_Z j /\ 0 <= j < len data).
Proof.
  intros H. destruct (H [[[NaN]]; [[NaN]]] U8 None [[of_Z 254]] None ltac:(vm_compute; reflexivity)) as (j & E & R).
  vm_compute in E. injection E as <-. change (len [[[NaN]]; [[NaN]]]) with 2 in R. lia.
Qed.
Print Assumptions C55_minband_nan_refuted.

(* Predictions.  For every model that treats each row of values by itself, giving
   nout values (one-dimensional answers allowed when nout = 1), every raster,
   mask and chunking: output band o of a cell is the o-th value of the model for
   that cell's own values (NaN as 0, infinities as the largest numbers), and the
   cell is null exactly when it is null in some input band. *)
Theorem C56_predict : forall V (predict : list (list num) -> res (@prediction V)) largest nv nb nout f ny nx ycs xcs data mask,
  rowwise predict nb nout f -> 0 <= nb -> 1 <= nout -> 0 <= ny -> 0 <= nx -> cuts ny ycs -> cuts nx xcs -> xcs <> [] ->
  shaped3 nb ny nx data -> match mask with Some m => shaped3 nb ny nx m | None => True end ->
  exists out omask, model_predict_raster predict (Fin largest) nv nout ny nx ycs xcs data mask = Ok (out, omask)
  /\ shaped3 nout ny nx out
  /\ match omask with Some m => mask <> None /\ shaped3 nout ny nx m | None => mask = None end
  /\ forall o r c, 0 <= o < nout -> 0 <= r < ny -> 0 <= c < nx ->
     (forall m, omask = Some m -> at3 m o r c (null_in_some mask r c))
     /\ if null_in_some mask r c then at3 out o r c nv
        else forall ws, Forall2 (input_of largest) (through NaN data r c) ws -> exists v, get (f ws) o = Ok v /\ at3 out o r c v.
Proof. exact (@predict_spec_inputs). Qed.
Print Assumptions C56_predict.

(* a model with another number of outputs than announced is rejected *)
Theorem C56_wrong_outputs : forall V (predict : list (list num) -> res (@prediction V)) largest nv nb w nout f ny nx ycs xcs data mask,
  rowwise predict nb w f -> w <> nout -> 0 <= nb -> 0 <= w -> 0 < ny -> 0 < nx -> cuts ny ycs -> cuts nx xcs -> Forall (fun c => 0 < c) ycs -> Forall (fun c => 0 < c) xcs ->
  shaped3 nb ny nx data -> match mask with Some m => shaped3 nb ny nx m | None => True end ->
  model_predict_raster predict largest nv nout ny nx ycs xcs data mask = Err ValueError.
Proof. exact (fun V predict largest nv => predict_wrong predict largest nv nv). Qed.
Print Assumptions C56_wrong_outputs.

(* a model that returns each row reversed *)
Definition ex_model (rows : list (list num)) : res (@prediction num) := Ok (P2 (map (@rev num) rows)).
Example C56_ex_rowwise : rowwise ex_model 3 3 (@rev num).
Proof. split; [intros row H; unfold len in *; now rewrite rev_length|]. intros rows _. now left. Qed.
Example C56_ex : model_predict_raster ex_model (of_Z 9) (of_Z (-1)) 3 1 3 [1] [1; 2] ex_bands (Some ex_bmask)
  = Ok ([[[of_Z 7; of_Z (-1); of_Z (-1)]]; [[of_Z 3; of_Z (-1); of_Z (-1)]]; [[of_Z 7; of_Z (-1); of_Z (-1)]]],
        Some [[[false; true; true]]; [[false; true; true]]; [[false; true; true]]])
  /\ model_predict_raster ex_model (of_Z 9) (of_Z (-1)) 2 1 3 [1] [1; 2] ex_bands (Some ex_bmask) = Err ValueError.
Proof. vm_compute. auto. Qed.
