(* C59: map_blocks. *)
From Coq Require Import QArith.
From Verif Require Import Base BaseFacts Scalars Chunks Arr2 FocalSpec FocalResults BandsSpec Bands BandsProofs BlockArgs MapBlocks MapBlocksSpec MapBlocksProofs.
Open Scope Z_scope.

(* For every function, any number of rasters of one shape (each cut into chunks in its
   own way), and every null value argument that map_blocks accepts (nv is the null value
   it resolves to): the function is called on the blocks that all rasters have at the
   chunk locations of the first one, with the masks and the null value when it asks for
   them, and the part of the result at every location is what it returned there.
   A result cell is null exactly when it holds the null value. *)
Theorem C59_blocks : forall cast auto f r0 rest nb ny nx dt meta inf nva,
  let rs := r0 :: rest in
  0 <= nb -> 0 <= ny -> 0 <= nx -> Forall (raster_of_shape nb ny nx) rs -> check_dtype_meta_agree dt meta = Ok tt ->
  forall nv, final_nv dt meta inf nva (b_dtype r0) (b_nv r0) (len rs) = Ok nv ->
  let given := if wants_out_nv f then Some nv else None in
  (forall id bs ys xs, block_at (b_chunks r0) id bs ys xs ->
     exists d, run f (data_blocks rs bs ys xs) (mask_blocks f rs bs ys xs) given id = Ok (RData d) /\ shaped3 (size bs) (size ys) (size xs) d) ->
  exists data mask, map_blocks cast auto f rs dt meta inf nva None false
    = Ok (BRaster (out_data_dtype dt meta inf) nv (full nb 1, snd (fst (b_chunks r0)), snd (b_chunks r0)) data mask)
  /\ shaped3 nb ny nx data /\ shaped3 nb ny nx mask
  /\ (forall id bs ys xs, block_at (b_chunks r0) id bs ys xs ->
       run f (data_blocks rs bs ys xs) (mask_blocks f rs bs ys xs) given id = Ok (RData (slice3 data bs ys xs)))
  /\ (forall b r c v, at3 data b r c v -> exists m, at3 mask b r c m /\ (m = true <-> null_value_here nv v)).
Proof. exact map_blocks_blocks. Qed.
Print Assumptions C59_blocks.

(* Hence the chunks do not matter for a function that works cell by cell: every result
   cell is the function of the values (and nulls) of all rasters at that cell. *)
Theorem C59_cells : forall cast auto f r0 rest nb ny nx dt meta inf nva,
  let rs := r0 :: rest in
  Forall (raster_of_shape nb ny nx) rs -> check_dtype_meta_agree dt meta = Ok tt -> 0 <= nb -> 0 <= ny -> 0 <= nx ->
  forall nv, final_nv dt meta inf nva (b_dtype r0) (b_nv r0) (len rs) = Ok nv ->
  forall g, cellwise f (len rs) (if wants_out_nv f then Some nv else None) g ->
  exists data mask, map_blocks cast auto f rs dt meta inf nva None false
    = Ok (BRaster (out_data_dtype dt meta inf) nv (full nb 1, snd (fst (b_chunks r0)), snd (b_chunks r0)) data mask)
  /\ shaped3 nb ny nx data /\ shaped3 nb ny nx mask
  /\ forall b r c vals nulls, 0 <= b < nb -> 0 <= r < ny -> 0 <= c < nx -> values_at rs b r c vals -> nulls_at f rs b r c nulls ->
       at3 data b r c (g vals nulls) /\ exists m, at3 mask b r c m /\ (m = true <-> null_value_here nv (g vals nulls)).
Proof. exact (fun cast auto f r0 rest nb ny nx dt meta inf nva WF AG Hb Hy Hx => map_blocks_cells cast auto f r0 rest nb ny nx dt meta inf nva Hb Hy Hx WF AG). Qed.
Print Assumptions C59_cells.

(* With return_mask the function says itself which cells are null; those and no others
   are null in the result and hold the null value (the default of the dtype when none is
   resolved), the others the function's value converted to the announced dtype.
   A function that asks for the null value must be told the dtype or the null value
   (see C59_mask_null_value_refuted). *)
Theorem C59_return_mask : forall cast auto f r0 rest nb ny nx dt meta inf nva,
  let rs := r0 :: rest in
  0 <= nb -> 0 <= ny -> 0 <= nx -> Forall (raster_of_shape nb ny nx) rs -> check_dtype_meta_agree dt meta = Ok tt ->
  forall nv, final_nv dt meta inf nva (b_dtype r0) (b_nv r0) (len rs) = Ok nv ->
  (wants_out_nv f = false \/ nva <> NvNone \/ out_dtype_hint dt meta <> None) ->
  forall g, cellwise_masked f (len rs) (if wants_out_nv f then Some nv else None) g ->
  let n := match nv with Some v => v | None => default_null (out_data_dtype dt meta inf) end in
  exists data mask, map_blocks cast auto f rs dt meta inf nva None true
    = Ok (BRaster (out_data_dtype dt meta inf) (Some n) (full nb 1, snd (fst (b_chunks r0)), snd (b_chunks r0)) data mask)
  /\ shaped3 nb ny nx data /\ shaped3 nb ny nx mask
  /\ forall b r c vals nulls v m, 0 <= b < nb -> 0 <= r < ny -> 0 <= c < nx -> values_at rs b r c vals -> nulls_at f rs b r c nulls -> g vals nulls = (v, m) ->
       at3 mask b r c m
       /\ at3 data b r c (if m then n else match out_dtype_hint dt meta with Some h => cast h v | None => v end).
Proof. exact map_blocks_masked. Qed.
Print Assumptions C59_return_mask.

(* With out_bands the function sees all bands of a cell at once, whatever chunks dask
   chooses for the rows and columns, and gives the announced number of bands. *)
Theorem C59_out_bands : forall cast auto f r0 rest nb nout ny nx dt meta inf nva,
  let rs := r0 :: rest in
  0 <= nb -> 0 <= ny -> 0 <= nx -> 1 <= nout ->
  cuts ny (fst auto) /\ cuts nx (snd auto) /\ fst auto <> [] /\ snd auto <> [] ->
  Forall (raster_of_shape nb ny nx) rs -> check_dtype_meta_agree dt meta = Ok tt ->
  forall nv, final_nv dt meta inf nva (b_dtype r0) (b_nv r0) (len rs) = Ok nv ->
  forall g, columnwise f (len rs) (if wants_out_nv f then Some nv else None) nb nout g ->
  exists data mask, map_blocks cast auto f rs dt meta inf nva (Some nout) false
    = Ok (BRaster (out_data_dtype dt meta inf) nv (full nout 1, snd (fst (b_chunks r0)), snd (b_chunks r0)) data mask)
  /\ shaped3 nout ny nx data /\ shaped3 nout ny nx mask
  /\ forall o r c cols v, 0 <= r < ny -> 0 <= c < nx -> columns_at rs r c cols -> get (g cols) o = Ok v ->
       at3 data o r c v /\ exists m, at3 mask o r c m /\ (m = true <-> null_value_here nv v).
Proof. exact map_blocks_bands. Qed.
Print Assumptions C59_out_bands.

(* Refused: no raster, dtype and meta that disagree, rasters of different shapes,
   out_bands below one, and a function that returns another number of bands. *)
Theorem C59_refused : forall cast auto f dt meta inf nva ob rm,
  map_blocks cast auto f [] dt meta inf nva ob rm = Err ValueError
  /\ (forall d m rs, dt = Some d -> meta = Some m -> dtype_eqb d m = false -> map_blocks cast auto f rs dt meta inf nva ob rm = Err ValueError)
  /\ (forall r0 rest r n m k n' m' k', In r rest -> 0 < n -> 0 < m -> shaped3 n m k (b_data r0) -> shaped3 n' m' k' (b_data r) -> n <> n' \/ m <> m' \/ k <> k' ->
       map_blocks cast auto f (r0 :: rest) dt meta inf nva ob rm = Err ValueError)
  /\ (forall rs k, ob = Some k -> k < 1 -> map_blocks cast auto f rs dt meta inf nva ob rm = Err ValueError).
Proof. exact map_blocks_refused. Qed.
Print Assumptions C59_refused.
Theorem C59_wrong_bands : forall cast auto f r0 rest nb nout ny nx dt meta inf nva,
  let rs := r0 :: rest in
  1 <= nout -> cuts ny (fst auto) /\ cuts nx (snd auto) /\ fst auto <> [] /\ snd auto <> [] ->
  Forall (raster_of_shape nb ny nx) rs -> check_dtype_meta_agree dt meta = Ok tt ->
  forall nv, final_nv dt meta inf nva (b_dtype r0) (b_nv r0) (len rs) = Ok nv ->
  (forall id ys xs, block_at ([nb], fst auto, snd auto) id (0, nb) ys xs -> exists d,
     run f (data_blocks rs (0, nb) ys xs) (mask_blocks f rs (0, nb) ys xs) (if wants_out_nv f then Some nv else None) id = Ok (RData d) /\ len d <> nout) ->
  map_blocks cast auto f rs dt meta inf nva (Some nout) false = Err ValueError.
Proof. exact map_blocks_bands_rejected. Qed.
Print Assumptions C59_wrong_bands.

(* ---- examples ---- *)
Definition keep (_ : dtype) (v : num) : num := v.
Definition least (x y : num) : num := if num_ltb y x then y else x.
(* two bands of 2 x 3 cells; the rasters have different chunks *)
Definition ex_a : braster := BRaster I16 (Some (of_Z (-1))) ([1; 1], [1; 1], [2; 1])
  [[[of_Z 1; of_Z 8; of_Z 3]; [of_Z (-1); of_Z 5; of_Z 9]]; [[of_Z 2; of_Z 4; of_Z 6]; [of_Z 0; of_Z (-1); of_Z 7]]]
  [[[false; false; false]; [true; false; false]]; [[false; false; false]; [false; true; false]]].
Definition ex_b : braster := BRaster I16 None ([2], [2], [3])
  [[[of_Z 7; of_Z 7; of_Z 7]; [of_Z 7; of_Z 7; of_Z 7]]; [[of_Z 3; of_Z 3; of_Z 3]; [of_Z 3; of_Z 3; of_Z 3]]]
  [[[false; false; false]; [false; false; false]]; [[false; false; true]; [false; false; false]]].
Example C59_ex_rasters : Forall (raster_of_shape 2 2 3) [ex_a; ex_b].
Proof. repeat constructor; unfold cuts; cbn; repeat split; try discriminate; repeat constructor; lia. Qed.
(* the smaller of two values *)
Definition ex_min : func := Func false false (fun xs _ _ _ =>
  match xs with [BData a; BData b] => Ok (RData (map3 (fun p => least (fst p) (snd p)) (zip3 a b))) | _ => Err TypeError end).
Example C59_ex_cellwise : cellwise ex_min 2 None (fun vals _ => least (nth 0 vals NaN) (nth 1 vals NaN)).
Proof.
  intros n m k xs ms id Hn Hm Hk (L & D & _). destruct xs as [|x [|y [|z xs]]]; unfold len in L; cbn in L; try lia.
  inversion D as [|? ? D1 D']; subst. inversion D' as [|? ? D2 _]; subst. destruct x as [a|]; [|contradiction]. destruct y as [b|]; [|contradiction]. cbn in D1, D2.
  eexists. split; [reflexivity|]. split; [apply map3_shaped, zip3_shaped; auto; exact NaN|].
  intros q i j vals nulls Hq Hi Hj V _. inversion V as [|? v ? ? V1 V']; subst. inversion V' as [|? w ? ? V2 V'']; subst. inversion V''; subst. cbn in V1, V2 |- *.
  apply (at3_map3 (fun p => least (fst p) (snd p)) _ q i j (v, w)). now apply (at3_zip n m k).
Qed.
Example C59_ex_cells : map_blocks keep ([2], [3]) ex_min [ex_a; ex_b] None None I16 (NvNum (of_Z (-1))) None false
  = Ok (BRaster I16 (Some (of_Z (-1))) ([1; 1], [1; 1], [2; 1])
      [[[of_Z 1; of_Z 7; of_Z 3]; [of_Z (-1); of_Z 5; of_Z 7]]; [[of_Z 2; of_Z 3; of_Z 3]; [of_Z 0; of_Z (-1); of_Z 3]]]
      [[[false; false; false]; [true; false; false]]; [[false; false; false]; [false; true; false]]]).
Proof. vm_compute. reflexivity. Qed.
(* the smaller of two values, null when one is *)
Definition ex_minm : func := Func true true (fun xs ms nv _ =>
  match xs, ms, nv with
  | [BData a; BData b], Some [BMask p; BMask q], Some _ => Ok (RPair (map3 (fun p => least (fst p) (snd p)) (zip3 a b)) (map3 (fun p => fst p || snd p) (zip3 p q)))
  | _, _, _ => Err TypeError
  end).
Example C59_ex_cellwise_masked : cellwise_masked ex_minm 2 (Some (Some (of_Z 99)))
  (fun vals nulls => (least (nth 0 vals NaN) (nth 1 vals NaN), match nulls with Some l => nth 0 l false || nth 1 l false | None => false end)).
Proof.
  intros n m k xs ms id Hn Hm Hk (L & D & M). cbn in M. destruct M as (l & -> & LM & M).
  destruct xs as [|x [|y [|z xs]]]; unfold len in L; cbn in L; try lia. destruct l as [|p [|q [|r l]]]; unfold len in LM; cbn in LM; try lia.
  inversion D as [|? ? D1 D']; subst. inversion D' as [|? ? D2 _]; subst. destruct x as [a|]; [|contradiction]. destruct y as [b|]; [|contradiction]. cbn in D1, D2.
  inversion M as [|? ? M1 M']; subst. inversion M' as [|? ? M2 _]; subst. destruct p as [|p]; [contradiction|]. destruct q as [|q]; [contradiction|]. cbn in M1, M2.
  eexists _, _. split; [reflexivity|]. split; [apply map3_shaped, zip3_shaped; auto; exact NaN|]. split; [apply map3_shaped, zip3_shaped; auto; exact false|].
  intros o i j vals nulls Hq Hi Hj V W. inversion V as [|? v ? ? V1 V']; subst. inversion V' as [|? w ? ? V2 V'']; subst. inversion V''; subst.
  destruct nulls as [nulls|]; [|contradiction]. cbn in W. inversion W as [|? s ? ? W1 W']; subst. inversion W' as [|? t ? ? W2 W'']; subst. inversion W''; subst. cbn in V1, V2, W1, W2 |- *. split.
  - apply (at3_map3 (fun p => least (fst p) (snd p)) _ o i j (v, w)). now apply (at3_zip n m k).
  - apply (at3_map3 (fun p => fst p || snd p) _ o i j (s, t)). now apply (at3_zip n m k).
Qed.
Example C59_ex_return_mask : map_blocks keep ([2], [3]) ex_minm [ex_a; ex_b] None None I16 (NvNum (of_Z 99)) None true
  = Ok (BRaster I16 (Some (of_Z 99)) ([1; 1], [1; 1], [2; 1])
      [[[of_Z 1; of_Z 7; of_Z 3]; [of_Z 99; of_Z 5; of_Z 7]]; [[of_Z 2; of_Z 3; of_Z 99]; [of_Z 0; of_Z 99; of_Z 3]]]
      [[[false; false; false]; [true; false; false]]; [[false; false; true]; [false; true; false]]]).
Proof. vm_compute. reflexivity. Qed.
(* the last of two bands of one raster *)
Definition ex_last : func := Func false false (fun xs _ _ _ =>
  match xs with [BData [_; y]] => Ok (RData [y]) | _ => Err TypeError end).
Example C59_ex_columnwise : columnwise ex_last 1 None 2 1 (fun cols => [nth 1 (nth 0 cols []) NaN]).
Proof.
  split; [reflexivity|]. intros m k xs ms id Hm Hk (L & D & _). destruct xs as [|x [|z xs]]; unfold len in L; cbn in L; try lia.
  inversion D as [|? ? D1 _]; subst. destruct x as [a|]; [|contradiction]. cbn in D1. destruct D1 as [LA FA].
  destruct a as [|a0 [|a1 [|a2 a]]]; unfold len in LA; cbn [length] in LA; try lia. inversion FA as [|? ? _ FA']; subst. inversion FA'; subst.
  eexists. split; [reflexivity|]. split; [repeat (constructor; auto)|].
  intros o i j cols v Hi Hj V G. pose proof (get_ok_range _ _ _ G) as R. unfold len in R; cbn in R. assert (o = 0) as -> by lia. injection G as <-.
  inversion V as [|? col ? ? [LC C] V']; subst. inversion V'; subst. destruct col as [|c0 [|c1 [|c2 col]]]; unfold len in LC; cbn [length] in LC; try lia.
  destruct (C 1 c1 eq_refl) as (band & G1 & A). injection G1 as <-. exists a1. split; [reflexivity|exact A].
Qed.
Example C59_ex_out_bands : map_blocks keep ([1; 1], [1; 2]) ex_last [ex_a] None None I16 NvNone (Some 1) false
  = Ok (BRaster I16 (Some (of_Z (-1))) ([1], [1; 1], [2; 1]) [[[of_Z 2; of_Z 4; of_Z 6]; [of_Z 0; of_Z (-1); of_Z 7]]] [[[false; false; false]; [false; true; false]]])
  /\ map_blocks keep ([1; 1], [1; 2]) ex_last [ex_a] None None I16 NvNone (Some 2) false = Err ValueError
  /\ map_blocks keep ([1; 1], [1; 2]) ex_last [ex_a] None None I16 NvNone (Some 0) false = Err ValueError.
Proof. vm_compute. auto. Qed.

(* False without the proviso of C59_return_mask: the call fails when the null value is
   to be worked out, though the result's null value is known. *)
Definition ex_null : func := Func false true (fun xs _ nv _ =>
  match xs with [BData a] => Ok (RPair a (map3 (fun _ => true) a)) | _ => Err TypeError end).
Theorem C59_mask_null_value_refuted : ~ (forall cast auto f r nb ny nx inf nv g,
  0 <= nb -> 0 <= ny -> 0 <= nx -> raster_of_shape nb ny nx r -> final_nv None None inf NvNone (b_dtype r) (b_nv r) 1 = Ok nv ->
  cellwise_masked f 1 (if wants_out_nv f then Some nv else None) g ->
  exists out, map_blocks cast auto f [r] None None inf NvNone None true = Ok out).
Proof.
  intros H. destruct (H keep ([1], [1]) ex_null (BRaster U8 (Some (of_Z 9)) ([1], [1], [1]) [[[of_Z 3]]] [[[false]]]) 1 1 1 U8 (Some (of_Z 9)) (fun vals _ => (nth 0 vals NaN, true)))
    as [out E]; try lia; try reflexivity.
  - repeat constructor; unfold cuts; cbn; repeat split; try discriminate; repeat constructor; lia.
  - intros n m k xs ms id Hn Hm Hk (L & D & _). destruct xs as [|x [|y xs]]; unfold len in L; cbn in L; try lia.
    inversion D as [|? ? D1 _]; subst. destruct x as [a|]; [|contradiction]. cbn in D1.
    eexists _, _. split; [reflexivity|]. split; [exact D1|]. split; [now apply map3_shaped|].
    intros b i j vals nulls Hb Hi Hj V _. inversion V as [|? v ? ? V1 V']; subst. inversion V'; subst. cbn in V1 |- *. split; [exact V1|].
    now apply (at3_map3 (fun _ => true) _ b i j v).
  - vm_compute in E. discriminate.
Qed.
Print Assumptions C59_mask_null_value_refuted.
