(* C64: map_overlap. *)
From Coq Require Import QArith.
From Verif Require Import Base BaseFacts Scalars Chunks ChunksProofs Arr2 FocalSpec FocalResults BandsSpec Bands BandsProofs BlockArgs BlockArgsSpec BlockArgsProofs MapBlocks MapBlocksSpec MapBlocksProofs
  MapOverlap MapOverlapSpec MapOverlapProofs MapOverlapMain.
From Coq Require Import Lia ZifyBool Ascii.
Open Scope Z_scope.

(* For every function whose result at a cell is g of what it sees within the depth
   around the cell, any number of rasters of one shape cut into chunks in any way,
   every depth not larger than the raster and every boundary: the result at each cell
   is g of what lies around that cell in the rasters, continued beyond their edges as
   the boundary says.  So the chunks do not matter.  The depth may differ between the
   two sides when nothing lies beyond the edges.  A result cell is null exactly when it
   holds the resolved null value. *)
Theorem C64_cells : forall cast f r0 rest nb ny nx depth dy dx bnd k dt meta inf nva nv,
  let rs := r0 :: rest in
  0 <= nb -> 0 <= ny -> 0 <= nx -> Forall (raster_of_shape nb ny nx) rs -> check_dtype_meta_agree dt meta = Ok tt ->
  depth_means depth dy dx -> boundary_means bnd k -> fits dy ny -> fits dx nx -> (k <> Unpadded -> symmetric dy /\ symmetric dx) ->
  final_nv dt meta inf nva (b_dtype r0) (b_nv r0) (len rs) = Ok nv ->
  forall g, windowed f (len rs) (if wants_out_nv f then Some nv else None) (k = Unpadded) dy dx g ->
  exists data mask, map_overlap cast f rs depth bnd dt meta inf nva false
    = Ok (BRaster (out_data_dtype dt meta inf) nv (full nb 1, snd (fst (b_chunks r0)), snd (b_chunks r0)) data mask)
  /\ shaped3 nb ny nx data /\ shaped3 nb ny nx mask
  /\ forall b y x, 0 <= b < nb -> 0 <= y < ny -> 0 <= x < nx ->
       (exists ws ns, value_windows cast k dy dx ny nx rs b y x ws /\ null_windows f k dy dx ny nx rs b y x ns)
       /\ forall ws ns, value_windows cast k dy dx ny nx rs b y x ws -> null_windows f k dy dx ny nx rs b y x ns ->
          at3 data b y x (g ws ns) /\ exists m, at3 mask b y x m /\ (m = true <-> null_value_here nv (g ws ns)).
Proof. exact map_overlap_cells. Qed.
Print Assumptions C64_cells.

(* With return_mask the function says which cells are null: those hold the null value
   (the default of the dtype when none is resolved), the others the function's value
   converted to the announced dtype.  A function that asks for the null value must be
   told the dtype or the null value, as with map_blocks. *)
Theorem C64_return_mask : forall cast f r0 rest nb ny nx depth dy dx bnd k dt meta inf nva nv,
  let rs := r0 :: rest in
  0 <= nb -> 0 <= ny -> 0 <= nx -> Forall (raster_of_shape nb ny nx) rs -> check_dtype_meta_agree dt meta = Ok tt ->
  depth_means depth dy dx -> boundary_means bnd k -> fits dy ny -> fits dx nx -> (k <> Unpadded -> symmetric dy /\ symmetric dx) ->
  final_nv dt meta inf nva (b_dtype r0) (b_nv r0) (len rs) = Ok nv ->
  forall g, (wants_out_nv f = false \/ nva <> NvNone \/ out_dtype_hint dt meta <> None) ->
  windowed_masked f (len rs) (if wants_out_nv f then Some nv else None) (k = Unpadded) dy dx g ->
  let n := match nv with Some v => v | None => default_null (out_data_dtype dt meta inf) end in
  exists data mask, map_overlap cast f rs depth bnd dt meta inf nva true
    = Ok (BRaster (out_data_dtype dt meta inf) (Some n) (full nb 1, snd (fst (b_chunks r0)), snd (b_chunks r0)) data mask)
  /\ shaped3 nb ny nx data /\ shaped3 nb ny nx mask
  /\ forall b y x, 0 <= b < nb -> 0 <= y < ny -> 0 <= x < nx ->
       (exists ws ns, value_windows cast k dy dx ny nx rs b y x ws /\ null_windows f k dy dx ny nx rs b y x ns)
       /\ forall ws ns v m, value_windows cast k dy dx ny nx rs b y x ws -> null_windows f k dy dx ny nx rs b y x ns -> g ws ns = (v, m) ->
          at3 mask b y x m /\ at3 data b y x (if m then n else match out_dtype_hint dt meta with Some h => cast h v | None => v end).
Proof. exact map_overlap_masked. Qed.
Print Assumptions C64_return_mask.

(* Refused: no raster, dtype and meta that disagree, rasters of different shapes, a
   depth or boundary without meaning, different depths on the two sides together with a
   boundary that adds cells, a depth larger than the raster. *)
Theorem C64_refused : forall cast f dt meta inf nva rm depth b,
  map_overlap cast f [] depth b dt meta inf nva rm = Err ValueError
  /\ (forall d m rs, dt = Some d -> meta = Some m -> dtype_eqb d m = false -> map_overlap cast f rs depth b dt meta inf nva rm = Err ValueError)
  /\ (forall r0 rest r n m k n' m' k', In r rest -> 0 < n -> 0 < m -> shaped3 n m k (b_data r0) -> shaped3 n' m' k' (b_data r) -> n <> n' \/ m <> m' \/ k <> k' ->
       map_overlap cast f (r0 :: rest) depth b dt meta inf nva rm = Err ValueError)
  /\ (forall rs, (forall dy dx, ~ depth_means depth dy dx) ->
       map_overlap cast f rs depth b dt meta inf nva rm = Err ValueError \/ map_overlap cast f rs depth b dt meta inf nva rm = Err TypeError)
  /\ (forall rs dy dx k, depth_means depth dy dx -> boundary_means b k -> k <> Unpadded -> ~ symmetric dy \/ ~ symmetric dx -> map_overlap cast f rs depth b dt meta inf nva rm = Err ValueError)
  /\ (forall rs dy dx, depth_means depth dy dx -> (forall k, ~ boundary_means b k) -> map_overlap cast f rs depth b dt meta inf nva rm = Err ValueError).
Proof. exact map_overlap_refused. Qed.
Print Assumptions C64_refused.
Theorem C64_too_deep : forall cast f dt meta inf nva rm depth b r0 rest nb ny nx dy dx k,
  0 <= nb -> 0 <= ny -> 0 <= nx -> Forall (raster_of_shape nb ny nx) (r0 :: rest) ->
  depth_means depth dy dx -> boundary_means b k -> ~ fits dy ny \/ ~ fits dx nx -> map_overlap cast f (r0 :: rest) depth b dt meta inf nva rm = Err ValueError.
Proof. exact map_overlap_too_deep. Qed.
Print Assumptions C64_too_deep.

(* ---- examples ---- *)
Definition keep (_ : dtype) (v : num) : num := v.
(* the cell to the right; z in the last column of a block *)
Definition shift {A} (z : A) (row : list A) : list A := match row with [] => [] | _ :: t => t ++ [z] end.
Definition shift3 {A} (z : A) (a : list (list (list A))) : list (list (list A)) := map (map (shift z)) a.
Lemma len_shift {A} (z : A) row : len (shift z row) = len row.
Proof. destruct row; [reflexivity|]. cbn. unfold len. rewrite app_length. cbn. lia. Qed.
Lemma shift3_shaped {A} (z : A) n m k a : shaped3 n m k a -> shaped3 n m k (shift3 z a).
Proof.
  intros [L F]. unfold shift3. split; [now rewrite len_map|]. apply Forall_map. eapply Forall_impl; [|exact F]. intros band [L2 F2]. split; [now rewrite len_map|].
  apply Forall_map. eapply Forall_impl; [|exact F2]. intros row H. now rewrite len_shift.
Qed.
Lemma shift3_at {A} (z : A) n m k a b i j (o : option A) : shaped3 n m k a -> 0 <= b < n -> 0 <= i < m -> 0 <= j < k ->
  sees (at3 a b) (fun v => v = None) Unpadded m k i (j + 1) o -> at3 (shift3 z a) b i j (match o with Some u => u | None => z end).
Proof.
  intros S Hb Hi Hj H. destruct (val3_at z n m k a b i j S Hb Hi Hj) as (band & G1 & row & G2 & G3).
  assert (LR : len row = k).
  { destruct S as [_ F]. rewrite Forall_forall in F. destruct (F band (get_in _ _ _ G1)) as [_ F2]. rewrite Forall_forall in F2. exact (F2 row (get_in _ _ _ G2)). }
  unfold shift3. eexists. split; [rewrite get_map_eq, G1; reflexivity|]. eexists. split; [rewrite get_map_eq, G2; reflexivity|].
  destruct row as [|v row]; [unfold len in LR; cbn in LR; lia|]. rewrite len_cons in LR. cbn [shift].
  unfold sees, source in H. replace ((0 <=? i) && (i <? m)) with true in H by lia.
  destruct ((0 <=? j + 1) && (j + 1 <? k)) eqn:E.
  - destruct H as (u & -> & (band' & G1' & row' & G2' & G3')). assert (band' = band) by congruence. subst band'. assert (row' = v :: row) by congruence. subst row'.
    rewrite get_cons in G3' by lia. replace (j + 1 - 1) with j in G3' by lia. unfold get in *. destruct (j <? 0); [discriminate|]. rewrite nth_error_app1; [exact G3'|].
    apply nth_error_Some. destruct (nth_error row (Z.to_nat j)); discriminate.
  - subst o. unfold get. replace (j <? 0) with false by lia. rewrite nth_error_app2 by (unfold len in LR; lia). replace (Z.to_nat j - length row)%nat with O by (unfold len in LR; lia). reflexivity.
Qed.
(* the value to the right *)
Definition ex_right : func := Func false false (fun xs _ _ _ => match xs with [BData a] => Ok (RData (shift3 NaN a)) | _ => Err TypeError end).
Definition opt {A} (z : A) (o : option A) : A := match o with Some u => u | None => z end.
Example C64_ex_windowed : windowed ex_right 1 None True (Sym 0) (Asym 0 1) (fun ws _ => opt NaN (nth 0 ws (fun _ _ => None) 0 1))
  /\ windowed ex_right 1 None False (Sym 1) (Sym 1) (fun ws _ => opt NaN (nth 0 ws (fun _ _ => None) 0 1)).
Proof.
  split; intros n m k xs ms id Hn Hm Hk (L & D & _); (destruct xs as [|x [|y xs]]; unfold len in L; cbn in L; try lia);
    inversion D as [|? ? D1 _]; subst; (destruct x as [a|]; [|contradiction]); cbn in D1;
    (eexists; split; [reflexivity|]); (split; [now apply shift3_shaped|]);
    intros b i j ws ns Hb Hi Hj _ V _; inversion V as [|? w ? ? V1 V']; subst; inversion V'; subst; cbn [nth];
    apply (shift3_at NaN n m k); auto; specialize (V1 0 1); cbn [data_cell] in V1; rewrite Z.add_0_r in V1; apply V1; cbn; lia.
Qed.
(* the value at the cell, null where the cell to the right is null or missing *)
Definition ex_right_null : func := Func true true (fun xs ms nv _ =>
  match xs, ms, nv with [BData a], Some [BMask p], Some _ => Ok (RPair a (shift3 true p)) | _, _, _ => Err TypeError end).
Example C64_ex_windowed_masked : windowed_masked ex_right_null 1 (Some (Some (of_Z 99))) True (Sym 0) (Asym 0 1)
  (fun ws ns => (opt NaN (nth 0 ws (fun _ _ => None) 0 0), match ns with Some l => opt true (nth 0 l (fun _ _ => None) 0 1) | None => false end)).
Proof.
  intros n m k xs ms id Hn Hm Hk (L & D & M). cbn in M. destruct M as (l & -> & LM & M).
  destruct xs as [|x [|y xs]]; unfold len in L; cbn in L; try lia. destruct l as [|p [|q l]]; unfold len in LM; cbn in LM; try lia.
  inversion D as [|? ? D1 _]; subst. destruct x as [a|]; [|contradiction]. cbn in D1. inversion M as [|? ? M1 _]; subst. destruct p as [|p]; [contradiction|]. cbn in M1.
  eexists _, _. split; [reflexivity|]. split; [exact D1|]. split; [now apply shift3_shaped|].
  intros b i j ws ns Hb Hi Hj _ V W. inversion V as [|? w ? ? V1 V']; subst. inversion V'; subst. destruct ns as [ns|]; [|contradiction]. cbn in W. inversion W as [|? w' ? ? W1 W']; subst. inversion W'; subst. cbn [nth fst snd]. split.
  - specialize (V1 0 0). cbn [data_cell] in V1. rewrite !Z.add_0_r in V1. specialize (V1 ltac:(cbn; lia) ltac:(cbn; lia)). unfold sees, source in V1.
    replace ((0 <=? i) && (i <? m)) with true in V1 by lia. replace ((0 <=? j) && (j <? k)) with true in V1 by lia. destruct V1 as (u & -> & T). exact T.
  - apply (shift3_at true n m k); auto. specialize (W1 0 1). cbn [mask_cell] in W1. rewrite Z.add_0_r in W1. apply W1; cbn; lia.
Qed.
(* one band of 2 x 4 cells in two cuttings *)
Definition ex_r (chunks : chunks3) : braster := BRaster I16 (Some (of_Z (-1))) chunks
  [[[of_Z 1; of_Z 8; of_Z 3; of_Z 4]; [of_Z (-1); of_Z 5; of_Z 9; of_Z 2]]]
  [[[false; false; false; false]; [true; false; false; false]]].
Definition ex_one : chunks3 := ([1], [2], [4]).
Definition ex_many : chunks3 := ([1], [1; 1], [1; 2; 1]).
Example C64_ex_rasters : raster_of_shape 1 2 4 (ex_r ex_one) /\ raster_of_shape 1 2 4 (ex_r ex_many).
Proof. split; repeat constructor; unfold cuts; cbn; repeat split; try discriminate; repeat constructor; lia. Qed.
Example C64_ex_depth : depth_means (PInt 1) (Sym 1) (Sym 1) /\ depth_means (PTuple [PInt 0; PTuple [PInt 0; PInt 1]]) (Sym 0) (Asym 0 1) /\ fits (Sym 1) 2 /\ fits (Asym 0 1) 4
  /\ boundary_means (BStr ["N"; "o"; "d"; "A"; "T"; "a"]%char) Null.
Proof. split; [constructor; lia|]. split; [repeat constructor; lia|]. unfold fits; cbn. split; [lia|]. split; [lia|]. constructor. right. right. reflexivity. Qed.
Definition ex_out (last0 last1 : num) (m : bool) : res braster := Ok (BRaster I16 (Some (of_Z (-1))) ([1], [1; 1], [1; 2; 1])
  [[[of_Z 8; of_Z 3; of_Z 4; last0]; [of_Z 5; of_Z 9; of_Z 2; last1]]] [[[false; false; false; m]; [false; false; false; m]]]).
Definition ex_run (b : boundary) := map_overlap keep ex_right [ex_r ex_many] (PInt 1) b None None I16 NvNone false.
Example C64_ex_boundaries : ex_run (BStr s_reflect) = ex_out (of_Z 4) (of_Z 2) false
  /\ ex_run (BStr s_periodic) = Ok (BRaster I16 (Some (of_Z (-1))) ([1], [1; 1], [1; 2; 1])
       [[[of_Z 8; of_Z 3; of_Z 4; of_Z 1]; [of_Z 5; of_Z 9; of_Z 2; of_Z (-1)]]] [[[false; false; false; false]; [false; false; false; true]]])
  /\ ex_run (BStr s_nearest) = ex_out (of_Z 4) (of_Z 2) false
  /\ ex_run (BStr s_nodata) = ex_out (of_Z (-1)) (of_Z (-1)) true
  /\ ex_run (BNum (of_Z 7)) = ex_out (of_Z 7) (of_Z 7) false
  /\ ex_run BNone = ex_out NaN NaN false.
Proof. vm_compute. auto 10. Qed.
Example C64_ex_chunks : map_overlap keep ex_right_null [ex_r ex_many] (PTuple [PInt 0; PTuple [PInt 0; PInt 1]]) BNone None None I16 (NvNum (of_Z 99)) true
    = Ok (BRaster I16 (Some (of_Z 99)) ([1], [1; 1], [1; 2; 1]) [[[of_Z 1; of_Z 8; of_Z 3; of_Z 99]; [of_Z (-1); of_Z 5; of_Z 9; of_Z 99]]] [[[false; false; false; true]; [false; false; false; true]]])
  /\ map_overlap keep ex_right_null [ex_r ex_one] (PTuple [PInt 0; PTuple [PInt 0; PInt 1]]) BNone None None I16 (NvNum (of_Z 99)) true
    = Ok (BRaster I16 (Some (of_Z 99)) ([1], [2], [4]) [[[of_Z 1; of_Z 8; of_Z 3; of_Z 99]; [of_Z (-1); of_Z 5; of_Z 9; of_Z 99]]] [[[false; false; false; true]; [false; false; false; true]]]).
Proof. vm_compute. auto. Qed.
Example C64_ex_refused : map_overlap keep ex_right [ex_r ex_many] (PTuple [PInt 0; PTuple [PInt 0; PInt 1]]) (BStr s_reflect) None None I16 NvNone false = Err ValueError
  /\ map_overlap keep ex_right [ex_r ex_many] (PInt 3) (BStr s_reflect) None None I16 NvNone false = Err ValueError
  /\ map_overlap keep ex_right [ex_r ex_many] (PInt 1) (BStr ["r"; "e"]%char) None None I16 NvNone false = Err ValueError.
Proof. vm_compute. auto. Qed.
